(** A harmless program never makes the VM stumble: apart from accesses outside the memory
    every tick succeeds. *)
From Coq Require Import ZArith NArith List Bool Sorted Lia.
From Verif Require Import Base Alu Isa Exec Ram Writes Rat Cpu LiveSpec InOrder PipeInv PipeBasics PipeActs PipeMem
  PipeExec PipePoll PipeRetire PipeAdd PipeTick PipeBoot PipeDom PipeLive SafeSpec.
Import ListNotations.
Open Scope Z_scope.

Lemma nodup_r : forall A (a b : list A), NoDup (a ++ b) -> NoDup b.
Proof. induction a as [|x a IH]; intros b H; [exact H|]. apply IH. now apply NoDup_cons_iff in H. Qed.
Lemma nodup_l : forall A (a b : list A), NoDup (a ++ b) -> NoDup a.
Proof.
  induction a as [|x a IH]; intros b H; [constructor|]. cbn in H. apply NoDup_cons_iff in H. destruct H as [H1 H2]. constructor; [|eauto].
  intros H. apply H1. apply in_or_app. now left.
Qed.

(** ---- operations ---- *)

Lemma supply_wrap : forall o v, requirement o <> None -> exists o', supply Wrap o v = Ok o'.
Proof. intros o v H; destruct o; cbn in *; try congruence; eexists; reflexivity. Qed.

Lemma supply_has : forall nr nf m o v o', supply m o v = Ok o' -> has_operand nr nf o = true -> has_operand nr nf o' = true.
Proof.
  intros nr nf m o v o' H Hh. destruct o; cbn [supply has_operand] in *; repeat (apply bind_ok in H; destruct H as [? [_ H]]); try discriminate;
    apply Ok_eq in H; subst o'; cbn [has_operand]; try reflexivity; try (apply andb_true_iff in Hh; tauto); exact Hh.
Qed.

Lemma ev_wrap : forall E S n o, e_mode E = Wrap -> (weight o < n)%nat -> ev n E S o <> None.
Proof.
  intros E S n o He. revert o. induction n as [|n IH]; intros o Hw; [lia|]. rewrite ev_S, He.
  destruct (requirement o) as [q|] eqn:Hr.
  - assert (Hs : forall v, exists o', supply Wrap o v = Ok o' /\ ev n E S o' <> None).
    { intros v. destruct (supply_wrap o v) as [o' Ho]; [congruence|]. exists o'. split; [exact Ho|]. apply IH. pose proof (supply_weight _ _ _ _ Ho). lia. }
    destruct q as [r|k|a].
    + destruct (Hs (rd S (LR r))) as [o' [-> H]]. exact H.
    + destruct (Hs (rd S (LF k))) as [o' [-> H]]. exact H.
    + destruct (a_mem S a) as [v|].
      * destruct (Hs v) as [o' [-> H]]. exact H.
      * destruct (Hs (-1)) as [o' [-> H]]. destruct (ev n E S o') as [[]|]; congruence.
  - apply requirement_weight in Hr. destruct o; cbn in Hr |- *; try discriminate; congruence.
Qed.

Lemma evs_wrap : forall E S os, e_mode E = Wrap -> exists vs b, evs E S os = Some (vs, b).
Proof.
  intros E S os He. induction os as [|o os IH]; cbn [evs]; [eauto|].
  pose proof (ev_wrap E S 4 o He) as H. pose proof (weight_3 o). destruct (ev 4 E S o) as [[v b]|]; [|elim H; [lia|reflexivity]].
  destruct IH as (vs & b' & ->). eauto.
Qed.
Lemma evs_len : forall E S os vs b, evs E S os = Some (vs, b) -> length vs = length os.
Proof.
  intros E S. induction os as [|o os IH]; intros vs b H; cbn [evs] in H; [injection H as <- _; reflexivity|].
  destruct (ev 4 E S o) as [[v b1]|]; [|discriminate]. destruct (evs E S os) as [[ws b2]|]; [|discriminate]. injection H as <- _. cbn. f_equal. eauto.
Qed.

(** The registers set, other than the program counter. *)
Definition sets (acts : list act) : list lreg := flat_map (fun a => match a with ASet l _ => if is_pc l then [] else [l] | _ => [] end) acts.

Lemma eff_addr_wrap : forall d rs vs, addr_regs d = Some rs -> length vs = length rs -> exists a, eff_addr Wrap d vs = Ok a.
Proof.
  intros d rs vs H Hl. destruct d; cbn [addr_regs] in H; try discriminate; injection H as <-; cbn [length] in Hl;
    destruct vs as [|x [|y [|]]]; try discriminate; eexists; reflexivity.
Qed.

Lemma divides_ok : forall op x k, divides op (OImm k) = true -> exists r, alu_bin Wrap op x k = Ok r.
Proof.
  intros op x k H. destruct op; cbn [divides alu_bin] in *; unfold alu_add, alu_sub, alu_mul, alu_div, alu_mod, alu_imul, alu_idiv, alu_and, alu_or, alu_xor, alu_lsh, alu_rsh, sdiv, shl, shr, shift_count, arith; cbn [bind]; eauto.
  - apply negb_true_iff in H. cbv zeta. rewrite H. eauto.
  - apply andb_true_iff in H. destruct H as [H1 H2]. apply negb_true_iff in H1, H2. rewrite H1, H2, andb_false_r. cbn. eauto.
  - apply negb_true_iff in H. rewrite H, andb_false_r, orb_false_r. destruct (x =? 0), (k =? 0) eqn:K; cbn [negb andb bind]; rewrite ?K; eauto.
  - apply andb_true_iff in H. destruct H as [H1 H2]. apply negb_true_iff in H1, H2. rewrite H1, H2, andb_false_r. cbn. eauto.
  - destruct (k <=? 64); cbn; eauto.
  - destruct (k <=? 64); cbn; eauto.
Qed.
Lemma divides_other : forall op v x y, divides op v = true -> (forall k, v <> OImm k) -> exists r, alu_bin Wrap op x y = Ok r.
Proof.
  intros op v x y H Hv. destruct op; cbn [divides alu_bin] in *; try (destruct v; try discriminate; exfalso; eapply Hv; reflexivity);
    unfold alu_add, alu_sub, alu_mul, alu_and, alu_or, alu_xor, alu_lsh, alu_rsh, shl, shr, shift_count, arith; cbn [bind]; eauto.
  - destruct (y <=? 64); cbn; eauto.
  - destruct (y <=? 64); cbn; eauto.
Qed.

Lemma alu_un_wrap : forall op x, exists r, alu_un Wrap op x = Ok r.
Proof. intros [] x; cbn; eexists; reflexivity. Qed.

(** An instruction of the kind can be carried out on whatever its operands are. *)
Lemma exec_total : forall E nr nf i os S vs b, e_mode E = Wrap -> harmless nr nf i = true -> operands i = Some os -> evs E S os = Some (vs, b) ->
  exists acts, exec_acts E i vs = Ok acts /\ NoDup (sets acts).
Proof.
  intros E nr nf i os S vs b He Hh Ho Hv. pose proof (evs_len _ _ _ _ _ Hv) as Hl.
  assert (ND1 : forall l, NoDup (if is_pc l then [] else [l])) by (intros l; destruct (is_pc l); repeat constructor; intros []).
  assert (ND2 : forall l l', l <> l' -> NoDup ((if is_pc l then [] else [l]) ++ (if is_pc l' then [] else [l']))).
  { intros l l' Hn. destruct (is_pc l), (is_pc l'); cbn; repeat constructor; intros []; [congruence|assumption]. }
  destruct i; cbn [harmless operands] in *; repeat match type of Hh with _ && _ = true => apply andb_true_iff in Hh; destruct Hh as [Hh ?] end.
  - (* IBin *) injection Ho as <-. destruct vs as [|x [|y [|]]]; try discriminate. cbn [exec_acts]. rewrite He.
    assert (Hr : exists r, alu_bin Wrap op x y = Ok r).
    { destruct v as [k| | | | | | | | | | | | | | | | |]; try (eapply divides_other; [eassumption|discriminate]). cbn [evs] in Hv. change (ev 4 E S (OImm k)) with (Some (k, false)) in Hv. cbv iota beta in Hv.
      destruct (ev 4 E S (OReg r)) as [[x' b']|]; [|discriminate]. injection Hv as _ <- _. eapply divides_ok. eassumption. }
    destruct Hr as [r' ->]. cbn [bind]. eexists. split; [reflexivity|]. cbn [sets flat_map]. rewrite app_nil_r. apply ND2. intros [= ->]. discriminate.
  - (* IUn *) injection Ho as <-. destruct vs as [|x [|]]; try discriminate. cbn [exec_acts]. rewrite He. destruct (alu_un_wrap op x) as [r' ->]. cbn [bind]. eexists. split; [reflexivity|].
    cbn [sets flat_map]. rewrite app_nil_r. apply ND2. intros [= ->]. discriminate.
  - injection Ho as <-. destruct vs as [|x [|y [|]]]; try discriminate. cbn [exec_acts]. cbv zeta. eexists. split; [reflexivity|]. cbn [sets flat_map]. rewrite app_nil_r. apply ND2. discriminate.
  - (* IMov *) destruct d; cbn [can_move_to] in *; try discriminate; cbn [addr_regs] in Ho; injection Ho as <-; cbn [map length] in Hl;
      destruct vs as [|x vs]; try discriminate; cbn [exec_acts];
      try (destruct vs as [|]; [|discriminate]; eexists; split; [reflexivity|]; cbn [sets flat_map]; rewrite ?app_nil_r; first [apply ND1 | constructor]);
      rewrite He; match goal with |- context [eff_addr Wrap ?d ?vs] => destruct (eff_addr_wrap d _ vs eq_refl) as [a ->]; [cbn [length] in *; lia|] end;
      cbn [bind]; eexists; (split; [reflexivity|]); cbn; constructor.
  - (* ILea *) destruct m; cbn [can_lea] in *; try discriminate; cbn [addr_regs] in Ho; injection Ho as <-; cbn [map length] in Hl; cbn [exec_acts]; rewrite He;
      match goal with |- context [eff_addr Wrap ?d ?vs] => destruct (eff_addr_wrap d _ vs eq_refl) as [a ->]; [cbn [length] in *; lia|] end;
      cbn [bind]; eexists; (split; [reflexivity|]); cbn [sets flat_map]; rewrite app_nil_r; apply ND1.
  - injection Ho as <-. destruct vs; [|discriminate]. eexists. split; [reflexivity|]. constructor.
  - injection Ho as <-. destruct vs; [|discriminate]. eexists. split; [reflexivity|]. constructor.
  - injection Ho as <-. destruct vs; [|discriminate]. eexists. split; [reflexivity|]. constructor.
  - injection Ho as <-. destruct vs; [|discriminate]. eexists. split; [reflexivity|]. constructor.
  - injection Ho as <-. destruct vs; [|discriminate]. eexists. split; [reflexivity|]. constructor.
  - injection Ho as <-. destruct vs as [|x [|y [|]]]; try discriminate. cbn [exec_acts]. rewrite He. unfold alu_sub, arith. cbn [bind]. eexists. split; [reflexivity|]. cbn [sets flat_map]. rewrite app_nil_r. apply ND1.
  - injection Ho as <-. destruct vs as [|x [|y [|]]]; try discriminate. eexists. split; [reflexivity|]. cbn [sets flat_map]. rewrite app_nil_r. apply ND1.
  - injection Ho as <-. destruct vs as [|x [|]]; try discriminate. eexists. split; [reflexivity|]. constructor.
  - (* ILoop *) injection Ho as <-. destruct vs as [|x [|y [|]]]; try discriminate. cbn [exec_acts]. rewrite He. unfold alu_sub, arith. cbn [bind]. eexists. split; [reflexivity|].
    unfold sets. rewrite flat_map_app. cbn [flat_map app]. destruct (rval _ =? 0); cbn [flat_map is_pc app]; rewrite ?app_nil_r; apply (ND2 (LR r) (LR Flags)); intros [= ->]; discriminate.
  - injection Ho as <-. destruct vs as [|x [|y [|]]]; try discriminate. cbn [exec_acts]. eexists. split; [reflexivity|]. destruct (cond_holds _ _); constructor.
  - injection Ho as <-. destruct vs as [|x [|y [|z [|]]]]; try discriminate. cbn [exec_acts]. rewrite He. unfold arith. cbn [bind]. eexists. split; [reflexivity|]. cbn. repeat constructor. intros [].
  - injection Ho as <-. destruct vs as [|x [|y [|]]]; try discriminate. cbn [exec_acts]. rewrite He. unfold arith. cbn [bind]. eexists. split; [reflexivity|]. cbn. repeat constructor. intros [].
  - injection Ho as <-. destruct vs as [|x [|y [|]]]; try discriminate. cbn [exec_acts]. rewrite He. unfold arith. cbn [bind]. eexists. split; [reflexivity|]. cbn. repeat constructor. intros [].
  - injection Ho as <-. destruct vs as [|x [|y [|]]]; try discriminate. cbn [exec_acts]. rewrite He. unfold arith. cbn [bind]. eexists. split; [reflexivity|]. cbn. repeat constructor. intros [].
  - injection Ho as <-. destruct vs as [|x [|y [|]]]; try discriminate. cbn [exec_acts]. rewrite He. unfold arith. cbn [bind]. eexists. split; [reflexivity|]. cbn [sets flat_map]. rewrite app_nil_r.
    apply (ND2 (LR r) (LR SP)). intros [= ->]. discriminate.
  - injection Ho as <-. destruct vs as [|x [|y [|]]]; try discriminate. cbn [exec_acts]. rewrite He. unfold arith. cbn [bind]. eexists. split; [reflexivity|]. cbn [sets flat_map]. rewrite app_nil_r.
    apply (ND2 (LF f) (LR SP)). discriminate.
  - injection Ho as <-. destruct vs as [|x [|]]; try discriminate. eexists. split; [reflexivity|]. constructor.
  - injection Ho as <-. destruct vs as [|x [|]]; try discriminate. eexists. split; [reflexivity|]. constructor.
  - injection Ho as <-. destruct vs; [|discriminate]. eexists. split; [reflexivity|]. constructor.
  - injection Ho as <-. destruct vs as [|x [|]]; try discriminate. eexists. split; [reflexivity|]. cbn [sets flat_map]. rewrite app_nil_r. apply ND1.
  - discriminate.
Qed.

Lemma retire_total : forall E i os S vs b acts ws, operands i = Some os -> evs E S os = Some (vs, b) -> exec_acts E i vs = Ok acts ->
  op_vals (act_ops acts) = Some ws -> exists racts, retire_acts i (vs ++ ws) = Ok racts.
Proof.
  intros E i os S vs b acts ws Ho Hv Hx Hw. pose proof (evs_len _ _ _ _ _ Hv) as Hl.
  destruct i; cbn [operands retire_acts] in *; try (eexists; reflexivity); injection Ho as <-; cbn [length] in Hl;
    destruct vs as [|x [|y [|z [|]]]]; try discriminate; cbn [exec_acts] in Hx; repeat (apply bind_ok in Hx; destruct Hx as [? [_ Hx]]); apply Ok_eq in Hx; subst acts.
  all: try (cbn in Hw; injection Hw as <-; cbn; eexists; reflexivity).
  - cbn [app act_ops] in Hw. destruct (_ =? 0); cbn in Hw; injection Hw as <-; cbn; eexists; reflexivity.
  - destruct (cond_holds _ _); cbn in Hw; injection Hw as <-; cbn; eexists; reflexivity.
Qed.

(** ---- the registers and memory cells that instructions name ---- *)

Section Machine.
Variable E : env.
Variable g : cfg.
Hypothesis wraps : e_mode E = Wrap.

Definition good_ins (i : instr) : bool := harmless (g_reg g) (g_freg g) i.
Definition good_op (o : operand) : bool := has_operand (g_reg g) (g_freg g) o.

Lemma good_products : forall i l, good_ins i = true -> reg_prod i l -> lreg_ok g l = true.
Proof.
  intros i l H [ps [Hp Hin]]. unfold good_ins in H.
  destruct i; cbn [harmless produces] in *; repeat match type of H with _ && _ = true => apply andb_true_iff in H; destruct H as [H ?] end;
    try (injection Hp as <-; cbn [In] in Hin; repeat destruct Hin as [Hin|Hin]; try discriminate; try contradiction; injection Hin as <-; try reflexivity; cbn [lreg_ok];
         match goal with |- context [match ?r with R _ => _ | _ => _ end] => destruct r; try reflexivity; assumption | _ => assumption end).
  - destruct d; cbn [product_of] in Hp; try discriminate; injection Hp as <-; destruct Hin as [Hin|[]]; try discriminate; injection Hin as <-; cbn [has_operand] in H; [destruct r; try reflexivity; assumption | assumption].
Qed.

Lemma good_defined : forall i, good_ins i = true -> operands i <> None /\ produces i <> None.
Proof.
  intros i H. unfold good_ins in H. destruct i; cbn [harmless operands produces] in *; try (split; congruence);
    repeat match type of H with _ && _ = true => apply andb_true_iff in H; destruct H as [H ?] end.
  - destruct d; cbn in *; try discriminate; split; congruence.
  - destruct m; cbn in *; try discriminate; split; congruence.
Qed.

Lemma good_operands : forall i os, good_ins i = true -> operands i = Some os -> Forall (fun o => good_op o = true) os.
Proof.
  intros i os H Ho. unfold good_ins, good_op in *.
  destruct i; cbn [harmless operands] in *; repeat match type of H with _ && _ = true => apply andb_true_iff in H; destruct H as [H ?] end;
    try discriminate; try (injection Ho as <-; repeat constructor; cbn [has_operand has_reg]; first [assumption | reflexivity]).
  - destruct d; cbn [can_move_to addr_regs has_operand] in *; try discriminate; injection Ho as <-; repeat match goal with H : _ && _ = true |- _ => apply andb_true_iff in H; destruct H end; repeat constructor; assumption.
  - destruct m; cbn [can_lea addr_regs has_operand] in *; try discriminate; injection Ho as <-; repeat match goal with H : _ && _ = true |- _ => apply andb_true_iff in H; destruct H end; repeat constructor; assumption.
Qed.

(** Where an instruction stores. *)
Definition store_addr (i : instr) (S : arch) : option Z :=
  match mem_prod i with
  | None => None
  | Some (Some a) => Some a
  | Some None => option_map fst (eff_store E i S)
  end.

Fixpoint saddrs (S : arch) (rs : list entry) : list Z :=
  match rs with
  | [] => []
  | e :: rs' => optl (store_addr (e_ins e) S) ++ saddrs (spec_step E (e_ins e) S) rs'
  end.

Lemma saddrs_app : forall a b S, saddrs S (a ++ b) = saddrs S a ++ saddrs (sfold E S a) b.
Proof. induction a as [|e a IH]; intros b S; cbn [saddrs app]; [reflexivity|]. rewrite IH, sfold_cons, app_assoc. reflexivity. Qed.
Lemma saddrs_ins : forall rs rs' S, map e_ins rs' = map e_ins rs -> saddrs S rs' = saddrs S rs.
Proof.
  induction rs as [|e rs IH]; intros [|e' rs'] S H; try discriminate; [reflexivity|]. cbn [map] in H. injection H as H1 H2. cbn [saddrs]. rewrite H1, (IH rs' _ H2). reflexivity.
Qed.

Lemma apart_pair : forall S0 pre x mid e post a, NoDup (saddrs S0 (pre ++ x :: mid ++ e :: post)) ->
  store_addr (e_ins x) (sfold E S0 pre) = Some a -> store_addr (e_ins e) (sfold E S0 (pre ++ x :: mid)) = Some a -> False.
Proof.
  intros S0 pre x mid e post a H H1 H2. rewrite saddrs_app in H. apply nodup_r in H. cbn [saddrs] in H. rewrite H1 in H. cbn [optl app] in H.
  apply NoDup_cons_iff in H. destruct H as [H _]. apply H. rewrite saddrs_app. apply in_or_app. right. cbn [saddrs]. apply in_or_app. left.
  rewrite sfold_app, sfold_cons in H2. rewrite H2. now left.
Qed.

Lemma apart_two : forall S0 d e t pre x post a b, NoDup (saddrs S0 (d ++ e :: t)) -> d ++ e :: t = pre ++ x :: post ->
  e_wids x <> e_wids e \/ pre <> d ->
  store_addr (e_ins x) (sfold E S0 pre) = Some a -> store_addr (e_ins e) (sfold E S0 d) = Some b -> a <> b.
Proof.
  intros S0 d e t pre x post a b H Hs Hn H1 H2 ->. apply split_mid in Hs. destruct Hs as [[-> [-> ->]]|[[mid [-> ->]]|[mid [-> ->]]]].
  - destruct Hn as [Hn|Hn]; apply Hn; reflexivity.
  - rewrite <- app_assoc in H. eapply apart_pair; eassumption.
  - eapply apart_pair; eassumption.
Qed.

(** ---- references into the queue of writes ---- *)

Lemma aget_invalidate : forall ids (m : amap bool) k,
  aget (invalidate ids m) k = option_map (fun b => if existsb (Z.eqb k) ids then false else b) (aget m k).
Proof.
  intros ids m k. induction m as [|[k' b] m IH]; cbn; [reflexivity|]. destruct (k =? k') eqn:Hk; [|exact IH].
  apply Z.eqb_eq in Hk. subst k'. reflexivity.
Qed.
Lemma aget_remove : forall V ids (m : amap V) k, aget (akeys_remove ids m) k = if existsb (Z.eqb k) ids then None else aget m k.
Proof.
  intros V ids m k. induction m as [|[k' b] m IH]; cbn [akeys_remove filter aget].
  - destruct (existsb _ _); reflexivity.
  - cbn [fst]. destruct (existsb (Z.eqb k') ids) eqn:Hx; cbn [negb].
    + fold (akeys_remove ids m). rewrite IH. destruct (k =? k') eqn:Hk; [|reflexivity]. apply Z.eqb_eq in Hk. subst k'. rewrite Hx. reflexivity.
    + cbn [aget]. fold (akeys_remove ids m). destruct (k =? k') eqn:Hk; [|exact IH]. apply Z.eqb_eq in Hk. subst k'. rewrite Hx. reflexivity.
Qed.
Lemma existsb_in : forall k ids, existsb (Z.eqb k) ids = true <-> In k ids.
Proof. intros k ids. rewrite existsb_exists. split; [intros [x [Hx He]]; apply Z.eqb_eq in He; now subst|intros H; exists k; split; [assumption|apply Z.eqb_refl]]. Qed.

Lemma mws_add_inv : forall ws id a, incl (snd (mws_add ws id a)) (map mw_id (mws_vec ws)).
Proof.
  intros ws id a x. unfold mws_add. destruct (split_gt id (mws_vec ws)) as [b c] eqn:Hs. pose proof (split_gt_app _ _ _ _ Hs) as He.
  destruct (Nat.ltb _ _); cbn [snd]; [|tauto]. intros H. rewrite He, map_app. apply in_or_app. now right.
Qed.

Lemma insert_byid : forall w id a u cur k, aget (wm_byid (wm_insert w id a u cur)) k =
  if (k =? id) && (match aget (wm_byid w) id with None => true | _ => false end) then Some true
  else option_map (fun b => if existsb (Z.eqb k) (snd (mws_add (wm_get w a) id a)) then false else b) (aget (wm_byid w) k).
Proof.
  intros w id a u cur k. unfold wm_insert. destruct (mws_add (wm_get w a) id a) as [ws inv]. cbn [wm_byid snd]. destruct (aget (wm_byid w) id) eqn:Hi.
  - rewrite andb_false_r. apply aget_invalidate.
  - rewrite aget_aset, andb_true_r. destruct (k =? id); [reflexivity|]. apply aget_invalidate.
Qed.

Definition kept_ref (w w' : wman) (id : Z) : Prop := aget (wm_byid w') id = aget (wm_byid w) id.

Lemma insert_keeps : forall w id a u cur k, k <> id -> (aget (wm_byid w) k <> None -> forall m, In m (vec w a) -> mw_id m <> k) ->
  kept_ref w (wm_insert w id a u cur) k.
Proof.
  intros w id a u cur k Hk Hm. unfold kept_ref. rewrite insert_byid. rewrite (proj2 (Z.eqb_neq k id) Hk). cbn [andb].
  destruct (aget (wm_byid w) k) as [b|] eqn:Hb; [|reflexivity]. cbn [option_map]. destruct (existsb (Z.eqb k) _) eqn:Hx; [|reflexivity].
  apply existsb_in, mws_add_inv, in_map_iff in Hx. destruct Hx as [m [<- Hin]]. exfalso. eapply Hm; [discriminate|exact Hin|reflexivity].
Qed.

Lemma find_some : forall id l m, In m l -> mw_id m = id -> exists m', find_id id l = Some m'.
Proof.
  induction l as [|x l IH]; intros m Hin He; [destruct Hin|]. cbn [find_id]. destruct (mw_id x =? id) eqn:Hx; [eauto|]. destruct Hin as [->|Hin].
  - rewrite He, Z.eqb_refl in Hx. discriminate.
  - eapply IH; eassumption.
Qed.
Lemma wm_find_some : forall id m a ws x, In (a, ws) m -> In x (mws_vec ws) -> mw_id x = id -> exists x', wm_find id m = Some x'.
Proof.
  induction m as [|[a0 ws0] m IH]; intros a ws x Hin Hx He; [destruct Hin|]. cbn [wm_find]. destruct (find_id id (mws_vec ws0)) eqn:Hf; [eauto|].
  destruct Hin as [[= -> ->]|Hin].
  - destruct (find_some _ _ _ Hx He) as [m' Hm]. congruence.
  - eapply IH; eassumption.
Qed.
Lemma get_write_go : forall w id a m, NoDup (map fst (wm_map w)) -> aget (wm_byid w) id = Some true -> In m (vec w a) -> mw_id m = id ->
  (forall a' m', In m' (vec w a') -> mw_id m' = id -> m' = m) -> wm_get_write w id = Ok m.
Proof.
  intros w id a m Hk Hb Hin He Hu. unfold wm_get_write. rewrite Hb. rewrite vec_eq in Hin. destruct (aget (wm_map w) a) as [ws|] eqn:Ha; [|destruct Hin].
  apply aget_in in Ha. destruct (wm_find_some _ _ _ _ _ Ha Hin He) as [x' Hf]. rewrite Hf.
  destruct (wm_find_in _ _ _ Hf Hk) as (a' & ws' & H1 & H2 & H3). f_equal. apply (Hu a'); [|exact H3]. rewrite vec_eq, H1. exact H2.
Qed.

End Machine.
