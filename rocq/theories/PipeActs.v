(** What the bodies of the instructions do, in the form the refinement proof needs. *)
From Coq Require Import ZArith NArith List Bool Sorted Lia.
From Verif Require Import Base Alu Isa Exec Ram Writes Rat Cpu InOrder PipeInv PipeBasics.
Import ListNotations.
Open Scope Z_scope.

Definition is_mem_act (a : act) : bool := match a with AAddr _ | AVal _ => true | _ => false end.
Definition memacts (acts : list act) : list act := filter is_mem_act acts.

Lemma act_val_mem : forall acts, act_val (memacts acts) = act_val acts.
Proof. induction acts as [|[] acts IH]; cbn; auto. Qed.

Lemma act_addr_mem : forall acts, act_addr (memacts acts) = act_addr acts.
Proof. induction acts as [|[] acts IH]; cbn; auto. Qed.

Lemma last_set_app : forall l a b,
  last_set l (a ++ b) = match last_set l b with Some v => Some v | None => last_set l a end.
Proof.
  induction a as [|[k v|a|v|v] acts IH]; intros b; cbn.
  - destruct (last_set l b); reflexivity.
  - rewrite IH. destruct (last_set l b); reflexivity.
  - apply IH.
  - apply IH.
  - apply IH.
Qed.

Lemma act_ops_vals : forall acts, exists ws, op_vals (act_ops acts) = Some ws.
Proof.
  induction acts as [|[k v|a|v|v] acts [ws IH]]; cbn; eauto.
  rewrite IH. eauto.
Qed.

Lemma op_vals_app : forall a b vs ws, op_vals a = Some vs -> op_vals b = Some ws ->
  op_vals (a ++ b) = Some (vs ++ ws).
Proof.
  induction a as [|o a IH]; intros b vs ws Ha Hb; cbn in *.
  - inversion Ha; subst. exact Hb.
  - destruct (op_val o); [|discriminate]. destruct (op_vals a) as [us|] eqn:Eq; [|discriminate].
    inversion Ha; subst. now rewrite (IH _ _ _ eq_refl Hb).
Qed.

(** Everything about [exec_acts] in one predicate, so that the case analysis over
    the instructions is made once. *)
Definition acts_ok (i : instr) (acts : list act) : Prop :=
  (forall l v, In (ASet l v) acts -> reg_prod i l) /\
  (late i = true -> forall l, last_set l acts = None) /\
  (forall l, late i = false -> l <> LR PC -> reg_prod i l -> last_set l acts <> None) /\
  match mem_prod i with
  | None => memacts acts = []
  | Some (Some a) => exists v, memacts acts = [AVal v] /\ store_of i acts = Some (a, v)
  | Some None => exists a v, memacts acts = [AAddr a; AVal v] /\ store_of i acts = Some (a, v)
  end.

Ltac head_cases H :=
  repeat (cbn [exec_acts] in H;
          match type of H with
          | bind _ _ = Ok _ => apply bind_ok in H; destruct H as [? [? H]]
          | match ?x with _ => _ end = Ok _ => destruct x; try discriminate H
          end).

Ltac in_cases Hin :=
  repeat (destruct Hin as [Hin|Hin]; [first [discriminate Hin | injection Hin as; subst]|]);
  try contradiction.

Lemma exec_acts_ok : forall E i vs acts os, operands i = Some os -> produces i <> None ->
  exec_acts E i vs = Ok acts -> acts_ok i acts.
Proof.
  intros E i vs acts os Hos Hpr H.
  destruct i as [op d r o risc|op r|op f o|d o|r m| | | | | |r o|f o|a|r a|cc a|a| |o|o|r|f|r|r|r|f r|r f];
  cbn [exec_acts] in H; head_cases H; apply Ok_eq in H; subst acts;
  repeat match goal with |- context [if ?b then _ else _] => destruct b end;
  (split; [|split; [|split]];
   [ intros l v0 Hin; cbn in Hin; in_cases Hin; unfold reg_prod; cbn; eexists;
     (split; [reflexivity|]); cbn; auto
   | intros Hl; try discriminate Hl; reflexivity
   | intros l Hl Hpc [ps [Hps Hin]]; cbn in Hps; try discriminate Hps; injection Hps as; subst ps;
     cbn in Hin; in_cases Hin; cbn [last_set app]; rewrite ?lreg_eqb_refl;
     repeat match goal with |- context [lreg_eqb ?a ?b] => destruct (lreg_eqb a b) end;
     try discriminate; try congruence
   | unfold mem_prod; cbn; repeat eexists ]).
  all: exfalso; apply Hpr; reflexivity.
Qed.

Lemma last_set_in : forall l acts v, last_set l acts = Some v -> In (ASet l v) acts.
Proof.
  induction acts as [|[k w|a|w|w] acts IH]; intros v H; cbn in H; try discriminate; auto using in_cons.
  destruct (last_set l acts) eqn:Eq.
  - inversion H; subst. right. auto.
  - destruct (lreg_eqb_spec l k); [|discriminate]. inversion H; subst. now left.
Qed.

(** [eff] of an instruction whose operands and body are known *)
Lemma eff_commit : forall E i S os vs b acts, operands i = Some os -> evs E S os = Some (vs, b) ->
  exec_acts E i vs = Ok acts -> eff E i S = commit i vs acts S.
Proof. intros E i S os vs b acts H1 H2 H3. unfold eff. now rewrite H1, H2, H3. Qed.

Lemma eff_store_eq : forall E i S os vs b acts, operands i = Some os -> evs E S os = Some (vs, b) ->
  exec_acts E i vs = Ok acts -> eff_store E i S = store_of i acts.
Proof. intros E i S os vs b acts H1 H2 H3. unfold eff_store. now rewrite H1, H2, H3. Qed.

Lemma eff_mem : forall E i S, a_mem (eff E i S) =
  match eff_store E i S with Some (a, v) => mupd (a_mem S) a v | None => a_mem S end.
Proof.
  intros E i S. unfold eff, eff_store. destruct (operands i); [|reflexivity].
  destruct (evs E S l) as [[vs b]|]; [|reflexivity].
  destruct (exec_acts E i vs); reflexivity.
Qed.

(** an instruction that produces no memory write stores nothing, one with a fixed
    address stores there *)
Lemma eff_store_prod : forall E i S a v, produces i <> None -> eff_store E i S = Some (a, v) ->
  mem_prod i = Some (Some a) \/ mem_prod i = Some None.
Proof.
  intros E i S a v Hp H. unfold eff_store in H. destruct (operands i) as [os|] eqn:Ho; [|discriminate].
  destruct (evs E S os) as [[vs b]|]; [|discriminate].
  destruct (exec_acts E i vs) as [acts| |] eqn:Ex; try discriminate.
  destruct (exec_acts_ok _ _ _ _ _ Ho Hp Ex) as [_ [_ [_ Hm]]].
  destruct (mem_prod i) as [[a'|]|] eqn:Em.
  - destruct Hm as [v' [_ Hs]]. left. congruence.
  - now right.
  - exfalso. unfold store_of in H. rewrite <- act_val_mem, Hm in H. discriminate.
Qed.

(** registers that are no product keep their value *)
Lemma late_prod : forall i S l v, late_reg i S l = Some v -> late i = true /\ reg_prod i l.
Proof.
  intros i S l v H. destruct i; try discriminate; cbn in H.
  - destruct (lreg_eqb_spec l (LR Flags)); [|discriminate]. subst. split; [reflexivity|].
    eexists; split; [reflexivity|]. now left.
  - destruct (lreg_eqb_spec l (LR r)); [|discriminate]. subst. split; [reflexivity|].
    eexists; split; [reflexivity|]. now left.
Qed.

Lemma eff_reg_other : forall E i S l, produces i <> None -> ~ reg_prod i l ->
  a_reg (eff E i S) l = a_reg S l.
Proof.
  intros E i S l Hp Hn. unfold eff. destruct (operands i) as [os|] eqn:Ho; [|reflexivity].
  destruct (evs E S os) as [[vs b]|]; [|reflexivity].
  destruct (exec_acts E i vs) as [acts| |] eqn:Ex; try reflexivity.
  cbn [commit a_reg]. destruct (late_reg i S l) eqn:El.
  { apply late_prod in El. now destruct El. }
  destruct (last_set l acts) eqn:Es; [|reflexivity].
  exfalso. apply Hn. apply last_set_in in Es.
  destruct (exec_acts_ok _ _ _ _ _ Ho Hp Ex) as [Hs _]. eauto.
Qed.

(** ---- the effect of execute() on the register file ---- *)

Lemma entry_set_spec : forall f t l v f', entry_set f t l v = Ok f' ->
  exists p r, rget t l = Some p /\ nth_error f p = Some r /\ f' = set_nth f p (mkPreg v true (p_subs r)).
Proof.
  intros f t l v f' H. unfold entry_set in H. destruct (rget t l) as [p|]; [|discriminate].
  destruct (nth_error f p) as [r|] eqn:Hr; [|discriminate].
  destruct (is_lr l && negb (is_pc l) && p_ready r); [discriminate|].
  apply Ok_eq in H. subst. eauto.
Qed.

Definition inj_tab (t : rat) : Prop := forall k l p, rget t k = Some p -> rget t l = Some p -> k = l.

(** registers of [f'] against those of [f] after giving values to products *)
Definition regs_set (t : rat) (acts : list act) (f f' : pfile) : Prop :=
  forall p, match nth_error f p with
  | None => nth_error f' p = None
  | Some r =>
      (nth_error f' p = Some r /\ forall l, rget t l = Some p -> last_set l acts = None) \/
      exists l v, rget t l = Some p /\ last_set l acts = Some v /\
                  nth_error f' p = Some (mkPreg v true (p_subs r))
  end.

Lemma regs_set_nil : forall t acts f, (forall l, last_set l acts = None) -> regs_set t acts f f.
Proof. intros t acts f H p. destruct (nth_error f p); [left; split; auto|reflexivity]. Qed.

Lemma do_acts_spec : forall e acts f w ops f' w' ops', inj_tab (e_wrat e) ->
  do_acts e acts (f, w, ops) = Ok (f', w', ops') ->
  regs_set (e_wrat e) acts f f' /\ ops' = ops ++ act_ops acts /\
  exists f1 ops1, do_acts e (memacts acts) (f, w, ops) = Ok (f1, w', ops1).
Proof.
  intros e acts. induction acts as [|a acts IH]; intros f w ops f' w' ops' Hi H.
  - cbn in H. apply Ok_eq in H. inversion H; subst. split; [|split].
    + apply regs_set_nil. reflexivity.
    + cbn. now rewrite app_nil_r.
    + exists f', ops'. reflexivity.
  - cbn [do_acts] in H. apply bind_ok in H. destruct H as [[[f1 w1] ops1] [H1 H]].
    assert (Hmem : forall e l f g w w2 o1 o2 f2, forallb is_mem_act l = true ->
              do_acts e l (f, w, o1) = Ok (f2, w2, o2) -> do_acts e l (g, w, ops) = Ok (g, w2, ops)).
    { clear. intros e l. revert ops. induction l as [|a l IH]; intros ops f g w w2 o1 o2 f2 Hm H.
      - cbn in *. apply Ok_eq in H. inversion H; subst. reflexivity.
      - cbn in Hm. apply andb_prop in Hm. destruct Hm as [Ha Hm].
        cbn [do_acts] in *. apply bind_ok in H. destruct H as [[[fa wa] oa] [H1 H]].
        destruct a as [l0 v|a|v|v]; try discriminate Ha; cbn [do_act] in *;
          destruct (e_wids e) as [|id [|? ?]]; try discriminate H1;
          apply bind_ok in H1; destruct H1 as [wb [H1 H2]]; apply Ok_eq in H2; inversion H2; subst;
          rewrite H1; cbn [bind]; eapply IH; eauto. }
    assert (Hfm : forall l, forallb is_mem_act (memacts l) = true).
    { clear. induction l as [|a l IH]; cbn; [reflexivity|]. destruct (is_mem_act a) eqn:Ea; cbn; auto.
      now rewrite Ea. }
    destruct (IH _ _ _ _ _ _ Hi H) as [Hr [Ho [f2 [ops2 Hm]]]].
    destruct a as [l v|a|v|v].
    + cbn [do_act] in H1. apply bind_ok in H1. destruct H1 as [fx [H1 H2]].
      apply Ok_eq in H2. inversion H2; subst.
      apply entry_set_spec in H1. destruct H1 as [p [r [Hp [Hf Hfx]]]]. subst f1.
      split; [|split].
      * intros q. specialize (Hr q). rewrite nth_set_nth in Hr.
        revert Hr. destruct (Nat.eqb_spec q p) as [Heq|Hne]; intros Hr; [subst q|].
        { rewrite Hf in Hr |- *. destruct Hr as [[Hr Hno]|[l' [v' [Hg [Hl Hr]]]]].
          - right. exists l, v. split; [assumption|]. split; [|exact Hr].
            cbn [last_set]. rewrite (Hno _ Hp), lreg_eqb_refl. reflexivity.
          - right. exists l', v'. split; [assumption|]. split; [|exact Hr].
            cbn [last_set]. now rewrite Hl. }
        { destruct (nth_error f q) as [rq|] eqn:Hq; [|exact Hr].
          destruct Hr as [[Hr Hno]|[l' [v' [Hg [Hl Hr]]]]].
          - left. split; [assumption|]. intros l' Hg. cbn [last_set]. rewrite (Hno _ Hg).
            rewrite lreg_eqb_neq; [reflexivity|]. intros ->. congruence.
          - right. exists l', v'. split; [assumption|]. split; [|exact Hr].
            cbn [last_set]. now rewrite Hl. }
      * first [assumption|reflexivity].
      * eexists f, _. cbn [memacts filter is_mem_act]. eapply Hmem; eauto.
    + cbn [do_act] in H1. destruct (e_wids e) as [|id [|? ?]] eqn:Ew; try discriminate H1.
      apply bind_ok in H1. destruct H1 as [wb [H1 H2]]. apply Ok_eq in H2. inversion H2; subst.
      split; [|split]; [exact Hr|reflexivity|].
      eexists f1, _. cbn [memacts filter is_mem_act do_acts do_act]. rewrite Ew, H1. cbn [bind].
      eapply Hmem; eauto.
    + cbn [do_act] in H1. destruct (e_wids e) as [|id [|? ?]] eqn:Ew; try discriminate H1.
      apply bind_ok in H1. destruct H1 as [wb [H1 H2]]. apply Ok_eq in H2. inversion H2; subst.
      split; [|split]; [exact Hr|reflexivity|].
      eexists f1, _. cbn [memacts filter is_mem_act do_acts do_act]. rewrite Ew, H1. cbn [bind].
      eapply Hmem; eauto.
    + cbn [do_act] in H1. apply Ok_eq in H1. inversion H1; subst.
      split; [|split].
      * exact Hr.
      * cbn [act_ops]. rewrite <- app_assoc. reflexivity.
      * eexists f1, _. cbn [memacts filter is_mem_act]. eapply Hmem; eauto.
Qed.

(** ---- the effect of execute() on the write queue ---- *)

Lemma do_acts_mem : forall e i acts f w ops f' w' ops', acts_ok i acts ->
  do_acts e (memacts acts) (f, w, ops) = Ok (f', w', ops') ->
  match mem_prod i with
  | None => w' = w
  | Some (Some a) => exists v id, store_of i acts = Some (a, v) /\ e_wids e = [id] /\
                       wm_set_value w id v = Ok w'
  | Some None => exists a v id w1, store_of i acts = Some (a, v) /\ e_wids e = [id] /\
                       wm_specify w id a = Ok w1 /\ wm_set_value w1 id v = Ok w'
  end.
Proof.
  intros e i acts f w ops f' w' ops' [_ [_ [_ Hm]]] H.
  destruct (mem_prod i) as [[a|]|].
  - destruct Hm as [v [Hm Hs]]. rewrite Hm in H. cbn [do_acts do_act] in H.
    destruct (e_wids e) as [|id [|? ?]]; try discriminate H.
    apply bind_ok in H. destruct H as [[[f1 w1] o1] [H1 H]].
    apply bind_ok in H1. destruct H1 as [w2 [H1 H2]].
    apply Ok_eq in H2. apply Ok_eq in H. inversion H2; inversion H; subst.
    exists v, id. auto.
  - destruct Hm as [a [v [Hm Hs]]]. rewrite Hm in H. cbn [do_acts do_act] in H.
    destruct (e_wids e) as [|id [|? ?]] eqn:Ew; try discriminate H.
    apply bind_ok in H. destruct H as [[[f1 w1] o1] [H1 H]].
    apply bind_ok in H1. destruct H1 as [w2 [H1 H2]].
    apply Ok_eq in H2. inversion H2; subst.
    apply bind_ok in H. destruct H as [[[f3 w3] o3] [H3 H]].
    cbn [do_act] in H3. rewrite Ew in H3.
    apply bind_ok in H3. destruct H3 as [w4 [H3 H4]].
    apply Ok_eq in H4. apply Ok_eq in H. inversion H4; inversion H; subst.
    exists a, v, id, w1. auto.
  - rewrite Hm in H. cbn in H. apply Ok_eq in H. now inversion H.
Qed.
