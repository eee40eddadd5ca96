(** Progress: the oldest instruction retires after a bounded number of ticks. *)
From Coq Require Import ZArith NArith List Bool Sorted Lia.
From Verif Require Import Base Alu Isa Exec Ram Writes Rat Cpu LiveSpec InOrder PipeInv PipeBasics PipeActs PipeMem
  PipeExec PipePoll PipeRetire PipeAdd PipeTick PipeBoot PipeDom PipeRun.
Import ListNotations.
Open Scope nat_scope.

(** ---- what progress needs beyond [Inv] ---- *)

Definition sumw (os : list operand) : nat := list_sum (map weight os).
Definition nomem (os : list operand) : bool := forallb (fun o => negb (is_memory o)) os.

Definition elive (e : entry) : Prop :=
  e_time e <= 3 /\ (loads (e_ins e) = true \/ nomem (e_ops e) = true) /\ sumw (e_ops e) <= 5.

Definition owned_ids (w : wman) (rs : list entry) : Prop :=
  forall id, In id (wm_unspec w) ->
    exists e, In e rs /\ e_state e <> Retiring /\ In id (e_wids e) /\ mem_prod (e_ins e) = Some None.

Definition L (c : cpu) : Prop := owned_ids (c_wm c) (c_rs c) /\ Forall elive (c_rs c).

(** ---- executing ---- *)

Definition wf_ins (e : entry) : Prop := (exists os, operands (e_ins e) = Some os) /\ produces (e_ins e) <> None.

Lemma entries_wf : forall E p S0 rs, entries_ok E p S0 rs -> Forall wf_ins rs.
Proof.
  intros E p S0 rs H. apply Forall_forall. intros e He. destruct (in_split _ _ He) as [d [t Hs]].
  destruct (H _ _ _ Hs) as [_ [os [H1 [H2 _]]]]. split; eauto.
Qed.

Lemma wm_update_unspec : forall w id f, wm_unspec (wm_update w id f) = wm_unspec w.
Proof. reflexivity. Qed.

Lemma do_acts_unspec : forall e acts f w o f' w' o', do_acts e acts (f, w, o) = Ok (f', w', o') ->
  incl (wm_unspec w') (wm_unspec w) /\
  (forall a id, In (AAddr a) acts -> e_wids e = [id] -> ~ In id (wm_unspec w')) /\
  exists vs, o' = o ++ map OImm vs.
Proof.
  induction acts as [|x acts IH]; intros f w o f' w' o' H; cbn [do_acts] in H.
  - apply Ok_eq in H. inversion H; subst. split; [apply incl_refl|]. split; [intros a id []|].
    exists []. cbn. now rewrite app_nil_r.
  - apply bind_ok in H. destruct H as [[[f1 w1] o1] [H1 H]]. apply IH in H. destruct H as [I1 [I2 [vs I3]]].
    destruct x as [l v|a|v|v]; cbn [do_act] in H1.
    + apply bind_ok in H1. destruct H1 as [f2 [_ H1]]. apply Ok_eq in H1. inversion H1; subst f2 w1 o1.
      split; [exact I1|]. split; [|eauto]. intros a id [Hx|Hx]; [discriminate|]. eauto.
    + destruct (e_wids e) as [|i [|]] eqn:Ew; try discriminate. apply bind_ok in H1. destruct H1 as [w2 [H2 H1]].
      apply Ok_eq in H1. inversion H1; subst f1 w2 o1. unfold wm_specify in H2.
      destruct (existsb (Z.eqb i) (wm_unspec w)); [|discriminate]. apply Ok_eq in H2. subst w1.
      rewrite wm_insert_unspec in I1. split.
      { intros z Hz. apply I1 in Hz. apply filter_In in Hz. apply Hz. }
      split; [|eauto]. intros b id Hin Hid. inversion Hid; subst id. intros Hz. apply I1 in Hz.
      apply filter_In in Hz. destruct Hz as [_ Hz]. rewrite Z.eqb_refl in Hz. discriminate.
    + destruct (e_wids e) as [|i [|]] eqn:Ew; try discriminate. apply bind_ok in H1. destruct H1 as [w2 [H2 H1]].
      apply Ok_eq in H1. inversion H1; subst f1 w2 o1. unfold wm_set_value in H2.
      apply bind_ok in H2. destruct H2 as [m [_ H2]]. destruct (mw_value m); [discriminate|].
      destruct (mw_ram m); [discriminate|]. apply Ok_eq in H2. subst w1. rewrite wm_update_unspec in I1.
      split; [exact I1|]. split; [|eauto]. intros b id [Hx|Hx]; [discriminate|]. eauto.
    + apply Ok_eq in H1. inversion H1; subst f1 w1 o1. split; [exact I1|]. split.
      * intros b id [Hx|Hx]; [discriminate|]. eauto.
      * exists (v :: vs). rewrite I3, <- app_assoc. reflexivity.
Qed.

Lemma sumw_app : forall a b, sumw (a ++ b) = sumw a + sumw b.
Proof. intros. unfold sumw. now rewrite map_app, list_sum_app. Qed.

Lemma sumw_imms : forall vs, sumw (map OImm vs) = 0.
Proof. induction vs; [reflexivity|]. cbn. exact IHvs. Qed.

Lemma nomem_imms : forall vs, nomem (map OImm vs) = true.
Proof. induction vs; [reflexivity|]. cbn. exact IHvs. Qed.

Lemma exec_entry_L : forall E f w a e f' w' a' e', exec_entry E f w a e = Ok (f', w', a', e') -> wf_ins e ->
  incl (wm_unspec w') (wm_unspec w) /\ same e e' /\ (elive e -> elive e') /\
  (e_state e <> Retiring -> e_state e' = Retiring -> mem_prod (e_ins e) = Some None ->
     forall id, In id (e_wids e) -> ~ In id (wm_unspec w')).
Proof.
  intros E f w a e f' w' a' e' H [[os Hos] Hp]. unfold exec_entry in H.
  assert (Hsame : Ok (f, w, a, e) = (Ok (f', w', a', e') : res unit _) -> 
     incl (wm_unspec w') (wm_unspec w) /\ same e e' /\ (elive e -> elive e') /\
     (e_state e <> Retiring -> e_state e' = Retiring -> mem_prod (e_ins e) = Some None ->
      forall id, In id (e_wids e) -> ~ In id (wm_unspec w'))).
  { intros H0. apply Ok_eq in H0. inversion H0; subst. split; [apply incl_refl|].
    split; [unfold same; auto|]. split; [auto|]. intros H1 H2. contradiction. }
  destruct (e_state e) eqn:Hst; try (now apply Hsame). clear Hsame.
  destruct (Nat.pred (e_time e)) as [|t] eqn:Ht.
  - apply bind_ok in H. destruct H as [vs [_ H]]. apply bind_ok in H. destruct H as [acts [Ha H]].
    apply bind_ok in H. destruct H as [[[f1 w1] o1] [H1 H]]. apply Ok_eq in H. inversion H; subst f' w' a' e'. clear H.
    destruct (do_acts_unspec _ _ _ _ _ _ _ _ H1) as [I1 [I2 [ws I3]]]. split; [exact I1|].
    split; [apply same_set_ops|]. split.
    + intros [L1 [L2 L3]]. unfold elive. cbn [set_ops e_time e_ins e_ops]. rewrite I3, sumw_app, sumw_imms.
      split; [lia|]. split; [|lia]. destruct L2 as [L2|L2]; [now left|right]. unfold nomem in *.
      rewrite forallb_app, L2. apply nomem_imms.
    + intros _ _ Hm id Hid. destruct (exec_acts_ok _ _ _ _ _ Hos Hp Ha) as [_ [_ [_ Hk]]]. rewrite Hm in Hk.
      destruct Hk as [b [v [Hk _]]]. assert (Hin : In (AAddr b) (memacts acts)) by (rewrite Hk; now left).
      unfold memacts in Hin. apply filter_In in Hin. destruct Hin as [Hin _].
      assert (Hw : exists i, e_wids e = [i]).
      { clear -Hin H1. revert f w H1. generalize (e_ops e) as o. induction acts as [|x acts IH]; intros o f w H1; [destruct Hin|].
        cbn [do_acts] in H1. apply bind_ok in H1. destruct H1 as [[[f2 w2] o2] [H2 H3]].
        destruct Hin as [->|Hin]; [|eauto]. cbn [do_act] in H2. destruct (e_wids e) as [|i [|]]; try discriminate. eauto. }
      destruct Hw as [i Hw]. rewrite Hw in Hid. destruct Hid as [<-|[]]. eauto.
  - apply Ok_eq in H. inversion H; subst f' w' a' e'. clear H. split; [apply incl_refl|].
    split; [apply same_set_ops|]. split; [|discriminate].
    intros [L1 [L2 L3]]. unfold elive. cbn [set_ops e_time e_ins e_ops]. split; [lia|auto].
Qed.

Lemma exec_loop_L : forall E es d f w a f' w' a' es', exec_loop E f w a es = Ok (f', w', a', es') -> Forall wf_ins es ->
  owned_ids w (d ++ es) -> Forall elive es -> owned_ids w' (d ++ es') /\ Forall elive es'.
Proof.
  induction es as [|e es IH]; intros d f w a f' w' a' es' H Hwf Ho He; cbn [exec_loop] in H.
  - apply Ok_eq in H. inversion H; subst. auto.
  - apply bind_ok in H. destruct H as [[[[f1 w1] a1] e1] [H1 H]]. apply bind_ok in H.
    destruct H as [[[[f2 w2] a2] es2] [H2 H]]. apply Ok_eq in H. inversion H; subst f2 w2 a2 es'. clear H.
    inversion Hwf; subst. inversion He; subst.
    destruct (exec_entry_L _ _ _ _ _ _ _ _ _ H1 H3) as [I1 [I2 [I3 I4]]].
    assert (Ho1 : owned_ids w1 ((d ++ [e1]) ++ es)).
    { intros id Hid. destruct (Ho id (I1 _ Hid)) as [x [Hx [Hs [Hw Hm]]]]. rewrite <- app_assoc. cbn [app].
      apply in_mid in Hx. destruct Hx as [->|Hx].
      - destruct I2 as [J1 [_ [_ [J2 _]]]]. exists e1. split; [apply in_mid; now left|].
        rewrite J1, J2. split; [|auto]. intros Hr. exact (I4 Hs Hr Hm id Hw Hid).
      - exists x. split; [apply in_mid; now right|auto]. }
    destruct (IH (d ++ [e1]) _ _ _ _ _ _ _ H2 H4 Ho1 H6) as [K1 K2]. rewrite <- app_assoc in K1. cbn [app] in K1.
    split; [exact K1|]. constructor; auto.
Qed.

(** ---- retiring ---- *)

Definition ukeeps (c c' : cpu) : Prop :=
  (c_rs c' = c_rs c /\ wm_unspec (c_wm c') = wm_unspec (c_wm c)) \/ (c_rs c' = [] /\ wm_unspec (c_wm c') = []).

Lemma ukeeps_trans : forall c c1 c2, ukeeps c c1 -> ukeeps c1 c2 -> ukeeps c c2.
Proof.
  intros c c1 c2 H1 [[A B]|H2]; [|now right]. destruct H1 as [[A1 B1]|[A1 B1]]; [left|right]; split; congruence.
Qed.

Lemma unroll_u : forall t c c', unroll c t = Ok c' -> ukeeps c c'.
Proof.
  intros t c c' H. unfold unroll in H.
  apply bind_ok in H. destruct H as [f1 [_ H]]. apply bind_ok in H. destruct H as [f2 [_ H]].
  apply bind_ok in H. destruct H as [f3 [_ H]]. cbv zeta in H.
  destruct (get_lreg _ (LR PC)); [|discriminate]. apply Ok_eq in H. subst c'. right. split; [reflexivity|].
  cbn [set_wm c_wm]. unfold wm_remove_pending. apply wm_remove_unspec.
Qed.

Lemma do_ract_u : forall e a c c', do_ract e a c = Ok c' -> ukeeps c c'.
Proof.
  intros e a c c' H. destruct a; cbn [do_ract] in H.
  - destruct (e_wids e) as [|id [|]]; try discriminate. unfold write_memory in H.
    apply bind_ok in H. destruct H as [w [_ H]]. apply bind_ok in H. destruct H as [[[w' r']|] [H1 H]]; [|discriminate].
    apply lift_ok in H1. unfold wm_start in H1. apply bind_ok in H1. destruct H1 as [m [_ H1]].
    destruct (mw_value m); [|discriminate]. destruct (mw_ram m); [discriminate|].
    destruct (ram_write _ _ _) as [[r1 rid]|]; [|discriminate]. apply Ok_eq in H1. inversion H1; subst w' r'.
    cbv zeta in H. destruct (check_write _ _) as [d i]. apply Ok_eq in H. subst c'. left. split; reflexivity.
  - unfold do_jump in H. destruct (rget (e_wrat e) (LR PC)); [|discriminate].
    destruct (rget (e_rrat e) (LR PC)); [|discriminate]. destruct (get_preg c n); [|discriminate].
    destruct (nth_error (c_regs c) n0); [|discriminate]. destruct (negb (p_ready p)); [discriminate|].
    destruct (c_pred c); [discriminate|]. cbv zeta in H. destruct (Z.eqb z0 (u64 z)).
    + apply Ok_eq in H. subst c'. left. split; reflexivity.
    + exact (unroll_u _ _ _ H).
  - apply bind_ok in H. destruct H as [f [_ H]]. apply Ok_eq in H. subst c'. left. split; reflexivity.
  - destruct (get_char (c_in c)) as [[ch rest]|]; [|discriminate].
    apply bind_ok in H. destruct H as [f [_ H]]. apply Ok_eq in H. subst c'. left. split; reflexivity.
  - apply Ok_eq in H. subst c'. left. split; reflexivity.
  - apply Ok_eq in H. subst c'. left. split; reflexivity.
  - exact (unroll_u _ _ _ H).
  - apply Ok_eq in H. subst c'. left. split; reflexivity.
  - apply Ok_eq in H. subst c'. left. split; reflexivity.
Qed.

Lemma do_racts_u : forall e l c c', do_racts e l c = Ok c' -> ukeeps c c'.
Proof.
  induction l as [|a l IH]; intros c c' H; cbn [do_racts] in H.
  - apply Ok_eq in H. subst. left. split; reflexivity.
  - apply bind_ok in H. destruct H as [c1 [H1 H]]. eapply ukeeps_trans; [eapply do_ract_u; eauto|eauto].
Qed.

Lemma retire_entry_u : forall e c c', retire_entry c e = Ok c' -> ukeeps c c'.
Proof.
  intros e c c' H. unfold retire_entry in H. apply bind_ok in H. destruct H as [vs [_ H]].
  apply bind_ok in H. destruct H as [acts [_ H]]. apply bind_ok in H. destruct H as [c1 [H1 H]].
  apply do_racts_u in H1. destruct (e_exn e); [discriminate|].
  apply bind_ok in H. destruct H as [c2 [H2 H]]. apply bind_ok in H. destruct H as [f [H3 H]]. apply Ok_eq in H. subst c'.
  eapply ukeeps_trans; [exact H1|]. destruct (c_trap c1).
  - apply bind_ok in H2. destruct H2 as [c3 [H2 H4]]. apply Ok_eq in H4. subst c2.
    exact (unroll_u _ _ _ H2).
  - destruct (negb (Z.eqb (c_int c1) 0)).
    + exact (unroll_u _ _ _ H2).
    + apply Ok_eq in H2. subst. left. split; reflexivity.
Qed.

Lemma retire_loop_L : forall n c c', L c -> retire_loop n c = Ok c' -> L c'.
Proof.
  induction n as [|n IH]; intros c c' HL H; cbn [retire_loop] in H.
  - apply Ok_eq in H. now subst.
  - destruct (c_rs c) as [|e es] eqn:Hrs; [apply Ok_eq in H; now subst|].
    destruct (e_state e) eqn:Hst; try (apply Ok_eq in H; now subst).
    apply bind_ok in H. destruct H as [c1 [H1 H]]. apply retire_entry_u in H1.
    apply (IH c1 c'); [|exact H]. clear IH H. destruct HL as [Ho He]. rewrite Hrs in Ho, He.
    destruct H1 as [[A B]|[A B]]; unfold L; rewrite A; cbn [set_rs c_rs c_wm] in *.
    + inversion He; subst. split; [|assumption]. intros id Hid. rewrite B in Hid.
      destruct (Ho id Hid) as [x [[->|Hx] [Hs Hw]]]; [congruence|]. eauto.
    + split; [|constructor]. intros id Hid. rewrite B in Hid. destruct Hid.
Qed.

(** ---- fetching operands ---- *)

Lemma supply_nomem : forall m o v o', supply m o v = Ok o' -> is_memory o = false -> is_memory o' = false.
Proof.
  intros m o v o' H Hm. destruct o; cbn [supply is_memory] in *; try discriminate;
  repeat (apply bind_ok in H; destruct H as [? [_ H]]); apply Ok_eq in H; subst; reflexivity.
Qed.

Lemma fetch_op_weight : forall E g f w t mx n r x o r' x' o', fetch_op n E g f w t mx r x o = Ok (r', x', o') ->
  weight o' <= weight o /\ (is_memory o = false -> is_memory o' = false) /\ (weight o' = weight o -> o' = o).
Proof.
  induction n as [|n IH]; intros r x o r' x' o' H; [discriminate H|]. cbn [fetch_op] in H.
  assert (Hstep : forall v o1 r1 x1, supply (e_mode E) o v = Ok o1 -> fetch_op n E g f w t mx r1 x1 o1 = Ok (r', x', o') ->
    weight o' <= weight o /\ (is_memory o = false -> is_memory o' = false) /\ (weight o' = weight o -> o' = o)).
  { intros v o1 r1 x1 Hs Hf. apply IH in Hf. destruct Hf as [F1 [F2 _]]. pose proof (supply_weight _ _ _ _ Hs) as Hw.
    split; [lia|]. split; [|lia]. intros Hm. apply F2. eapply supply_nomem; eauto. }
  assert (Hstop : forall r1 x1, Ok (r1, x1, o) = (Ok (r', x', o') : res unit _) ->
    weight o' <= weight o /\ (is_memory o = false -> is_memory o' = false) /\ (weight o' = weight o -> o' = o)).
  { intros r1 x1 H0. apply Ok_eq in H0. inversion H0; subst. auto. }
  destruct (requirement o) as [[rg|k|a]|]; [| | |eauto].
  - apply bind_ok in H. destruct H as [[v|] [_ H]].
    + apply bind_ok in H. destruct H as [o1 [H2 H]]. eauto.
    + apply bind_ok in H. destruct H as [u [_ H]]. eauto.
  - apply bind_ok in H. destruct H as [[v|] [_ H]]; [|eauto].
    apply bind_ok in H. destruct H as [o1 [H2 H]]. eauto.
  - apply bind_ok in H. destruct H as [[r1 v] [_ H]].
    destruct v as [v| |]; [| |]; [|eauto|]; apply bind_ok in H; destruct H as [o1 [H2 H]]; eauto.
Qed.

Lemma fetch_ops_weight : forall E g f w t mx os r x r' x' os', fetch_ops E g f w t mx r x os = Ok (r', x', os') ->
  sumw os' <= sumw os /\ (nomem os = true -> nomem os' = true) /\ (sumw os' = sumw os -> os' = os).
Proof.
  induction os as [|o os IH]; intros r x r' x' os' H; cbn [fetch_ops] in H.
  - apply Ok_eq in H. inversion H; subst. auto.
  - apply bind_ok in H. destruct H as [[[r1 x1] o1] [H1 H]]. apply bind_ok in H. destruct H as [[[r2 x2] os2] [H2 H]].
    apply Ok_eq in H. inversion H; subst r2 x2 os'. clear H.
    apply fetch_op_weight in H1. apply IH in H2. destruct H1 as [A1 [A2 A3]], H2 as [B1 [B2 B3]].
    change (sumw (o1 :: os2)) with (weight o1 + sumw os2). change (sumw (o :: os)) with (weight o + sumw os).
    split; [lia|]. split.
    + unfold nomem in *. cbn [forallb]. intros H. apply andb_prop in H. destruct H as [Ha Hb].
      apply negb_true_iff in Ha. now rewrite (A2 Ha), (B2 Hb).
    + intros He. rewrite A3, B3 by lia. reflexivity.
Qed.

Lemma poll_entry_L : forall E g f w r a e r' a' e', poll_entry E g f w r a e = Ok (r', a', e') ->
  same e e' /\ (elive e -> elive e') /\ (e_state e <> Retiring -> e_state e' <> Retiring).
Proof.
  intros E g f w r a e r' a' e' H. unfold poll_entry in H.
  assert (Hsame : Ok (r, a, e) = (Ok (r', a', e') : res unit _) ->
    same e e' /\ (elive e -> elive e') /\ (e_state e <> Retiring -> e_state e' <> Retiring)).
  { intros H0. apply Ok_eq in H0. inversion H0; subst. unfold same. auto 9. }
  assert (Hgo : forall r1 a1, Ok (r1, a1, set_ops e (e_ops e) Executing (e_time e) (e_exn e)) = (Ok (r', a', e') : res unit _) ->
    same e e' /\ (elive e -> elive e') /\ (e_state e <> Retiring -> e_state e' <> Retiring)).
  { intros r1 a1 H0. apply Ok_eq in H0. inversion H0; subst. split; [apply same_set_ops|]. split; [auto|discriminate]. }
  destruct (e_state e) eqn:Hst; try (now apply Hsame).
  - apply bind_ok in H. destruct H as [[[r1 x1] o1] [H1 H]]. apply Ok_eq in H. inversion H; subst r' a' e'.
    apply fetch_ops_weight in H1. destruct H1 as [A1 [A2 _]]. split; [apply same_set_ops|]. split.
    + intros [L1 [L2 L3]]. unfold elive. cbn [set_ops e_time e_ins e_ops]. split; [exact L1|]. split; [|lia].
      destruct L2; auto.
    + intros _. cbn [set_ops e_state]. destruct (all_fetched o1); discriminate.
  - destruct (needs_alu (e_ins e)); [destruct a|]; eauto.
Qed.

Lemma poll_loop_L : forall E g f w es d r a r' a' es', poll_loop E g f w r a es = Ok (r', a', es') ->
  owned_ids w (d ++ es) -> Forall elive es -> owned_ids w (d ++ es') /\ Forall elive es'.
Proof.
  induction es as [|e es IH]; intros d r a r' a' es' H Ho He; cbn [poll_loop] in H.
  - apply Ok_eq in H. inversion H; subst. auto.
  - apply bind_ok in H. destruct H as [[[r1 a1] e1] [H1 H]]. apply bind_ok in H.
    destruct H as [[[r2 a2] es2] [H2 H]]. apply Ok_eq in H. inversion H; subst r2 a2 es'. clear H.
    inversion He; subst. destruct (poll_entry_L _ _ _ _ _ _ _ _ _ _ H1) as [[J1 [_ [_ [J2 _]]]] [I3 I4]].
    assert (Ho1 : owned_ids w ((d ++ [e1]) ++ es)).
    { intros id Hid. destruct (Ho id Hid) as [x [Hx [Hs [Hw Hm]]]]. rewrite <- app_assoc. cbn [app].
      apply in_mid in Hx. destruct Hx as [->|Hx].
      - exists e1. split; [apply in_mid; now left|]. rewrite J1, J2. auto.
      - exists x. split; [apply in_mid; now right|auto]. }
    destruct (IH (d ++ [e1]) _ _ _ _ _ H2 Ho1 H4) as [K1 K2]. rewrite <- app_assoc in K1. cbn [app] in K1.
    split; [exact K1|]. constructor; auto.
Qed.

(** ---- adding ---- *)

Lemma rename_frame : forall c l c', rename c l = Ok c' -> c_wm c' = c_wm c /\ c_rs c' = c_rs c /\ c_ram c' = c_ram c /\ c_alus c' = c_alus c.
Proof.
  intros c l c' H. unfold rename in H. destruct (next_free_from _ _ _); [|discriminate]. destruct (negb _); [discriminate|].
  apply bind_ok in H. destruct H as [f1 [_ H]]. apply bind_ok in H. destruct H as [f2 [_ H]].
  apply bind_ok in H. destruct H as [f3 [_ H]]. apply Ok_eq in H. subst. repeat split.
Qed.

Lemma add_products_frame : forall ps c ids c' ids', add_products c ids ps = Ok (c', ids') ->
  wm_prods (c_wm c) ids ps = (c_wm c', ids') /\ c_rs c' = c_rs c /\ c_ram c' = c_ram c /\ c_alus c' = c_alus c.
Proof.
  induction ps as [|[l|a|] ps IH]; intros c ids c' ids' H; cbn [add_products wm_prods] in *.
  - apply Ok_eq in H. inversion H; subst. auto.
  - destruct (is_pc l); [eauto|]. apply bind_ok in H. destruct H as [c1 [H1 H]]. apply rename_frame in H1.
    apply IH in H. destruct H1 as [A [B [C D]]]. now rewrite A, B, C, D in H.
  - destruct (wm_register_at (c_wm c) a) as [w id]. apply IH in H. exact H.
  - destruct (wm_register (c_wm c)) as [w id]. apply IH in H. exact H.
Qed.

(** the new entry *)
Record added (c : cpu) (i : instr) (c' : cpu) (e : entry) : Prop := mkAdded {
  ad_rs : c_rs c' = c_rs c ++ [e];
  ad_wm : exists ps, produces i = Some ps /\ wm_prods (c_wm c) [] ps = (c_wm c', e_wids e);
  ad_ram : c_ram c' = c_ram c;
  ad_alus : c_alus c' = c_alus c;
  ad_ins : e_ins e = i;
  ad_ops : operands i = Some (e_ops e);
  ad_state : e_state e = Ready \/ e_state e = Preparing;
  ad_time : e_time e = exec_length i
}.

Lemma add_frame : forall c i pc c', add c i pc = Ok c' -> exists e, added c i c' e.
Proof.
  intros c i pc c' H. unfold add in H. destruct (negb _); [discriminate|].
  apply bind_ok in H. destruct H as [c1 [H1 H]]. apply bind_ok in H. destruct H as [c2 [H2 H]].
  apply rename_frame in H1. destruct H1 as [A1 [B1 [C1 D1]]].
  assert (F2 : c_wm c2 = c_wm c1 /\ c_rs c2 = c_rs c1 /\ c_ram c2 = c_ram c1 /\ c_alus c2 = c_alus c1).
  { unfold set_lreg in H2. destruct (rget (c_rat c1) (LR PC)); [|discriminate]. destruct (pset _ _ _); [|discriminate].
    apply Ok_eq in H2. subst. repeat split. }
  destruct F2 as [A2 [B2 [C2 D2]]]. cbv zeta in H. apply bind_ok in H. destruct H as [f2 [_ H]].
  destruct (produces i) as [ps|] eqn:Hps; [|discriminate]. apply bind_ok in H. destruct H as [[c4 ids] [H4 H]].
  apply bind_ok in H. destruct H as [f4 [_ H]]. destruct (operands i) as [ops|] eqn:Hos; [|discriminate].
  apply Ok_eq in H. subst c'. apply add_products_frame in H4. cbn [set_regs c_wm c_rs c_ram c_alus] in H4.
  destruct H4 as [A4 [B4 [C4 D4]]]. rewrite A2, A1 in A4.
  exists (mkEntry i ops (c_rat c2) (c_rat c4) ids (wm_cur (c_wm c4)) (if all_fetched ops then Ready else Preparing) (exec_length i) false).
  constructor; cbn [set_rs set_regs c_rs c_wm c_ram c_alus c_rat e_wids e_ins e_ops e_state e_time].
  - now rewrite B4, B2, B1.
  - exists ps. split; [exact Hps|exact A4].
  - congruence.
  - congruence.
  - reflexivity.
  - exact Hos.
  - destruct (all_fetched ops); auto.
  - reflexivity.
Qed.

Lemma exec_length_3 : forall i, exec_length i <= 3.
Proof. destruct i; cbn; try lia. destruct d; try lia. destruct v; lia. Qed.

Lemma addr_regs_2 : forall o rs, addr_regs o = Some rs -> length rs <= 2.
Proof. intros o rs H. destruct o; cbn in H; inversion H; subst; cbn; lia. Qed.

Lemma sumw_regs : forall rs, sumw (map OReg rs) = length rs.
Proof. induction rs as [|r rs IH]; [reflexivity|]. cbn [map length]. rewrite <- IH. reflexivity. Qed.

Lemma nomem_regs : forall rs, nomem (map OReg rs) = true.
Proof. induction rs as [|r rs IH]; [reflexivity|]. exact IH. Qed.

Lemma operands_live : forall i os, operands i = Some os -> (loads i = true \/ nomem os = true) /\ sumw os <= 5.
Proof.
  intros i os H.
  assert (Hd : forall v d, match addr_regs d with Some rs => Some (v :: map OReg rs) | None => None end = Some os ->
            (is_memory v = true \/ nomem os = true) /\ sumw os <= 5).
  { intros v d Hx. destruct (addr_regs d) as [rs|] eqn:Ha; [|discriminate]. inversion Hx; subst os.
    change (sumw (v :: map OReg rs)) with (weight v + sumw (map OReg rs)). rewrite sumw_regs.
    apply addr_regs_2 in Ha. pose proof (weight_3 v). split; [|lia].
    destruct (is_memory v) eqn:Hv; [now left|right]. cbn. rewrite Hv. apply nomem_regs. }
  assert (Hl : forall d, match addr_regs d with Some rs => Some (map OReg rs) | None => None end = Some os ->
            nomem os = true /\ sumw os <= 5).
  { intros d Hx. destruct (addr_regs d) as [rs|] eqn:Ha; [|discriminate]. inversion Hx; subst os.
    rewrite sumw_regs. apply addr_regs_2 in Ha. split; [apply nomem_regs|lia]. }
  assert (H1 : forall v pre post, os = pre ++ v :: post -> nomem pre = true -> nomem post = true -> sumw pre + sumw post <= 2 ->
            (is_memory v = true \/ nomem os = true) /\ sumw os <= 5).
  { intros v pre post -> N1 N2 Hs. rewrite sumw_app. change (sumw (v :: post)) with (weight v + sumw post).
    pose proof (weight_3 v). split; [|lia]. destruct (is_memory v) eqn:Hv; [now left|right].
    unfold nomem in *. rewrite forallb_app, N1. cbn. now rewrite Hv, N2. }
  destruct i; cbn [operands loads] in *; try (inversion H; subst os; cbn; split; [auto|lia]; fail).
  - inversion H; subst os. apply (H1 v [OReg r] []); cbn; auto.
  - inversion H; subst os. apply (H1 v [OFReg f] []); cbn; auto.
  - assert (Hv : Some [v] = Some os -> (is_memory v = true \/ nomem os = true) /\ sumw os <= 5).
    { intros Hx. inversion Hx; subst os. apply (H1 v [] []); cbn; auto. }
    destruct d; try exact (Hv H); match type of H with context [addr_regs ?x] => exact (Hd v x H) end.
  - destruct m; try discriminate H; match type of H with context [addr_regs ?x] => destruct (Hl x H); auto end.
  - inversion H; subst os. apply (H1 v [OReg r] []); cbn; auto.
  - inversion H; subst os. apply (H1 v [OFReg f] []); cbn; auto.
  - inversion H; subst os. apply (H1 a [] []); cbn; auto.
  - inversion H; subst os. apply (H1 a [OReg r] []); cbn; auto.
  - inversion H; subst os. apply (H1 a [] [OReg Flags]); cbn; auto.
  - inversion H; subst os. apply (H1 a [] [OReg PC; OReg SP]); cbn; auto.
  - inversion H; subst os. apply (H1 v [] [OReg SP]); cbn; auto.
  - inversion H; subst os. apply (H1 v [] [OReg SP]); cbn; auto.
Qed.

Lemma added_elive : forall c i c' e, added c i c' e -> elive e.
Proof.
  intros c i c' e [A1 A2 A3 A4 A5 A6 A7 A8]. apply operands_live in A6. destruct A6 as [H1 H2].
  unfold elive. rewrite A8, A5. pose proof (exec_length_3 i). auto.
Qed.

Lemma added_L : forall c i c' e, added c i c' e -> L c -> L c'.
Proof.
  intros c i c' e Ha [Ho He]. pose proof (added_elive _ _ _ _ Ha) as Hn.
  destruct Ha as [A1 [ps [A2 A2']] A3 A4 A5 A6 A7 A8]. split; rewrite A1.
  - rewrite (wm_prods_eq _ _ _ A2) in A2'.
    assert (Hst : e_state e <> Retiring) by (destruct A7; congruence).
    assert (Hold : forall id, In id (wm_unspec (c_wm c)) -> exists x, In x (c_rs c ++ [e]) /\ e_state x <> Retiring /\
              In id (e_wids x) /\ mem_prod (e_ins x) = Some None).
    { intros id Hid. destruct (Ho id Hid) as [x [Hx Hr]]. exists x. split; [apply in_or_app; now left|exact Hr]. }
    intros id Hid. destruct (prod_mem ps) as [[a|]|] eqn:Hm.
    + apply Hold. assert (c_wm c' = wm_insert (c_wm c) (wm_cur (c_wm c) + 1) a (wm_unspec (c_wm c)) (wm_cur (c_wm c) + 1))%Z
        by congruence. rewrite H in Hid. now rewrite wm_insert_unspec in Hid.
    + assert (Hu : wm_unspec (c_wm c') = (wm_cur (c_wm c) + 1 :: wm_unspec (c_wm c))%Z).
      { assert (Hx : c_wm c' = mkWm (wm_cur (c_wm c) + 1)%Z (wm_map (c_wm c)) (wm_byid (c_wm c)) (wm_cur (c_wm c) + 1 :: wm_unspec (c_wm c))%Z)
          by congruence. now rewrite Hx. }
      rewrite Hu in Hid. destruct Hid as [<-|Hid]; [|auto]. exists e. split; [apply in_or_app; right; now left|].
      split; [exact Hst|]. split; [|rewrite A5; unfold mem_prod; now rewrite A2].
      assert (Hw : e_wids e = [(wm_cur (c_wm c) + 1)%Z]) by congruence. rewrite Hw. now left.
    + apply Hold. assert (Hx : c_wm c' = c_wm c) by congruence. now rewrite Hx in Hid.
  - apply Forall_app. auto.
Qed.

(** ---- a whole tick keeps it ---- *)

Lemma exec_state_L : forall E A c x, Inv E A c -> L c -> exec_phase E c = Ok x -> L (exec_state c x).
Proof.
  intros E A c [[[f w] a] es] [_ [_ [_ [den [role HJ]]]]] [Ho He] H. unfold exec_phase in H.
  pose proof (entries_wf _ _ _ _ (j_ent _ _ _ _ _ _ _ HJ)) as Hwf.
  apply (exec_loop_L _ _ [] _ _ _ _ _ _ _ H Hwf) in He; [|].
  - exact He.
  - intros id Hid. unfold wm_remove_finished in Hid. rewrite wm_remove_unspec in Hid. exact (Ho id Hid).
Qed.

Lemma tick_front_frame : forall c, c_rs (tick_front c) = c_rs c /\ c_wm (tick_front c) = c_wm c /\
  c_ram (tick_front c) = c_ram c /\ c_alus (tick_front c) = c_alus c /\ c_cfg (tick_front c) = c_cfg c /\
  c_halted (tick_front c) = c_halted c /\ c_prog (tick_front c) = c_prog c.
Proof.
  intros c. unfold tick_front.
  set (c1 := match c_decode c with None => set_front c (c_spec c) None (c_fetch c) (c_pred c) | Some _ => c end).
  assert (H1 : c_rs c1 = c_rs c /\ c_wm c1 = c_wm c /\ c_ram c1 = c_ram c /\ c_alus c1 = c_alus c /\
    c_cfg c1 = c_cfg c /\ c_halted c1 = c_halted c /\ c_prog c1 = c_prog c).
  { unfold c1. destruct (c_decode c); repeat split. }
  clearbody c1. destruct H1 as [<- [<- [<- [<- [<- [<- <-]]]]]]. destruct (c_fetch c1); [repeat split|].
  unfold fetch. destruct (jump_dest _); repeat split.
Qed.

Lemma decode_L : forall c c', L c -> tick_decode c = Ok c' -> L c'.
Proof.
  intros c c' HL H. unfold tick_decode in H. destruct (c_decode c) as [[i pc]|]; [|apply Ok_eq in H; now subst].
  destruct (_ <? _); [|apply Ok_eq in H; now subst]. apply bind_ok in H. destruct H as [c1 [H1 H]].
  apply Ok_eq in H. subst c'. destruct (add_frame _ _ _ _ H1) as [e Ha].
  exact (added_L _ _ _ _ Ha HL).
Qed.

Lemma front_L : forall c, L c -> L (tick_front c).
Proof. intros c H. unfold L. destruct (tick_front_frame c) as [-> [-> _]]. exact H. Qed.

Lemma tick_L : forall E A c c', Inv E A c -> L c -> tick E c = Ok c' -> L c'.
Proof.
  intros E A c c' HI HL H. unfold tick in H. apply bind_ok in H. destruct H as [c2 [H2 H]].
  assert (L2 : L c2).
  { rewrite tick_retire_eq in H2. apply bind_ok in H2. destruct H2 as [x [Hx H2]]. apply lift_ok in Hx.
    eapply retire_loop_L; [|exact H2]. eapply exec_state_L; eauto. }
  destruct (c_halted c2); [apply Ok_eq in H; now subst|]. cbv zeta in H. fold (stop_state c2) in H.
  assert (L3 : L (stop_state c2)) by (unfold stop_state; destruct (c_single c2); exact L2).
  destruct (negb _); [apply Ok_eq in H; now subst|].
  apply bind_ok in H. destruct H as [[[r a] es] [Hpo H]]. apply lift_ok in Hpo.
  apply bind_ok in H. destruct H as [c5 [H5 H]]. apply Ok_eq in H. subst c'. apply front_L.
  eapply decode_L; [|exact H5]. destruct L3 as [Ho He].
  exact (poll_loop_L _ _ _ _ _ [] _ _ _ _ _ Hpo Ho He).
Qed.

Lemma rest_L : forall c, c_rs c = [] -> wm_unspec (c_wm c) = [] -> L c.
Proof. intros c H1 H2. unfold L. rewrite H1. split; [|constructor]. intros id Hid. rewrite H2 in Hid. destruct Hid. Qed.
