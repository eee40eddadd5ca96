(** L6: one clock tick, and any number of them, make in-order steps. *)
From Coq Require Import ZArith NArith List Bool Sorted Lia.
From Verif Require Import Base Alu Isa Exec Ram Writes Rat Cpu LiveSpec InOrder PipeInv PipeBasics PipeActs PipeMem
  PipeExec PipePoll PipeRetire PipeAdd.
Import ListNotations.
Open Scope Z_scope.

Lemma fpath_gpc : forall p l pc spec, fpath p pc l spec -> gpc pc (map fst l) = spec.
Proof.
  induction l as [|[i n] l IH]; intros pc spec H; cbn in *; [exact H|]. destruct H as [_ [_ H]]. auto.
Qed.

Lemma fpath_snoc : forall p l pc spec, fpath p pc l spec ->
  fpath p pc (l ++ [(prog_at p spec, u64 (spec + 1))]) (guess (prog_at p spec) spec).
Proof.
  induction l as [|[i n] l IH]; intros pc spec H; cbn in *.
  - subst pc. auto.
  - destruct H as [H1 [H2 H3]]. auto.
Qed.

Lemma fetch_inv : forall E den role A c, J E den role [] [] A c -> c_fetch c = None ->
  J E den role [] [] A (fetch c) /\ exists sp fe pr, fetch c = set_front c sp fe (c_decode c) pr.
Proof.
  intros E den role A c [Jp Je Jr Jw Jm Ja Jl Jo Ji] Hf.
  destruct Jp as [P1 P2 P3 P4].
  assert (Hx : fetch c = set_front c (guess (prog_at (c_prog c) (c_spec c)) (c_spec c))
      (Some (prog_at (c_prog c) (c_spec c), u64 (c_spec c + 1))) (c_decode c)
      (c_pred c ++ gpreds (c_spec c) [prog_at (c_prog c) (c_spec c)])).
  { unfold fetch, guess. cbn [gpreds]. unfold guess. destruct (jump_dest (prog_at (c_prog c) (c_spec c))); cbn.
    - reflexivity.
    - now rewrite app_nil_r. }
  rewrite Hx. split; [|eauto].
  assert (Hfr : front (set_front c (guess (prog_at (c_prog c) (c_spec c)) (c_spec c))
      (Some (prog_at (c_prog c) (c_spec c), u64 (c_spec c + 1))) (c_decode c)
      (c_pred c ++ gpreds (c_spec c) [prog_at (c_prog c) (c_spec c)])) =
      front c ++ [(prog_at (c_prog c) (c_spec c), u64 (c_spec c + 1))]).
  { unfold front. cbn [set_front c_decode c_fetch]. rewrite Hf. cbn [optl]. now rewrite app_nil_r. }
  constructor; auto. constructor; rewrite ?Hfr; cbn [set_front c_prog c_rs c_spec c_pred]; auto.
  - now apply fpath_snoc.
  - rewrite P2. cbn [app]. rewrite map_app, app_assoc, (gpreds_app (map e_ins (c_rs c) ++ map fst (front c))). f_equal. cbn [map fst].
    rewrite gpc_app. f_equal. symmetry. now apply fpath_gpc with (p := c_prog c).
Qed.

Lemma tick_front_inv : forall E den role A c, J E den role [] [] A c ->
  J E den role [] [] A (tick_front c) /\ exists sp fe de pr, tick_front c = set_front c sp fe de pr.
Proof.
  intros E den role A c HJ. unfold tick_front.
  set (c1 := match c_decode c with None => set_front c (c_spec c) None (c_fetch c) (c_pred c) | Some _ => c end).
  assert (H1 : J E den role [] [] A c1 /\ exists fe de, c1 = set_front c (c_spec c) fe de (c_pred c)).
  { unfold c1. destruct (c_decode c) eqn:Hd.
    - split; [exact HJ|]. exists (c_fetch c), (c_decode c). now destruct c.
    - split; [|eauto]. destruct HJ as [[P1 P2 P3 P4] Je Jr Jw Jm Ja Jl Jo Ji].
      constructor; auto. unfold front in P1, P2. rewrite Hd in P1, P2. cbn [optl app] in P1, P2.
      constructor; unfold front; cbn [set_front c_prog c_rs c_spec c_pred c_decode c_fetch optl];
        rewrite ?app_nil_r; auto. }
  destruct H1 as [H1 [fe [de Hc1]]]. clearbody c1.
  destruct (c_fetch c1) eqn:Hf.
  - split; [exact H1|]. rewrite Hc1. eauto.
  - destruct (fetch_inv _ _ _ _ _ H1 Hf) as [H2 [sp [fe' [pr Hx]]]]. split; [exact H2|].
    rewrite Hx, Hc1. do 4 eexists. reflexivity.
Qed.

Lemma J_XI : forall E den role A c, J E den role [] [] A c ->
  XI E den role [] A (c_prog c) (c_rat c) (c_ram c) (g_alus (c_cfg c)) (c_regs c) (c_wm c) (c_alus c) (c_rs c).
Proof. intros E den role A c [Jp Je Jr Jw Jm Ja Jl Jo Ji]. now constructor. Qed.

Lemma path_ins : forall pp A c c', path_inv pp A c -> map e_ins (c_rs c') = map e_ins (c_rs c) ->
  c_prog c' = c_prog c -> c_spec c' = c_spec c -> c_fetch c' = c_fetch c -> c_decode c' = c_decode c ->
  c_pred c' = c_pred c -> path_inv pp A c'.
Proof.
  intros pp A c c' [P1 P2 P3 P4] Hi E1 E2 E3 E4 E5. constructor; unfold front in *;
    rewrite ?Hi, ?E1, ?E2, ?E3, ?E4, ?E5; auto.
Qed.

(** what one tick does, in terms of the in-order machine *)
Record ticked (E : env) (A A' : arch) (is : list instr) (c c' : cpu) : Prop := mkTicked {
  td_Inv : Inv E A' c';
  td_run : exists n, io_run E (c_prog c) is A (c_dbg c, 0) A' (c_dbg c', n) /\
    c_int c' = (if negb (c_halted c') && c_trap c && negb (Nat.eqb (length is) 0) && (n =? 0) then 1 else n);
  td_rest : c_halted c' = true \/ c_int c' <> 0 -> at_rest A' c';
  td_prog : c_prog c' = c_prog c;
  td_cfg : c_cfg c' = c_cfg c;
  td_trap : c_trap c' = c_trap c;
  td_one : c_trap c = true -> (length is <= 1)%nat;
  td_count : length is = tick_count E c
}.

(** the state in which a tick starts retiring *)
Definition exec_state (c : cpu) (x : pfile * wman * nat * list entry) : cpu :=
  let '(f, w, a, es) := x in
  let r := ram_tick (c_ram c) in
  set_exec (set_stop (set_mem c r (wm_remove_finished (c_wm c) r)) (c_single c) 0) f w es a.

Definition exec_phase (E : env) (c : cpu) : res unit (pfile * wman * nat * list entry) :=
  exec_loop E (c_regs c) (wm_remove_finished (c_wm c) (ram_tick (c_ram c))) (c_alus c) (c_rs c).

Lemma tick_retire_eq : forall E c, tick_retire E c =
  let! x := lift (set_stop (set_mem c (ram_tick (c_ram c)) (wm_remove_finished (c_wm c) (ram_tick (c_ram c)))) (c_single c) 0)
              (exec_phase E c) in
  retire_loop (length (c_rs (exec_state c x))) (exec_state c x).
Proof.
  intros E c. unfold tick_retire, exec_phase. cbv zeta. cbn [set_stop set_mem c_regs c_wm c_alus c_rs].
  destruct (exec_loop _ _ _ _ _) as [[[[f w] a] es]| |]; reflexivity.
Qed.

Lemma exec_phase_inv : forall E A c x, Inv E A c -> exec_phase E c = Ok x ->
  exists den role, K E den role A (exec_state c x) /\ length (c_rs (exec_state c x)) = length (c_rs c).
Proof.
  intros E A c [[[f1 w1] a1] es1] [Ih [Ir [Is [den [role HJ]]]]] Hex. unfold exec_phase in Hex.
  exists den, role.
  pose proof (J_XI _ _ _ _ _ HJ) as [Xe Xr Xw Xm Xa].
  destruct (tick_mem_inv _ _ _ _ _ Xw Xm) as [Xw1 Xm1]. unfold exec_state. cbv zeta.
  set (r := ram_tick (c_ram c)) in *. set (w := wm_remove_finished (c_wm c) r) in *.
  set (c1 := set_stop (set_mem c r w) (c_single c) 0) in *.
  assert (X1 : XI E den role [] A (c_prog c) (c_rat c) r (g_alus (c_cfg c)) (c_regs c) w (c_alus c) ([] ++ c_rs c))
    by (constructor; auto).
  pose proof (exec_loop_inv _ _ _ _ _ _ _ _ _ _ _ _ _ _ _ _ _ _ X1 Hex) as X2. cbn [app] in X2.
  destruct (exec_loop_length _ _ _ _ _ _ _ _ _ Hex) as [Hl1 Hi1]. split; [|exact Hl1].
  destruct X2 as [Ye Yr Yw Ym Ya]. constructor.
  - destruct HJ as [Jp Je Jr Jw Jm Ja Jl Jo Ji]. constructor; auto.
    + eapply path_ins; [exact Jp| | | | | |]; try reflexivity. exact Hi1.
    + cbn. rewrite Hl1. exact Jl.
  - exact Ih.
  - intros Hs. cbn [set_exec c1 set_stop set_mem] in Hs.
    assert (Hh : c_halted c = true).
    { destruct Hs as [Hs|[Hs|Hs]]; cbn in Hs.
      - exact Hs.
      - destruct (c_halted c) eqn:Hc; [reflexivity|]. specialize (Is eq_refl). congruence.
      - congruence. }
    destruct (Ir Hh) as [R1 [R2 [R3 [R4 [R5 [R6 [R7 [R8 [R9 R10]]]]]]]]].
    rewrite R1 in Hex. cbn in Hex. apply Ok_eq in Hex. inversion Hex; subst.
    unfold at_rest. cbn [set_exec c1 set_stop set_mem c_rs c_decode c_fetch c_pred c_spec c_ram c_out c_in].
    repeat (split; [assumption||reflexivity|]). exact R10.
Qed.

(** executing and retiring *)
Record retired (E : env) (den : nat -> Z) (role : nat -> lreg) (A A' : arch) (is : list instr) (c c2 : cpu) : Prop := mkRetired {
  rd_run : io_run E (c_prog c) is A (c_dbg c, 0) A' (c_dbg c2, c_int c2);
  rd_K : K E den role A' c2;
  rd_prog : c_prog c2 = c_prog c;
  rd_cfg : c_cfg c2 = c_cfg c;
  rd_trap : c_trap c2 = c_trap c;
  rd_single : c_single c2 = c_single c || (c_trap c && negb (Nat.eqb (length is) 0));
  rd_one : c_trap c = true -> (length is <= 1)%nat;
  rd_none : c_rs c = [] -> is = [];
  rd_count : length is = tick_count E c
}.

Lemma tick_retire_inv : forall E A c c2, Inv E A c -> tick_retire E c = Ok c2 ->
  exists den role is A', retired E den role A A' is c c2 /\ (c_halted c2 = false -> c_halted c = false).
Proof.
  intros E A c c2 HI H2. rewrite tick_retire_eq in H2. apply bind_ok in H2. destruct H2 as [x [Hex H2]]. apply lift_ok in Hex.
  destruct (exec_phase_inv _ _ _ _ HI Hex) as [den [role [K1 Hl1]]].
  destruct HI as [Ih [Ir [Is _]]].
  destruct (retire_loop_inv _ _ _ _ _ _ _ K1 H2) as [is [A' [I1 [I2 [I3 [I4 [I5 [I6 [I7 [I8 I9]]]]]]]]]].
  destruct x as [[[f1 w1] a1] es1]. unfold exec_state in *. cbv zeta in *.
  cbn [set_exec set_stop set_mem c_prog c_dbg c_int c_cfg c_trap c_single c_rs] in *.
  assert (Hn : c_rs c = [] -> es1 = []) by (intros Hrs; rewrite Hrs in Hl1; now destruct es1).
  exists den, role, is, A'. split.
  - constructor; auto. rewrite I9. unfold tick_count, exec_phase in *. cbv zeta.
    cbn [set_stop set_mem c_regs c_wm c_alus c_rs]. now rewrite Hex.
  - intros Hh2. destruct (c_halted c) eqn:Hc; [|reflexivity]. exfalso.
    assert (Hrs : c_rs c = []) by (apply Ir; reflexivity). specialize (Hn Hrs). subst es1.
    cbn in H2. apply Ok_eq in H2. subst c2. cbn in Hh2. congruence.
Qed.

(** the state in which a tick goes on if nothing stopped the machine *)
Definition stop_state (c2 : cpu) : cpu :=
  if c_single c2 then set_stop c2 false (if c_int c2 =? 0 then 1 else c_int c2) else c2.

Lemma stop_state_inv : forall E den role A c2, K E den role A c2 ->
  J E den role [] [] A (stop_state c2) /\ c_halted (stop_state c2) = c_halted c2 /\
  c_single (stop_state c2) = false /\ c_prog (stop_state c2) = c_prog c2 /\
  c_cfg (stop_state c2) = c_cfg c2 /\ c_trap (stop_state c2) = c_trap c2 /\
  c_dbg (stop_state c2) = c_dbg c2 /\ (c_int (stop_state c2) <> 0 -> at_rest A (stop_state c2)).
Proof.
  intros E den role A c2 I2. unfold stop_state.
  destruct (c_single c2) eqn:Hs2; cbn [set_stop c_halted c_single c_prog c_cfg c_trap c_dbg].
  - pose proof (k_J _ _ _ _ _ I2) as [Q1 Q2 Q3 Q4 Q5 Q6 Q7 Q8 Q9]. split.
    { constructor; auto. destruct Q1; constructor; auto. }
    do 6 (split; [auto|]). intros _. apply (k_stop _ _ _ _ _ I2). right. now left.
  - split; [apply (k_J _ _ _ _ _ I2)|]. do 6 (split; [auto|]). intros Hi.
    apply (k_stop _ _ _ _ _ I2). right. now right.
Qed.

Lemma poll_phase_inv : forall E den role A c g r a es, J E den role [] [] A c ->
  poll_loop E g (c_regs c) (c_wm c) (c_ram c) (c_alus c) (c_rs c) = Ok (r, a, es) ->
  J E den role [] [] A (set_polled c r es a).
Proof.
  intros E den role A c g r4 a4 es4 J3 Hpo.
  pose proof (J_XI _ _ _ _ _ J3) as X3.
  pose proof (poll_loop_inv _ _ _ _ _ _ _ _ _ _ _ _ _ _ [] _ _ _ X3 Hpo) as [Ye Yr Yw Ym Ya].
  destruct (poll_loop_length _ _ _ _ _ _ _ _ _ _ Hpo) as [Hl4 Hi4]. cbn [app] in *.
  destruct J3 as [Jp Je Jr Jw Jm Ja Jl Jo Ji]. constructor; auto.
  - eapply path_ins; [exact Jp| | | | | |]; try reflexivity. exact Hi4.
  - cbn. rewrite Hl4. exact Jl.
Qed.

(** the whole tick *)
Lemma tick_inv : forall E A c c', Inv E A c -> tick E c = Ok c' -> exists is A', ticked E A A' is c c'.
Proof.
  intros E A c c' HI H. unfold tick in H.
  apply bind_ok in H. destruct H as [c2 [H2 H]].
  destruct (tick_retire_inv _ _ _ _ HI H2) as [den [role [is [A' [[I1 I2 I3 I4 I5 I6 I7 I8 I9] Hh1]]]]].
  destruct HI as [Ih [Ir [Is _]]].
  exists is, A'.
  destruct (c_halted c2) eqn:Hh2.
  - (* halted *)
    apply Ok_eq in H. subst c'.
    assert (Hr : at_rest A' c2) by (apply (k_stop _ _ _ _ _ I2); now left).
    constructor; auto.
    + split; [rewrite Hh2, (k_halt _ _ _ _ _ I2); exact Hh2|]. split; [auto|]. split; [congruence|].
      exists den, role. apply (k_J _ _ _ _ _ I2).
    + exists (c_int c2). split; [exact I1|]. rewrite Hh2. reflexivity.
  - specialize (Hh1 eq_refl). specialize (Is Hh1). rewrite Is in I6. cbn [orb] in I6.
    cbv zeta in H. fold (stop_state c2) in H.
    assert (Hc3 : c_int (stop_state c2) = (if negb (c_halted c2) && c_trap c && negb (Nat.eqb (length is) 0) && (c_int c2 =? 0) then 1 else c_int c2)).
    { unfold stop_state. rewrite I6, Hh2. cbn [negb andb].
      destruct (c_trap c && negb (Nat.eqb (length is) 0)); cbn [andb set_stop c_int]; reflexivity. }
    destruct (stop_state_inv _ _ _ _ _ I2) as [J3 [Hh3 [Hs3 [Hp3 [Hg3 [Ht3 [Hd3 Hr3]]]]]]].
    set (c3 := stop_state c2) in *. clearbody c3. rewrite Hh2 in Hh3.
    assert (Hha : a_halted A' = false) by (rewrite (k_halt _ _ _ _ _ I2); exact Hh2).
    destruct (Z.eqb_spec (c_int c3) 0) as [Hi0|Hi0]; cbn [negb] in H.
    + (* running on *)
      apply bind_ok in H. destruct H as [[[r4 a4] es4] [Hpo H]]. apply lift_ok in Hpo.
      apply bind_ok in H. destruct H as [c5 [H5 H]]. apply Ok_eq in H. subst c'.
      pose proof (poll_phase_inv _ _ _ _ _ _ _ _ _ J3 Hpo) as J4.
      set (c4 := set_polled c3 r4 es4 a4) in *.
      assert (H6 : exists den' role', J E den' role' [] [] A' c5 /\ c_prog c5 = c_prog c3 /\ c_cfg c5 = c_cfg c3 /\
          c_trap c5 = c_trap c3 /\ c_single c5 = c_single c3 /\ c_halted c5 = c_halted c3 /\
          c_dbg c5 = c_dbg c3 /\ c_int c5 = c_int c3).
      { unfold tick_decode in H5. destruct (c_decode c4) as [[i pc]|] eqn:Hd.
        - destruct (length (c_rs c4) <? g_rs (c_cfg c4))%nat eqn:Hlt.
          + apply bind_ok in H5. destruct H5 as [c6 [H6 H7]]. apply Ok_eq in H7. subst c5.
            destruct (add_inv _ _ _ _ _ _ _ _ _ J4 Hd eq_refl H6) as [den' [role' [J5 F]]].
            exists den', role'. split; [exact J5|]. exact F.
          + apply Ok_eq in H5. subst c5. exists den, role. split; [exact J4|]. repeat split.
        - apply Ok_eq in H5. subst c5. exists den, role. split; [exact J4|]. repeat split. }
      destruct H6 as [den' [role' [J5 [F1 [F2 [F3 [F4 [F5 [F6 F7]]]]]]]]].
      destruct (tick_front_inv _ _ _ _ _ J5) as [J6 [sp [fe [de [pr Hx]]]]].
      assert (G : c_prog (tick_front c5) = c_prog c5 /\ c_cfg (tick_front c5) = c_cfg c5 /\ c_trap (tick_front c5) = c_trap c5 /\
        c_single (tick_front c5) = c_single c5 /\ c_halted (tick_front c5) = c_halted c5 /\ c_dbg (tick_front c5) = c_dbg c5 /\
        c_int (tick_front c5) = c_int c5) by (rewrite Hx; repeat split).
      destruct G as [G1 [G2 [G3 [G4 [G5 [G6 G7]]]]]].
      constructor.
      * split; [congruence|]. split; [congruence|]. split; [congruence|]. exists den', role'. exact J6.
      * exists (c_int c2). split; [rewrite G6, F6, Hd3; exact I1|]. rewrite G7, F7, Hc3, G5, F5, Hh3, Hh2. reflexivity.
      * intros [Hc|Hc]; congruence.
      * congruence.
      * congruence.
      * congruence.
      * exact I7.
      * exact I9.
    + apply Ok_eq in H. subst c'. constructor.
      * split; [congruence|]. split; [congruence|]. split; [congruence|]. exists den, role. exact J3.
      * exists (c_int c2). split; [rewrite Hd3; exact I1|]. rewrite Hc3, Hh3, Hh2. reflexivity.
      * auto.
      * congruence.
      * congruence.
      * congruence.
      * exact I7.
      * exact I9.
Qed.
