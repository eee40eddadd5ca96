(** L7: what the debugger changes in a stopped machine. *)
From Coq Require Import ZArith NArith List Bool Sorted Lia.
From Verif Require Import Base Alu Isa State Exec Ram Writes Rat Cpu InOrder PipeInv PipeBasics PipeActs PipeMem
  PipeExec PipePoll PipeRetire PipeAdd PipeTick PipeBoot PipeDom PipeRun IsaSpec Os DbgSpec.
Import ListNotations.
Open Scope Z_scope.

(** What is left of the invariant when nothing is in flight. *)
Record idle (A : arch) (c : cpu) : Prop := mkIdle {
  id_rs : c_rs c = []; id_dec : c_decode c = None; id_fet : c_fetch c = None; id_pred : c_pred c = [];
  id_spec : c_spec c = a_pc A; id_valid : valid_prog (c_prog c); id_pc : in_u64 (a_pc A);
  id_alus : c_alus c = g_alus (c_cfg c); id_out : a_out A = c_out c; id_in : a_in A = c_in c
}.

Lemma nil_mid : forall T (pre : list T) e post, [] = pre ++ e :: post -> False.
Proof. intros T pre e post H. destruct pre; discriminate. Qed.

Lemma idle_J : forall E den role A c, J E den role [] [] A c -> at_rest A c -> idle A c.
Proof.
  intros E den role A c [Jp Je Jr Jw Jm Ja Jl Jo Ji] [R1 [R2 [R3 [R4 [R5 _]]]]].
  rewrite R1 in Ja. unfold count_alus in Ja. cbn [filter length] in Ja. rewrite Nat.add_0_r in Ja.
  destruct Jp as [P1 P2 P3 P4]. constructor; auto.
Qed.

Lemma J_idle : forall E den role A c, idle A c ->
  regs_inv E den role [] A (c_regs c) (c_rat c) [] -> wm_inv E A (c_wm c) [] -> ram_inv A (c_wm c) (c_ram c) ->
  J E den role [] [] A c.
Proof.
  intros E den role A c [H1 H2 H3 H4 H5 H6 H7 H8 H9 H10] Hr Hw Hm.
  constructor; rewrite ?H1; auto.
  - constructor; auto.
    + unfold front. rewrite H1, H2, H3. cbn. now rewrite H5.
    + unfold front. rewrite H1, H2, H3, H4. reflexivity.
  - intros pre e post H. now apply nil_mid in H.
  - unfold count_alus. cbn [filter length]. lia.
  - cbn [length]. lia.
Qed.

Lemma wm_idle : forall E A A' w, wm_inv E A w [] -> wm_inv E A' w [].
Proof.
  intros E A A' w [W1 W2 W3 W4 W5 W6 W7 W8 W9]. constructor; auto;
    intros; exfalso; eapply nil_mid; eassumption.
Qed.

Lemma ram_same : forall A A' w r, ram_inv A w r -> (forall a, a_mem A' a = a_mem A a) -> ram_inv A' w r.
Proof. intros A A' w r [] H. constructor; auto. intros a. now rewrite H. Qed.

Lemma regs_nil : forall E den role A f t,
  table_ok den role t A ->
  (forall p r, nth_error f p = Some r -> p_ready r = true -> role p <> LR PC -> p_val r = den p) ->
  rdy_table f t [] ->
  (forall p r, nth_error f p = Some r -> p_subs r = occ p (tables [] t [])) ->
  regs_inv E den role [] A f t [].
Proof.
  intros E den role A f t H1 H2 H3 H4.
  constructor; auto; intros; exfalso; eapply nil_mid; eassumption.
Qed.

Definition pc_to (A : arch) (v : Z) : arch := set_pc A (u64 v).

(** A register other than the program counter. *)
Lemma poke_lreg_inv : forall E A c l v c', Inv E A c -> D c -> at_rest A c -> l <> LR PC ->
  set_lreg c l v = Ok c' -> Inv E (put A l v) c' /\ D c' /\ at_rest (put A l v) c' /\ lreg_ok (c_cfg c) l = true /\
  exists f, c' = set_regs c f.
Proof.
  intros E A c l v c' [I1 [I2 [I3 [den [role HJ]]]]] HD HR Hl H.
  pose proof (idle_J _ _ _ _ _ HJ HR) as Hid. unfold set_lreg in H.
  destruct (rget (c_rat c) l) as [p|] eqn:Hp; [|discriminate]. unfold pset in H.
  destruct (nth_error (c_regs c) p) as [r|] eqn:Hr; [|discriminate]. apply Ok_eq in H. subst c'.
  destruct HJ as [Jp Je Jr Jw Jm Ja Jl Jo Ji]. destruct HR as [R1 [R2 [R3 [R4 [R5 [R6 [R7 [R8 [R9 R10]]]]]]]]].
  rewrite R1 in *. destruct Jr as [_ _ Q3 _ _ Q6 _ _ Q9 Q10]. cbn [sfold fold_left] in Q3.
  assert (Hinj : forall k, rget (c_rat c) k = Some p -> k = l).
  { intros k Hk. destruct (Q3 _ _ Hk) as [E1 _]. destruct (Q3 _ _ Hp) as [E2 _]. congruence. }
  set (f := set_nth (c_regs c) p (mkPreg v true (p_subs r))).
  assert (Hf : forall q, nth_error f q = if Nat.eqb q p then Some (mkPreg v true (p_subs r)) else nth_error (c_regs c) q).
  { intros q. unfold f. destruct (Nat.eqb_spec q p) as [->|Hq].
    - now rewrite (nth_set_nth_same _ _ _ _ _ Hr).
    - now rewrite nth_set_nth_other by auto. }
  assert (Hrest : at_rest (put A l v) (set_regs c f)).
  { unfold at_rest. cbn [set_regs c_rs c_decode c_fetch c_pred c_spec c_ram c_out c_in put a_pc a_mem a_out a_in].
    do 5 (split; [assumption|]). split; [|split; [|split; [assumption|split; assumption]]].
    - intros k w Hk Hw. unfold get_lreg in Hw. cbn [set_regs c_rat] in Hw.
      destruct (rget (c_rat c) k) as [q|] eqn:Hq; [|discriminate]. unfold get_preg in Hw.
      cbn [set_regs c_regs] in Hw. rewrite Hf in Hw. cbn [put a_reg]. unfold upd.
      revert Hw. destruct (Nat.eqb_spec q p) as [->|Hqp]; intros Hw.
      + rewrite (Hinj _ Hq). rewrite lreg_eqb_refl. cbn in Hw. congruence.
      + rewrite lreg_eqb_neq by congruence. apply (R6 k w Hk). unfold get_lreg. now rewrite Hq.
    - destruct R7 as [w [W1 W2]]. exists w. split; [|exact W2]. unfold get_lreg in W1 |- *. cbn [set_regs c_rat].
      destruct (rget (c_rat c) (LR PC)) as [q|] eqn:Hq; [|discriminate]. unfold get_preg in W1 |- *.
      cbn [set_regs c_regs]. rewrite Hf. destruct (Nat.eqb_spec q p) as [->|Hqp]; [|exact W1].
      exfalso. apply Hl. symmetry. now apply Hinj. }
  assert (HD' : D (set_regs c f)).
  { destruct HD as [D1 D2]. split; [|exact D2]. cbn [set_regs c_regs c_cfg]. unfold f. now rewrite set_nth_length. }
  split; [|split; [exact HD'|split; [exact Hrest|split]]].
  2: { destruct HD as [_ D2]. now apply (tb_only _ _ (dt_tab _ _ _ D2) _ _ Hp). }
  2: { now exists f. }
  split; [exact I1|]. split; [intros _; exact Hrest|]. split; [exact I3|].
  exists (fun q => if Nat.eqb q p then v else den q), role.
  apply J_idle.
  - destruct Hid. constructor; auto.
  - cbn [set_regs c_regs c_rat]. apply regs_nil.
    + intros k q Hk. destruct (Q3 _ _ Hk) as [E1 E2]. split; [exact E1|]. intros Hkp. cbn [put a_reg]. unfold upd.
      destruct (Nat.eqb_spec q p) as [->|Hqp].
      * rewrite (Hinj _ Hk). now rewrite lreg_eqb_refl.
      * rewrite lreg_eqb_neq by congruence. auto.
    + intros q r' Hq Hrd Hro. rewrite Hf in Hq. revert Hq. destruct (Nat.eqb_spec q p) as [->|Hqp]; intros Hq.
      * injection Hq as <-. reflexivity.
      * eauto.
    + intros k q Hk Hq. destruct (Q9 _ _ Hk Hq) as [[r' [G1 G2]]|[e [? [[] _]]]]. left.
      unfold ready_at. rewrite Hf. destruct (Nat.eqb_spec q p) as [->|Hqp]; [eexists; split; [reflexivity|reflexivity]|eauto].
    + intros q r' Hq. rewrite Hf in Hq. revert Hq. destruct (Nat.eqb_spec q p) as [->|Hqp]; intros Hq.
      * injection Hq as <-. cbn [p_subs]. eauto.
      * eauto.
  - eapply wm_idle; exact Jw.
  - eapply ram_same; [exact Jm|reflexivity].
Qed.

(** The program counter. *)
Lemma poke_pc_inv : forall E A c v c', Inv E A c -> D c -> at_rest A c ->
  set_lreg c (LR PC) v = Ok c' ->
  Inv E (pc_to A v) (set_spec c' (u64 v)) /\ D (set_spec c' (u64 v)) /\ at_rest (pc_to A v) (set_spec c' (u64 v)) /\
  (exists f, c' = set_regs c f) /\ get_lreg (set_spec c' (u64 v)) (LR PC) = Some v.
Proof.
  intros E A c v c' [I1 [I2 [I3 [den [role HJ]]]]] HD HR H.
  pose proof (idle_J _ _ _ _ _ HJ HR) as Hid. unfold set_lreg in H.
  destruct (rget (c_rat c) (LR PC)) as [p|] eqn:Hp; [|discriminate]. unfold pset in H.
  destruct (nth_error (c_regs c) p) as [r|] eqn:Hr; [|discriminate]. apply Ok_eq in H. subst c'.
  destruct HJ as [Jp Je Jr Jw Jm Ja Jl Jo Ji]. destruct HR as [R1 [R2 [R3 [R4 [R5 [R6 [R7 [R8 [R9 R10]]]]]]]]].
  rewrite R1 in *. destruct Jr as [_ _ Q3 _ _ Q6 _ _ Q9 Q10]. cbn [sfold fold_left] in Q3.
  destruct (Q3 _ _ Hp) as [Hrole _].
  assert (Hinj : forall k, rget (c_rat c) k = Some p -> k = LR PC).
  { intros k Hk. destruct (Q3 _ _ Hk) as [E1 _]. congruence. }
  set (f := set_nth (c_regs c) p (mkPreg v true (p_subs r))).
  assert (Hf : forall q, nth_error f q = if Nat.eqb q p then Some (mkPreg v true (p_subs r)) else nth_error (c_regs c) q).
  { intros q. unfold f. destruct (Nat.eqb_spec q p) as [->|Hq].
    - now rewrite (nth_set_nth_same _ _ _ _ _ Hr).
    - now rewrite nth_set_nth_other by auto. }
  assert (Hget : get_lreg (set_spec (set_regs c f) (u64 v)) (LR PC) = Some v).
  { unfold get_lreg. cbn [set_spec set_regs c_rat]. rewrite Hp. unfold get_preg.
    cbn [set_spec set_regs c_regs]. rewrite Hf, Nat.eqb_refl. reflexivity. }
  assert (Hrest : at_rest (pc_to A v) (set_spec (set_regs c f) (u64 v))).
  { unfold at_rest, pc_to. cbn [set_spec set_regs c_rs c_decode c_fetch c_pred c_spec c_ram c_out c_in set_pc a_pc a_mem a_out a_in].
    do 4 (split; [assumption|]). split; [reflexivity|]. split; [|split; [|split; [assumption|split; assumption]]].
    - intros k w Hk Hw. unfold get_lreg in Hw. cbn [set_spec set_regs c_rat] in Hw.
      destruct (rget (c_rat c) k) as [q|] eqn:Hq; [|discriminate]. unfold get_preg in Hw.
      cbn [set_spec set_regs c_regs] in Hw. rewrite Hf in Hw. cbn [set_pc a_reg].
      revert Hw. destruct (Nat.eqb_spec q p) as [->|Hqp]; intros Hw.
      + exfalso. apply Hk. now apply Hinj.
      + apply (R6 k w Hk). unfold get_lreg. now rewrite Hq.
    - exists v. split; [exact Hget|reflexivity]. }
  assert (HD' : D (set_spec (set_regs c f) (u64 v))).
  { destruct HD as [D1 D2]. split; [|exact D2]. cbn [set_spec set_regs c_regs c_cfg]. unfold f. now rewrite set_nth_length. }
  split; [|split; [exact HD'|split; [exact Hrest|split; [now exists f|exact Hget]]]].
  split; [exact I1|]. split; [intros _; exact Hrest|]. split; [exact I3|].
  exists den, role. apply J_idle.
  - destruct Hid. constructor; auto. unfold pc_to. cbn [set_pc a_pc]. apply u64_in.
  - cbn [set_spec set_regs c_regs c_rat]. apply regs_nil.
    + intros k q Hk. destruct (Q3 _ _ Hk) as [E1 E2]. split; [exact E1|]. exact E2.
    + intros q r' Hq Hrd Hro. rewrite Hf in Hq. revert Hq. destruct (Nat.eqb_spec q p) as [->|Hqp]; intros Hq.
      * congruence.
      * eauto.
    + intros k q Hk Hq. destruct (Q9 _ _ Hk Hq) as [[r' [G1 G2]]|[e [? [[] _]]]]. left.
      unfold ready_at. rewrite Hf. destruct (Nat.eqb_spec q p) as [->|Hqp]; [eexists; split; [reflexivity|reflexivity]|eauto].
    + intros q r' Hq. rewrite Hf in Hq. revert Hq. destruct (Nat.eqb_spec q p) as [->|Hqp]; intros Hq.
      * injection Hq as <-. cbn [p_subs]. eauto.
      * eauto.
  - eapply wm_idle; exact Jw.
  - eapply ram_same; [exact Jm|reflexivity].
Qed.

(** The program text. *)
Lemma valid_set : forall p i ins, valid_prog p -> pc_ok ins -> valid_prog (set_nth p i ins).
Proof.
  unfold valid_prog. induction p as [|x p IH]; intros i ins Hv Hi; [exact Hv|].
  apply Forall_inv in Hv as H1. apply Forall_inv_tail in Hv as H2.
  destruct i; cbn [set_nth]; constructor; auto.
Qed.

Lemma poke_prog_inv : forall E A c p, Inv E A c -> D c -> at_rest A c -> valid_prog p ->
  Inv E A (set_prog c p) /\ D (set_prog c p) /\ at_rest A (set_prog c p).
Proof.
  intros E A c p [I1 [I2 [I3 [den [role HJ]]]]] HD HR Hv.
  assert (Hrest : at_rest A (set_prog c p)) by exact HR.
  split; [|split; [exact HD|exact Hrest]].
  pose proof (idle_J _ _ _ _ _ HJ HR) as Hid. destruct HJ as [Jp Je Jr Jw Jm Ja Jl Jo Ji].
  rewrite (id_rs _ _ Hid) in Jr, Jw.
  split; [exact I1|]. split; [exact I2|]. split; [exact I3|]. exists den, role.
  apply J_idle; [destruct Hid; constructor; auto|exact Jr|exact Jw|exact Jm].
Qed.

(** Debug registers and pending interrupt. *)
Lemma poke_dbg_inv : forall E A c d n, Inv E A c -> Inv E A (set_dbg c d n).
Proof.
  intros E A c d n [I1 [I2 [I3 [den [role [Jp Je Jr Jw Jm Ja Jl Jo Ji]]]]]].
  split; [exact I1|]. split; [exact I2|]. split; [exact I3|]. exists den, role.
  constructor; auto. destruct Jp; constructor; auto.
Qed.

(** ---- memory ---- *)

Lemma mem_at_set : forall m a v b, mem_at m a <> None -> mem_at (mem_set m a v) b = if b =? a then Some v else mem_at m b.
Proof.
  intros m a v b Ha. unfold mem_at, mem_set in *.
  destruct ((0 <=? a) && (a <? Z.of_nat (length m))) eqn:Hr; [|congruence].
  rewrite set_nth_length. apply andb_prop in Hr. destruct Hr as [Hr1 Hr2]. apply Z.leb_le in Hr1. apply Z.ltb_lt in Hr2.
  destruct (Z.eqb_spec b a) as [->|Hne].
  - assert (E1 : (0 <=? a) = true) by (apply Z.leb_le; lia). assert (E2 : (a <? Z.of_nat (length m)) = true) by (apply Z.ltb_lt; lia).
    rewrite E1, E2. cbn [andb].
    destruct (nth_error m (Z.to_nat a)) as [x|] eqn:Hx.
    + now rewrite (nth_set_nth_same _ _ _ _ _ Hx).
    + apply nth_error_None in Hx. lia.
  - destruct ((0 <=? b) && (b <? Z.of_nat (length m))) eqn:Hb; [|reflexivity].
    apply andb_prop in Hb. destruct Hb as [Hb1 Hb2]. apply Z.leb_le in Hb1. apply Z.ltb_lt in Hb2.
    apply nth_set_nth_other. lia.
Qed.

Lemma poke_data_inv : forall E A c a v c', Inv E A c -> D c -> at_rest A c -> quiet c a ->
  poke_data c a v = Ok c' -> a_mem A a <> None /\
  Inv E (store A a v) c' /\ D c' /\ at_rest (store A a v) c' /\ exists r, c' = set_mem c r (c_wm c).
Proof.
  intros E A c a v c' [I1 [I2 [I3 [den [role HJ]]]]] HD HR [Q1 Q2] H. change (vec (c_wm c) a = []) in Q1. unfold poke_data in H.
  destruct (ram_set (c_ram c) a v) as [r|] eqn:Hs; [|discriminate]. apply Ok_eq in H. subst c'.
  unfold ram_set in Hs. destruct (mem_at (ram_mem (c_ram c)) a) as [x|] eqn:Hx; [|discriminate].
  injection Hs as <-.
  pose proof (idle_J _ _ _ _ _ HJ HR) as Hid. destruct HJ as [Jp Je Jr Jw Jm Ja Jl Jo Ji].
  rewrite (id_rs _ _ Hid) in Jr, Jw. destruct HR as [R1 [R2 [R3 [R4 [R5 [R6 [R7 [R8 [R9 R10]]]]]]]]].
  destruct Jm as [M1 M2 M3 M4 M5 M6 M7 M8 M9 M10 M11].
  assert (Hne : mem_at (ram_mem (c_ram c)) a <> None) by congruence.
  set (r' := mkRam (mem_set (ram_mem (c_ram c)) a v) (ram_reads (c_ram c)) (ram_writes (c_ram c)) (ram_next (c_ram c))).
  assert (Hmem : forall b, mem_at (ram_mem r') b = a_mem (store A a v) b).
  { intros b. cbn [r' ram_mem store a_mem]. rewrite (mem_at_set _ _ _ _ Hne). unfold mupd.
    destruct (b =? a); [reflexivity|]. auto. }
  assert (Hrest : at_rest (store A a v) (set_mem c r' (c_wm c))).
  { unfold at_rest. cbn [set_mem c_rs c_decode c_fetch c_pred c_spec c_out c_in c_ram].
    do 5 (split; [assumption|]). split; [exact R6|]. split; [exact R7|]. split; [exact Hmem|]. auto. }
  split; [rewrite M1; exact Hne|]. split; [|split; [exact HD|split; [exact Hrest|eauto]]].
  split; [exact I1|]. split; [intros _; exact Hrest|]. split; [exact I3|]. exists den, role. apply J_idle.
  - destruct Hid. constructor; auto.
  - destruct Jr as [_ _ T3 _ _ T6 _ _ T9 T10]. cbn [set_mem c_regs c_rat]. apply regs_nil; auto.
  - eapply wm_idle; exact Jw.
  - cbn [set_mem c_wm c_ram].
    assert (Hoth : forall b, vec (c_wm c) b <> [] -> mem_at (ram_mem r') b = mem_at (ram_mem (c_ram c)) b).
    { intros b Hb. cbn [r' ram_mem]. rewrite (mem_at_set _ _ _ _ Hne). destruct (Z.eqb_spec b a) as [->|_]; [congruence|reflexivity]. }
    constructor; auto.
    + intros b m Hm Ho Hn. rewrite Hoth; [auto|]. intros H0. rewrite H0 in Hm. contradiction.
    + intros b re Hin. destruct (M5 b re Hin) as [Hv|Hv]; [left|right; exact Hv].
      cbn [r' ram_mem]. rewrite (mem_at_set _ _ _ _ Hne). destruct (Z.eqb_spec b a) as [->|_]; [|exact Hv].
      exfalso. eapply aget_none; eauto.
Qed.

(** A machine that has just booted is quiet everywhere. *)
Lemma set_lregs_regs : forall vs c c', set_lregs c vs = Ok c' -> exists f, c' = set_regs c f.
Proof.
  induction vs as [|[k u] vs IH]; intros c c' H; cbn [set_lregs] in H.
  - apply Ok_eq in H. subst c'. exists (c_regs c). now destruct c.
  - apply bind_ok in H. destruct H as [c1 [H1 H]]. unfold set_lreg in H1.
    destruct (rget (c_rat c) k) as [pk|]; [|discriminate].
    destruct (pset (c_regs c) pk _) as [f|]; [|discriminate]. apply Ok_eq in H1. subst c1.
    destruct (IH _ _ H) as [f' ->]. now exists f'.
Qed.

Lemma boot_quiet : forall g p data input c a, boot g p data input = Ok c -> quiet c a.
Proof.
  intros g p data input c a H. unfold boot in H. apply bind_ok in H. destruct H as [c0 [H0 H]].
  unfold cpu_init in H0. cbv zeta in H0. destruct (psub_all _ _) as [f|]; [|discriminate].
  destruct (set_lregs_regs _ _ _ H0) as [f1 ->]. apply load_data_spec in H; [|lia]. destruct H as [m [-> Hm]].
  split; reflexivity.
Qed.
