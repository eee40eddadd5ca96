(** L7: runs of the machine: any number of ticks, runs up to the next stop,
    determinism of the in-order machine. *)
From Coq Require Import ZArith NArith List Bool Sorted Lia.
From Verif Require Import Base Alu Isa Exec Ram Writes Rat Cpu LiveSpec InOrder PipeInv PipeBasics PipeActs PipeMem
  PipeExec PipePoll PipeRetire PipeAdd PipeTick PipeBoot PipeDom.
Import ListNotations.
Open Scope Z_scope.

(** The conditions on which os.cpp:41-56 looks after a tick. *)
Definition stopped (c : cpu) : Prop := c_halted c = true \/ c_int c <> 0.

Lemma stopped_dec : forall c, stopped c \/ ~ stopped c.
Proof.
  intros c. unfold stopped. destruct (c_halted c); [auto|]. destruct (Z.eq_dec (c_int c) 0); [right|auto].
  intros [H|H]; congruence.
Qed.

(** ---- sequences of in-order steps ---- *)

Lemma io_steps_app : forall E p n A B, io_steps E p n A B -> forall m C, io_steps E p m B C -> io_steps E p (n + m) A C.
Proof. induction 1; intros m C HC; [exact HC|]. cbn. econstructor; eauto. Qed.

Lemma io_step_fun : forall E p A B C, io_step E p A B -> io_step E p A C -> B = C.
Proof.
  intros E p A B C H1 H2. destruct H1 as [os vs acts _ H1 H3 H4 _ _]. destruct H2 as [os' vs' acts' _ H1' H3' H4' _ _].
  rewrite H1 in H1'. injection H1' as <-. rewrite H3 in H3'. injection H3' as <-. rewrite H4 in H4'.
  apply Ok_eq in H4'. now subst.
Qed.

Lemma io_steps_fun : forall E p n A B, io_steps E p n A B -> forall C, io_steps E p n A C -> B = C.
Proof.
  induction 1 as [A|n A B C H1 H2 IH]; intros D HD; inversion HD; subst; [reflexivity|].
  apply IH. pose proof (io_step_fun _ _ _ _ _ H1 H0). now subst.
Qed.

Lemma io_step_running : forall E p A B, io_step E p A B -> a_halted A = false.
Proof. now intros E p A B []. Qed.

Lemma io_halted : forall E p n A B, io_steps E p n A B -> a_halted A = true -> n = 0%nat /\ B = A.
Proof.
  intros E p n A B H Hh. destruct H; [auto|]. apply io_step_running in H. congruence.
Qed.

Lemma io_steps_split : forall E p n m A C, io_steps E p (n + m) A C -> exists B, io_steps E p n A B /\ io_steps E p m B C.
Proof.
  induction n as [|n IH]; intros m A C H; cbn in H.
  - exists A. split; [constructor|exact H].
  - inversion H; subst. apply IH in H2. destruct H2 as [B [H3 H4]]. exists B. split; [econstructor; eauto|exact H4].
Qed.

Lemma io_halt_unique : forall E p n m A B C, io_steps E p n A B -> io_steps E p m A C ->
  a_halted B = true -> a_halted C = true -> n = m /\ B = C.
Proof.
  intros E p n m A B C H1 H2 HB HC.
  assert (G : forall n m B C, (n <= m)%nat -> io_steps E p n A B -> io_steps E p m A C -> a_halted B = true -> n = m /\ B = C).
  { clear. intros n m B C Hle H1 H2 HB. replace m with (n + (m - n))%nat in H2 by lia.
    apply io_steps_split in H2. destruct H2 as [B' [H2 H3]]. pose proof (io_steps_fun _ _ _ _ _ H1 _ H2). subst B'.
    destruct (io_halted _ _ _ _ _ H3 HB) as [Hz ->]. split; [lia|reflexivity]. }
  destruct (Nat.le_ge_cases n m) as [Hle|Hle].
  - eauto.
  - destruct (G m n C B Hle H2 H1 HC). auto.
Qed.

(** ---- what a stopped machine shows ---- *)

Lemma D_reg : forall c l, D c -> lreg_ok (c_cfg c) l = true -> exists v, get_lreg c l = Some v.
Proof.
  intros c l [Hl Hd] Hok. destruct (tb_dom _ _ (dt_tab _ _ _ Hd) l Hok) as [p Hp].
  unfold get_lreg, get_preg. rewrite Hp. pose proof (rget_image _ _ _ Hp) as Hi.
  apply (tb_img _ _ (dt_tab _ _ _ Hd)) in Hi. rewrite <- Hl in Hi.
  apply nth_error_Some in Hi. destruct (nth_error (c_regs c) p) as [r|]; [|congruence]. cbn. eauto.
Qed.

Lemma rest_regs : forall A c, D c -> at_rest A c -> forall l, lreg_ok (c_cfg c) l = true -> l <> LR PC ->
  get_lreg c l = Some (a_reg A l).
Proof.
  intros A c HD [_ [_ [_ [_ [_ [R6 _]]]]]] l Hok Hl. destruct (D_reg c l HD Hok) as [v Hv].
  rewrite Hv. f_equal. now apply R6.
Qed.

(** ---- any number of ticks ---- *)

Record reached (E : env) (k : nat) (A A' : arch) (c c' : cpu) : Prop := mkReached {
  re_steps : io_steps E (c_prog c) k A A';
  re_Inv : Inv E A' c';
  re_D : D c';
  re_prog : c_prog c' = c_prog c;
  re_cfg : c_cfg c' = c_cfg c;
  re_trap : c_trap c' = c_trap c;
  re_rest : stopped c' -> at_rest A' c'
}.

Lemma reached_trans : forall E k j A B C c c1 c2, reached E k A B c c1 -> reached E j B C c1 c2 ->
  reached E (k + j) A C c c2.
Proof.
  intros E k j A B C c c1 c2 [H1 H2 H3 H4 H5 H6 H7] [G1 G2 G3 G4 G5 G6 G7].
  constructor; try congruence; auto. eapply io_steps_app; eauto. now rewrite <- H4.
Qed.

Lemma tick_reached : forall E A c c', Inv E A c -> D c -> tick E c = Ok c' ->
  exists is A', ticked E A A' is c c' /\ reached E (length is) A A' c c'.
Proof.
  intros E A c c' HI HD H. destruct (tick_inv _ _ _ _ HI H) as [is [A' Ht]]. exists is, A'. split; [exact Ht|].
  pose proof (tick_D _ _ _ _ HI HD H) as HD'. destruct Ht as [T1 [n [T2 T3]] T4 T5 T6 T7 T8 T9].
  constructor; auto. eapply io_run_steps; eauto.
Qed.

(** The in-order machine has made as many steps as instructions retired. *)
Lemma ticks_counted : forall E n A c c', Inv E A c -> D c -> (stopped c -> at_rest A c) -> ticks E n c = Ok c' ->
  exists A', reached E (ticks_count E n c) A A' c c'.
Proof.
  induction n as [|n IH]; intros A c c' HI HD HR H; cbn [ticks ticks_count] in *.
  - apply Ok_eq in H. subst c'. exists A. constructor; auto. constructor.
  - apply bind_ok in H. destruct H as [c1 [H1 H]]. rewrite H1.
    destruct (tick_reached _ _ _ _ HI HD H1) as [is [B [T1 R1]]].
    destruct (IH B c1 c' (re_Inv _ _ _ _ _ _ R1) (re_D _ _ _ _ _ _ R1) (re_rest _ _ _ _ _ _ R1) H) as [C R2].
    exists C. rewrite <- (td_count _ _ _ _ _ _ T1). eapply reached_trans; eauto.
Qed.

Lemma ticks_reached : forall E n A c c', Inv E A c -> D c -> (stopped c -> at_rest A c) -> ticks E n c = Ok c' ->
  exists k A', reached E k A A' c c'.
Proof. intros E n A c c' HI HD HR H. exists (ticks_count E n c). now apply ticks_counted. Qed.

(** ---- ticking until the machine stops (the loop of os.cpp:33-63) ---- *)

Inductive runs (E : env) : cpu -> cpu -> Prop :=
| runs_stop : forall c c', tick E c = Ok c' -> stopped c' -> runs E c c'
| runs_go : forall c c1 c', tick E c = Ok c1 -> ~ stopped c1 -> runs E c1 c' -> runs E c c'.

Lemma runs_reached : forall E c c', runs E c c' -> forall A, Inv E A c -> D c ->
  exists k A', reached E k A A' c c' /\ at_rest A' c'.
Proof.
  induction 1 as [c c' H Hs|c c1 c' H Hs Hr IH]; intros A HI HD;
    destruct (tick_reached _ _ _ _ HI HD H) as [is [B [_ R1]]].
  - exists (length is), B. split; [exact R1|]. now apply (re_rest _ _ _ _ _ _ R1).
  - destruct (IH B (re_Inv _ _ _ _ _ _ R1) (re_D _ _ _ _ _ _ R1)) as [k [C [R2 R3]]].
    exists (length is + k)%nat, C. split; [eapply reached_trans; eauto|exact R3].
Qed.

Lemma tick_det_runs : forall E c c1, runs E c c1 -> forall c2, runs E c c2 -> c1 = c2.
Proof.
  induction 1 as [c c' H Hs|c c1 c' H Hs Hr IH]; intros c2 H2; inversion H2; subst.
  - rewrite H in H0. now apply Ok_eq in H0.
  - rewrite H in H0. apply Ok_eq in H0. subst. contradiction.
  - rewrite H in H0. apply Ok_eq in H0. subst. contradiction.
  - rewrite H in H0. apply Ok_eq in H0. subst. auto.
Qed.

(** A run up to the next stop is a number of ticks. *)
Lemma runs_ticks : forall E c c', runs E c c' -> exists n, ticks E n c = Ok c'.
Proof.
  induction 1 as [c c' H Hs|c c1 c' H Hs Hr [n IH]].
  - exists 1%nat. cbn [ticks]. rewrite H. reflexivity.
  - exists (Datatypes.S n). cbn [ticks]. rewrite H. exact IH.
Qed.

(** One tick with the trap flag set: either nothing retires and the machine goes
    on, or one instruction retires and the machine stops. *)
Lemma trap_tick : forall E A A' is c c', ticked E A A' is c c' -> c_trap c = true -> a_halted A = false ->
  (stopped c' /\ length is = 1%nat) \/ (~ stopped c' /\ is = [] /\ A' = A).
Proof.
  intros E A A' is c c' [T1 [n [T2 T3]] T4 T5 T6 T7 T8 _] Ht Hh. specialize (T8 Ht). rewrite Ht in T3.
  destruct is as [|i [|j is]]; cbn [length] in *.
  - right. inversion T2; subst. destruct T1 as [Ih _].
    assert (Hc : c_halted c' = false) by congruence.
    rewrite Hc in T3. cbn [negb andb Nat.eqb] in T3. split; [|auto]. intros [Hs|Hs]; congruence.
  - left. split; [|reflexivity]. unfold stopped. destruct (c_halted c'); [auto|]. right.
    cbn [negb andb Nat.eqb] in T3. revert T3. destruct (Z.eqb_spec n 0) as [Hn|Hn]; intros T3; lia.
  - lia.
Qed.

Lemma runs_single : forall E c c', runs E c c' -> forall A, Inv E A c -> D c -> c_trap c = true -> a_halted A = false ->
  exists A', io_step E (c_prog c) A A' /\ reached E 1 A A' c c' /\ at_rest A' c'.
Proof.
  induction 1 as [c c' H Hs|c c1 c' H Hs Hr IH]; intros A HI HD Ht Hh;
    destruct (tick_reached _ _ _ _ HI HD H) as [is [B [T1 R1]]].
  - destruct (trap_tick _ _ _ _ _ _ T1 Ht Hh) as [[_ Hl]|[Hn _]]; [|contradiction].
    rewrite Hl in R1. exists B. split; [|split; [exact R1|now apply (re_rest _ _ _ _ _ _ R1)]].
    pose proof (re_steps _ _ _ _ _ _ R1) as Hst. inversion Hst; subst. inversion H2; subst. exact H1.
  - destruct (trap_tick _ _ _ _ _ _ T1 Ht Hh) as [[Hn _]|[_ [Hl HB]]]; [contradiction|]. subst is B.
    destruct (IH A (re_Inv _ _ _ _ _ _ R1) (re_D _ _ _ _ _ _ R1)) as [A' [I1 [I2 I3]]]; auto.
    { now rewrite (re_trap _ _ _ _ _ _ R1). }
    exists A'. split; [|split; [|exact I3]].
    + now rewrite <- (re_prog _ _ _ _ _ _ R1).
    + apply (reached_trans _ 0 1 _ _ _ _ _ _ R1 I2).
Qed.

(** Changing the trap flag changes nothing else. *)
Lemma Inv_trap : forall E A c b, Inv E A c -> Inv E A (set_trap c b).
Proof.
  intros E A c b [I1 [I2 [I3 [den [role [Jp Je Jr Jw Jm Ja Jl Jo Ji]]]]]].
  split; [exact I1|]. split; [exact I2|]. split; [exact I3|]. exists den, role.
  constructor; auto. destruct Jp; constructor; auto.
Qed.

Lemma D_trap : forall c b, D c -> D (set_trap c b).
Proof. intros c b H. exact H. Qed.

(** ---- boot ---- *)

Lemma boot_reached : forall E g p data input c0 n c, valid_prog p -> boot g p data input = Ok c0 ->
  ticks E n c0 = Ok c -> exists k A', reached E k (arch_boot g data input) A' c0 c /\ c_prog c0 = p /\ c_cfg c0 = g.
Proof.
  intros E g p data input c0 n c Hv Hb Ht.
  destruct (boot_inv E _ _ _ _ _ Hv Hb) as [B1 [B2 [B3 [B4 [B5 [B6 B7]]]]]].
  destruct (ticks_reached E n _ c0 c B1 (boot_D _ _ _ _ _ Hb) (fun _ => B2) Ht) as [k [A' R]].
  exists k, A'. auto.
Qed.
