(** Whole runs of the processor with the logger. *)
From Coq Require Import String ZArith NArith List Bool Lia.
From Verif Require Import Base Alu Isa Exec Ram Writes Rat Cpu LiveSpec InOrder IsaSpec PipeInv PipeBasics PipeActs
  PipeRetire PipeTick PipeBoot PipeDom PipeRun IsaRefine Stats StatsSpec StatsProof StatsLife.
Import ListNotations.
Open Scope nat_scope.

(** ---- the instructions a tick retires are those of the in-order machine ---- *)

Inductive io_trace (E : env) (p : list instr) : list instr -> arch -> arch -> Prop :=
| iot_nil : forall A, io_trace E p [] A A
| iot_cons : forall A B C l, io_step E p A B -> io_trace E p l B C -> io_trace E p (prog_at p (a_pc A) :: l) A C.

Lemma io_run_trace : forall E p l A s A' s', io_run E p l A s A' s' -> io_trace E p l A A'.
Proof. induction 1; econstructor; eauto. Qed.
Lemma io_trace_fun : forall E p l A B, io_trace E p l A B -> forall m C, io_trace E p m A C -> length l = length m -> l = m.
Proof.
  induction 1 as [A|A B C l H1 H2 IH]; intros m D H3 Hl; inversion H3; subst; cbn in Hl; try discriminate; [reflexivity|].
  pose proof (io_step_fun _ _ _ _ _ H1 H). subst B0. f_equal. eapply IH; eauto.
Qed.
Lemma io_trace_app : forall E p l A B, io_trace E p l A B -> forall m C, io_trace E p m B C -> io_trace E p (l ++ m) A C.
Proof. induction 1; intros m D H1; [exact H1|]. cbn. econstructor; eauto. Qed.

Lemma retire_trace_io : forall E den role n A c c', K E den role A c -> retire_loop n c = Ok c' ->
  (exists A', io_trace E (c_prog c) (retire_trace n c) A A') /\ length (retire_trace n c) = retire_count n c.
Proof.
  intros E den role. induction n as [|n IH]; intros A c c' HK H; cbn [retire_loop retire_trace retire_count] in *.
  - split; [|reflexivity]. exists A. constructor.
  - destruct (c_rs c) as [|e es] eqn:Hrs; [split; [exists A; constructor|reflexivity]|].
    destruct (e_state e) eqn:Hst; try (split; [exists A; constructor|reflexivity]).
    apply bind_ok in H. destruct H as [c1 [H1 H]]. rewrite H1.
    destruct (retire_entry_inv _ _ _ _ _ _ _ _ HK Hrs Hst H1) as [Hpa [Hio [R1 R2 R3 R4 R5 R6 R7]]].
    destruct (IH _ _ _ R1 H) as [[A' I1] I2]. split; [|cbn; now rewrite I2].
    exists A'. rewrite Hpa. econstructor; [exact Hio|]. rewrite <- R2. exact I1.
Qed.

Lemma tick_trace_io : forall E A A' l c c', Inv E A c -> tick E c = Ok c' -> ticked E A A' l c c' -> l = tick_trace E c.
Proof.
  intros E A A' l c c' HI H T. pose proof (td_count _ _ _ _ _ _ T) as Hc. destruct (td_run _ _ _ _ _ _ T) as (m & Hr & _). apply io_run_trace in Hr.
  unfold tick in H. apply bind_ok in H. destruct H as [c2 [H2 _]]. rewrite tick_retire_eq in H2. apply bind_ok in H2. destruct H2 as [x [Hex H2]]. apply lift_ok in Hex.
  destruct (exec_phase_inv _ _ _ _ HI Hex) as [den [role [K1 _]]].
  destruct (retire_trace_io _ _ _ _ _ _ _ K1 H2) as [[B I1] I2].
  assert (Ht : tick_trace E c = retire_trace (length (c_rs (exec_state c x))) (exec_state c x)).
  { unfold tick_trace. cbv zeta. cbn [set_stop set_mem c_regs c_wm c_alus c_rs]. unfold exec_phase in Hex. rewrite Hex. destruct x as [[[f w] a] es]. reflexivity. }
  assert (Hc2 : tick_count E c = retire_count (length (c_rs (exec_state c x))) (exec_state c x)).
  { unfold tick_count. cbv zeta. cbn [set_stop set_mem c_regs c_wm c_alus c_rs]. unfold exec_phase in Hex. rewrite Hex. destruct x as [[[f w] a] es]. reflexivity. }
  rewrite Ht. eapply io_trace_fun; [exact Hr| |congruence].
  replace (c_prog c) with (c_prog (exec_state c x)) by (destruct x as [[[f w] a] es]; reflexivity). exact I1.
Qed.

(** ---- any number of ticks ---- *)

Lemma lticks_ok : forall E n x x' rt A, SInv x rt -> Inv E A (l_cpu x) -> D (l_cpu x) -> (stopped (l_cpu x) -> at_rest A (l_cpu x)) -> lticks E n x = Ok x' ->
  ticks E n (l_cpu x) = Ok (l_cpu x') /\ exists rn A' ts, SInv x' (rt ++ rn) /\ s_ticks (l_log x') = ts ++ s_ticks (l_log x) /\ Forall2 fits (states E n x) (rev ts) /\
  io_trace E (c_prog (l_cpu x)) (map (fun y => snd (snd y)) rn) A A' /\ Inv E A' (l_cpu x') /\ (stopped (l_cpu x') -> at_rest A' (l_cpu x')).
Proof.
  intros E. induction n as [|n IH]; intros x x' rt A HS HI HD HR H; cbn [lticks ticks states] in *.
  - apply Ok_eq in H. subst x'. split; [reflexivity|]. exists [], A, []. rewrite app_nil_r. split; [exact HS|]. split; [reflexivity|]. split; [constructor|]. split; [constructor|]. auto.
  - apply bind_ok in H. destruct H as (x1 & H1 & H). rewrite H1.
    destruct (ltick_ok E x x1 rt HS H1) as (Ht & rn & t & S1 & S2 & S3 & S4).
    { intros Ht St. destruct (tick_inv _ _ _ _ HI Ht) as (l & B & T). destruct (td_rest _ _ _ _ _ _ T St) as (Q1 & Q2 & Q3 & _). auto. }
    destruct (tick_reached _ _ _ _ HI HD Ht) as (l & B & T & R). pose proof (tick_trace_io _ _ _ _ _ _ HI Ht T) as El.
    destruct (IH x1 x' (rt ++ rn) B S1 (re_Inv _ _ _ _ _ _ R) (re_D _ _ _ _ _ _ R) (re_rest _ _ _ _ _ _ R) H) as (I1 & rm & C & ts & I2 & I3 & I4 & I5 & I6 & I7).
    rewrite Ht. cbn [bind]. split; [exact I1|]. exists (rn ++ rm), C, (ts ++ [t]). rewrite app_assoc. split; [exact I2|]. split; [rewrite I3, S2, <- app_assoc; reflexivity|].
    split; [|split; [|auto]].
    + rewrite rev_app_distr. cbn [rev app]. constructor; assumption.
    + rewrite map_app. eapply io_trace_app.
      * rewrite S4, <- El. destruct (td_run _ _ _ _ _ _ T) as (m & Hr & _). eapply io_run_trace. exact Hr.
      * rewrite <- (re_prog _ _ _ _ _ _ R). exact I5.
Qed.

(** ---- the logger never gets in the way ---- *)

Lemma ldo_jump_total : forall x e c, do_jump (l_cpu x) e = Ok c -> exists x', ldo_jump x e = Ok x'.
Proof.
  intros x e c H. unfold do_jump in H. unfold ldo_jump. destruct (rget (e_wrat e) (LR PC)); [|discriminate]. destruct (rget (e_rrat e) (LR PC)); [|discriminate].
  destruct (get_preg (l_cpu x) n); [|discriminate]. destruct (nth_error (c_regs (l_cpu x)) n0); [|discriminate]. destruct (negb (p_ready p)); [discriminate|].
  destruct (c_pred (l_cpu x)); [discriminate|]. cbv zeta in *. destruct (z0 =? u64 z)%Z; [eauto|]. unfold lunroll. cbn [on_cpu l_cpu]. rewrite H. cbn [bind]. eauto.
Qed.
Lemma ldo_ract_total : forall e a x c, do_ract e a (l_cpu x) = Ok c -> exists x', ldo_ract e a x = Ok x'.
Proof.
  intros e a x c H. destruct a; try (unfold ldo_ract; rewrite H; cbn [bind]; eauto; fail).
  - eapply ldo_jump_total; eauto.
  - cbn [ldo_ract do_ract] in *. unfold lunroll. rewrite H. cbn [bind]. eauto.
Qed.
Lemma ldo_racts_total : forall e l x c, do_racts e l (l_cpu x) = Ok c -> exists x', ldo_racts e l x = Ok x'.
Proof.
  induction l as [|a l IH]; intros x c H; cbn [ldo_racts do_racts] in *; [eauto|].
  apply bind_ok in H. destruct H as (c1 & H1 & H). destruct (ldo_ract_total _ _ _ _ H1) as (x1 & G). rewrite G. cbn [bind].
  apply ldo_ract_ok in G. destruct G as [G _]. rewrite G in H1. apply Ok_eq in H1. subst c1. eauto.
Qed.
Lemma lretire_entry_total : forall x e c, retire_entry (l_cpu x) e = Ok c -> exists x', lretire_entry x e = Ok x'.
Proof.
  intros x e c H. unfold retire_entry in H. unfold lretire_entry. apply bind_ok in H. destruct H as (vs & H1 & H). rewrite H1. cbn [bind]. apply bind_ok in H. destruct H as (acts & H2 & H). rewrite H2. cbn [bind].
  apply bind_ok in H. destruct H as (c1 & H3 & H). destruct (ldo_racts_total _ _ _ _ H3) as (x1 & G). rewrite G. cbn [bind]. apply ldo_racts_ok in G. destruct G as [G _]. rewrite G in H3. apply Ok_eq in H3. subst c1. cbv zeta in *.
  destruct (e_exn e); [discriminate|]. apply bind_ok in H. destruct H as (c2 & H4 & H). apply bind_ok in H. destruct H as (f & H5 & H).
  destruct (c_trap (l_cpu x1)).
  - apply bind_ok in H4. destruct H4 as (c3 & H4 & H6). apply Ok_eq in H6. subst c2. unfold lunroll. rewrite H4. cbn [bind lflush on_cpu l_cpu]. rewrite H5. cbn [bind]. eauto.
  - destruct (negb (c_int (l_cpu x1) =? 0)%Z).
    + unfold lunroll. rewrite H4. cbn [bind lflush on_cpu l_cpu]. rewrite H5. cbn [bind]. eauto.
    + apply Ok_eq in H4. subst c2. cbn [bind]. rewrite H5. cbn [bind]. eauto.
Qed.
Lemma forall2_length : forall (A B : Type) (R : A -> B -> Prop) l m, Forall2 R l m -> length l = length m.
Proof. induction 1; cbn; congruence. Qed.
Lemma rmoved_length : forall x x', rmoved x x' -> length (l_ids x) = length (c_rs (l_cpu x)) -> length (l_ids x') = length (c_rs (l_cpu x')).
Proof. intros x x' [A1 A2 A3 A4 A5 A6 A7|A1 A2 A3 A4 A5 A6 A7] H; rewrite A1, A6; [exact H|reflexivity]. Qed.
Lemma lretire_loop_total : forall n x c, length (l_ids x) = length (c_rs (l_cpu x)) -> retire_loop n (l_cpu x) = Ok c -> exists x', lretire_loop n x = Ok x'.
Proof.
  induction n as [|n IH]; intros x c Hl H; cbn [lretire_loop retire_loop] in *; [eauto|].
  destruct (c_rs (l_cpu x)) as [|e es]; [eauto|]. destruct (l_ids x) as [|id ids]; [discriminate|]. cbn in Hl. destruct (e_state e); eauto.
  apply bind_ok in H. destruct H as (c1 & H1 & H). destruct (lretire_entry_total (mkL (set_rs (l_cpu x) es) (l_fid x) (l_did x) ids (log_done id (l_log x))) e c1 H1) as (x1 & G). rewrite G. cbn [bind].
  apply lretire_entry_ok in G. destruct G as [G M]. cbn [l_cpu] in G. rewrite G in H1. apply Ok_eq in H1. subst c1. eapply IH; [|exact H]. eapply rmoved_length; [exact M|]. cbn. lia.
Qed.

Lemma ltick_total : forall E x rt c, SInv x rt -> tick E (l_cpu x) = Ok c -> exists x', ltick E x = Ok x'.
Proof.
  intros E x rt c [L F] H. unfold tick, tick_retire in H. unfold ltick. cbv zeta in *. apply bind_ok in H. destruct H as (c2 & H2 & H). apply bind_ok in H2. destruct H2 as ([[[f w] a] es] & He & Hr). rewrite He. cbn [bind]. apply lift_ok in He.
  destruct (exec_loop_states _ _ _ _ _ _ _ _ _ He) as [Xi Xs].
  set (c1 := set_exec (set_stop (set_mem (l_cpu x) (ram_tick (c_ram (l_cpu x))) (wm_remove_finished (c_wm (l_cpu x)) (ram_tick (c_ram (l_cpu x))))) (c_single (l_cpu x)) 0) f w es a) in *.
  set (x1 := on_cpu (on_log x log_new_tick) c1) in *.
  set (ts := s_ticks (l_log x)) in *.
  assert (L1 : LInv ts x1 rt).
  { destruct L as [L1 L2 L3 L4 L5 L6 L7]. constructor; cbn [x1 on_cpu on_log l_ids l_did l_fid l_cpu l_log c1 set_exec set_stop set_mem c_rs c_decode c_fetch log_new_tick s_ins s_next flight]; auto.
    destruct L4 as (fl & I1 & I2 & I3). exists fl. split; [exact I1|]. split; [exact I2|]. rewrite Xi. exact I3. }
  destruct (lretire_loop_total (length es) x1 c2) as (x2 & G).
  { pose proof (li_rs _ _ _ L1) as Z. apply forall2_length in Z. exact Z. }
  { exact Hr. }
  rewrite G. cbn [bind].
  destruct (lretire_loop_ok _ ts no_tick [] x1 x2 rt L1 eq_refl (conj eq_refl eq_refl) (fun _ => eq_refl) (fun _ I => match I with end) G) as (R1 & rn & t & L2 & _).
  cbn [x1 on_cpu l_cpu] in R1. rewrite R1 in Hr. apply Ok_eq in Hr. subst c2.
  destruct (c_halted (l_cpu x2)); [eauto|].
  set (c3 := if c_single (l_cpu x2) then set_stop (l_cpu x2) false (if (c_int (l_cpu x2) =? 0)%Z then 1%Z else c_int (l_cpu x2)) else l_cpu x2) in *.
  assert (C3 : c_decode c3 = c_decode (l_cpu x2)) by (unfold c3; destruct (c_single (l_cpu x2)); auto).
  destruct (negb (c_int c3 =? 0)%Z); [eauto|]. apply bind_ok in H. destruct H as ([[r' a'] es'] & Hp & H). rewrite Hp. cbn [bind].
  apply bind_ok in H. destruct H as (c5 & H5 & _). unfold ltick_decode, tick_decode in *. cbn [l_cpu l_did set_polled c_decode c_rs c_cfg] in *. pose proof (li_de _ _ _ L2) as Z. rewrite C3 in *.
  destruct (c_decode (l_cpu x2)) as [[i pc]|]; [|cbn [bind]; eauto]. destruct (l_did x2) as [d|]; [|contradiction]. destruct (Nat.ltb _ _); [|cbn [bind]; eauto].
  apply bind_ok in H5. destruct H5 as (c6 & H6 & _). cbv zeta in H6 |- *. rewrite H6. cbn [bind]. eauto.
Qed.

Lemma lticks_total : forall E n x rt A c, SInv x rt -> Inv E A (l_cpu x) -> D (l_cpu x) -> ticks E n (l_cpu x) = Ok c -> exists x', lticks E n x = Ok x' /\ l_cpu x' = c.
Proof.
  intros E. induction n as [|n IH]; intros x rt A c HS HI HD H; cbn [ticks lticks] in *; [exists x; apply Ok_eq in H; auto|].
  apply bind_ok in H. destruct H as (c1 & H1 & H). destruct (ltick_total _ _ _ _ HS H1) as (x1 & G). rewrite G. cbn [bind].
  destruct (ltick_ok E x x1 rt HS G) as (Ht & rn & t & S1 & _).
  { intros Ht St. destruct (tick_inv _ _ _ _ HI Ht) as (l & B & T). destruct (td_rest _ _ _ _ _ _ T St) as (Q1 & Q2 & Q3 & _). auto. }
  rewrite Ht in H1. apply Ok_eq in H1. subst c1. destruct (tick_reached _ _ _ _ HI HD Ht) as (l & B & T & R).
  eapply IH; [exact S1|exact (re_Inv _ _ _ _ _ _ R)|exact (re_D _ _ _ _ _ _ R)|exact H].
Qed.

(** ---- from the start ---- *)

Lemma fresh_SInv : forall A c, at_rest A c -> SInv (fresh c) [].
Proof.
  intros A c (R1 & R2 & R3 & _). split; [|intros id []]. constructor; cbn [fresh l_ids l_did l_fid l_cpu l_log log_reset s_ticks s_next s_ins]; rewrite ?R1, ?R2, ?R3; try exact I; try constructor.
  - exists []. auto.
  - intros id [].
Qed.

Lemma io_isa_trace : forall E p l S S', valid_prog p -> Forall typed_instr p -> typed_fops (e_fops E) ->
  io_trace E p l S S' -> wordy S -> isa_trace (e_fops E) p l S S'.
Proof.
  intros E p l S S' V T TF H. induction H as [S|S S1 S2 l H1 H2 IH]; intros W; [constructor|].
  pose proof (io_isa E p S S1 V T W H1) as H3.
  assert (W1 : wordy S1) by (destruct H3 as [_ He]; eapply effect_wordy; eauto; now apply typed_at).
  rewrite prog_at_instr by (apply W). econstructor; [exact H3|]. now apply IH.
Qed.

(** ---- the sums ---- *)

Lemma finished_single : forall ts id, finished (hist ts id) -> Forall (fun t => length (stages t id) <= 1) ts.
Proof.
  intros ts id (b & s & h & E & L).
  assert (G : Forall (fun st : list stage => length st <= 1) (hist ts id)).
  { rewrite E. clear E. apply Forall_app. split; [apply Forall_forall; intros st I; apply repeat_spec in I; subst; cbn; lia|]. constructor; [cbn; lia|].
    induction L as [h0 Hh|s0 s' h0 H IH Hr H6]; (constructor; [cbn; lia|]).
    - apply Forall_forall. intros st I. rewrite Forall_forall in Hh. rewrite <- (Hh st I). cbn. lia.
    - exact IH. }
  unfold hist in G. rewrite Forall_map in G. exact G.
Qed.

Definition pipe_tick (id : nat) (t : tickst) : bool := oid (t_fetch t) id || oid (t_decode t) id || busy t id.
Lemma count_pipe : forall id ts, Forall (fun t => length (stages t id) <= 1) ts ->
  count SFetch id ts + count SDecode id ts + count SPrep id ts + count SAlu id ts + count SExec id ts + count SWait id ts = length (filter (pipe_tick id) ts).
Proof.
  induction 1 as [|t ts H _ IH]; [reflexivity|]. unfold count in *. cbn [filter is_at]. unfold pipe_tick at 1. unfold busy. unfold stages in H.
  cbn [is_at] in *.
  destruct (oid (t_fetch t) id), (oid (t_decode t) id), (found id (t_prep t)), (found id (t_noalu t)), (found id (t_exec t)), (found id (t_wait t)), (found id (t_done t));
    cbn in H |- *; unfold is_at in *; try lia.
Qed.

Lemma filter_fits : forall (f : lcpu -> bool) (g : tickst -> bool) xs ts, (forall x t, fits x t -> f x = g t) -> Forall2 fits xs ts -> length (filter f xs) = length (filter g ts).
Proof. intros f g xs ts H. induction 1 as [|x t xs ts H1 _ IH]; [reflexivity|]. cbn [filter]. rewrite (H _ _ H1). destruct (g t); cbn; congruence. Qed.
Lemma filter_rev_length : forall (A : Type) (f : A -> bool) l, length (filter f (rev l)) = length (filter f l).
Proof. induction l as [|a l IH]; [reflexivity|]. cbn [rev filter]. rewrite filter_app, app_length, IH. cbn [filter]. destruct (f a); cbn; lia. Qed.

Record summed (xs : list lcpu) (ids : list nat) (t : lifetime) : Prop := mkSummed {
  su_total : Z.of_nat (total_time t) = total (fun id => Z.of_nat (times (in_pipe id) xs) + 1)%Z ids;
  su_fetch : Z.of_nat (lt_fetch t) = total (fun id => Z.of_nat (times (in_fetch id) xs)) ids;
  su_decode : Z.of_nat (lt_decode t) = total (fun id => Z.of_nat (times (in_decode id) xs)) ids
}.

Lemma life_time_summed : forall xs ts id, Forall2 fits xs (rev ts) -> finished (hist ts id) -> exists t, life_time id (rev ts) = Ok t /\ summed xs [id] t /\ 1 <= times (in_fetch id) xs.
Proof.
  intros xs ts id HF Hf. destruct (life_time_ok id ts Hf) as (st & E & H1). exists (mkLife (count SFetch id ts) (count SDecode id ts) (count SPrep id ts) st (count SAlu id ts) (count SExec id ts) (count SWait id ts) 1). split; [exact E|].
  assert (Ff : times (in_fetch id) xs = count SFetch id ts).
  { unfold times. rewrite (filter_fits _ (is_at SFetch id) xs (rev ts)); [apply filter_rev_length| |exact HF]. intros x t (A & _ & _). cbn [is_at]. now rewrite A. }
  assert (Fd : times (in_decode id) xs = count SDecode id ts).
  { unfold times. rewrite (filter_fits _ (is_at SDecode id) xs (rev ts)); [apply filter_rev_length| |exact HF]. intros x t (_ & A & _). cbn [is_at]. now rewrite A. }
  assert (Fp : times (in_pipe id) xs = length (filter (pipe_tick id) ts)).
  { unfold times. rewrite (filter_fits _ (pipe_tick id) xs (rev ts)); [apply filter_rev_length| |exact HF]. intros x t (A & B & C). unfold in_pipe, pipe_tick. rewrite A, B, C. reflexivity. }
  split; [|lia]. pose proof (count_pipe id ts (finished_single _ _ Hf)) as Hc.
  constructor; unfold total, total_time; cbn [fold_right lt_fetch lt_decode lt_prep lt_alu lt_exec lt_wait lt_retire]; lia.
Qed.

Lemma total_cons : forall f id ids, total f (id :: ids) = (f id + total f ids)%Z.
Proof. reflexivity. Qed.
Lemma life_sum_summed : forall pick xs ts ins, Forall2 fits xs (rev ts) -> (forall id, In id (map fst ins) -> finished (hist ts id)) ->
  exists t, life_sum pick (rev ts) ins = Ok (t, length (filter (fun y => pick (snd (snd y))) ins)) /\ summed xs (map fst (filter (fun y => pick (snd (snd y))) ins)) t.
Proof.
  intros pick xs ts ins HF. induction ins as [|[id [pc i]] ins IH]; intros Hf; cbn [life_sum].
  - exists no_life. split; [reflexivity|]. constructor; reflexivity.
  - destruct (life_time_summed xs ts id HF) as (t & E & S1 & _); [apply Hf; now left|]. destruct IH as (s & E2 & S2); [intros k I; apply Hf; now right|].
    rewrite E. cbn [bind]. rewrite E2. cbn [bind filter snd]. destruct (pick i).
    + exists (life_add t s). cbn [length map fst]. split; [reflexivity|]. destruct S1 as [A1 A2 A3], S2 as [B1 B2 B3]. rewrite total_cons in A1, A2, A3. cbn [total fold_right] in A1, A2, A3.
      constructor; rewrite total_cons; rewrite <- ?B1, <- ?B2, <- ?B3; unfold total_time in *; cbn [life_add lt_fetch lt_decode lt_prep lt_alu lt_exec lt_wait lt_retire]; lia.
    + exists s. auto.
Qed.
