(** C10: the pipeline makes progress. C69: what makes it hang. *)
From Coq Require Import ZArith NArith List Bool Lia.
From Verif Require Import Base Alu Isa AluSpec IsaSpec Exec Ram Writes Rat Cpu Os LiveSpec InOrder IsaRefine State DbgSpec PipeInv PipeBasics
  PipeRetire PipeTick PipeBoot PipeDom PipeRun PipeLive PipeSoon Session PropPipe.
Import ListNotations.
Open Scope Z_scope.

(** ---- in any state of a session ---- *)

Lemma do_cmd_frame : forall G r k c a c' n, do_cmd G r k c = Ok (a, c', n) ->
  c_rs c' = c_rs c /\ c_wm c' = c_wm c /\ c_cfg c' = c_cfg c.
Proof.
  intros G r k c a c' n H. destruct k; cbn [do_cmd] in H;
    try (apply Ok_eq in H; injection H as _ <- _; auto);
    try (destruct (collect _ _); [|discriminate]; apply Ok_eq in H; injection H as _ <- _; auto);
    try (destruct (show_regs _ _); [|discriminate]; apply Ok_eq in H; injection H as _ <- _; auto);
    apply bind_ok in H; destruct H as [c1 [H1 H]]; apply Ok_eq in H; injection H as _ <- _.
  - unfold poke_text in H1. destruct (_ && _); [|discriminate]. apply Ok_eq in H1. subst c1. auto.
  - unfold poke_data in H1. destruct (ram_set _ _ _); [|discriminate]. apply Ok_eq in H1. subst c1. auto.
  - unfold poke_dbg in H1. destruct (_ && _); [|discriminate]. apply Ok_eq in H1. subst c1. auto.
  - apply set_lreg_regs in H1. destruct H1 as [f ->]. auto.
  - unfold poke_reg in H1. apply bind_ok in H1. destruct H1 as [c2 [H1 H]]. apply Ok_eq in H.
    apply set_lreg_regs in H1. destruct H1 as [f ->]. subst c1. destruct r0; auto.
Qed.

Definition hostL (g : cfg) (h : host) : Prop :=
  match h with
  | At r c => live r -> L c /\ c_cfg c = g
  | Going _ c => L c /\ c_cfg c = g
  | Ended _ _ => True
  end.

Lemma L_frame : forall c c', c_rs c' = c_rs c -> c_wm c' = c_wm c -> L c -> L c'.
Proof. intros c c' H1 H2. unfold L. now rewrite H1, H2. Qed.

Lemma hostL_enter : forall g r c, L c -> c_cfg c = g -> hostL g (enter r c).
Proof. intros g r c HL Hg _. destruct r; auto. Qed.

Lemma hostL_session : forall E G dbg g xs h h', psession E G dbg xs h h' -> forall A, host_at E A h -> hostL g h -> hostL g h'.
Proof.
  induction 1 as [h|x xs h h1 h2 Hp He Hs IH]; intros A HA HL; [exact HL|].
  destruct (host_session E G dbg [x] h h1 (ps_cons _ _ _ _ _ _ _ _ Hp He (ps_nil _ _ _ _)) A HA) as [A1 HA1].
  apply (IH A1 HA1). clear IH Hs HA1.
  destruct h as [r0 c0|stop c0|b c0]; destruct x as [|k]; cbn [os_event] in He; try discriminate.
  - unfold os_cmd in He. destruct (do_cmd G r0 k c0) as [[[a c1] nx]|e s|w] eqn:Hk; cbn [bind] in He; try discriminate.
    injection He as <-. destruct (do_cmd_frame _ _ _ _ _ _ _ Hk) as [F1 [F2 F3]].
    assert (Hl : live r0 -> L c1 /\ c_cfg c1 = g).
    { intros Hl. destruct (HL Hl) as [L1 L2]. split; [eapply L_frame; eauto|congruence]. }
    destruct nx; [exact Hl| |]; destruct r0; cbn [leave hostL]; try exact I; apply Hl; discriminate.
  - injection He as He. destruct HA as [HI [HD Hh]]. destruct HL as [HL Hg]. unfold os_tick in He.
    destruct (tick E c0) as [c'|e s|w] eqn:Ht; [| |discriminate].
    + pose proof (tick_L _ _ _ _ HI HL Ht) as HL'. destruct (tick_inv _ _ _ _ HI Ht) as [is [A' T]].
      pose proof (td_cfg _ _ _ _ _ _ T) as Hc. assert (Hg' : c_cfg c' = g) by congruence.
      destruct (c_halted c'); [apply Ok_eq in He; subst h1; destruct dbg; [now apply hostL_enter|exact I]|].
      destruct (0 <? c_int c').
      * destruct (reason_of (c_int c')); [|discriminate]. apply Ok_eq in He. subst h1.
        destruct dbg; [now apply hostL_enter|]. destruct stop; [exact I|]. now split.
      * apply Ok_eq in He. subst h1. destruct stop; [exact I|]. now split.
    + apply Ok_eq in He. subst h1. destruct dbg; [|exact I]. intros Hl. exfalso. now apply Hl.
Qed.

Lemma set_lregs_wm : forall vs c c', set_lregs c vs = Ok c' -> c_wm c' = c_wm c.
Proof.
  induction vs as [|[l v] vs IH]; intros c c' H; cbn [set_lregs] in H; [apply Ok_eq in H; now subst|].
  apply bind_ok in H. destruct H as [c1 [H1 H]]. apply IH in H. apply set_lreg_regs in H1. destruct H1 as [f ->]. exact H.
Qed.

Lemma load_data_wm : forall data c a c', load_data c a data = Ok c' -> c_wm c' = c_wm c.
Proof.
  induction data as [|v data IH]; intros c a c' H; cbn [load_data] in H; [apply Ok_eq in H; now subst|].
  destruct (ram_set (c_ram c) a v); [|discriminate]. apply IH in H. exact H.
Qed.

Lemma boot_L : forall g p data input c, boot g p data input = Ok c -> L c.
Proof.
  intros g p data input c H. unfold boot in H.
  apply bind_ok in H. destruct H as [c0 [H0 H]]. unfold cpu_init in H0. cbv zeta in H0.
  destruct (psub_all _ _) as [f|] eqn:Hf; [|discriminate].
  pose proof (set_lregs_wm _ _ _ H0) as W0. apply set_lregs_keep in H0. destruct H0 as [_ [_ [A3 _]]].
  pose proof (load_data_wm _ _ _ _ H) as W. apply load_data_keep in H. destruct H as [_ [_ [B3 _]]].
  apply rest_L; [now rewrite B3, A3|]. now rewrite W, W0.
Qed.

(** Every running state of a session is one from which the machine gets on. *)
Lemma session_good : forall E G dbg g p data input c0 xs stop c,
  started E g p data input c0 -> (1 <= g_alus g)%nat -> (1 <= g_gates g)%nat ->
  psession E G dbg xs (os_start dbg c0) (Going stop c) -> Forall loads_or_stores (c_prog c) -> good E c /\ D c.
Proof.
  intros E G dbg g p data input c0 xs stop c [Hip Hty Hb] Ha Hg Hs Hls.
  destruct (boot_host E g p data input c0 dbg (keeps_valid _ Hip) Hb) as [HA [Hp [Hc _]]].
  destruct (host_session _ _ _ _ _ _ Hs _ HA) as [A' [HI [HD Hh]]].
  assert (HL0 : hostL g (os_start dbg c0)).
  { destruct dbg; cbn [os_start]; [apply hostL_enter; [eapply boot_L; eauto|exact Hc]|split; [eapply boot_L; eauto|exact Hc]]. }
  destruct (hostL_session _ _ _ _ _ _ _ Hs _ HA HL0) as [HL Hcg]. split; [|exact HD].
  constructor; try (rewrite Hcg; assumption); eauto.
  rewrite Hcg. pose proof (boot_rs _ _ _ _ _ Hb). lia.
Qed.

(** ---- C10 ---- *)

(** The next [k] ticks do not all succeed: one of them reports an error. *)
Definition fails (E : env) (k : nat) (c : cpu) : Prop := forall c', ticks E k c <> Ok c'.

(** Whenever the machine is running, alone or under a debugger, an instruction
    retires within 89 ticks. *)
Theorem C10_progress : forall E G dbg g p data input c0 xs stop c,
  started E g p data input c0 -> (1 <= g_alus g)%nat -> (1 <= g_gates g)%nat ->
  psession E G dbg xs (os_start dbg c0) (Going stop c) -> Forall loads_or_stores (c_prog c) ->
  exists k, (k <= 89)%nat /\ (fails E k c \/ exists c', ticks E k c = Ok c' /\ (1 <= ticks_count E k c)%nat).
Proof.
  intros. destruct (session_good _ _ _ _ _ _ _ _ _ _ _ H H0 H1 H2 H3) as [HG _]. exact (good_soon _ _ HG).
Qed.

(** What the machine has done after [n] ticks is what [ticks_count] counts: that many
    instructions of the sequential machine. *)
Theorem C10_counts : forall E g p data input c0 n c,
  started E g p data input c0 -> ticks E n c0 = Ok c ->
  exists S, isa_run (e_fops E) p (ticks_count E n c0) (isa_boot (g_ram g) data input) S /\
    (forall a, ram_get (c_ram c) a = a_mem S a) /\ c_out c = a_out S /\ c_in c = a_in S /\ c_halted c = a_halted S.
Proof.
  intros E g p data input c0 n c [Hip Hty Hb] Ht. pose proof (keeps_valid _ Hip) as Hv.
  destruct (boot_inv E _ _ _ _ _ Hv Hb) as [B1 [B2 [B3 [B4 _]]]].
  destruct (ticks_counted E n _ c0 c B1 (boot_D _ _ _ _ _ Hb) (fun _ => B2) Ht) as [A' R].
  destruct R as [R1 R2 R3 R4 R5 R6 R7]. rewrite B3 in R1.
  pose proof (boot_wordy _ _ _ _ _ Hty) as W. destruct Hty as [T1 T2 T3 T4 T5].
  change (PipeBoot.arch_boot g data input) with (isa_boot (g_ram g) data input) in *.
  destruct (io_isa_run _ _ _ _ _ Hv T2 T1 R1 W) as [H1 H2].
  exists A'. split; [exact H1|].
  destruct R2 as [I1 [I2 [I3 [den [role [Jp Je Jr Jw Jm Ja Jl Jo Ji]]]]]].
  split; [intros a; now rewrite (ra_mem _ _ _ Jm)|]. do 2 (split; [congruence|]). congruence.
Qed.

(** Within 89 ticks per instruction the VM shows the effects of at least [m]
    instructions of the program, or it has halted, or it has reported an error. *)
Lemma ticks_add : forall E n m c, ticks E (n + m) c = let! c1 := ticks E n c in ticks E m c1.
Proof.
  induction n as [|n IH]; intros m c; [reflexivity|]. cbn [ticks Nat.add]. destruct (tick E c); cbn [bind]; auto.
Qed.

Lemma ticks_count_add : forall E n m c c1, ticks E n c = Ok c1 ->
  ticks_count E (n + m) c = (ticks_count E n c + ticks_count E m c1)%nat.
Proof.
  induction n as [|n IH]; intros m c c1 H; cbn [ticks] in H; [apply Ok_eq in H; now subst|].
  apply bind_ok in H. destruct H as [c2 [H2 H]]. cbn [Nat.add ticks_count]. rewrite H2.
  rewrite (IH m c2 c1 H). lia.
Qed.

Lemma good_ticks : forall E n c c', good E c -> ticks E n c = Ok c' -> c_halted c' = false -> (forall k c1, (k <= n)%nat -> ticks E k c = Ok c1 -> c_halted c1 = false) -> good E c'.
Proof.
  induction n as [|n IH]; intros c c' HG H Hh Hall; cbn [ticks] in H; [apply Ok_eq in H; now subst|].
  apply bind_ok in H. destruct H as [c1 [H1 H]].
  assert (Hh1 : c_halted c1 = false) by (apply (Hall 1%nat); [lia|]; cbn; now rewrite H1).
  apply (IH c1 c' (tick_good _ _ _ HG H1 Hh1) H Hh). intros k c2 Hk H2. apply (Hall (S k)); [lia|].
  cbn [ticks]. rewrite H1. exact H2.
Qed.

Lemma halted_or_not : forall E n c, (exists k c1, (k <= n)%nat /\ ticks E k c = Ok c1 /\ c_halted c1 = true) \/
  (forall k c1, (k <= n)%nat -> ticks E k c = Ok c1 -> c_halted c1 = false).
Proof.
  induction n as [|n IH]; intros c.
  - destruct (c_halted c) eqn:Hh; [left; exists 0%nat, c; cbn; auto|right]. intros [|k] c1 Hk H; [|lia]. apply Ok_eq in H. now subst.
  - destruct (c_halted c) eqn:Hh; [left; exists 0%nat, c; split; [lia|]; cbn; auto|].
    destruct (tick E c) as [c1|x s|u] eqn:Ht.
    + destruct (IH c1) as [[k [c2 [Hk [H1 H2]]]]|Hn].
      * left. exists (S k), c2. split; [lia|]. cbn [ticks]. rewrite Ht. auto.
      * right. intros [|k] c2 Hk H; [apply Ok_eq in H; now subst|]. cbn [ticks] in H. rewrite Ht in H. apply (Hn k); [lia|exact H].
    + right. intros [|k] c2 Hk H; [apply Ok_eq in H; now subst|]. cbn [ticks] in H. rewrite Ht in H. discriminate.
    + right. intros [|k] c2 Hk H; [apply Ok_eq in H; now subst|]. cbn [ticks] in H. rewrite Ht in H. discriminate.
Qed.

Lemma count_reaches : forall E m c, good E c -> exists n, (n <= 89 * m)%nat /\
  (fails E n c \/ exists c', ticks E n c = Ok c' /\ ((m <= ticks_count E n c)%nat \/ c_halted c' = true)).
Proof.
  induction m as [|m IH]; intros c HG; [exists 0%nat; split; [lia|right]; exists c; cbn; auto with arith|].
  destruct (good_soon _ _ HG) as [k [Hk [Hf|[c1 [H1 H2]]]]]; [exists k; split; [lia|auto]|].
  destruct (halted_or_not E k c) as [[j [c2 [Hj [H3 H4]]]]|Hn].
  { exists j. split; [lia|]. right. exists c2. auto. }
  assert (HG1 : good E c1) by (eapply good_ticks; eauto).
  destruct (IH c1 HG1) as [n [Hle [Hf|[c' [H3 H4]]]]]; exists (k + n)%nat; (split; [lia|]).
  - left. intros c'. rewrite ticks_add, H1. apply Hf.
  - right. exists c'. rewrite ticks_add, H1. split; [exact H3|]. rewrite (ticks_count_add _ _ _ _ _ H1).
    destruct H4; [left; lia|auto].
Qed.

Theorem C10_reaches : forall E g p data input c0 m,
  started E g p data input c0 -> (1 <= g_alus g)%nat -> (1 <= g_gates g)%nat -> Forall loads_or_stores p ->
  exists n, (n <= 89 * m)%nat /\
   (fails E n c0 \/
    exists c k S, ticks E n c0 = Ok c /\ isa_run (e_fops E) p k (isa_boot (g_ram g) data input) S /\
      (forall a, ram_get (c_ram c) a = a_mem S a) /\ c_out c = a_out S /\ c_in c = a_in S /\
      ((m <= k)%nat \/ a_halted S = true)).
Proof.
  intros E g p data input c0 m Hst Ha Hg Hls.
  assert (HG : good E c0).
  { destruct (boot_host E g p data input c0 false (keeps_valid _ (st_ip _ _ _ _ _ _ Hst)) (st_boot _ _ _ _ _ _ Hst)) as [_ [Hp _]].
    apply (session_good E cfg1 false g p data input c0 [] false c0 Hst Ha Hg); [constructor|congruence]. }
  destruct (count_reaches E m c0 HG) as [n [Hn [Hf|[c [H1 H2]]]]]; exists n; (split; [exact Hn|]); [now left|right].
  destruct (C10_counts _ _ _ _ _ _ _ _ Hst H1) as [S [K1 [K2 [K3 [K4 K5]]]]].
  exists c, (ticks_count E n c0), S. do 5 (split; [assumption|]). destruct H2; [auto|right; congruence].
Qed.

(** ---- single stepping answers ---- *)

Lemma psession_app : forall E G dbg xs ys h h1 h2, psession E G dbg xs h h1 -> psession E G dbg ys h1 h2 ->
  psession E G dbg (xs ++ ys) h h2.
Proof. intros E G dbg xs ys h h1 h2 H. induction H; intros H2; cbn [app]; [exact H2|]. econstructor; eauto. Qed.

Lemma io_run_kind : forall E p ii A s A' s', io_run E p ii A s A' s' -> snd s = 0 \/ snd s = 2 \/ snd s = 3 ->
  snd s' = 0 \/ snd s' = 2 \/ snd s' = 3.
Proof.
  induction 1 as [A s|ii A s T A' s' Hst Hz Hr IH]; intros H; [exact H|]. apply IH.
  destruct (step_dbg_int E (prog_at p (a_pc A)) A s) as [H1|[H1|H1]]; rewrite H1; auto.
Qed.

Lemma step_soon : forall E G n c, good E c -> rank c n -> c_trap c = true ->
  exists k, (k <= S n)%nat /\
   ((exists w, play E G true (repeat ETick k) (Going false c) = Some (Undef w)) \/
    exists r c', play E G true (repeat ETick k) (Going false c) = Some (Ok (At r c'))).
Proof.
  intros E G n. induction n as [n IH] using lt_wf_ind. intros c HG HR Htr.
  pose proof HG as [[A HI] _ Hh _ _ _ _].
  destruct (tick E c) as [c1|x s|u] eqn:Ht.
  2: { exists 1%nat. split; [lia|right]. cbn [repeat play os_event]. unfold os_tick. rewrite Ht. unfold enter. eauto. }
  2: { exists 1%nat. split; [lia|left]. cbn [repeat play os_event]. unfold os_tick. rewrite Ht. eauto. }
  destruct (tick_inv _ _ _ _ HI Ht) as [is [A' T]]. pose proof (td_count _ _ _ _ _ _ T) as Hn.
  destruct (td_run _ _ _ _ _ _ T) as [i [Hrun Hi]]. rewrite Htr in Hi.
  destruct (Nat.eq_dec (tick_count E c) 0) as [Hz|Hz].
  - destruct (rank_down _ _ _ _ HG HR Ht Hz) as [m [Hm HR']].
    pose proof (quiet_running _ _ _ _ HI Hh Ht Hz) as Hh'. rewrite Hz in Hn. destruct is; [|discriminate].
    assert (Hi0 : i = 0) by (inversion Hrun; congruence). subst i. rewrite Hh' in Hi. cbn in Hi.
    pose proof (td_trap _ _ _ _ _ _ T) as Ht1.
    destruct (IH m Hm c1 (tick_good _ _ _ HG Ht Hh') HR' ltac:(congruence)) as [k [Hk Hr]]. exists (S k). split; [lia|].
    cbn [repeat play os_event]. unfold os_tick. rewrite Ht, Hh', Hi. exact Hr.
  - exists 1%nat. split; [lia|right]. cbn [repeat play os_event]. unfold os_tick. rewrite Ht.
    destruct (c_halted c1) eqn:Hc1; [unfold enter; eauto|].
    assert (Hl : Nat.eqb (length is) 0 = false) by (apply Nat.eqb_neq; congruence). rewrite Hl in Hi. cbn [negb andb] in Hi.
    pose proof (io_run_kind _ _ _ _ _ _ _ Hrun (or_introl eq_refl)) as Hk. cbn [snd] in Hk.
    destruct Hk as [Hk|[Hk|Hk]]; subst i; cbn in Hi; rewrite Hi; cbn; unfold enter; eauto.
Qed.

(** A single step ends: the VM stops again, within 89 ticks. *)
Theorem C10_step_ends : forall E G g p data input c0 xs r c,
  started E g p data input c0 -> (1 <= g_alus g)%nat -> (1 <= g_gates g)%nat ->
  psession E G true xs (os_start true c0) (At r c) -> r <> RCpuError -> r <> RHalted ->
  Forall loads_or_stores (c_prog c) ->
  exists k, (k <= 89)%nat /\
   ((exists w, play E G true (ECmd CSingleStep :: repeat ETick k) (At r c) = Some (Undef w)) \/
    exists r' c', play E G true (ECmd CSingleStep :: repeat ETick k) (At r c) = Some (Ok (At r' c'))).
Proof.
  intros E G g p data input c0 xs r c Hst Ha Hg Hs Hr1 Hr2 Hls.
  assert (Hl : leave r false (set_trap c true) = Going false (set_trap c true)) by (destruct r; try reflexivity; congruence).
  assert (Hx : psession E G true (xs ++ [ECmd CSingleStep]) (os_start true c0) (Going false (set_trap c true))).
  { eapply psession_app; [exact Hs|]. econstructor; [exact I| |constructor].
    cbn [os_event]. unfold os_cmd. cbn [do_cmd bind]. now rewrite Hl. }
  destruct (session_good _ _ _ _ _ _ _ _ _ _ _ Hst Ha Hg Hx Hls) as [HG _].
  destruct (some_rank _ _ HG) as [n [Hn HR]].
  destruct (step_soon E G n _ HG HR eq_refl) as [k [Hk H]]. exists k. split; [lia|].
  cbn [play os_event]. unfold os_cmd. cbn [do_cmd bind]. rewrite Hl. exact H.
Qed.

(** ---- examples ---- *)

(** A machine in the middle of a run: two instructions in the reservation station, the older of which
    waits for the RAM; the next retirement is eight ticks away. *)
Definition prog_ld : list instr :=
  [ IMov (OReg (R 0)) (OMemImm 1); IMov (OMemImm 2) (OReg (R 0)); IBin BADD (R 1) (R 1) (OMemImm 2) false;
    IPutnum (R 1); IHalt ].

Lemma started_ld : started env0 cfg1 prog_ld [7; 8] [] (booted cfg1 prog_ld [7; 8] []) /\ Forall loads_or_stores prog_ld.
Proof.
  split; [constructor; [| |vm_compute; reflexivity]|].
  - repeat (constructor; [cbn; discriminate || exact I|]). constructor.
  - constructor; [exact no_floats_typed| | | |].
    + repeat (constructor; [vm_compute; intuition discriminate|]). constructor.
    + cbn; lia.
    + repeat (constructor; [unfold fits; lia|]). constructor.
    + constructor.
  - repeat (constructor; [unfold loads_or_stores; cbn; auto|]). constructor.
Qed.

Example C10_case : exists c,
  psession env0 cfg1 true ([ECmd CContinue] ++ ticks_of 5) (os_start true (booted cfg1 prog_ld [7; 8] [])) (Going false c) /\
  Forall loads_or_stores (c_prog c) /\ length (c_rs c) = 2%nat /\
  map (fun k => ticks_count env0 k c) [1; 3; 5; 6; 7; 8; 30]%nat = [0; 0; 0; 0; 0; 1; 5]%nat.
Proof.
  set (h := after_pplay (pplay env0 cfg1 true ([ECmd CContinue] ++ ticks_of 5) (os_start true (booted cfg1 prog_ld [7; 8] [])))).
  assert (Hh : pplay env0 cfg1 true ([ECmd CContinue] ++ ticks_of 5) (os_start true (booted cfg1 prog_ld [7; 8] [])) = Some h) by (vm_compute; reflexivity).
  exists (match h with At _ c | Going _ c | Ended _ c => c end).
  split; [|split; [exact (proj2 started_ld)|vm_compute; split; reflexivity]].
  replace (Going false _) with h by (vm_compute; reflexivity). now apply pplay_psession.
Qed.

(** The same machine stopped after one step: the second step ends after eight ticks. *)
Example C10_step_case : exists c c',
  psession env0 cfg1 true ([ECmd CSingleStep] ++ ticks_of 13) (os_start true (booted cfg1 prog_ld [7; 8] [])) (At RSingle c) /\
  Forall loads_or_stores (c_prog c) /\
  play env0 cfg1 true (ECmd CSingleStep :: repeat ETick 8) (At RSingle c) = Some (Ok (At RSingle c')).
Proof.
  set (h := after_pplay (pplay env0 cfg1 true ([ECmd CSingleStep] ++ ticks_of 13) (os_start true (booted cfg1 prog_ld [7; 8] [])))).
  assert (Hh : pplay env0 cfg1 true ([ECmd CSingleStep] ++ ticks_of 13) (os_start true (booted cfg1 prog_ld [7; 8] [])) = Some h) by (vm_compute; reflexivity).
  exists (match h with At _ c | Going _ c | Ended _ c => c end).
  exists (match play env0 cfg1 true (ECmd CSingleStep :: repeat ETick 8) h with Some (Ok (At _ c)) => c | _ => booted cfg1 [] [] [] end).
  split; [|split; [exact (proj2 started_ld)|]].
  - replace (At RSingle _) with h by (vm_compute; reflexivity). now apply pplay_psession.
  - vm_compute. reflexivity.
Qed.

(** ---- C69 ---- *)

(** The program is run for ever without a single instruction of it retiring, although
    its first instruction has a well-defined effect. *)
Definition hangs (E : env) (g : cfg) (p : list instr) : Prop :=
  exists c0, started E g p [] [] c0 /\
    (exists S, isa_step (e_fops E) p (isa_boot (g_ram g) [] []) S) /\
    forall n, exists c, ticks E n c0 = Ok c /\ c_halted c = false /\ ticks_count E n c0 = 0%nat.

Lemma frozen : forall E n c0 c, ticks E n c0 = Ok c -> tick E c = Ok c -> ticks_count E n c0 = 0%nat -> tick_count E c = 0%nat ->
  (forall m, (m <= n)%nat -> exists c1, ticks E m c0 = Ok c1 /\ c_halted c1 = false /\ ticks_count E m c0 = 0%nat) ->
  forall m, exists c1, ticks E m c0 = Ok c1 /\ c_halted c1 = false /\ ticks_count E m c0 = 0%nat.
Proof.
  intros E n c0 c H1 H2 H3 H4 H m. destruct (Nat.le_gt_cases m n) as [Hm|Hm]; [auto|].
  assert (Hst : forall k, ticks E k c = Ok c /\ ticks_count E k c = 0%nat).
  { induction k as [|k [I1 I2]]; [split; reflexivity|]. cbn [ticks ticks_count]. rewrite H2. cbn [bind].
    split; [exact I1|]. now rewrite H4, I2. }
  replace m with (n + (m - n))%nat by lia. destruct (Hst (m - n)%nat) as [K1 K2].
  exists c. rewrite ticks_add, H1, (ticks_count_add _ _ _ _ _ H1), H3, K2. cbn [bind].
  split; [exact K1|]. split; [|reflexivity]. destruct (H n (Nat.le_refl n)) as [c1 [X1 [X2 _]]]. congruence.
Qed.

Fixpoint calm (E : env) (n : nat) (c : cpu) : bool :=
  negb (c_halted c) &&
  match n with
  | O => true
  | S n' => Nat.eqb (tick_count E c) 0 && match tick E c with Ok c' => calm E n' c' | _ => false end
  end.

Lemma calm_all : forall E n c, calm E n c = true ->
  forall m, (m <= n)%nat -> exists c1, ticks E m c = Ok c1 /\ c_halted c1 = false /\ ticks_count E m c = 0%nat.
Proof.
  induction n as [|n IH]; intros c H m Hm; cbn [calm] in H; apply andb_prop in H; destruct H as [Hh H];
    apply negb_true_iff in Hh; (destruct m as [|m]; [exists c; cbn; auto|]).
  - lia.
  - apply andb_prop in H. destruct H as [Hc H]. apply Nat.eqb_eq in Hc.
    destruct (tick E c) as [c1|x s|u] eqn:Ht; try discriminate. destruct (IH c1 H m) as [c2 [I1 [I2 I3]]]; [lia|].
    exists c2. cbn [ticks ticks_count]. rewrite Ht. cbn [bind]. split; [exact I1|]. split; [exact I2|]. lia.
Qed.

Definition still (E : env) (n : nat) (c : cpu) : Prop :=
  match ticks E n c with Ok c1 => tick E c1 = Ok c1 /\ tick_count E c1 = 0%nat | _ => False end.

Lemma still_hangs : forall E g p n S, started E g p [] [] (booted g p [] []) ->
  isa_step (e_fops E) p (isa_boot (g_ram g) [] []) S ->
  calm E n (booted g p [] []) = true -> still E n (booted g p [] []) -> hangs E g p.
Proof.
  intros E g p n S Hst Hs Hc Hf. exists (booted g p [] []). split; [exact Hst|]. split; [eauto|].
  pose proof (calm_all _ _ _ Hc) as H. destruct (H n (Nat.le_refl n)) as [c [H1 [_ H3]]].
  unfold still in Hf. rewrite H1 in Hf. destruct Hf as [F1 F2]. eapply frozen; eauto.
Qed.

Definition mini (alus gates : nat) : cfg := mkCfg 2 1 alus 1 4 gates.

(** Whatever the floating-point unit: MOV [R0], [R1] (any two cells), MOV [2], [2] and
    PUSH [2] stop the machine for good; so does a load without a RAM gate and a conversion
    without an ALU *)
Definition hanging : list (cfg * list instr) :=
  [ (mini 1 1, [IMov (OMemReg (R 0)) (OMemReg (R 1)); IHalt]);
    (mini 1 1, [IMov (OMemImm 2) (OMemImm 2); IHalt]);
    (mini 1 1, [IPush (OMemImm 2); IHalt]);
    (mini 1 0, [IMov (OReg (R 0)) (OMemImm 2); IHalt]);
    (mini 0 1, [IExt 0 (R 0); IHalt]) ].

Theorem C69_hang_refuted : forall E g p, typed_fops (e_fops E) -> In (g, p) hanging -> hangs E g p.
Proof.
  intros E g p HF Hin.
  assert (Hw : forall z, 0 <= z < 10 -> is_word_of z z) by (intros z Hz; unfold is_word_of; split; [lia|exists 0; lia]).
  assert (Hr0 : reg_val (isa_boot 4 [] []) (LR (R 0)) 0) by (exact (rv_reg (isa_boot 4 [] []) (LR (R 0)) ltac:(discriminate))).
  assert (Hr1 : reg_val (isa_boot 4 [] []) (LR (R 1)) 0) by (exact (rv_reg (isa_boot 4 [] []) (LR (R 1)) ltac:(discriminate))).
  assert (Hst : started E g p [] [] (booted g p [] [])).
  { destruct Hin as [Hin|[Hin|[Hin|[Hin|[Hin|[]]]]]]; injection Hin as <- <-;
      (constructor; [repeat (constructor; [cbn; discriminate || exact I|]); constructor| |vm_compute; reflexivity]);
      (constructor; [exact HF|repeat (constructor; [vm_compute; intuition discriminate|]); constructor|cbn; lia|constructor|constructor]). }
  destruct Hin as [Hin|[Hin|[Hin|[Hin|[Hin|[]]]]]]; injection Hin as <- <-;
    (eapply (still_hangs E _ _ 20); [exact Hst| |vm_compute; reflexivity|vm_compute; split; reflexivity]);
    (constructor; [reflexivity|cbn]).
  - exists 0, 0. split; [apply in_r; exact Hr0|]. split; [eapply op_mem; [apply in_r; exact Hr1|reflexivity]|].
    split; [cbn; discriminate|apply same_refl].
  - exists 2, 0. split; [apply in_i|]. split; [eapply op_mem; [apply in_i|reflexivity]|].
    split; [cbn; discriminate|apply same_refl].
  - exists 0, 3. split; [eapply op_mem; [apply in_i|reflexivity]|]. split; [apply (Hw 3); lia|].
    split; [cbn; discriminate|apply same_refl].
  - exists 0. split; [eapply op_mem; [apply in_i|reflexivity]|apply same_refl].
  - exists 0. split; [exact Hr0|apply same_refl].
Qed.

Print Assumptions C10_progress.
Print Assumptions C10_counts.
Print Assumptions C10_reaches.
Print Assumptions C10_step_ends.
Print Assumptions C69_hang_refuted.
