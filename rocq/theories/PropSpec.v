(** C06, C39, C40, C47: speculation and errors. *)
From Coq Require Import ZArith NArith List Bool Lia.
From Verif Require Import Base Alu Isa State AluSpec Exec Ram Writes Rat Cpu InOrder PipeInv PipeBasics PipeDom PipeRun
  IsaSpec IsaRefine Os DbgSpec PipePoke Session PipeFault PropPipe.
Import ListNotations.
Open Scope Z_scope.

(** ---- C06 ---- *)

Lemma transfer : forall E p1 p2 n A B, io_steps E p1 n A B ->
  (forall k S, io_steps E p1 k A S -> a_halted S = false -> prog_at p1 (a_pc S) = prog_at p2 (a_pc S)) ->
  io_steps E p2 n A B.
Proof.
  intros E p1 p2 n A B H. induction H as [S|n S S1 S2 H1 H2 IH]; intros Hp; [constructor|].
  assert (Hs : io_step E p2 S S1).
  { pose proof (Hp 0%nat S (ios_refl _ _ _) (io_step_running _ _ _ _ H1)) as Hi. destruct H1. rewrite Hi in *. econstructor; eauto. }
  econstructor; [exact Hs|]. apply IH. intros k T Ht. apply (Hp (Datatypes.S k)). econstructor; eauto.
Qed.

(** Two programs that agree on every instruction that is executed show the same at
    the end, however they differ elsewhere: what was fetched and begun on a wrong
    path leaves no trace. The configurations may differ as well. *)
Theorem C06_wrong_path_invisible : forall E G1 G2 g1 g2 p1 p2 data input c1 c2 xs1 xs2 d1 d2,
  started E g1 p1 data input c1 -> started E g2 p2 data input c2 -> g_ram g1 = g_ram g2 ->
  (forall k S, isa_run (e_fops E) p1 k (isa_boot (g_ram g1) data input) S -> a_halted S = false ->
     instr_at p1 (a_pc S) = instr_at p2 (a_pc S)) ->
  psession E G1 false xs1 (os_start false c1) (Ended true d1) ->
  psession E G2 false xs2 (os_start false c2) (Ended true d2) ->
  look_alike d1 d2.
Proof.
  intros E G1 G2 g1 g2 p1 p2 data input c1 c2 xs1 xs2 d1 d2 [Hip1 Hty1 Hb1] [Hip2 Hty2 Hb2] Hram Hag Hs1 Hs2.
  destruct (boot_host E g1 p1 data input c1 false (keeps_valid _ Hip1) Hb1) as [_ [Hp1 [_ [[RI1 RD1 RR1] Hh1]]]].
  destruct (boot_host E g2 p2 data input c2 false (keeps_valid _ Hip2) Hb2) as [_ [Hp2 [_ [[RI2 RD2 RR2] Hh2]]]].
  destruct (free_sound _ _ _ _ _ Hs1 _ _ _ eq_refl eq_refl RI1 RD1 Hh1) as [k1 [A1 [S1 [S2 [S3 _]]]]].
  destruct (free_sound _ _ _ _ _ Hs2 _ _ _ eq_refl eq_refl RI2 RD2 Hh2) as [k2 [A2 [U1 [U2 [U3 _]]]]].
  rewrite Hp1 in S1. rewrite Hp2, <- Hram in U1. apply rests_shows in S2, U2.
  pose proof (boot_wordy _ _ _ _ _ Hty1) as W. destruct Hty1 as [T1 T2 T3 T4 T5].
  assert (S1' : io_steps E p2 k1 (isa_boot (g_ram g1) data input) A1).
  { eapply transfer; [exact S1|]. intros k S Hk Hh.
    destruct (io_isa_run _ _ _ _ _ (keeps_valid _ Hip1) T2 T1 Hk W) as [Hk' [Hpc _ _ _]].
    rewrite !prog_at_instr by apply Hpc. eapply Hag; eauto. }
  destruct (io_halt_unique _ _ _ _ _ _ _ S1' U1) as [_ ->].
  - now rewrite <- (sh_halted _ _ S2).
  - now rewrite <- (sh_halted _ _ U2).
  - eapply shows_alike; eauto.
Qed.

(** When a run reports an access outside the memory, the sequential machine comes to
    an instruction that makes such an access. *)
Theorem C06_fault_is_sequential : forall E g p data input c0 n c s,
  started E g p data input c0 -> ticks E n c0 = Ok c -> tick E c = Throw EMemRange s ->
  exists k S a, isa_run (e_fops E) p k (isa_boot (g_ram g) data input) S /\ a_halted S = false /\
    accesses S (instr_at p (a_pc S)) a /\ a_mem S a = None.
Proof.
  intros E g p data input c0 n c s [Hip Hty Hb] Ht Hf.
  destruct (boot_reached E g p data input c0 n c (keeps_valid _ Hip) Hb Ht) as [k [A' [R [Hp Hg]]]].
  destruct R as [R1 R2 R3 R4 R5 R6 R7]. rewrite Hp in *.
  pose proof (boot_wordy _ _ _ _ _ Hty) as W. destruct Hty as [T1 T2 T3 T4 T5].
  change (PipeBoot.arch_boot g data input) with (isa_boot (g_ram g) data input) in *.
  destruct (tick_fault _ _ _ _ R2 Hf) as [k2 [S [H1 [H2 H3]]]]. rewrite R4 in *.
  pose proof (io_steps_app _ _ _ _ _ R1 _ _ H1) as H4.
  destruct (io_isa_run _ _ _ _ _ (keeps_valid _ Hip) T2 T1 H4 W) as [H5 H6].
  destruct (faulty_spec E p S H6 T2 (proj1 (w_pc S H6)) H3) as [a [H7 H8]].
  exists (k + k2)%nat, S, a. auto.
Qed.

Lemma going_ticks : forall E G dbg ys h h', psession E G dbg ys h h' -> cmds ys = [] -> forall b c b' c',
  h = Going b c -> h' = Going b' c' -> exists n, ticks E n c = Ok c'.
Proof.
  induction 1 as [h|x xs h h1 h2 Hp He Hs IH]; intros Hc b c b' c' H1 H2; subst.
  - injection H2 as _ ->. exists 0%nat. reflexivity.
  - destruct x; [|discriminate Hc]. cbn [os_event cmds] in *. injection He as He.
    assert (Hn : forall r d, h1 = At r d -> False).
    { intros r d ->. inversion Hs; subst. destruct x; cbn [os_event cmds] in *; discriminate. }
    assert (Hn2 : forall r d, h1 = Ended r d -> False).
    { intros r d ->. inversion Hs; subst. destruct x; cbn [os_event cmds] in *; discriminate. }
    assert (Hg : exists b1 c1, h1 = Going b1 c1 /\ tick E c = Ok c1).
    { unfold os_tick in He. destruct (tick E c) as [c1|e s|w]; [| |discriminate].
      - destruct (c_halted c1); [|destruct (0 <? c_int c1); [destruct (reason_of _); [|discriminate]|]];
          apply Ok_eq in He; unfold enter in He; [destruct dbg|destruct dbg; [|destruct b]|destruct b]; subst h1; eauto;
          exfalso; first [eapply Hn; reflexivity|eapply Hn2; reflexivity].
      - apply Ok_eq in He. unfold enter in He. destruct dbg; subst h1; exfalso; first [eapply Hn; reflexivity|eapply Hn2; reflexivity]. }
    destruct Hg as [b1 [c1 [-> Ht]]]. destruct (IH Hc _ _ _ _ eq_refl eq_refl) as [n Hn3].
    exists (Datatypes.S n). cbn [ticks]. rewrite Ht. exact Hn3.
Qed.

(** The same in a debugging session, from the last stop on. *)
Theorem C06_session_fault_is_sequential : forall E G g p data input c0 xs r c k ys b d s,
  started E g p data input c0 -> psession E G true xs (os_start true c0) (At r c) -> r <> RCpuError ->
  Forall typed_cmd (cmds xs) -> psession E G true (ECmd k :: ys) (At r c) (Going b d) -> cmds ys = [] ->
  tick E d = Throw EMemRange s ->
  exists S n S' a, shows c S /\ isa_run (e_fops E) (c_prog c) n S S' /\ a_halted S' = false /\
    accesses S' (instr_at (c_prog c) (a_pc S')) a /\ a_mem S' a = None.
Proof.
  intros E G g p data input c0 xs r c k ys b d s [Hip Hty Hb] Hs Hr Htc Hs2 Hy Hf.
  destruct (boot_host E g p data input c0 true (keeps_valid _ Hip) Hb) as [HA [Hp [Hg [HR Hh]]]].
  destruct (session_sound _ _ _ _ _ Hs _ _ _ eq_refl Hr HA) as [m [A1 [n [A' [[_ ->] [I2 [I3 [I4 I5]]]]]]]].
  pose proof (boot_wordy _ _ _ _ _ Hty) as W. destruct Hty as [T1 T2 T3 T4 T5].
  cbn [os_start enter host_cpu] in I2. rewrite Hp in I2.
  destruct (io_debug _ _ _ _ _ I2 T1 Htc T2 W) as [_ [W' T']]. cbn [fst snd] in W', T'.
  inversion Hs2 as [|x xs' h h1 h2 Hpo He Hs3]; subst. cbn [os_event] in He. unfold os_cmd in He.
  destruct (do_cmd G r k c) as [[[a c1] nx]|e s'|w] eqn:Hk; cbn [bind] in He; try discriminate. injection He as He.
  assert (Hc1 : exists b1, h1 = Going b1 c1 /\ (nx = Resume \/ nx = Quit)).
  { destruct nx; [exfalso; subst h1; inversion Hs3; subst; destruct x; cbn [os_event cmds] in *; discriminate| |];
      destruct r; cbn [leave] in He; subst h1; eauto; exfalso; inversion Hs3; subst; destruct x; cbn [os_event cmds] in *; discriminate. }
  destruct Hc1 as [b1 [-> Hnx]].
  assert (Hk1 : c1 = c \/ c1 = set_trap c true).
  { destruct k; cbn [do_cmd] in Hk;
      try (apply Ok_eq in Hk; injection Hk as _ <- <-; destruct Hnx; (discriminate || auto));
      try (destruct (collect _ _); [|discriminate]; apply Ok_eq in Hk; injection Hk as _ <- <-; destruct Hnx; discriminate);
      try (destruct (show_regs _ _); [|discriminate]; apply Ok_eq in Hk; injection Hk as _ <- <-; destruct Hnx; discriminate);
      apply bind_ok in Hk; destruct Hk as [? [_ Hk]]; apply Ok_eq in Hk; injection Hk as _ <- <-; destruct Hnx; discriminate. }
  assert (R1 : rests E A' c1). { destruct Hk1 as [-> | ->]; [exact I3|now apply rests_trap]. }
  assert (Hpc : c_prog c1 = c_prog c). { destruct Hk1 as [-> | ->]; reflexivity. }
  destruct (going_ticks _ _ _ _ _ _ Hs3 Hy _ _ _ _ eq_refl eq_refl) as [m2 Ht].
  destruct R1 as [RI RD RR].
  destruct (ticks_reached E m2 _ c1 d RI RD (fun _ => RR) Ht) as [k2 [B R]].
  destruct R as [Q1 Q2 Q3 Q4 Q5 Q6 Q7]. destruct (tick_fault _ _ _ _ Q2 Hf) as [k3 [S [H1 [H2 H3]]]].
  rewrite Q4 in *. rewrite Hpc in *.
  pose proof (io_steps_app _ _ _ _ _ Q1 _ _ H1) as H4.
  destruct (io_isa_run _ _ _ _ _ (Inv_valid _ _ _ (rt_Inv _ _ _ I3)) T' T1 H4 W') as [H5 H6].
  destruct (faulty_spec E (c_prog c) S H6 T' (proj1 (w_pc S H6)) H3) as [a0 [H7 H8]].
  exists A', (k2 + k3)%nat, S, a0. split; [now apply (rests_shows E)|]. auto.
Qed.

(** ---- the hypotheses can be met ---- *)

(** The jump at 2 is predicted taken but is not; the instructions at 6 are begun in
    vain. *)
Definition branch (wrong_path : list instr) : list instr :=
  [ IMov (OReg (R 0)) (OImm 0); ICmp (R 0) (OImm 1); IJcc CE (OImm 6);
    IMov (OReg (R 1)) (OImm 5); IPutnum (R 1); IHalt ] ++ wrong_path.

Definition wrong1 : list instr :=
  branch [ IMov (OReg (R 1)) (OMemImm 9999); IMov (OMemImm 3) (OImm 7); IPutnum (R 1); IHalt ].
Definition wrong2 : list instr := branch [INop].
Definition cfg3 : cfg := mkCfg 4 1 1 1 16 4.      (* one entry: no overlap *)
Definition cfg4 : cfg := mkCfg 4 1 2 8 16 4.      (* eight entries *)

Definition branch_at (S : arch) : Prop :=
  a_halted S = true \/ a_pc S = 0 \/ (a_pc S = 1 /\ a_reg S (LR (R 0)) = 0) \/
  (a_pc S = 2 /\ taken CE (a_reg S (LR Flags)) = false) \/ a_pc S = 3 \/ a_pc S = 4 \/ a_pc S = 5.

Lemma flag_zf : forall f, Z.testbit (flag_bits f) 1 = zf f.
Proof. intros [[] [] [] []]; reflexivity. Qed.

Lemma branch_step : forall F l S S', branch_at S -> isa_step F (branch l) S S' -> branch_at S'.
Proof.
  intros F l S S' H [Hh He]. unfold branch_at in H.
  destruct H as [H|[H|[[H Hr]|[[H Hr]|[H|[H|H]]]]]]; [congruence| | | | | |]; rewrite H in He;
    unfold instr_at in He; cbn [branch app nth Z.to_nat Pos.to_nat Pos.iter_op Nat.add effect] in He.
  - destruct He as [y [Hy Hs]]. inversion Hy; subst; [|match goal with H : inside _ _ _ |- _ => inversion H end].
    right. right. left. rewrite (s_pc _ _ Hs), (s_reg _ _ Hs) by discriminate. cbn. rewrite H. split; reflexivity.
  - destruct He as [x [y [q [Hx [Hy [Hq Hs]]]]]]. inversion Hy; subst; [|match goal with H : inside _ _ _ |- _ => inversion H end].
    inversion Hx; subst. rewrite Hr in Hq. destruct Hq as [[_ Hz] [[_ [k Hk]] _]].
    right. right. right. left. rewrite (s_pc _ _ Hs), (s_reg _ _ Hs) by discriminate. unfold next, put, jump, set_pc. cbn [a_pc a_reg].
    rewrite H. split; [reflexivity|]. unfold upd. cbn [taken]. cbn [lreg_eqb reg_eqb].
    rewrite flag_zf. destruct (zf (rflags q)); [|reflexivity]. exfalso. destruct Hz as [Hz _]. specialize (Hz eq_refl). lia.
  - destruct He as [t [Ht Hs]]. rewrite Hr in Hs. do 4 right. left. rewrite (s_pc _ _ Hs). cbn. now rewrite H.
  - destruct He as [y [Hy Hs]]. do 5 right. left. rewrite (s_pc _ _ Hs). cbn. now rewrite H.
  - destruct He as [x [n [Hx [_ [_ Hs]]]]]. do 6 right. rewrite (s_pc _ _ Hs). cbn. now rewrite H.
  - left. now rewrite (s_halted _ _ He).
Qed.

Lemma branch_run : forall F l k S S', isa_run F (branch l) k S S' -> branch_at S -> branch_at S'.
Proof. induction 1; intros; [assumption|]. apply IHisa_run. eapply branch_step; eauto. Qed.

Lemma branch_ok : forall l, Forall keeps_ip l -> Forall typed_instr l ->
  Forall keeps_ip (branch l) /\ typed no_floats (branch l) 16 [] [].
Proof.
  intros l H1 H2. split.
  - unfold branch. repeat (constructor; [cbn; discriminate || exact I|]). exact H1.
  - constructor; [exact no_floats_typed| |lia|constructor|constructor].
    unfold branch. repeat (constructor; [cbn; repeat split; unfold fits, u64_range; lia || exact I|]). exact H2.
Qed.

Ltac branch_started :=
  apply branch_ok; repeat (constructor; [cbn; repeat split; unfold fits, u64_range; discriminate || lia || exact I|]); constructor.

Lemma started_wrong1 : started env0 cfg4 wrong1 [] [] (booted cfg4 wrong1 [] []).
Proof. constructor; [branch_started|branch_started|vm_compute; reflexivity]. Qed.
Lemma started_wrong2 : started env0 cfg3 wrong2 [] [] (booted cfg3 wrong2 [] []).
Proof. constructor; [branch_started|branch_started|vm_compute; reflexivity]. Qed.

Example C06_case : exists d1 d2,
  psession env0 cfg4 false (ticks_of 23) (os_start false (booted cfg4 wrong1 [] [])) (Ended true d1) /\
  psession env0 cfg3 false (ticks_of 30) (os_start false (booted cfg3 wrong2 [] [])) (Ended true d2) /\
  c_out d1 = [OutNum 5] /\ look_alike d1 d2.
Proof.
  destruct (pplay_ended env0 cfg4 (ticks_of 23) (os_start false (booted cfg4 wrong1 [] [])) true [OutNum 5] (Some 6))
    as [d1 [H1 [H2 _]]]; [vm_compute; reflexivity|].
  destruct (pplay_ended env0 cfg3 (ticks_of 30) (os_start false (booted cfg3 wrong2 [] [])) true [OutNum 5] (Some 6))
    as [d2 [H3 _]]; [vm_compute; reflexivity|].
  exists d1, d2. do 3 (split; [assumption|]).
  assert (Hag : forall k S, isa_run (e_fops env0) wrong1 k (isa_boot (g_ram cfg4) [] []) S -> a_halted S = false ->
     instr_at wrong1 (a_pc S) = instr_at wrong2 (a_pc S)).
  { intros k S Hk Hh. apply branch_run in Hk; [|right; left; reflexivity].
    destruct Hk as [Hk|[Hk|[[Hk _]|[[Hk _]|[Hk|[Hk|Hk]]]]]]; [congruence| | | | | |]; rewrite Hk; reflexivity. }
  exact (C06_wrong_path_invisible _ _ _ _ _ _ _ _ _ _ _ _ _ _ _ started_wrong1 started_wrong2 eq_refl Hag H1 H3).
Qed.

(** A load outside the memory, and a store behind it that never gets there. *)
Definition prog_err : list instr :=
  [ IMov (OReg (R 0)) (OMemImm 9999); IMov (OReg (R 1)) (OImm 7); IHalt ].

Lemma started_err : started env0 cfg1 prog_err [] [] (booted cfg1 prog_err [] []).
Proof.
  constructor; [| |vm_compute; reflexivity].
  - repeat (constructor; [cbn; discriminate || exact I|]). constructor.
  - constructor; [exact no_floats_typed| |cbn; lia|constructor|constructor].
    repeat (constructor; [cbn; repeat split; unfold fits, u64_range; lia || exact I|]). constructor.
Qed.

Definition after_ticks (n : nat) (c : cpu) : cpu := match ticks env0 n c with Ok d | Throw _ d => d | Undef _ => c end.

Example C06_fault_case :
  let c := after_ticks 7 (booted cfg1 prog_err [] []) in
  ticks env0 7 (booted cfg1 prog_err [] []) = Ok c /\
  match tick env0 c with Throw e _ => e = EMemRange | _ => False end.
Proof. split; vm_compute; reflexivity. Qed.

(** ---- C39 ---- *)

(** At the error the registers show what younger instructions have computed: R1 is
    7, but the sequential machine never gets past the first instruction. *)
Theorem C39_error_registers_refuted : exists E G g p c0 xs c,
  started E g p [] [] c0 /\ psession E G true xs (os_start true c0) (At RCpuError c) /\
  get_lreg c (LR (R 1)) = Some 7 /\
  forall k S, isa_run (e_fops E) p k (isa_boot (g_ram g) [] []) S -> a_reg S (LR (R 1)) = 0.
Proof.
  pose (xs := [ECmd CContinue] ++ ticks_of 8).
  set (h := after_pplay (pplay env0 cfg1 true xs (os_start true (booted cfg1 prog_err [] [])))).
  assert (Hh : pplay env0 cfg1 true xs (os_start true (booted cfg1 prog_err [] [])) = Some h) by (vm_compute; reflexivity).
  exists env0, cfg1, cfg1, prog_err, (booted cfg1 prog_err [] []), xs, (match h with At _ c | Going _ c | Ended _ c => c end).
  split; [exact started_err|]. split; [|split; [vm_compute; reflexivity|]].
  - replace (At RCpuError _) with h by (vm_compute; reflexivity). now apply pplay_psession.
  - intros k S Hk. inversion Hk as [|n S1 T U H1 H2]; subst; [reflexivity|]. exfalso.
    destruct H1 as [_ [y [Hy _]]]. inversion Hy; subst. match goal with H : inside _ _ _ |- _ => inversion H; subst end.
    match goal with H : a_mem _ _ = Some _ |- _ => vm_compute in H; discriminate H end.
Qed.

(** ---- C40 ---- *)

(** A division by zero on the wrong path ends the VM, although the program never
    executes it: with one reservation station entry it runs to its end. *)
Definition prog_div : list instr := branch [ IBin BDIV (R 1) (R 1) (OReg (R 0)) false; IHalt ].

Lemma started_div3 : started env0 cfg3 prog_div [] [] (booted cfg3 prog_div [] []).
Proof. constructor; [branch_started|branch_started|vm_compute; reflexivity]. Qed.
Lemma started_div4 : started env0 cfg4 prog_div [] [] (booted cfg4 prog_div [] []).
Proof. constructor; [branch_started|branch_started|vm_compute; reflexivity]. Qed.

Theorem C40_division_refuted : exists E g p c0 n c,
  started E g p [] [] c0 /\
  (exists k S, isa_run (e_fops E) p k (isa_boot (g_ram g) [] []) S /\ a_halted S = true) /\
  ticks E n c0 = Ok c /\ tick E c = Undef UDiv.
Proof.
  destruct (pplay_ended env0 cfg3 (ticks_of 30) (os_start false (booted cfg3 prog_div [] [])) true [OutNum 5] (Some 6))
    as [d [H1 [H2 _]]]; [vm_compute; reflexivity|].
  exists env0, cfg4, prog_div, (booted cfg4 prog_div [] []), 10%nat, (after_ticks 10 (booted cfg4 prog_div [] [])).
  split; [exact started_div4|]. split; [|split; vm_compute; reflexivity].
  destruct (C01_run _ _ _ _ _ _ _ _ _ started_div3 H1) as [k [S [K1 [K2 _]]]]. exists k, S. split; [exact K1|exact K2].
Qed.

(** So does a register that does not exist. *)
Definition prog_reg : list instr := branch [ IMov (OReg (R 99)) (OImm 1); IHalt ].

Lemma started_reg3 : started env0 cfg3 prog_reg [] [] (booted cfg3 prog_reg [] []).
Proof. constructor; [branch_started|branch_started|vm_compute; reflexivity]. Qed.
Lemma started_reg4 : started env0 cfg4 prog_reg [] [] (booted cfg4 prog_reg [] []).
Proof. constructor; [branch_started|branch_started|vm_compute; reflexivity]. Qed.

Theorem C40_register_refuted : exists E g p c0 n c s,
  started E g p [] [] c0 /\
  (exists k S, isa_run (e_fops E) p k (isa_boot (g_ram g) [] []) S /\ a_halted S = true) /\
  ticks E n c0 = Ok c /\ tick E c = Throw ERegRange s.
Proof.
  destruct (pplay_ended env0 cfg3 (ticks_of 30) (os_start false (booted cfg3 prog_reg [] [])) true [OutNum 5] (Some 6))
    as [d [H1 [H2 _]]]; [vm_compute; reflexivity|].
  exists env0, cfg4, prog_reg, (booted cfg4 prog_reg [] []), 5%nat, (after_ticks 5 (booted cfg4 prog_reg [] [])),
    (after_ticks 6 (booted cfg4 prog_reg [] [])).
  split; [exact started_reg4|]. split; [|split; vm_compute; reflexivity].
  destruct (C01_run _ _ _ _ _ _ _ _ _ started_reg3 H1) as [k [S [K1 [K2 _]]]]. exists k, S. split; [exact K1|exact K2].
Qed.

(** ---- C47 ---- *)

(** Two stores to one address that are in flight at the same time: the second one
    moves the record of the first, to which a reference is kept. *)
Definition prog_two : list instr := [ IMov (OMemImm 5) (OImm 1); IMov (OMemImm 5) (OImm 2); IHalt ].

Lemma started_two : forall g, g_ram g = 16%nat -> (exists c, boot g prog_two [] [] = Ok c) ->
  started env0 g prog_two [] [] (booted g prog_two [] []).
Proof.
  intros g Hg [c Hc]. constructor.
  - repeat (constructor; [cbn; discriminate || exact I|]). constructor.
  - rewrite Hg. constructor; [exact no_floats_typed| |lia|constructor|constructor].
    repeat (constructor; [cbn; repeat split; unfold fits, u64_range; lia || exact I|]). constructor.
  - unfold booted. now rewrite Hc.
Qed.

Theorem C47_two_stores_refuted : exists E g p c0 n c,
  started E g p [] [] c0 /\
  (exists k S, isa_run (e_fops E) p k (isa_boot (g_ram g) [] []) S /\ a_halted S = true /\ a_mem S 5 = Some 2) /\
  ticks E n c0 = Ok c /\ tick E c = Undef UDangling.
Proof.
  destruct (pplay_ended env0 cfg3 (ticks_of 15) (os_start false (booted cfg3 prog_two [] [])) true [] (Some 3))
    as [d [H1 [H2 _]]]; [vm_compute; reflexivity|].
  assert (S3 : started env0 cfg3 prog_two [] [] (booted cfg3 prog_two [] [])).
  { apply started_two; [reflexivity|]. exists (booted cfg3 prog_two [] []). vm_compute; reflexivity. }
  assert (S1 : started env0 cfg1 prog_two [] [] (booted cfg1 prog_two [] [])).
  { apply started_two; [reflexivity|]. exists (booted cfg1 prog_two [] []). vm_compute; reflexivity. }
  exists env0, cfg1, prog_two, (booted cfg1 prog_two [] []), 6%nat, (after_ticks 6 (booted cfg1 prog_two [] [])).
  split; [exact S1|]. split; [|split; vm_compute; reflexivity].
  destruct (C01_run _ _ _ _ _ _ _ _ _ S3 H1) as [k [S [K1 [K2 K3]]]]. exists k, S. split; [exact K1|]. split; [exact K2|].
  rewrite <- (sh_mem _ _ K3).
  set (h := after_pplay (pplay env0 cfg3 false (ticks_of 15) (os_start false (booted cfg3 prog_two [] [])))).
  assert (Hh : pplay env0 cfg3 false (ticks_of 15) (os_start false (booted cfg3 prog_two [] [])) = Some h) by (vm_compute; reflexivity).
  assert (Hd : Ended true d = h).
  { pose proof (pplay_psession _ _ _ _ _ _ Hh) as H3. clear - H1 H3. revert H1 H3.
    generalize (os_start false (booted cfg3 prog_two [] [])) (Ended true d) h (ticks_of 15). clear.
    intros h0 h1 h2 xs H1. induction H1 as [h|x xs h h' h'' Hp He Hs IH]; intros H3; inversion H3; subst; [reflexivity|].
    apply IH. rewrite He in *. match goal with H : Some _ = Some _ |- _ => injection H as <- end. assumption. }
  replace d with (match h with At _ c | Going _ c | Ended _ c => c end) by (rewrite <- Hd; reflexivity).
  vm_compute. reflexivity.
Qed.

Print Assumptions C06_wrong_path_invisible.
Print Assumptions C06_fault_is_sequential.
Print Assumptions C06_session_fault_is_sequential.
Print Assumptions C39_error_registers_refuted.
Print Assumptions C40_division_refuted.
Print Assumptions C40_register_refuted.
Print Assumptions C47_two_stores_refuted.
