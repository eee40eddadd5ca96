(** C01-C05, C07-C09: the out-of-order VM is a sequential T86 machine. *)
From Coq Require Import ZArith NArith List Bool Lia.
From Verif Require Import Base Alu Isa State AluSpec Exec Ram Writes Rat Cpu InOrder PipeInv PipeBasics PipeDom PipeRun
  IsaSpec IsaRefine Os DbgSpec PipePoke Session.
Import ListNotations.
Open Scope Z_scope.

Lemma keeps_valid : forall p, Forall keeps_ip p -> valid_prog p.
Proof. intros p H. eapply Forall_impl; [|exact H]. exact keeps_ip_ok. Qed.

(** ---- C01 ---- *)

(** After any number of clock ticks, memory, output and input are those of the
    sequential machine after some number of instructions; when the VM stops
    (halt, breakpoint, watchpoint, single step), so are all registers. *)
Theorem C01_ticks : forall E g p data input c0 n c,
  started E g p data input c0 -> ticks E n c0 = Ok c ->
  exists k S, isa_run (e_fops E) p k (isa_boot (g_ram g) data input) S /\
    (forall a, ram_get (c_ram c) a = a_mem S a) /\ c_out c = a_out S /\ c_in c = a_in S /\
    c_halted c = a_halted S /\ (c_halted c = true \/ c_int c <> 0 -> shows c S).
Proof.
  intros E g p data input c0 n c [Hip Hty Hb] Ht.
  destruct (boot_reached E g p data input c0 n c (keeps_valid _ Hip) Hb Ht) as [k [A' [R [Hp Hg]]]].
  destruct R as [R1 R2 R3 R4 R5 R6 R7]. rewrite Hp in R1.
  pose proof (boot_wordy _ _ _ _ _ Hty) as W. destruct Hty as [T1 T2 T3 T4 T5].
  change (PipeBoot.arch_boot g data input) with (isa_boot (g_ram g) data input) in *.
  destruct (io_isa_run _ _ _ _ _ (keeps_valid _ Hip) T2 T1 R1 W) as [H1 H2].
  exists k, A'. split; [exact H1|].
  destruct R2 as [I1 [I2 [I3 [den [role [Jp Je Jr Jw Jm Ja Jl Jo Ji]]]]]].
  split; [intros a; now rewrite (ra_mem _ _ _ Jm)|]. do 3 (split; [congruence|]).
  intros Hs. apply (rests_shows E). constructor; auto. split; [exact I1|]. split; [exact I2|]. split; [exact I3|].
  exists den, role. constructor; auto.
Qed.

(** A run of the VM without a debugger, from start to the normal end. *)
Theorem C01_run : forall E G g p data input c0 xs c,
  started E g p data input c0 -> psession E G false xs (os_start false c0) (Ended true c) ->
  exists k S, isa_run (e_fops E) p k (isa_boot (g_ram g) data input) S /\ a_halted S = true /\ shows c S.
Proof.
  intros E G g p data input c0 xs c [Hip Hty Hb] Hs.
  destruct (boot_host E g p data input c0 false (keeps_valid _ Hip) Hb) as [_ [Hp [Hg [[RI RD RR] Hh]]]].
  destruct (free_sound _ _ _ _ _ Hs _ _ _ eq_refl eq_refl RI RD Hh) as [k [A' [R1 [R2 [R3 R4]]]]].
  pose proof (boot_wordy _ _ _ _ _ Hty) as W. destruct Hty as [T1 T2 T3 T4 T5]. rewrite Hp in R1.
  destruct (io_isa_run _ _ _ _ _ (keeps_valid _ Hip) T2 T1 R1 W) as [H1 H2].
  pose proof (rests_shows _ _ _ R2) as Hsh. exists k, A'. split; [exact H1|]. split; [|exact Hsh].
  now rewrite <- (sh_halted _ _ Hsh).
Qed.

(** A debugging session: whatever the debugger does, what it sees at a stop is
    what the same session with the sequential machine shows. *)
Theorem C01_session : forall E G g p data input c0 xs r c,
  started E g p data input c0 -> psession E G true xs (os_start true c0) (At r c) -> r <> RCpuError ->
  Forall typed_cmd (cmds xs) ->
  exists n S, debug_run (e_fops E) (cmds xs) n (p, isa_boot (g_ram g) data input) (c_prog c, S) /\ shows c S.
Proof.
  intros E G g p data input c0 xs r c [Hip Hty Hb] Hs Hr Htc.
  destruct (boot_host E g p data input c0 true (keeps_valid _ Hip) Hb) as [HA [Hp [Hg [HR Hh]]]].
  destruct (session_sound _ _ _ _ _ Hs _ _ _ eq_refl Hr HA) as [m [A1 [n [A' [[_ ->] [I2 [I3 I4]]]]]]].
  pose proof (boot_wordy _ _ _ _ _ Hty) as W. destruct Hty as [T1 T2 T3 T4 T5].
  cbn [os_start enter host_cpu] in I2. rewrite Hp in I2.
  destruct (io_debug _ _ _ _ _ I2 T1 Htc T2 W) as [H1 _].
  exists n, A'. split; [exact H1|]. now apply (rests_shows E).
Qed.

(** ---- C02 ---- *)

(** Two VMs with memories of the same size that run the same program to the end
    show the same; the numbers of ALUs, of reservation station entries, of RAM
    gates and of registers may differ. *)
Theorem C02_config_independent : forall E G1 G2 g1 g2 p data input c1 c2 xs1 xs2 d1 d2,
  started E g1 p data input c1 -> started E g2 p data input c2 -> g_ram g1 = g_ram g2 ->
  psession E G1 false xs1 (os_start false c1) (Ended true d1) ->
  psession E G2 false xs2 (os_start false c2) (Ended true d2) ->
  look_alike d1 d2.
Proof.
  intros E G1 G2 g1 g2 p data input c1 c2 xs1 xs2 d1 d2 [Hip _ Hb1] [_ _ Hb2] Hram Hs1 Hs2.
  destruct (boot_host E g1 p data input c1 false (keeps_valid _ Hip) Hb1) as [_ [Hp1 [_ [[RI1 RD1 RR1] Hh1]]]].
  destruct (boot_host E g2 p data input c2 false (keeps_valid _ Hip) Hb2) as [_ [Hp2 [_ [[RI2 RD2 RR2] Hh2]]]].
  destruct (free_sound _ _ _ _ _ Hs1 _ _ _ eq_refl eq_refl RI1 RD1 Hh1) as [k1 [A1 [S1 [S2 [S3 _]]]]].
  destruct (free_sound _ _ _ _ _ Hs2 _ _ _ eq_refl eq_refl RI2 RD2 Hh2) as [k2 [A2 [U1 [U2 [U3 _]]]]].
  rewrite Hp1 in S1. rewrite Hp2, <- Hram in U1.
  apply rests_shows in S2, U2.
  destruct (io_halt_unique _ _ _ _ _ _ _ S1 U1) as [_ ->].
  - now rewrite <- (sh_halted _ _ S2).
  - now rewrite <- (sh_halted _ _ U2).
  - eapply shows_alike; eauto.
Qed.

(** ---- C03 ---- *)

(** At every stop except an error nothing is in flight, and the next instruction
    to be fetched is the one at the program counter the user sees. *)
Theorem C03_clean_stop : forall E G g p data input c0 xs r c,
  started E g p data input c0 -> psession E G true xs (os_start true c0) (At r c) -> r <> RCpuError ->
  c_rs c = [] /\ c_decode c = None /\ c_fetch c = None /\ c_pred c = [] /\ c_alus c = g_alus (c_cfg c) /\
  (forall a w, In w (mws_vec (wm_get (c_wm c) a)) -> mw_ram w <> None) /\
  exists v, get_lreg c (LR PC) = Some v /\ c_spec c = address v.
Proof.
  intros E G g p data input c0 xs r c [Hip Hty Hb] Hs Hr.
  destruct (boot_host E g p data input c0 true (keeps_valid _ Hip) Hb) as [HA _].
  destruct (host_session _ _ _ _ _ _ Hs _ HA) as [A H]. destruct (H Hr) as [[HI HD HR] _].
  destruct HI as [_ [_ [_ [den [role HJ]]]]]. pose proof (idle_J _ _ _ _ _ HJ HR) as Hid.
  destruct HR as [R1 [R2 [R3 [R4 [R5 [R6 [[v [R7 R7']] R8]]]]]]].
  do 4 (split; [assumption|]). split; [apply (id_alus _ _ Hid)|]. split.
  - intros a w Hw Hn. pose proof (wi_src _ _ _ _ (j_wm _ _ _ _ _ _ _ HJ) a w Hw) as Hsrc. rewrite Hn, R1 in Hsrc.
    destruct Hsrc as [e [[] _]].
  - exists v. split; [exact R7|]. rewrite R5. symmetry. exact R7'.
Qed.

(** ---- C04 ---- *)

(** From a stop, SINGLESTEP leads to a stop at which exactly one instruction more
    has been executed. *)
Theorem C04_single_step : forall E G g p data input c0 xs r c ys r' c',
  started E g p data input c0 -> psession E G true xs (os_start true c0) (At r c) -> r <> RCpuError ->
  Forall typed_cmd (cmds xs) -> cmds ys = [CSingleStep] ->
  psession E G true ys (At r c) (At r' c') -> r' <> RCpuError ->
  exists S S', shows c S /\ isa_step (e_fops E) (c_prog c) S S' /\ shows c' S'.
Proof.
  intros E G g p data input c0 xs r c ys r' c' [Hip Hty Hb] Hs Hr Htc Hy Hs' Hr'.
  destruct (boot_host E g p data input c0 true (keeps_valid _ Hip) Hb) as [HA [Hp [Hg [HR Hh]]]].
  destruct (session_sound _ _ _ _ _ Hs _ _ _ eq_refl Hr HA) as [m [A1 [n [A' [[_ ->] [I2 [I3 [I4 I5]]]]]]]].
  pose proof (boot_wordy _ _ _ _ _ Hty) as W. destruct Hty as [T1 T2 T3 T4 T5].
  cbn [os_start enter host_cpu] in I2. rewrite Hp in I2.
  destruct (io_debug _ _ _ _ _ I2 T1 Htc T2 W) as [_ [W' T']]. cbn [fst snd] in W', T'.
  destruct (session_sound _ _ _ _ _ Hs' A' _ _ eq_refl Hr') as [m2 [A2 [n2 [A'' [[_ ->] [J2 [J3 J4]]]]]]].
  { intros _. split; [exact I3|exact I4]. }
  rewrite Hy in J2. cbn [host_cpu] in J2. inversion J2; subst; try contradiction.
  - match goal with H : pokes _ _ _ |- _ => inversion H end.
  - match goal with H : io_session _ [] _ _ _ |- _ => inversion H; subst end.
    exists A', A''. split; [now apply (rests_shows E)|]. split; [|now apply (rests_shows E)].
    match goal with H : io_steps _ _ 1 _ _ |- _ => inversion H; subst end.
    match goal with H : io_steps _ _ 0 _ _ |- _ => inversion H; subst end.
    eapply io_isa; eauto.
  - match goal with H : _ \/ _ |- _ => destruct H; discriminate end.
Qed.

(** ---- C05 ---- *)

(** What any session of runs and steps shows at a stop is what single-stepping a
    certain number of times from the beginning shows. *)
Theorem C05_stepping_is_running : forall E G g p data input c0 xs r c,
  started E g p data input c0 -> psession E G true xs (os_start true c0) (At r c) -> r <> RCpuError ->
  Forall runs_only (cmds xs) ->
  exists n, forall ys r' d, psession E G true ys (os_start true c0) (At r' d) -> r' <> RCpuError ->
    Forall steps_only (cmds ys) -> single_steps (cmds ys) = n -> look_alike c d.
Proof.
  intros E G g p data input c0 xs r c [Hip Hty Hb] Hs Hr Hx.
  destruct (boot_host E g p data input c0 true (keeps_valid _ Hip) Hb) as [HA [Hp [Hg [HR Hh]]]].
  destruct (session_sound _ _ _ _ _ Hs _ _ _ eq_refl Hr HA) as [m [A1 [n [A' [[_ ->] [I2 [I3 [I4 I5]]]]]]]].
  exists n. intros ys r' d Hs' Hr' Hy Hn.
  destruct (session_sound _ _ _ _ _ Hs' _ _ _ eq_refl Hr' HA) as [m2 [A2 [n2 [A'' [[_ ->] [J2 [J3 [J4 J5]]]]]]]].
  pose proof (io_session_steps _ _ _ _ _ J2 Hy) as Hn2. rewrite Hn in Hn2. rewrite Hn2 in J2.
  assert (Hy' : Forall runs_only (cmds ys)).
  { eapply Forall_impl; [|exact Hy]. intros k [Hk|Hk]; [now left|right; now left]. }
  destruct (io_session_runs _ _ _ _ _ I2 Hx) as [_ K1]. destruct (io_session_runs _ _ _ _ _ J2 Hy') as [_ K2].
  cbn [fst snd] in K1, K2. pose proof (io_steps_fun _ _ _ _ _ K1 _ K2) as K3. subst A''.
  eapply shows_alike; eapply rests_shows; eauto.
Qed.

(** Stepping to the end, running under the debugger to the end and running
    without a debugger to the end show the same. *)
Theorem C05_same_end : forall E G g p data input c0 xs c ys d,
  started E g p data input c0 ->
  psession E G true xs (os_start true c0) (At RHalted c) -> Forall runs_only (cmds xs) ->
  psession E G false ys (os_start false c0) (Ended true d) ->
  look_alike c d.
Proof.
  intros E G g p data input c0 xs c ys d [Hip Hty Hb] Hs Hx Hs'.
  destruct (boot_host E g p data input c0 true (keeps_valid _ Hip) Hb) as [HA [Hp [Hg [HR Hh]]]].
  assert (Hr : RHalted <> RCpuError) by discriminate.
  destruct (session_sound _ _ _ _ _ Hs _ _ _ eq_refl Hr HA) as [m [A1 [n [A' [[_ ->] [I2 [I3 [I4 I5]]]]]]]].
  destruct HR as [RI RD RR].
  destruct (free_sound _ _ _ _ _ Hs' _ _ _ eq_refl eq_refl RI RD Hh) as [k [A2 [J1 [J2 [J3 _]]]]].
  destruct (io_session_runs _ _ _ _ _ I2 Hx) as [_ K1]. cbn [fst snd os_start enter host_cpu] in K1.
  pose proof (halted_session _ _ _ _ _ _ Hs I) as Hc. cbn [halted_ok] in Hc.
  apply rests_shows in I3, J2.
  destruct (io_halt_unique _ _ _ _ _ _ _ K1 J1) as [_ ->].
  - now rewrite <- (sh_halted _ _ I3).
  - now rewrite <- (sh_halted _ _ J2).
  - eapply shows_alike; eauto.
Qed.

(** ---- C07 ---- *)

(** In no session does a tick fail for want of a free physical register. *)
Theorem C07_free_register : forall E G dbg g p data input c0 xs stop c s,
  started E g p data input c0 -> psession E G dbg xs (os_start dbg c0) (Going stop c) ->
  tick E c <> Throw ENoFreeReg s.
Proof.
  intros E G dbg g p data input c0 xs stop c s [Hip Hty Hb] Hs Ht.
  destruct (boot_host E g p data input c0 dbg (keeps_valid _ Hip) Hb) as [HA _].
  destruct (host_session _ _ _ _ _ _ Hs _ HA) as [A [HI [HD Hh]]].
  exact (tick_nf E A c HI HD _ _ Ht eq_refl).
Qed.

(** ---- C08 ---- *)

(** Instructions that occupy an ALU right now. *)
Definition busy_alus (c : cpu) : nat :=
  length (filter (fun e => match e_state e with Executing => needs_alu (e_ins e) | _ => false end) (c_rs c)).

Theorem C08_alus_conserved : forall E G dbg g p data input c0 xs stop c,
  started E g p data input c0 -> psession E G dbg xs (os_start dbg c0) (Going stop c) ->
  (c_alus c + busy_alus c = g_alus (c_cfg c))%nat.
Proof.
  intros E G dbg g p data input c0 xs stop c [Hip Hty Hb] Hs.
  destruct (boot_host E g p data input c0 dbg (keeps_valid _ Hip) Hb) as [HA _].
  destruct (host_session _ _ _ _ _ _ Hs _ HA) as [A [HI [HD Hh]]].
  destruct HI as [_ [_ [_ [den [role HJ]]]]]. exact (j_alus _ _ _ _ _ _ _ HJ).
Qed.

(** ---- C09 ---- *)

(** The address predicted for a jump at [pc]: its target if that is a constant,
    otherwise the next instruction. *)
Definition predicted (i : instr) (pc : Z) : option Z :=
  match i with
  | IJmp a | IJcc _ a | ICall a | ILoop _ a =>
      Some (match a with OImm v => address v | OFImm v => address v | _ => address (pc + 1) end)
  | IRet => Some (address (pc + 1))
  | _ => None
  end.

(** [fetched p pc l ps pc']: the instructions [l] were fetched one after the other
    from [pc] on, following the predictions [ps]; fetching goes on at [pc']. *)
Inductive fetched (p : list instr) : Z -> list instr -> list Z -> Z -> Prop :=
| fe_nil : forall pc, fetched p pc [] [] pc
| fe_jump : forall pc t l ps pc', predicted (instr_at p pc) pc = Some t -> fetched p t l ps pc' ->
    fetched p pc (instr_at p pc :: l) (t :: ps) pc'
| fe_next : forall pc l ps pc', predicted (instr_at p pc) pc = None -> fetched p (address (pc + 1)) l ps pc' ->
    fetched p pc (instr_at p pc :: l) ps pc'.

Lemma predicted_guess : forall i pc, match predicted i pc with
  | Some t => jump_dest i <> None /\ guess i pc = t
  | None => jump_dest i = None /\ guess i pc = address (pc + 1)
  end.
Proof.
  intros i pc. destruct i; cbn [predicted]; unfold guess, next_guess; cbn [jump_dest]; try (split; [reflexivity|reflexivity]);
    try (split; [discriminate|]); try reflexivity; destruct a; reflexivity.
Qed.

Lemma fetched_cons : forall p pc l ps pc', in_u64 pc -> let i := prog_at p pc in
  fetched p (guess i pc) l ps pc' ->
  fetched p pc (i :: l) ((match jump_dest i with Some _ => [guess i pc] | None => [] end) ++ ps) pc'.
Proof.
  intros p pc l ps pc' Hpc i H. subst i. pose proof (predicted_guess (prog_at p pc) pc) as Hg.
  rewrite prog_at_instr in * by apply Hpc.
  destruct (predicted (instr_at p pc) pc) as [t|] eqn:Hp; destruct Hg as [G1 G2]; rewrite G2 in *.
  - destruct (jump_dest (instr_at p pc)) as [d|]; [|congruence]. cbn [app]. now apply fe_jump.
  - rewrite G1. now apply fe_next.
Qed.

Lemma fetched_front : forall p l pc pc', in_u64 pc -> fpath p pc l pc' -> fetched p pc (map fst l) (gpreds pc (map fst l)) pc'.
Proof.
  intros p. induction l as [|[i npc] l IH]; intros pc pc' Hpc H; cbn [fpath map fst gpreds] in *.
  - subst. constructor.
  - destruct H as [-> [-> H]]. apply fetched_cons; [exact Hpc|]. apply IH; [apply guess_in|exact H].
Qed.

Lemma fetched_rs : forall p l pc fr pc', in_u64 pc ->
  (forall pre i post, l = pre ++ i :: post -> i = prog_at p (gpc pc pre)) ->
  fetched p (gpc pc l) fr (gpreds (gpc pc l) fr) pc' ->
  fetched p pc (l ++ fr) (gpreds pc (l ++ fr)) pc'.
Proof.
  intros p. induction l as [|i l IH]; intros pc fr pc' Hpc H Hf; [exact Hf|].
  pose proof (H [] i l eq_refl) as Hi. cbn [gpc] in Hi. cbn [app gpreds]. rewrite Hi.
  apply fetched_cons; [exact Hpc|]. rewrite <- Hi. apply IH; [apply guess_in| |exact Hf].
  intros pre j post Hl. rewrite (H (i :: pre) j post); [reflexivity|]. now rewrite Hl.
Qed.

(** The instructions in flight, oldest first. *)
Definition in_flight (c : cpu) : list instr :=
  map e_ins (c_rs c) ++
  (match c_decode c with Some (i, _) => [i] | None => [] end) ++ (match c_fetch c with Some (i, _) => [i] | None => [] end).

(** The recorded predictions are, in order, those of the jumps in flight, which
    were fetched along them from the architectural program counter on. *)
Theorem C09_predictions : forall E G dbg g p data input c0 xs stop c,
  started E g p data input c0 -> psession E G dbg xs (os_start dbg c0) (Going stop c) ->
  exists pc, fetched (c_prog c) pc (in_flight c) (c_pred c) (c_spec c).
Proof.
  intros E G dbg g p data input c0 xs stop c [Hip Hty Hb] Hs.
  destruct (boot_host E g p data input c0 dbg (keeps_valid _ Hip) Hb) as [HA _].
  destruct (host_session _ _ _ _ _ _ Hs _ HA) as [A [HI [HD Hh]]].
  destruct HI as [_ [_ [_ [den [role [[P1 P2 P3 P4] Je Jr Jw Jm Ja Jl Jo Ji]]]]]].
  exists (a_pc A). cbn [app] in P2. rewrite P2.
  assert (Hfl : in_flight c = map e_ins (c_rs c) ++ map fst (front c)).
  { unfold in_flight, front, optl. destruct (c_decode c) as [[]|], (c_fetch c) as [[]|]; reflexivity. }
  rewrite Hfl. apply fetched_rs; [exact P4| |].
  - intros pre i post Hl. apply map_eq_app in Hl. destruct Hl as [l1 [l2 [H1 [H2 H3]]]].
    destruct l2 as [|e l3]; [discriminate|]. cbn [map] in H3. injection H3 as H3 _.
    destruct (Je l1 e l3 H1) as [He _]. rewrite <- H2, <- sfold_pc with (E := E), <- H3. exact He.
  - apply fetched_front; [|exact P1]. destruct (c_rs c) as [|e es] eqn:Hrs; [exact P4|].
    cbn [map gpc]. clear. generalize (guess (e_ins e) (a_pc A)) (guess_in (e_ins e) (a_pc A)).
    induction es as [|x es IH]; intros z Hz; [exact Hz|]. cbn [map gpc]. apply IH. apply guess_in.
Qed.

(** ---- the hypotheses can be met ---- *)

Definition no_floats : fops := mkFops (fun _ _ => 0) (fun _ _ => 0) (fun _ _ => 0) (fun _ _ => 0)
  (fun _ => false) (fun _ => true) (fun _ => false) (fun _ => 0) (fun _ => Some 0).
Definition env0 : env := mkEnv Wrap no_floats.
Definition cfg1 : cfg := mkCfg 4 1 1 2 16 4.     (* one ALU, two entries *)
Definition cfg2 : cfg := mkCfg 8 2 3 7 16 1.     (* three ALUs, seven entries, one gate *)

(** Sums 3 + 2 + 1 in a loop, stores and reloads the sum, prints it. *)
Definition prog0 : list instr :=
  [ IMov (OReg (R 0)) (OImm 3); IMov (OReg (R 1)) (OImm 0);
    IBin BADD (R 1) (R 1) (OReg (R 0)) false; ILoop (R 0) (OImm 2);
    IMov (OMemImm 5) (OReg (R 1)); IMov (OReg (R 2)) (OMemImm 5); IPutnum (R 2); IHalt ].

Lemma no_floats_typed : typed_fops no_floats.
Proof.
  assert (H0 : fits 0) by (unfold fits; lia).
  constructor; cbn; auto. intros x z H. injection H as <-. exact H0.
Qed.

Lemma prog0_ok : Forall keeps_ip prog0 /\ typed no_floats prog0 16 [7; 8] [65; 10].
Proof.
  split.
  - repeat (constructor; [cbn; discriminate || exact I|]). constructor.
  - constructor; [exact no_floats_typed| | | |].
    + repeat (constructor; [cbn; repeat split; unfold fits, u64_range; lia || exact I|]). constructor.
    + lia.
    + repeat (constructor; [unfold fits; lia|]). constructor.
    + repeat (constructor; [lia|]). constructor.
Qed.

Definition booted (g : cfg) (p : list instr) (data input : list Z) : cpu :=
  match boot g p data input with Ok c | Throw _ c => c | Undef _ => mkCpu g p 0 None None [] [] 0 [] (ram_init 0) wm_init [] false false 0 false [] [] [] end.

Lemma started1 : started env0 cfg1 prog0 [7; 8] [65; 10] (booted cfg1 prog0 [7; 8] [65; 10]).
Proof. constructor; [apply prog0_ok|apply prog0_ok|vm_compute; reflexivity]. Qed.

Lemma started2 : started env0 cfg2 prog0 [7; 8] [65; 10] (booted cfg2 prog0 [7; 8] [65; 10]).
Proof. constructor; [apply prog0_ok|apply prog0_ok|vm_compute; reflexivity]. Qed.

Definition ended (o : option (res cpu host)) : option (bool * list outev) :=
  match o with Some (Ok (Ended b c)) => Some (b, c_out c) | _ => None end.
Definition at_stop (o : option (res cpu host)) : option (reason * list outev * option Z) :=
  match o with Some (Ok (At r c)) => Some (r, c_out c, get_lreg c (LR PC)) | _ => None end.

(** [psession] as a function. *)
Definition polite_b (k : cmd) (c : cpu) : bool :=
  match k with
  | CPokeText _ ins => match ins with IHalt | INop | IBkpt | IPush _ => true | _ => false end
  | CPokeData a _ => match mws_vec (wm_get (c_wm c) a), aget (ram_reads (c_ram c)) a with [], None => true | _, _ => false end
  | _ => true
  end.

Fixpoint pplay (E : env) (G : cfg) (dbg : bool) (xs : list event) (h : host) : option host :=
  match xs with
  | [] => Some h
  | x :: xs' =>
      if match x, h with ECmd k, At _ c => polite_b k c | _, _ => true end then
        match os_event E G dbg x h with Some (Ok h1) => pplay E G dbg xs' h1 | _ => None end
      else None
  end.

Lemma pplay_psession : forall E G dbg xs h h', pplay E G dbg xs h = Some h' -> psession E G dbg xs h h'.
Proof.
  induction xs as [|x xs IH]; intros h h' H; cbn [pplay] in H; [injection H as <-; constructor|].
  destruct (match x with ETick => _ | _ => _ end) eqn:Hp; [|discriminate].
  destruct (os_event E G dbg x h) as [[h1| |]|] eqn:He; try discriminate. econstructor; eauto.
  destruct x as [|k]; [exact I|]. destruct h as [r c| |]; try exact I. cbn [polite_event].
  destruct k; cbn [polite polite_b] in *; try exact I.
  - destruct ins; try discriminate; cbn; auto.
  - unfold quiet. destruct (mws_vec _); [|discriminate]. destruct (aget _ _); [discriminate|]. auto.
Qed.

Definition result (o : option host) : option (option reason * option bool * list outev * option Z) :=
  match o with
  | Some (At r c) => Some (Some r, None, c_out c, get_lreg c (LR PC))
  | Some (Going _ c) => Some (None, None, c_out c, get_lreg c (LR PC))
  | Some (Ended b c) => Some (None, Some b, c_out c, get_lreg c (LR PC))
  | None => None
  end.

Lemma pplay_at : forall E G xs h r o l, result (pplay E G true xs h) = Some (Some r, None, o, l) ->
  exists c, psession E G true xs h (At r c) /\ c_out c = o /\ get_lreg c (LR PC) = l.
Proof.
  intros E G xs h r o l H. destruct (pplay E G true xs h) as [[r' c|b c|b c]|] eqn:Hp; try discriminate.
  cbn in H. injection H as H1 H2 H3. subst r' o l. exists c. split; [now apply pplay_psession|]. split; reflexivity.
Qed.

Lemma pplay_ended : forall E G xs h b o l, result (pplay E G false xs h) = Some (None, Some b, o, l) ->
  exists c, psession E G false xs h (Ended b c) /\ c_out c = o /\ get_lreg c (LR PC) = l.
Proof.
  intros E G xs h b o l H. destruct (pplay E G false xs h) as [[r' c|b' c|b' c]|] eqn:Hp; try discriminate.
  cbn in H. injection H as H1 H2 H3. subst b' o l. exists c. split; [now apply pplay_psession|]. split; reflexivity.
Qed.

Definition ticks_of (n : nat) : list event := repeat ETick n.

(** The two machines run the program to its end, after 43 and 34 ticks. *)
Example C02_case : exists d1 d2,
  psession env0 cfg1 false (ticks_of 43) (os_start false (booted cfg1 prog0 [7; 8] [65; 10])) (Ended true d1) /\
  psession env0 cfg2 false (ticks_of 34) (os_start false (booted cfg2 prog0 [7; 8] [65; 10])) (Ended true d2) /\
  c_out d1 = [OutNum 6] /\ look_alike d1 d2.
Proof.
  destruct (pplay_ended env0 cfg1 (ticks_of 43) (os_start false (booted cfg1 prog0 [7; 8] [65; 10])) true [OutNum 6] (Some 8))
    as [d1 [H1 [H2 _]]]; [vm_compute; reflexivity|].
  destruct (pplay_ended env0 cfg2 (ticks_of 34) (os_start false (booted cfg2 prog0 [7; 8] [65; 10])) true [OutNum 6] (Some 8))
    as [d2 [H3 _]]; [vm_compute; reflexivity|].
  exists d1, d2. do 3 (split; [assumption|]).
  exact (C02_config_independent _ _ _ _ _ _ _ _ _ _ _ _ _ _ started1 started2 eq_refl H1 H3).
Qed.

(** Two steps, R1 poked to 100, a look at the registers, then on to the end: the
    sum starts from 100. *)
Definition events0 : list event :=
  [ECmd CSingleStep] ++ ticks_of 6 ++ [ECmd CSingleStep] ++ ticks_of 6 ++
  [ECmd (CPokeRegs (R 1) 100); ECmd CPeekRegs; ECmd (CPokeData 3 9); ECmd CContinue] ++ ticks_of 40.

Example C01_session_case : exists c,
  psession env0 cfg1 true events0 (os_start true (booted cfg1 prog0 [7; 8] [65; 10])) (At RHalted c) /\
  c_out c = [OutNum 106] /\ Forall typed_cmd (cmds events0).
Proof.
  destruct (pplay_at env0 cfg1 events0 (os_start true (booted cfg1 prog0 [7; 8] [65; 10])) RHalted [OutNum 106] (Some 8))
    as [c [H1 [H2 _]]]; [vm_compute; reflexivity|].
  exists c. do 2 (split; [assumption|]).
  repeat (constructor; [cbn; unfold fits; lia || exact I|]). constructor.
Qed.

(** Single-stepping through the program ends in the same stop as running: the
    hypotheses of C03, C04, C05. *)
Definition step_events (n : nat) : list event := [ECmd CSingleStep] ++ ticks_of n.
Definition events1 : list event := [ECmd CContinue] ++ ticks_of 43.
Definition events2 : list event :=
  concat (map step_events [6; 6; 8; 8; 8; 8; 8; 8; 8; 8; 8; 7]%nat).

Example C05_case : exists c d,
  psession env0 cfg1 true events1 (os_start true (booted cfg1 prog0 [7; 8] [65; 10])) (At RHalted c) /\
  psession env0 cfg1 true events2 (os_start true (booted cfg1 prog0 [7; 8] [65; 10])) (At RHalted d) /\
  Forall runs_only (cmds events1) /\ Forall steps_only (cmds events2) /\ single_steps (cmds events2) = 12%nat.
Proof.
  destruct (pplay_at env0 cfg1 events1 (os_start true (booted cfg1 prog0 [7; 8] [65; 10])) RHalted [OutNum 6] (Some 8))
    as [c [H1 _]]; [vm_compute; reflexivity|].
  destruct (pplay_at env0 cfg1 events2 (os_start true (booted cfg1 prog0 [7; 8] [65; 10])) RHalted [OutNum 6] (Some 8))
    as [d [H2 _]]; [vm_compute; reflexivity|].
  exists c, d. do 2 (split; [assumption|]). split; [|split; [|vm_compute; reflexivity]].
  - repeat (constructor; [right; right; reflexivity|]). constructor.
  - repeat (constructor; [right; reflexivity|]). constructor.
Qed.

Definition after_pplay (o : option host) : host := match o with Some h => h | None => At RCpuError (booted cfg1 [] [] []) end.

Example C04_case :
  let h := after_pplay (pplay env0 cfg1 true (step_events 6 ++ step_events 6) (os_start true (booted cfg1 prog0 [7; 8] [65; 10]))) in
  exists c c', h = At RSingle c /\ psession env0 cfg1 true (step_events 8) h (At RSingle c') /\
    get_lreg c (LR (R 1)) = Some 0 /\ get_lreg c' (LR (R 1)) = Some 3.
Proof.
  intros h.
  set (h' := after_pplay (pplay env0 cfg1 true (step_events 8) h)).
  assert (Hh : pplay env0 cfg1 true (step_events 8) h = Some h') by (vm_compute; reflexivity).
  exists (match h with At _ c | Going _ c | Ended _ c => c end), (match h' with At _ c | Going _ c | Ended _ c => c end).
  split; [vm_compute; reflexivity|]. split; [|split; vm_compute; reflexivity].
  replace (At RSingle _) with h' by (vm_compute; reflexivity). now apply pplay_psession.
Qed.

(** In the middle of a run, with instructions in flight past a predicted jump. *)
Example C09_case : exists c,
  psession env0 cfg1 true ([ECmd CContinue] ++ ticks_of 7) (os_start true (booted cfg1 prog0 [7; 8] [65; 10])) (Going false c) /\
  length (in_flight c) = 4%nat /\ c_pred c = [2; 2] /\ busy_alus c = 0%nat /\ c_alus c = 1%nat.
Proof.
  set (h := after_pplay (pplay env0 cfg1 true ([ECmd CContinue] ++ ticks_of 7) (os_start true (booted cfg1 prog0 [7; 8] [65; 10])))).
  assert (Hh : pplay env0 cfg1 true ([ECmd CContinue] ++ ticks_of 7) (os_start true (booted cfg1 prog0 [7; 8] [65; 10])) = Some h) by (vm_compute; reflexivity).
  exists (match h with At _ c | Going _ c | Ended _ c => c end).
  split; [|vm_compute; repeat split; reflexivity].
  replace (Going false _) with h by (vm_compute; reflexivity). now apply pplay_psession.
Qed.

(** ---- C44 ---- *)

(** What [keeps_ip] excludes: the assembler accepts an ordinary instruction with IP
    as destination. The pipeline goes on fetching behind it as if IP were not
    written; a single step empties the pipeline and so follows the written value. *)
Definition prog_ip : list instr :=
  [ IMov (OReg PC) (OImm 3); IPutnum (R 0); IHalt; IMov (OReg (R 0)) (OImm 2); IPutnum (R 0); IHalt ].

Theorem C44_mov_ip_refuted : exists E G g p c0 xs ys c d,
  boot g p [] [] = Ok c0 /\
  psession E G true xs (os_start true c0) (At RHalted c) /\ Forall runs_only (cmds xs) /\
  psession E G true ys (os_start true c0) (At RHalted d) /\ Forall steps_only (cmds ys) /\
  c_out c = [OutNum 0] /\ c_out d = [OutNum 2].
Proof.
  pose (xs := [ECmd CContinue] ++ ticks_of 10). pose (ys := concat (map step_events [6; 6; 8; 7]%nat)).
  destruct (pplay_at env0 cfg1 xs (os_start true (booted cfg1 prog_ip [] [])) RHalted [OutNum 0] (Some 3))
    as [c [H1 [H2 _]]]; [vm_compute; reflexivity|].
  destruct (pplay_at env0 cfg1 ys (os_start true (booted cfg1 prog_ip [] [])) RHalted [OutNum 2] (Some 6))
    as [d [H3 [H4 _]]]; [vm_compute; reflexivity|].
  exists env0, cfg1, cfg1, prog_ip, (booted cfg1 prog_ip [] []), xs, ys, c, d.
  split; [vm_compute; reflexivity|]. split; [exact H1|]. split; [|split; [exact H3|split; [|auto]]].
  - repeat (constructor; [right; right; reflexivity|]). constructor.
  - repeat (constructor; [right; reflexivity|]). constructor.
Qed.

Print Assumptions C01_ticks.
Print Assumptions C01_run.
Print Assumptions C01_session.
Print Assumptions C02_config_independent.
Print Assumptions C03_clean_stop.
Print Assumptions C04_single_step.
Print Assumptions C05_stepping_is_running.
Print Assumptions C05_same_end.
Print Assumptions C07_free_register.
Print Assumptions C08_alus_conserved.
Print Assumptions C09_predictions.
Print Assumptions C44_mov_ip_refuted.
