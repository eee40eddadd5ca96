(** C107: programs that cannot bring the VM down. *)
From Coq Require Import Ascii String ZArith NArith List Bool Lia.
From Verif Require Import Base Text PropText Alu Isa AluSpec IsaSpec Lexer LexProofs Asm Show AsmSpec AsmTyped Exec Ram Writes Rat Cpu Os LiveSpec InOrder IsaRefine
  State DbgSpec PipeInv PipeBasics PipeRetire PipeTick PipeBoot PipeDom PipeRun PipeLive PipeSoon PipeFault PipeOut Session PropPipe PropLive PropSpec T86Main PropMain
  SafeSpec PipeSafe PipeSafeTick SafeWindow IsaDet.
Import ListNotations.
Open Scope Z_scope.

(** ---- what the program must do ---- *)

(** There is a character wherever the sequential machine reads one. *)
Definition input_lasts (F : fops) (p : list instr) (start : arch) : Prop := forall n S r,
  isa_run F p n start S -> a_halted S = false -> instr_at p (a_pc S) = IGetchar r -> exists c rest, read_char (a_in S) c rest.

(** The sequential machine keeps inside the memory. *)
Definition stays_inside (F : fops) (p : list instr) (start : arch) : Prop := forall n S a,
  isa_run F p n start S -> a_halted S = false -> accesses S (instr_at p (a_pc S)) a -> a_mem S a <> None.

Lemma read_get : forall s c rest, read_char s c rest -> Exec.get_char s <> None.
Proof.
  induction 1 as [b s c rest Hb H IH|b rest Hb Hl|b rest Hb]; cbn [Exec.get_char].
  - destruct (Exec.is_space b) eqn:Hs; [exact IH|discriminate].
  - destruct (Exec.is_space b) eqn:Hs; [|discriminate]. exfalso. apply Hb. unfold Exec.is_space in Hs. cbn. lia.
  - destruct (Exec.is_space b) eqn:Hs; [|discriminate]. exfalso. unfold Exec.is_space in Hs. lia.
Qed.

(** ---- C107: ticks ---- *)

Section Machine.
Variable E : env.
Variable g : cfg.
Variable p : list instr.
Variables data input : list Z.
Variable c0 : cpu.
Let start := isa_boot (g_ram g) data input.

Hypothesis is_started : started E g p data input c0.
Hypothesis wraps : e_mode E = Wrap.
Hypothesis is_harmless : Forall (fun i => harmless (g_reg g) (g_freg g) i = true) p.
Hypothesis is_spread : spread p (g_rs g) = true.
Hypothesis lasts : input_lasts (e_fops E) p start.

Lemma harmless_at : forall pc, good_ins g (prog_at p pc) = true.
Proof.
  intros pc. unfold prog_at. destruct (_ && _); [|reflexivity]. destruct (nth_in_or_default (Z.to_nat pc) p INop) as [H| ->]; [|reflexivity].
  rewrite Forall_forall in is_harmless. now apply is_harmless.
Qed.

Lemma boot_clear : clear E g p start.
Proof.
  pose proof is_started as [Hip Hty Hb]. pose proof (boot_wordy _ _ _ _ _ Hty) as W. destruct Hty as [T1 T2 T3 T4 T5].
  intros k A' Hk. destruct (io_isa_run _ _ _ _ _ (keeps_valid _ Hip) T2 T1 Hk W) as [Hr W'].
  assert (H0 : 0 <= a_pc A') by apply W'. split.
  - apply spread_window; [exact wraps|exact harmless_at|exact is_spread|exact H0].
  - intros Hh r Hr'. rewrite prog_at_instr in Hr' by exact H0. destruct (lasts k A' r Hr Hh Hr') as (ch & rest & Hc). eapply read_get. exact Hc.
Qed.

(** The VM, whatever it speculates on, raises no error but that of an access outside the
    memory, and never gets into undefined behaviour. *)
Theorem C107_no_other_error : forall n,
  (exists c, ticks E n c0 = Ok c) \/ exists s, ticks E n c0 = Throw EMemRange s.
Proof.
  intros n. pose proof is_started as [Hip _ Hb]. destruct (boot_inv E _ _ _ _ _ (keeps_valid _ Hip) Hb) as [B1 _].
  destruct (ticks_go E g p wraps harmless_at n _ c0 B1 (boot_SC g p data input c0 Hb) boot_clear) as [(c & H & _)|H]; eauto.
Qed.

(** And no error at all when the sequential machine keeps inside the memory. *)
Lemma ticks_throw_last : forall n c s e, ticks E n c = Throw e s -> exists m c1, ticks E m c = Ok c1 /\ tick E c1 = Throw e s.
Proof.
  induction n as [|n IH]; intros c s e H; cbn [ticks] in H; [discriminate|]. destruct (tick E c) as [c1|e1 s1|w] eqn:T; cbn [bind] in H; [| |discriminate].
  - destruct (IH _ _ _ H) as (m & c2 & H1 & H2). exists (S m), c2. split; [cbn [ticks]; now rewrite T|exact H2].
  - exists 0%nat, c. split; [reflexivity|congruence].
Qed.

Theorem C107_no_error : stays_inside (e_fops E) p start -> forall n, exists c, ticks E n c0 = Ok c.
Proof.
  intros Hin n. destruct (C107_no_other_error n) as [H|[s H]]; [exact H|]. exfalso.
  destruct (ticks_throw_last _ _ _ _ H) as (m & c1 & H1 & H2). destruct (C06_fault_is_sequential _ _ _ _ _ _ _ _ _ is_started H1 H2) as (k & S & a & R & Hh & Ha & Hm).
  exact (Hin k S a R Hh Ha Hm).
Qed.

(** What the loop of the operating system sees is an interrupt that it knows. *)
Lemma check_write_int : forall a s, snd (check_write a s) = snd s \/ snd (check_write a s) = 2.
Proof.
  intros a s. unfold check_write. assert (H1 : forall i s, snd (check_write1 a i s) = snd s \/ snd (check_write1 a i s) = 2).
  { intros i [d n]. unfold check_write1. destruct (_ && _); auto. }
  destruct (H1 3%nat (check_write1 a 2 (check_write1 a 1 (check_write1 a 0 s)))) as [->|]; [|auto]. destruct (H1 2%nat (check_write1 a 1 (check_write1 a 0 s))) as [->|]; [|auto].
  destruct (H1 1%nat (check_write1 a 0 s)) as [->|]; [|auto]. apply H1.
Qed.
Lemma io_run_known : forall q ii A s A' s', io_run E q ii A s A' s' -> snd s = 0 -> snd s' = 0 \/ snd s' = 2 \/ snd s' = 3.
Proof.
  induction 1 as [A s|ii A s T A' s' Hst Hz Hr IH]; intros H0; [auto|].
  assert (Hc : snd (step_dbg E (prog_at q (a_pc A)) A s) = 0 \/ snd (step_dbg E (prog_at q (a_pc A)) A s) = 2 \/ snd (step_dbg E (prog_at q (a_pc A)) A s) = 3).
  { unfold step_dbg. destruct (eff_store _ _ _) as [[a v]|]; [destruct (check_write_int a s) as [-> | ->]; auto|]. destruct (prog_at q (a_pc A)); cbn [snd]; auto. }
  destruct ii as [|i ii]; [|apply IH, Hz; discriminate]. inversion Hr; subst. exact Hc.
Qed.

Lemma ticks_int_known : forall n c c', ticks E n c0 = Ok c -> tick E c = Ok c' -> 0 < c_int c' -> reason_of (c_int c') <> None.
Proof.
  intros n c c' H H1 Hi. pose proof is_started as [Hip _ Hb]. destruct (boot_reached E g p data input c0 n c (keeps_valid _ Hip) Hb H) as (k & A & R & _).
  destruct (tick_reached E A c c' (re_Inv _ _ _ _ _ _ R) (re_D _ _ _ _ _ _ R) H1) as (ii & A' & T & _). destruct (td_run _ _ _ _ _ _ T) as (m & Hr & Hc).
  destruct (io_run_known _ _ _ _ _ _ Hr eq_refl) as [Hm|[Hm|Hm]]; cbn [snd] in Hm; subst m; rewrite Hc in *; destruct (_ && _); try discriminate; lia.
Qed.
End Machine.

(** ---- C107: t86-cli ---- *)

Section Main.
Variable stod : text -> option Z.
Variable E : env.
Variable O : options.
Variable input : list Z.

Hypothesis stod_fits : forall s v, stod s = Some v -> fits v.
Hypothesis fops_fit : typed_fops (e_fops E).
Hypothesis memory_fits : Z.of_nat (o_memory O) < 2 ^ 63.
Hypothesis input_bytes : Forall (fun b => 0 <= b < 256) input.
Hypothesis alone : o_debug O = false.
Variable s : text.
Variable p : list instr.
Variable data : list Z.
Hypothesis file_read : o_file O = Some s.
Hypothesis assembled : assemble stod s = POk (p, data).
Hypothesis only_jumps : Forall keeps_ip p.
Hypothesis data_fit : (length data <= o_memory O)%nat.

Hypothesis wraps : e_mode E = Wrap.
Hypothesis is_harmless : Forall (fun i => harmless (o_regs O) (o_fregs O) i = true) p.
Hypothesis is_spread : spread p 2 = true.

Let start := isa_boot (o_memory O) data input.
Hypothesis lasts : input_lasts (e_fops E) p start.

Lemma os_run_dies : forall k n c0 c, started E (o_machine O) p data input c0 -> ticks E n c0 = Ok c -> os_run E k (Going false c) <> Dies.
Proof.
  induction k as [|k IH]; intros n c0 c Hst Hn H; cbn [os_run] in H; [discriminate|]. unfold os_tick in H.
  destruct (tick E c) as [c1|e z|w] eqn:T.
  - destruct (c_halted c1); [destruct k; discriminate|]. assert (Hn1 : ticks E (n + 1) c0 = Ok c1) by (rewrite ticks_add, Hn; cbn; now rewrite T).
    destruct (Z.ltb_spec 0 (c_int c1)) as [Hi|Hi]; [|exact (IH _ _ _ Hst Hn1 H)].
    pose proof (ticks_int_known E (o_machine O) p data input c0 Hst n c c1 Hn T Hi) as Hr. destruct (reason_of (c_int c1)); [exact (IH _ _ _ Hst Hn1 H)|now elim Hr].
  - destruct k; discriminate.
  - destruct (C107_no_other_error E (o_machine O) p data input c0 Hst wraps is_harmless is_spread lasts (n + 1)) as [[c1 Hc]|[z Hc]]; rewrite ticks_add, Hn in Hc; cbn in Hc; rewrite T in Hc; discriminate.
Qed.

(** The process never dies. *)
Theorem C107_process_lives : forall k, t86_main stod E O input k <> Dies.
Proof.
  intros k. destruct (main_started stod E O input stod_fits fops_fit memory_fits input_bytes alone s p data file_read assembled only_jumps data_fit) as (c0 & Hst & ->).
  apply (os_run_dies k 0 c0 c0 Hst eq_refl).
Qed.

(** It exits with a complaint only when the sequential machine leaves the memory. *)
Theorem C107_no_complaint : stays_inside (e_fops E) p start -> forall k st out err, t86_main stod E O input k = Exits st out err -> err = false.
Proof.
  intros Hin k st out err. destruct (main_started stod E O input stod_fits fops_fit memory_fits input_bytes alone s p data file_read assembled only_jumps data_fit) as (c0 & Hst & ->).
  intros R. pose proof Hst as [Hip _ Hb]. destruct (boot_host E (o_machine O) p data input c0 false (keeps_valid _ Hip) Hb) as [_ [Hp [Hg [_ Hh]]]].
  destruct (run_exits _ _ _ _ _ _ R Hh) as (Z0 & n & c1 & _ & Ht & [(c2 & T & H2 & Ho & He)|(e & c2 & T & Ho & He)]); [exact He|]. exfalso.
  destruct (C107_no_error E (o_machine O) p data input c0 Hst wraps is_harmless is_spread lasts Hin (n + 1)) as [c3 Hc]. rewrite ticks_add, Ht in Hc. cbn in Hc. rewrite T in Hc. discriminate.
Qed.

(** A program that does not run for ever on the sequential machine and keeps inside the
    memory is run by t86-cli to its end: it prints what the sequential machine prints until
    it halts, and nothing else happens. *)
Theorem C107_completes : forall m k, Forall loads_or_stores p -> stays_inside (e_fops E) p start ->
  (forall n S, isa_run (e_fops E) p n start S -> (n <= m)%nat) -> (89 * (m + 1) <= k)%nat ->
  exists n S, isa_run (e_fops E) p n start S /\ a_halted S = true /\ t86_main stod E O input k = Exits 0 (a_out S) false.
Proof.
  intros m k Hls Hin Hm Hk. pose proof (C104_printed stod E O input stod_fits fops_fit memory_fits input_bytes alone s p data file_read assembled only_jumps data_fit k) as Hpr.
  pose proof (C104_ends stod E O input stod_fits fops_fit memory_fits input_bytes alone s p data file_read assembled only_jumps data_fit m k Hls Hm Hk) as He.
  pose proof (C107_process_lives k) as Hl. pose proof (C107_no_complaint Hin k) as Hc.
  destruct (t86_main stod E O input k) as [st out err| |h|c]; [|now elim Hl|destruct Hpr|now elim (He c)].
  destruct Hpr as (-> & n & S & R & -> & Hh). pose proof (Hc _ _ _ eq_refl) as ->. exists n, S. auto.
Qed.
End Main.

(** ---- C107: programs that halt, and programs that do not ---- *)

(** Such a program does not lack input and keeps inside the memory. *)
Lemma running_inside : forall F p start, Forall (fun i => settled i = true) p ->
  (forall n U, isa_run F p n start U -> a_halted U = false -> exists m T, (n < m)%nat /\ isa_run F p m start T) -> input_lasts F p start /\ stays_inside F p start.
Proof.
  intros F p start Hs H. split.
  - intros n S r HS Hh Hi. destruct (H n S HS Hh) as (m & T & Hl & HT). destruct (longer_run F p Hs _ _ _ _ _ HT HS Hl) as (_ & V & W & A & B).
    rewrite <- (s_pc _ _ A), Hi in B. cbn [effect] in B. destruct B as (c & rest & B & _). exists c, rest. now rewrite (s_in _ _ A).
  - intros n S a HS Hh Ha. destruct (H n S HS Hh) as (m & T & Hl & HT). destruct (longer_run F p Hs _ _ _ _ _ HT HS Hl) as (_ & V & W & A & B).
    rewrite (s_mem _ _ A). rewrite <- (s_pc _ _ A) in B. eapply effect_inside; [exact B|]. eapply accesses_same; eassumption.
Qed.

Section Sequential.
Variable stod : text -> option Z.
Variable E : env.
Variable O : options.
Variable input : list Z.

Hypothesis stod_fits : forall s v, stod s = Some v -> fits v.
Hypothesis fops_fit : typed_fops (e_fops E).
Hypothesis memory_fits : Z.of_nat (o_memory O) < 2 ^ 63.
Hypothesis input_bytes : Forall (fun b => 0 <= b < 256) input.
Hypothesis alone : o_debug O = false.
Variable s : text.
Variable p : list instr.
Variable data : list Z.
Hypothesis file_read : o_file O = Some s.
Hypothesis assembled : assemble stod s = POk (p, data).
Hypothesis only_jumps : Forall keeps_ip p.
Hypothesis data_fit : (length data <= o_memory O)%nat.

Hypothesis wraps : e_mode E = Wrap.
Hypothesis is_harmless : Forall (fun i => harmless (o_regs O) (o_fregs O) i = true) p.
Hypothesis is_spread : spread p 2 = true.
Hypothesis is_settled : Forall (fun i => settled i = true) p.

Let start := isa_boot (o_memory O) data input.

(** If the sequential machine halts after [m] instructions, t86-cli prints what it printed
    and exits, with the status 0 and without a complaint, in at most [89 * (m + 1)] ticks. *)
Theorem C107_halts : forall m S k, Forall loads_or_stores p -> isa_run (e_fops E) p m start S -> a_halted S = true ->
  (89 * (m + 1) <= k)%nat -> t86_main stod E O input k = Exits 0 (a_out S) false.
Proof.
  intros m S k Hls HS Hh Hk.
  destruct (running_inside (e_fops E) p start is_settled) as [Hl Hi].
  { intros n U HU HhU. exists m, S. split; [|exact HS]. destruct (halting_runs _ _ is_settled _ _ _ HS Hh n U HU) as (A & B & _).
    destruct (Nat.eq_dec n m) as [->|]; [|lia]. pose proof (s_halted _ _ (B eq_refl)). congruence. }
  destruct (C107_completes stod E O input stod_fits fops_fit memory_fits input_bytes alone s p data file_read assembled only_jumps data_fit wraps is_harmless is_spread Hl m k Hls Hi) as (n & U & HU & HhU & ->).
  - intros n U HU. apply (halting_runs _ _ is_settled _ _ _ HS Hh n U HU).
  - exact Hk.
  - destruct (halting_runs _ _ is_settled _ _ _ HS Hh n U HU) as (A & B & C). specialize (B (C HhU)). now rewrite (s_out _ _ B).
Qed.

(** If it runs for ever, so does t86-cli: after [89 * (m + 1)] ticks it has printed all that
    the sequential machine prints in its first [m] instructions, and nothing that it does not. *)
Theorem C107_goes_on : forall m k, Forall loads_or_stores p -> (forall n, exists S, isa_run (e_fops E) p n start S) -> (89 * (m + 1) <= k)%nat ->
  exists c n S, t86_main stod E O input k = Runs c /\ isa_run (e_fops E) p n start S /\ (m <= n)%nat /\ c_out c = a_out S.
Proof.
  intros m k Hls Hf Hk.
  destruct (running_inside (e_fops E) p start is_settled) as [Hl Hi].
  { intros n U HU HhU. destruct (Hf (Datatypes.S n)) as [T HT]. exists (Datatypes.S n), T. split; [lia|exact HT]. }
  assert (Hnh : forall n S, isa_run (e_fops E) p n start S -> a_halted S = false).
  { intros n S R. destruct (Hf (Datatypes.S n)) as [T HT]. apply (longer_run _ _ is_settled _ _ _ _ _ HT R). lia. }
  pose proof (C104_printed stod E O input stod_fits fops_fit memory_fits input_bytes alone s p data file_read assembled only_jumps data_fit k) as Hpr.
  pose proof (C107_process_lives stod E O input stod_fits fops_fit memory_fits input_bytes alone s p data file_read assembled only_jumps data_fit wraps is_harmless is_spread Hl k) as Hv.
  pose proof (C107_no_complaint stod E O input stod_fits fops_fit memory_fits input_bytes alone s p data file_read assembled only_jumps data_fit wraps is_harmless is_spread Hl Hi k) as Hc.
  destruct (main_started stod E O input stod_fits fops_fit memory_fits input_bytes alone s p data file_read assembled only_jumps data_fit) as (c0 & Hst & M).
  specialize (M k). destruct (t86_main stod E O input k) as [st out err| |h|c]; [|now elim Hv|destruct Hpr|].
  - exfalso. destruct Hpr as (-> & n & S & R & -> & Hh). pose proof (Hc _ _ _ eq_refl) as ->. specialize (Hnh _ _ R). rewrite Hh in Hnh; [discriminate|reflexivity].
  - clear Hpr Hv Hc. symmetry in M. pose proof Hst as [Hip _ Hb]. destruct (boot_host E (o_machine O) p data input c0 false (keeps_valid _ Hip) Hb) as [_ [Hp [Hg [_ Hh]]]].
    destruct (run_running _ _ _ _ M Hh) as [Ht _]. destruct (C10_counts _ _ _ _ _ _ _ _ Hst Ht) as (S & K1 & _ & K3 & _). exists c, (ticks_count E k c0), S.
    split; [reflexivity|]. split; [exact K1|]. split; [|exact K3].
    assert (HG : good E c0).
    { apply (session_good E cfg1 false (o_machine O) p data input c0 [] false c0 Hst); [cbn; lia|cbn; lia|constructor|congruence]. }
    destruct (count_reaches E (m + 1) c0 HG) as [n [Hle [Hfl|[c1 [H1 [H2|H2]]]]]].
    + exfalso. replace k with (n + (k - n))%nat in Ht by lia. rewrite ticks_add in Ht. apply bind_ok in Ht. destruct Ht as [c1 [H1 _]]. exact (Hfl _ H1).
    + replace k with (n + (k - n))%nat by lia. rewrite (ticks_count_add _ _ _ _ _ H1). lia.
    + exfalso. destruct (C10_counts _ _ _ _ _ _ _ _ Hst H1) as (S1 & K4 & _ & _ & _ & K5). specialize (Hnh _ _ K4). congruence.
Qed.
End Sequential.

(** ---- cases ---- *)

Definition calls : text := str ".text MOV R0, 3 CALL 6 MOV [10], R0 MOV [11], R0 PUTNUM R0 HALT PUSH R0 ADD R0, 4 POP R1 RET".
Definition calls_prog : list instr :=
  [IMov (OReg (R 0)) (OImm 3); ICall (OImm 6); IMov (OMemImm 10) (OReg (R 0)); IMov (OMemImm 11) (OReg (R 0)); IPutnum (R 0); IHalt;
   IPush (OReg (R 0)); IBin BADD (R 0) (R 0) (OImm 4) false; IPop (R 1); IRet].

Lemma calls_assembled : assemble no_stod calls = POk (calls_prog, []).
Proof. vm_compute. reflexivity. Qed.

(** A program with a call, a stack and adjacent stores satisfies the hypotheses of
    [C107_halts], and this is what it does. *)
Example C107_case : let O := plain_options (Some calls) in
  (forall s v, no_stod s = Some v -> fits v) /\ typed_fops (e_fops env0) /\ e_mode env0 = Wrap /\ Forall keeps_ip calls_prog /\
  Forall (fun i => harmless (o_regs O) (o_fregs O) i = true) calls_prog /\ spread calls_prog 2 = true /\ Forall (fun i => settled i = true) calls_prog /\
  Forall loads_or_stores calls_prog /\
  (exists m S, isa_run (e_fops env0) calls_prog m (isa_boot 1024 [] []) S /\ a_halted S = true /\ a_out S = [OutNum 7]) /\
  t86_main no_stod env0 O [] 1000 = Exits 0 [OutNum 7] false.
Proof.
  cbv zeta. split; [discriminate|]. split; [exact no_floats_typed|]. split; [reflexivity|]. split; [repeat constructor; discriminate|].
  split; [repeat constructor|]. split; [vm_compute; reflexivity|]. split; [repeat constructor|].
  split; [repeat (constructor; [first [left; reflexivity|right; reflexivity]|]); constructor|]. split; [|vm_compute; reflexivity].
  destruct (main_started no_stod env0 (plain_options (Some calls)) []) with (s := calls) (p := calls_prog) (data := @nil Z) as (c0 & Hst & M); try reflexivity; try discriminate.
  - exact no_floats_typed.
  - constructor.
  - repeat constructor; discriminate.
  - cbn; lia.
  - pose proof (M 1000%nat) as R. symmetry in R. replace (t86_main no_stod env0 (plain_options (Some calls)) [] 1000) with (Exits 0 [OutNum 7] false) in R by (vm_compute; reflexivity).
    pose proof Hst as [Hip _ Hb]. destruct (boot_host env0 _ calls_prog [] [] c0 false (keeps_valid _ Hip) Hb) as [_ [Hp [Hg [_ Hh]]]].
    destruct (run_exits _ _ _ _ _ _ R Hh) as (_ & n & c1 & _ & Ht & [(c2 & T & H2 & Ho & He)|(e & c2 & T & Ho & He)]); [|discriminate].
    assert (T' : ticks env0 (n + 1) c0 = Ok c2) by (rewrite ticks_add, Ht; cbn; now rewrite T).
    destruct (C10_counts _ _ _ _ _ _ _ _ Hst T') as (S & K1 & K2 & K3 & K4 & K5). exists (ticks_count env0 (n + 1) c0), S. split; [exact K1|]. split; congruence.
Qed.

(** A program that prints for ever. *)
Definition prints_prog : list instr := [IPutnum (R 0); IJmp (OImm 0)].
Definition prints : text := str ".text PUTNUM R0 JMP 0".

Lemma prints_runs : forall n S, a_halted S = false -> a_pc S = 0 \/ a_pc S = 1 -> a_reg S (LR (R 0)) = 0 -> exists T, isa_run (e_fops env0) prints_prog n S T.
Proof.
  induction n as [|n IH]; intros S Hh Hp Hr; [exists S; constructor|]. destruct Hp as [Hp|Hp].
  - destruct (IH (IsaSpec.next (print S (OutNum 0)))) as [T HT]; [exact Hh|right; cbn; now rewrite Hp|exact Hr|]. exists T. econstructor; [|exact HT]. constructor; [exact Hh|].
    rewrite Hp. cbn [instr_at prints_prog Z.to_nat nth effect]. exists 0, 0. split; [rewrite <- Hr; now constructor|]. split; [lia|]. split; [reflexivity|]. apply same_refl.
  - destruct (IH (jump S 0)) as [T HT]; [exact Hh|left; reflexivity|exact Hr|]. exists T. econstructor; [|exact HT]. constructor; [exact Hh|].
    rewrite Hp. change (effect (e_fops env0) (IJmp (OImm 0)) S (jump S 0)). exists 0. split; [constructor|apply same_refl].
Qed.

Example C107_goes_on_case : let O := plain_options (Some prints) in
  assemble no_stod prints = POk (prints_prog, []) /\ Forall keeps_ip prints_prog /\
  Forall (fun i => harmless (o_regs O) (o_fregs O) i = true) prints_prog /\ spread prints_prog 2 = true /\ Forall (fun i => settled i = true) prints_prog /\
  Forall loads_or_stores prints_prog /\ (forall n, exists S, isa_run (e_fops env0) prints_prog n (isa_boot 1024 [] []) S) /\
  exists c, t86_main no_stod env0 O [] 200 = Runs c /\ (10 <= length (c_out c))%nat.
Proof.
  cbv zeta. split; [vm_compute; reflexivity|]. split; [repeat constructor|]. split; [repeat constructor|]. split; [vm_compute; reflexivity|]. split; [repeat constructor|].
  split; [repeat (constructor; [first [left; reflexivity|right; reflexivity]|]); constructor|]. split; [intros n; apply prints_runs; [reflexivity|now left|reflexivity]|].
  assert (H : match t86_main no_stod env0 (plain_options (Some prints)) [] 200 with Runs c => (10 <=? length (c_out c))%nat | _ => false end = true) by (vm_compute; reflexivity).
  destruct (t86_main no_stod env0 (plain_options (Some prints)) [] 200) as [| | |c]; try discriminate. exists c. split; [reflexivity|]. now apply Nat.leb_le.
Qed.

(** The conditions cannot be dropped: a program that stores twice at one address (not
    spread), one that divides by a register that holds 0 and one that names a register that
    the machine does not have (not harmless). *)
Example C107_needed :
  t86_main no_stod env0 (plain_options (Some (str ".text MOV [5], 1 MOV [5], 2 HALT"))) [] 100 = Dies /\
  t86_main no_stod env0 (plain_options (Some (str ".text MOV R0, 3 DIV R0, R1 HALT"))) [] 100 = Dies /\
  match t86_main no_stod env0 (plain_options (Some (str ".text MOV R9, 3 HALT"))) [] 100 with Exits _ _ false | Runs _ => False | _ => True end /\
  spread [IMov (OMemImm 5) (OImm 1); IMov (OMemImm 5) (OImm 2); IHalt] 2 = false.
Proof.
  split; [vm_compute; reflexivity|]. split; [vm_compute; reflexivity|]. split; [vm_compute; exact I|]. vm_compute. reflexivity.
Qed.

(** Stores further apart than the two entries of the reservation station, and pushes
    however close, are no trouble. *)
Example C107_spread_case :
  spread [IMov (OMemImm 5) (OImm 1); INop; IMov (OMemImm 5) (OImm 2); IHalt] 2 = true /\
  spread [IPush (OImm 1); IPush (OImm 2); ICall (OImm 0); IHalt] 2 = true /\ spread [IPush (OImm 1); IPush (OImm 2); IPush (OImm 3); ICall (OImm 0); IHalt] 8 = true /\
  spread [IPush (OImm 1); IMov (OMemRegOff SP 0) (OImm 2)] 2 = false.
Proof.
  split; [vm_compute; reflexivity|]. split; [vm_compute; reflexivity|]. split; [vm_compute; reflexivity|]. vm_compute. reflexivity.
Qed.

Print Assumptions C107_no_other_error.
Print Assumptions C107_no_error.
Print Assumptions C107_process_lives.
Print Assumptions C107_no_complaint.
Print Assumptions C107_completes.
Print Assumptions C107_halts.
Print Assumptions C107_goes_on.
