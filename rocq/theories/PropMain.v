(** C104, C105, C106: the program t86-cli. *)
From Coq Require Import Ascii String ZArith NArith List Bool Lia.
From Verif Require Import Base Text PropText Alu Isa AluSpec IsaSpec Lexer LexProofs Asm Show AsmSpec AsmSweep AsmTyped Exec Ram Writes Rat Cpu Os LiveSpec InOrder IsaRefine
  State DbgSpec PipeInv PipeBasics PipeRetire PipeTick PipeBoot PipeDom PipeRun PipeLive PipeSoon PipeFault PipeOut Session PropPipe PropLive PropAsm T86Main.
Import ListNotations.
Open Scope Z_scope.

(** ---- starting the machine ---- *)

(** A table whose entries are registers of the file. *)
Definition in_file (f : pfile) (t : rat) : Prop := Forall (fun m => (snd m < length f)%nat) t.

Lemma pset_some : forall f p g, (p < length f)%nat -> exists f', pset f p g = Some f' /\ length f' = length f.
Proof.
  intros f p g H. unfold pset. destruct (nth_error f p) eqn:E; [|apply nth_error_None in E; lia].
  eexists. split; [reflexivity|]. apply set_nth_length.
Qed.
Lemma psub_all_some : forall t f, in_file f t -> exists f', psub_all f t = Some f' /\ length f' = length f.
Proof.
  induction t as [|[l p] t IH]; intros f H; cbn [psub_all]; [eauto|]. inversion H as [|? ? H1 H2]; subst. cbn [snd] in H1.
  destruct (pset_some f p (fun r => mkPreg (p_val r) (p_ready r) (S (p_subs r))) H1) as (f1 & E & L). unfold psub. rewrite E.
  destruct (IH f1) as (f2 & E2 & L2); [eapply Forall_impl; [|exact H2]; intros m Hm; cbv beta in *; rewrite L; exact Hm|]. exists f2. split; [exact E2|congruence].
Qed.
Lemma rget_in : forall t l p, rget t l = Some p -> exists k, In (k, p) t.
Proof.
  induction t as [|[k q] t IH]; intros l p H; cbn [rget] in H; [discriminate|]. destruct (lreg_eqb l k).
  - injection H as <-. exists k. now left.
  - destruct (IH _ _ H) as [k' Hk]. exists k'. now right.
Qed.
Lemma set_lregs_some : forall vs c, in_file (c_regs c) (c_rat c) -> Forall (fun x => rget (c_rat c) (fst x) <> None) vs ->
  exists c', set_lregs c vs = Ok c' /\ c_ram c' = c_ram c.
Proof.
  induction vs as [|[l v] vs IH]; intros c F H; cbn [set_lregs]; [eauto|]. inversion H as [|? ? H1 H2]; subst. cbn [fst] in H1.
  unfold set_lreg. destruct (rget (c_rat c) l) as [p|] eqn:E; [|congruence].
  destruct (rget_in _ _ _ E) as [k Hk]. unfold in_file in F. rewrite Forall_forall in F. pose proof (F _ Hk) as Hp. cbn [snd] in Hp.
  destruct (pset_some (c_regs c) p (fun r => mkPreg v true (p_subs r)) Hp) as (f1 & E1 & L1). rewrite E1. cbn [bind].
  destruct (IH (set_regs c f1)) as (c' & E2 & R2); [unfold in_file; cbn [set_regs c_regs c_rat]; rewrite L1; apply Forall_forall; exact F|exact H2|].
  exists c'. split; [exact E2|exact R2].
Qed.

Lemma lreg_eqb_refl : forall l, lreg_eqb l l = true.
Proof. intros [[]|n]; cbn; try reflexivity; apply N.eqb_refl. Qed.
Lemma rget_app : forall t u l, rget (t ++ u) l <> None <-> rget t l <> None \/ rget u l <> None.
Proof.
  induction t as [|[k q] t IH]; intros u l; cbn [rget app]; [split; [auto|intros [X|X]; [now elim X|exact X]]|].
  destruct (lreg_eqb l k); [split; [left; discriminate|discriminate]|apply IH].
Qed.
Lemma seq_mapped : forall f n from ph, Forall (fun x => rget (seq_regs f from ph n) (fst x) <> None) (zero_regs f from n).
Proof.
  intros f. induction n as [|n IH]; intros from ph; cbn [zero_regs seq_regs]; constructor.
  - cbn [fst rget]. rewrite lreg_eqb_refl. discriminate.
  - eapply Forall_impl; [|apply (IH (from + 1)%N (S ph))]. intros x Hx. cbn [rget]. destruct (lreg_eqb _ _); [discriminate|exact Hx].
Qed.
Lemma seq_phys : forall f n from ph m, In m (seq_regs f from ph n) -> (snd m < ph + n)%nat.
Proof.
  intros f. induction n as [|n IH]; intros from ph m H; cbn [seq_regs] in H; [destruct H|]. destruct H as [<-|H]; [cbn; lia|]. apply IH in H. lia.
Qed.

(** A machine is started for every program whose data fit into the memory ... *)
Lemma boot_fits : forall g p data input, (1 <= g_rs g)%nat -> (length data <= g_ram g)%nat -> exists c, boot g p data input = Ok c.
Proof.
  intros g p data input Hrs Hd. unfold boot, cpu_init. cbv zeta.
  set (t := rat_init (g_reg g) (g_freg g)). set (f0 := repeat (mkPreg 0 false 0) (4 + g_reg g + g_freg g + 7 * g_rs g)%nat).
  assert (F : in_file f0 t).
  { unfold in_file, f0. rewrite repeat_length. apply Forall_forall. intros m Hm. unfold t, rat_init in Hm.
    apply in_app_or in Hm. destruct Hm as [Hm|Hm]; [apply seq_phys in Hm; lia|]. apply in_app_or in Hm. destruct Hm as [Hm|Hm]; [apply seq_phys in Hm; lia|].
    destruct Hm as [<-|[<-|[<-|[<-|[]]]]]; cbn [snd]; lia. }
  destruct (psub_all_some _ _ F) as (f & E & L). rewrite E.
  match goal with |- context [set_lregs ?c ?vs] => destruct (set_lregs_some vs c) as (c1 & E1 & R1) end.
  - cbn [c_regs c_rat]. unfold in_file. rewrite L. exact F.
  - cbn [c_rat]. unfold t, rat_init. repeat (apply Forall_app; split).
    + eapply Forall_impl; [|apply (seq_mapped (fun n => LR (R n)) (g_reg g) 0%N 0%nat)]. intros x Hx. cbv beta in *. apply rget_app. now left.
    + eapply Forall_impl; [|apply (seq_mapped LF (g_freg g) 0%N (g_reg g))]. intros x Hx. cbv beta in *. apply rget_app. right. apply rget_app. now left.
    + repeat (constructor; [apply rget_app; right; apply rget_app; right; cbn; discriminate|]). constructor.
  - rewrite E1. cbn [bind]. cbn [c_ram] in R1.
    assert (G : forall d c a, 0 <= a -> a + Z.of_nat (length d) <= Z.of_nat (length (ram_mem (c_ram c))) -> exists c', load_data c a d = Ok c').
    { clear. induction d as [|v d IH]; intros c a Ha H; cbn [load_data]; [eauto|]. cbn [length] in H.
      unfold ram_set, mem_at. destruct (Z.leb_spec 0 a); [|lia]. destruct (Z.ltb_spec a (Z.of_nat (length (ram_mem (c_ram c))))); [|lia]. cbn [andb].
      destruct (nth_error (ram_mem (c_ram c)) (Z.to_nat a)) eqn:N; [|apply nth_error_None in N; lia].
      apply IH; [lia|]. cbn [set_mem c_ram ram_mem]. unfold mem_set. destruct (_ && _); [rewrite set_nth_length|]; lia. }
    apply G; [lia|]. rewrite R1. cbn [ram_init ram_mem]. rewrite repeat_length. lia.
Qed.

(** ... and for no other. *)
Lemma load_overflow : forall d c a, 0 <= a -> Z.of_nat (length (ram_mem (c_ram c))) < a + Z.of_nat (length d) -> a <= Z.of_nat (length (ram_mem (c_ram c))) ->
  exists e s, load_data c a d = Throw e s.
Proof.
  induction d as [|v d IH]; intros c a Ha H Hl; cbn [length load_data] in *; [lia|].
  unfold ram_set, mem_at. destruct (Z.leb_spec 0 a); [|lia]. destruct (Z.ltb_spec a (Z.of_nat (length (ram_mem (c_ram c))))); cbn [andb]; [|eauto].
  destruct (nth_error (ram_mem (c_ram c)) (Z.to_nat a)) eqn:N; [|eauto].
  apply IH; [lia| |]; cbn [set_mem c_ram ram_mem]; unfold mem_set; destruct (_ && _); rewrite ?set_nth_length; lia.
Qed.
Lemma set_lregs_ram : forall vs c c', set_lregs c vs = Ok c' -> c_ram c' = c_ram c.
Proof.
  induction vs as [|[l v] vs IH]; intros c c' H; cbn [set_lregs] in H; [apply Ok_eq in H; now subst|].
  apply bind_ok in H. destruct H as [c1 [H1 H]]. apply IH in H. apply set_lreg_regs in H1. destruct H1 as [f ->]. exact H.
Qed.
Lemma boot_overflow : forall g p data input, (g_ram g < length data)%nat -> forall c, boot g p data input <> Ok c.
Proof.
  intros g p data input Hd c H. unfold boot, cpu_init in H. cbv zeta in H. apply bind_ok in H. destruct H as [c1 [H1 H]].
  destruct (psub_all _ _); [|discriminate]. apply set_lregs_ram in H1. cbn [c_ram] in H1.
  destruct (load_overflow data c1 0) as (e & s & E); [lia|rewrite H1; cbn; rewrite repeat_length; lia|lia|]. rewrite E in H. discriminate.
Qed.

(** ---- the loop ---- *)

Lemma run_running : forall E k c c', os_run E k (Going false c) = Runs c' -> c_halted c = false -> ticks E k c = Ok c' /\ c_halted c' = false.
Proof.
  induction k as [|k IH]; intros c c' H Hh; cbn [os_run] in H; [injection H as <-; auto|].
  unfold os_tick in H. destruct (tick E c) as [c1|e s|w] eqn:T; [|destruct k; discriminate|discriminate].
  cbn [ticks]. rewrite T. cbn [bind].
  destruct (c_halted c1) eqn:Hh1; [destruct k; discriminate|].
  assert (G : os_run E k (Going false c1) = Runs c').
  { destruct (0 <? c_int c1); [|exact H]. destruct (reason_of (c_int c1)); [exact H|discriminate]. }
  exact (IH _ _ G Hh1).
Qed.

Lemma run_exits : forall E k c st out err, os_run E k (Going false c) = Exits st out err -> c_halted c = false ->
  st = 0 /\ exists n c1, (n < k)%nat /\ ticks E n c = Ok c1 /\
    ((exists c2, tick E c1 = Ok c2 /\ c_halted c2 = true /\ out = c_out c2 /\ err = false) \/
     (exists e c2, tick E c1 = Throw e c2 /\ out = c_out c2 /\ err = true)).
Proof.
  induction k as [|k IH]; intros c st out err H Hh; cbn [os_run] in H; [discriminate|].
  unfold os_tick in H. destruct (tick E c) as [c1|e s|w] eqn:T; [| |discriminate].
  - destruct (c_halted c1) eqn:Hh1.
    { destruct k; cbn [os_run negb] in H; injection H as <- <- <-; (split; [reflexivity|]); exists 0%nat, c; (split; [lia|]); (split; [reflexivity|]); left; eauto 6. }
    assert (G : os_run E k (Going false c1) = Exits st out err).
    { destruct (0 <? c_int c1); [|exact H]. destruct (reason_of (c_int c1)); [exact H|discriminate]. }
    destruct (IH _ _ _ _ G Hh1) as (H0 & n & c2 & Hn & Ht & Hr). split; [exact H0|]. exists (S n), c2. split; [lia|]. split; [|exact Hr].
    cbn [ticks]. rewrite T. exact Ht.
  - destruct k; cbn [os_run negb] in H; injection H as <- <- <-; (split; [reflexivity|]); exists 0%nat, c; (split; [lia|]); (split; [reflexivity|]); right; eauto 6.
Qed.

Lemma run_not_serving : forall E k c h, os_run E k (Going false c) <> Serves h.
Proof.
  induction k as [|k IH]; intros c h H; cbn [os_run] in H; [discriminate|]. unfold os_tick in H.
  destruct (tick E c) as [c1|e s|w]; [|destruct k; discriminate|discriminate].
  destruct (c_halted c1); [destruct k; discriminate|]. destruct (0 <? c_int c1); [|eapply IH; exact H].
  destruct (reason_of (c_int c1)); [eapply IH; exact H|discriminate].
Qed.

(** ---- C104 ---- *)

Section Main.
Variable stod : text -> option Z.
Variable E : env.
Variable O : options.
Variable input : list Z.

Hypothesis stod_fits : forall s v, stod s = Some v -> fits v.
Hypothesis fops_fit : typed_fops (e_fops E).
Hypothesis memory_fits : Z.of_nat (o_memory O) < 2 ^ 63.
Hypothesis input_bytes : Forall (fun b => 0 <= b < 256) input.
Hypothesis alone : o_debug O = false.

(** No file: a message, the exit status 3, and nothing is printed. *)
Theorem C104_no_file : forall k, o_file O = None -> t86_main stod E O input k = Exits 3 [] true.
Proof. intros k H. unfold t86_main. now rewrite H. Qed.

(** A text that is not a program: a message, the exit status 2, nothing is run. *)
Theorem C104_rejected : forall s t r k, o_file O = Some s -> token_at stod false s = POk (t, r) -> assemble stod s = PFail PSyntax ->
  t86_main stod E O input k = Exits 2 [] true.
Proof.
  intros s t r k H T A. unfold t86_main. rewrite H. unfold assemble in A. destruct (Asm.open stod s) as [q|e] eqn:Q; cbn [pbind] in A.
  - now rewrite A.
  - exfalso. unfold Asm.open, advance in Q. rewrite get_next_token in Q. cbn [new_lexer l_in l_ignore] in Q. rewrite T in Q. discriminate.
Qed.

Section Program.
Variable s : text.
Variable p : list instr.
Variable data : list Z.
Hypothesis file_read : o_file O = Some s.
Hypothesis assembled : assemble stod s = POk (p, data).
Hypothesis only_jumps : Forall keeps_ip p.
Hypothesis data_fit : (length data <= o_memory O)%nat.

Let start := isa_boot (o_memory O) data input.

Lemma main_started : exists c0, started E (o_machine O) p data input c0 /\ forall k, t86_main stod E O input k = os_run E k (Going false c0).
Proof.
  destruct (boot_fits (o_machine O) p data input) as (c0 & B); [cbn; lia|exact data_fit|]. exists c0. split.
  - destruct (assembled_typed stod stod_fits _ _ _ assembled) as [T1 T2]. constructor; [exact only_jumps| |exact B]. now constructor.
  - intros k. unfold t86_main. rewrite file_read. unfold assemble in assembled. destruct (Asm.open stod s) as [q|]; [|discriminate]. cbn [pbind] in assembled.
    rewrite assembled, B, alone. reflexivity.
Qed.

(** What has been printed, at any time, is what the program's instructions print: those
    of the sequential machine, from the start of the program. When the process exits its
    status is 0, and without an error message the program has reached its HALT. It never
    waits for a debugger. *)
Theorem C104_printed : forall k,
  match t86_main stod E O input k with
  | Exits st out err => st = 0 /\ exists n S, isa_run (e_fops E) p n start S /\ out = a_out S /\ (err = false -> a_halted S = true)
  | Runs c => exists n S, isa_run (e_fops E) p n start S /\ c_out c = a_out S /\ a_halted S = false
  | Serves _ => False
  | Dies => True
  end.
Proof.
  intros k. destruct main_started as (c0 & Hst & ->). pose proof Hst as [Hip Hty Hb].
  destruct (boot_host E (o_machine O) p data input c0 false (keeps_valid _ Hip) Hb) as [_ [Hp [Hg [_ Hh]]]].
  destruct (os_run E k (Going false c0)) as [st out err| |h|c] eqn:R; [| exact I|exact (run_not_serving _ _ _ _ R)|].
  - destruct (run_exits _ _ _ _ _ _ R Hh) as (Z0 & n & c1 & _ & Ht & [(c2 & T & H2 & Ho & He)|(e & c2 & T & Ho & He)]); (split; [exact Z0|]).
    + assert (T' : ticks E (n + 1) c0 = Ok c2) by (rewrite ticks_add, Ht; cbn; now rewrite T).
      destruct (C10_counts _ _ _ _ _ _ _ _ Hst T') as (S & K1 & K2 & K3 & K4 & K5). eexists. exists S. split; [exact K1|]. split; [congruence|]. intros _. congruence.
    + destruct (boot_reached E _ p data input c0 n c1 (keeps_valid _ Hip) Hb Ht) as [m [A1 [Rc [_ _]]]].
      destruct Rc as [R1 R2 R3 R4 R5 R6 R7]. destruct (tick_throw_out _ _ _ _ _ R2 T) as (j & A2 & S1 & S2).
      assert (Pp : c_prog c1 = c_prog c0) by congruence. rewrite Pp in S1. pose proof (io_steps_app _ _ _ _ _ R1 _ _ S1) as R8. rewrite Hp in R8.
      pose proof (boot_wordy _ _ _ _ _ Hty) as W. destruct Hty as [T1 T2 T3 T4 T5].
      change (PipeBoot.arch_boot (o_machine O) data input) with start in *.
      destruct (io_isa_run _ _ _ _ _ (keeps_valid _ Hip) T2 T1 R8 W) as [H1 _]. exists (m + j)%nat, A2. split; [exact H1|]. split; congruence.
  - destruct (run_running _ _ _ _ R Hh) as [Ht Hn]. destruct (C10_counts _ _ _ _ _ _ _ _ Hst Ht) as (S & K1 & K2 & K3 & K4 & K5).
    eexists. exists S. split; [exact K1|]. split; congruence.
Qed.

(** If no execution of the program takes more than [m] instructions, the process has ended
    within 89 ticks for each, one more included. *)
Theorem C104_ends : forall m k, Forall loads_or_stores p -> (forall n S, isa_run (e_fops E) p n start S -> (n <= m)%nat) ->
  (89 * (m + 1) <= k)%nat -> forall c, t86_main stod E O input k <> Runs c.
Proof.
  intros m k Hls Hm Hk c R. destruct main_started as (c0 & Hst & M). rewrite M in R. clear M. pose proof Hst as [Hip Hty Hb].
  destruct (boot_host E (o_machine O) p data input c0 false (keeps_valid _ Hip) Hb) as [_ [Hp [Hg [_ Hh]]]].
  destruct (run_running _ _ _ _ R Hh) as [Ht Hn].
  assert (HG : good E c0).
  { apply (session_good E cfg1 false (o_machine O) p data input c0 [] false c0 Hst); [cbn; lia|cbn; lia|constructor|congruence]. }
  destruct (count_reaches E (m + 1) c0 HG) as [n [Hle [Hf|[c1 [H1 H2]]]]].
  - replace k with (n + (k - n))%nat in Ht by lia. rewrite ticks_add in Ht. apply bind_ok in Ht. destruct Ht as [c1 [H1 _]]. exact (Hf _ H1).
  - destruct (C10_counts _ _ _ _ _ _ _ _ Hst H1) as [S [K1 [K2 [K3 [K4 K5]]]]]. pose proof (Hm _ _ K1) as Hc. destruct H2 as [H2|H2]; [lia|].
    clear - R Hh H1 H2 Hle Hk. assert (Hnk : (n <= k)%nat) by lia. clear Hle Hk. revert c0 k R Hh H1 Hnk.
    induction n as [|n IH]; intros c0 k R Hh H1 Hnk; cbn [ticks] in H1; [apply Ok_eq in H1; congruence|].
    destruct k as [|k]; [lia|]. cbn [os_run] in R. unfold os_tick in R. destruct (tick E c0) as [c3|e z|w] eqn:T; try discriminate. cbn [bind] in H1.
    destruct (c_halted c3) eqn:H3; [destruct k; discriminate|].
    assert (G : os_run E k (Going false c3) = Runs c).
    { destruct (0 <? c_int c3); [|exact R]. destruct (reason_of (c_int c3)); [exact R|discriminate]. }
    apply (IH _ _ G H3 H1). lia.
Qed.

End Program.
End Main.

(** ---- C105: not every failure to start is reported ---- *)

(** A file that does not begin with a token (here with a character that occurs in none)
    ends t86-cli with an exception that nobody catches; so does a program whose data do not
    fit into the memory. Elsewhere in the file such a character is a parse error. *)
Theorem C105_dies_refuted : forall stod E O input k, 
  (forall rest, o_file O = Some (ch 64 :: rest) -> t86_main stod E O input k = Dies) /\
  (forall s p data, o_file O = Some s -> assemble stod s = POk (p, data) -> (o_memory O < length data)%nat -> t86_main stod E O input k = Dies) /\
  (o_file O = Some (str ".text @") -> t86_main stod E O input k = Exits 2 [] true).
Proof.
  intros stod E O input k. split; [|split].
  - intros rest H. unfold t86_main. rewrite H. reflexivity.
  - intros s p data H A L. unfold t86_main. rewrite H. unfold assemble in A. destruct (Asm.open stod s) as [q|]; [|discriminate]. cbn [pbind] in A. rewrite A.
    pose proof (boot_overflow (o_machine O) p data input L) as B. destruct (boot (o_machine O) p data input); [now elim (B a)|reflexivity|reflexivity].
  - intros H. unfold t86_main. rewrite H. vm_compute. reflexivity.
Qed.

(** ---- C106: the exit status does not tell whether the program failed ---- *)

(** A program that was started and whose process exits leaves the status 0, whether it
    halted or was ended by an error of the CPU. *)
Theorem C106_status_refuted : forall stod E O input s p data k st out err, o_debug O = false -> o_file O = Some s -> assemble stod s = POk (p, data) ->
  t86_main stod E O input k = Exits st out err -> st = 0.
Proof.
  intros stod E O input s p data k st out err Hd H A R. unfold t86_main in R. rewrite H in R. unfold assemble in A.
  destruct (Asm.open stod s) as [q|]; [|discriminate]. cbn [pbind] in A. rewrite A, Hd in R. destruct (boot _ _ _ _) as [c| |]; try discriminate.
  cbn [os_start] in R. revert R. generalize (Going false c). clear. induction k as [|k IH]; intros h R; destruct h; cbn [os_run] in R; try discriminate; try (injection R; auto).
  destruct (os_tick E false stop c); try discriminate. eapply IH. exact R.
Qed.

(** ---- a case ---- *)

Definition no_stod : text -> option Z := fun _ => None.
Definition hello : text := str ".text MOV R0, 7 PUTNUM R0 HALT".
Definition broken : text := str ".text MOV R0, 7 PUTNUM R0 MOV R1, [5000] PUTNUM R0 HALT".
Definition hello_prog : list instr := [IMov (OReg (R 0)) (OImm 7); IPutnum (R 0); IHalt].

Lemma hello_assembled : assemble no_stod hello = POk (hello_prog, []).
Proof. vm_compute. reflexivity. Qed.

Lemma hello_short : forall n S, isa_run (e_fops env0) hello_prog n (isa_boot 1024 [] []) S -> (n <= 3)%nat.
Proof.
  intros n S H. destruct n as [|n]; [lia|]. inversion H as [|? ? S1 ? [_ E1] R1]; subst.
  cbn [isa_boot a_pc instr_at hello_prog Z.to_nat nth effect] in E1. destruct E1 as (y & _ & E1). pose proof (s_pc _ _ E1) as P1. cbn in P1.
  destruct n as [|n]; [lia|]. inversion R1 as [|? ? S2 ? [_ E2] R2]; subst. unfold instr_at in E2. rewrite P1 in E2. cbn [Z.to_nat Pos.to_nat Pos.iter_op nth hello_prog effect] in E2.
  change (nth (Pos.to_nat 1) hello_prog INop) with (IPutnum (R 0)) in E2. cbn [effect] in E2. destruct E2 as (x & y2 & _ & _ & _ & E2). pose proof (s_pc _ _ E2) as P2. cbn in P2. rewrite P1 in P2. cbn in P2.
  destruct n as [|n]; [lia|]. inversion R2 as [|? ? S3 ? [_ E3] R3]; subst. unfold instr_at in E3. rewrite P2 in E3.
  change (nth (Z.to_nat 2) hello_prog INop) with IHalt in E3. cbn [effect] in E3. pose proof (s_halted _ _ E3) as P3. cbn in P3.
  destruct n as [|n]; [lia|]. inversion R3 as [|? ? S4 ? [E4 _] R4]; subst. congruence.
Qed.

Example C104_case : let O := plain_options (Some hello) in
  (forall s v, no_stod s = Some v -> fits v) /\ typed_fops (e_fops env0) /\ Z.of_nat (o_memory O) < 2 ^ 63 /\ o_debug O = false /\
  assemble no_stod hello = POk (hello_prog, []) /\ Forall keeps_ip hello_prog /\ Forall loads_or_stores hello_prog /\
  (forall n S, isa_run (e_fops env0) hello_prog n (isa_boot 1024 [] []) S -> (n <= 3)%nat) /\
  t86_main no_stod env0 O [] 356 = Exits 0 [OutNum 7] false.
Proof.
  cbv zeta. split; [discriminate|]. split; [exact no_floats_typed|]. split; [reflexivity|]. split; [reflexivity|]. split; [exact hello_assembled|].
  split; [repeat constructor; discriminate|]. split; [repeat (constructor; [left; reflexivity|]); constructor|]. split; [exact hello_short|]. vm_compute. reflexivity.
Qed.

(** The VM reports that cell 5000 does not exist; the status is that of success. *)
Example C106_case : t86_main no_stod env0 (plain_options (Some broken)) [] 400 = Exits 0 [OutNum 7] true.
Proof. vm_compute. reflexivity. Qed.

Example C105_case : exists p, assemble no_stod (str ".text HALT .data 1 2 3") = POk (p, [1; 2; 3]) /\
  t86_main no_stod env0 (mkOptions (Some (str ".text HALT .data 1 2 3")) false 8 4 2) [] 100 = Dies.
Proof. eexists. split; vm_compute; reflexivity. Qed.

Example C104_rejected_case : token_at no_stod false (str ".text MOV R0") = POk (TOp KDot, str "text MOV R0") /\ assemble no_stod (str ".text MOV R0") = PFail PSyntax /\
  t86_main no_stod env0 (plain_options (Some (str ".text MOV R0"))) [] 5 = Exits 2 [] true.
Proof. repeat split; vm_compute; reflexivity. Qed.

Print Assumptions C104_no_file.
Print Assumptions C104_rejected.
Print Assumptions C104_printed.
Print Assumptions C104_ends.
Print Assumptions C105_dies_refuted.
Print Assumptions C106_status_refuted.
