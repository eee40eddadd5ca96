(** C110: debugging a well-formed program never brings the VM down. *)
From Coq Require Import Ascii String ZArith NArith List Bool Lia.
From Verif Require Import Base Text Alu Isa AluSpec IsaSpec Exec Ram Writes Rat Cpu Os LiveSpec InOrder IsaRefine
  State DbgSpec PipeInv PipeBasics PipeRetire PipeTick PipeBoot PipeDom PipeRun PipeSafe PipeSafeTick Session PropPipe PropLive PropSpec Lexer Asm AsmTyped T86Main PropMain PropSafe SafeSpec SafeWindow SafeDbgSpec SafeDbg PropDbg.
Import ListNotations.
Open Scope Z_scope.

(** Whatever careful commands have been given so far: as long as the VM has not reported an
    error of the program, it carries out the next event. No exception leaves it, and it does
    not get into undefined behaviour. *)
Theorem C110_lives : forall E G g p data input c0 xs h x,
  started E g p data input c0 -> e_mode E = Wrap -> well_formed g p ->
  careful E G g xs (os_start true c0) h -> sound h -> comes g x h ->
  exists h', os_event E G true x h = Some (Ok h').
Proof.
  intros E G g p data input c0 xs h x Hst Hw HW Hs Hh Hx. destruct (boot_fit E g p data input c0 Hst HW) as (A & HA & HF).
  assert (Hfl : typed_fops (e_fops E)) by (destruct Hst as [_ [T _ _ _ _] _]; exact T).
  destruct (careful_fit E g Hw Hfl G xs _ _ Hs Hh A HA HF) as (A' & HA' & HF').
  destruct (event_fit E g Hw Hfl G x h A' HA' HF' Hh Hx) as (h1 & H1 & _). eauto.
Qed.

(** The only error of the program it ever reports is an access outside the memory. *)
Theorem C110_only_memory : forall E G g p data input c0 xs stop c,
  started E g p data input c0 -> e_mode E = Wrap -> well_formed g p ->
  careful E G g xs (os_start true c0) (Going stop c) ->
  (exists c', tick E c = Ok c') \/ exists s, tick E c = Throw EMemRange s.
Proof.
  intros E G g p data input c0 xs stop c Hst Hw HW Hs. destruct (boot_fit E g p data input c0 Hst HW) as (A & HA & HF).
  assert (Hfl : typed_fops (e_fops E)) by (destruct Hst as [_ [T _ _ _ _] _]; exact T).
  destruct (careful_fit E g Hw Hfl G xs _ _ Hs I A HA HF) as (A' & (HI & _) & HF').
  destruct (tick_fit E g Hw Hfl A' c HI HF') as [(c' & H & _)|H]; eauto.
Qed.

(** ---- breakpoints ---- *)

Definition masks (p q : list instr) : Prop := Forall2 (fun a b => b = a \/ b = IBkpt) p q.

Lemma masks_refl : forall p, masks p p.
Proof. induction p; constructor; auto. Qed.

Lemma masks_len : forall p q, masks p q -> length q = length p.
Proof. induction 1; cbn; congruence. Qed.

Lemma masks_nth : forall p q, masks p q -> forall k, nth k q INop = nth k p INop \/ nth k q INop = IBkpt.
Proof. induction 1 as [|a b p q Hab H IH]; intros k; [left; now destruct k|]. destruct k as [|k]; [exact Hab|apply IH]. Qed.

Lemma masks_all : forall (P : instr -> Prop) p q, masks p q -> P IBkpt -> Forall P p -> Forall P q.
Proof.
  intros P p q H HB. induction H as [|a b p q Hab H IH]; intros HP; [constructor|]. apply Forall_cons_iff in HP. destruct HP as [H1 H2].
  constructor; [destruct Hab as [-> | ->]; assumption|now apply IH].
Qed.

Lemma masks_replace : forall p q, masks p q -> forall i ins, (i < length p)%nat -> ins = IBkpt \/ nth_error p i = Some ins -> masks p (replace q i ins).
Proof.
  intros p q H i ins Hi Hin. rewrite <- replace_set by (rewrite (masks_len p q H); exact Hi). revert i Hi Hin.
  induction H as [|a b p q Hab H IH]; intros i Hi Hin; cbn [length] in Hi; [lia|].
  destruct i as [|i]; cbn [set_nth nth_error] in *.
  - constructor; [|exact H]. destruct Hin as [->|Hin]; [now right|left; congruence].
  - constructor; [exact Hab|]. apply IH; [lia|exact Hin].
Qed.

Lemma bkpt_spread : forall p q n, (n <= 2)%nat -> masks p q -> spread p n = true -> spread q n = true.
Proof.
  intros p q n Hn H Hs. unfold spread in *. rewrite forallb_forall in *. intros k Hk. rewrite (masks_len p q H) in Hk. specialize (Hs k Hk). clear Hk.
  destruct n as [|[|[|n]]]; [reflexivity| | |lia]; cbn [places] in *.
  { destruct (stores (fetched q (Z.of_nat k))); reflexivity. }
  assert (Hf : forall pc, fetched q pc = fetched p pc \/ fetched q pc = IBkpt) by (intros pc; apply masks_nth; exact H).
  destruct (Hf (Z.of_nat k)) as [->| ->].
  - destruct (Hf (fetched_next (fetched p (Z.of_nat k)) (Z.of_nat k))) as [->| ->]; [exact Hs|]. cbn [stores app]. destruct (stores _); reflexivity.
  - cbn [stores app]. destruct (stores (fetched q (fetched_next IBkpt (Z.of_nat k)))); reflexivity.
Qed.

(** With the two entries of the reservation station that t86-cli has, breakpoints leave a
    program well-formed. *)
Theorem C110_breakpoints : forall g p q, (g_rs g <= 2)%nat -> well_formed g p -> masks p q -> well_formed g q.
Proof.
  intros g p q Hn [W1 W2 W3 W4 W5] H. constructor.
  - eapply masks_all; [exact H|exact I|exact W1].
  - eapply masks_all; [exact H|exact I|exact W2].
  - eapply masks_all; [exact H|reflexivity|exact W3].
  - eapply bkpt_spread; eassumption.
  - eapply masks_all; [exact H|reflexivity|exact W5].
Qed.

Definition expected (g : cfg) (p : list instr) (x : event) (h : host) : Prop :=
  match x, h with
  | ETick, Going _ _ => True
  | ECmd k, At _ c => plain g p k /\ polite k c
  | _, _ => False
  end.

Section Plain.
Variable E : env.
Variables G g : cfg.
Variable p : list instr.
Hypothesis wraps : e_mode E = Wrap.
Hypothesis floats : typed_fops (e_fops E).
Hypothesis two : (g_rs g <= 2)%nat.
Hypothesis formed : well_formed g p.

Lemma plain_fine : forall k c, plain g p k -> polite k c -> masks p (c_prog c) -> fine g k c.
Proof.
  intros k c Hk Hp Hm. destruct k; cbn [plain fine polite] in *; try tauto. pose proof (masks_len _ _ Hm) as Hl. destruct Hk as [Hi Hin].
  split; [rewrite Hl; exact Hi|]. split; [exact Hp|]. eapply C110_breakpoints; [exact two|exact formed|]. apply masks_replace; [exact Hm|lia|exact Hin].
Qed.

Lemma cmd_masks : forall r k c a c' n A, rests E A c -> plain g p k -> polite k c -> masks p (c_prog c) -> do_cmd G r k c = Ok (a, c', n) -> masks p (c_prog c').
Proof.
  intros r k c a c' n A HR Hk Hp Hm H. destruct n.
  - destruct (cmd_poke E G r k c a c' A HR Hp H) as (A' & _ & R2 & _). destruct R2 as [(_ & -> & _)|R2]; [exact Hm|]. inversion R2; subst; try congruence.
    cbn [plain] in Hk.
    destruct Hk as [Hi Hin]. apply masks_replace; [exact Hm|lia|exact Hin].
  - destruct (cmd_resume _ _ _ _ _ _ H) as [[_ ->]|[_ ->]]; exact Hm.
  - destruct (cmd_quit _ _ _ _ _ _ H) as [_ ->]. exact Hm.
Qed.

Definition state (h : host) : Prop := exists A, host_at E A h /\ host_fit g A h /\ masks p (c_prog (host_cpu h)).

Lemma leave_cpu : forall r b c, host_cpu (leave r b c) = c.
Proof. intros r b c. destruct r, b; reflexivity. Qed.

Lemma plain_event : forall x h, state h -> sound h -> expected g p x h -> exists h1, os_event E G true x h = Some (Ok h1) /\ (sound h1 -> state h1).
Proof.
  intros x h (A & HA & HF & HM) Hs Hx.
  assert (Hc : comes g x h).
  { destruct x, h; cbn [expected comes host_cpu] in *; try tauto. destruct Hx as [H1 H2]. now apply plain_fine. }
  destruct (event_fit E g wraps floats G x h A HA HF Hs Hc) as (h1 & E1 & A1 & HA1 & HF1). exists h1. split; [exact E1|]. intros Hs1. exists A1. split; [exact HA1|]. split; [exact HF1|].
  destruct h as [r c|stop c|b c]; destruct x as [|k]; cbn [expected] in Hx; try contradiction; cbn [os_event host_cpu] in *; injection E1 as E1.
  - destruct Hx as [Hk Hp]. destruct (HA Hs) as [HR _]. unfold os_cmd in E1. destruct (do_cmd G r k c) as [[[a c'] n]|e s|w] eqn:Hd; cbn [bind] in E1; try discriminate.
    pose proof (cmd_masks r k c a c' n A HR Hk Hp HM Hd) as Hm. apply Ok_eq in E1. subst h1. destruct n; [exact Hm| |]; rewrite leave_cpu; exact Hm.
  - destruct HA as (HI & HD & Hh). destruct (tick_host _ _ _ _ _ HI HD Hh E1) as [[c' ->]|(m & A' & _ & _ & T3 & _)]; [now elim Hs1|]. rewrite T3. exact HM.
Qed.

Lemma plain_session : forall xs h h', psession E G true xs h h' -> Forall (plain g p) (cmds xs) -> state h -> sound h -> sound h' -> state h' \/ exists b c, h' = Ended b c.
Proof.
  induction 1 as [h|x xs h h1 h2 Hp He Hs IH]; intros Hk HS Hh Hh'; [now left|].
  assert (Hx : expected g p x h).
  { destruct x as [|k], h as [r c|stop c|b c]; try discriminate He; [exact I|]. cbn [cmds] in Hk. apply Forall_cons_iff in Hk. split; [apply Hk|exact Hp]. }
  destruct (plain_event x h HS Hh Hx) as (h1' & E1 & S1). rewrite E1 in He. injection He as <-.
  destruct (sound_dec h1') as [Hh1|Hh1].
  - apply IH; auto. destruct x; cbn [cmds] in Hk; [exact Hk|now apply Forall_cons_iff in Hk].
  - destruct (dead_session _ _ _ _ _ Hs) as [[c ->]|H].
    + left. destruct h1' as [r c|s c|b c]; try (elim Hh1; exact I). destruct (classic_live r) as [Hl| ->]; [now elim Hh1|eauto].
    + now elim Hh'.
    + now right.
Qed.
End Plain.

Lemma started_state : forall E (G g : cfg) p data input c0, started E g p data input c0 -> well_formed g p -> state E g p (os_start true c0).
Proof.
  intros E G g p data input c0 Hst HW. destruct (boot_fit E g p data input c0 Hst HW) as (A & HA & HF).
  exists A. split; [exact HA|]. split; [exact HF|]. destruct Hst as [Hip _ Hb]. destruct (boot_host E g p data input c0 true (keeps_valid _ Hip) Hb) as (_ & Hp & _). cbn [os_start enter host_cpu]. rewrite Hp. apply masks_refl.
Qed.

(** So a debugger that sets and removes breakpoints, watches, steps, continues and changes
    registers and memory that exist never brings the VM down. *)
Theorem C110_debugging : forall E G g p data input c0 xs h x,
  started E g p data input c0 -> e_mode E = Wrap -> well_formed g p -> (g_rs g <= 2)%nat ->
  psession E G true xs (os_start true c0) h -> Forall (plain g p) (cmds xs) -> sound h -> expected g p x h ->
  exists h', os_event E G true x h = Some (Ok h').
Proof.
  intros E G g p data input c0 xs h x Hst Hw HW Hn Hs Hk Hh Hx. destruct (boot_fit E g p data input c0 Hst HW) as (A & HA & HF).
  assert (Hfl : typed_fops (e_fops E)) by (destruct Hst as [_ [T _ _ _ _] _]; exact T).
  assert (S0 : state E g p (os_start true c0)).
  { exists A. split; [exact HA|]. split; [exact HF|]. destruct Hst as [Hip _ Hb]. destruct (boot_host E g p data input c0 true (keeps_valid _ Hip) Hb) as (_ & Hp & _). cbn [os_start enter host_cpu]. rewrite Hp. apply masks_refl. }
  destruct (plain_session E G g p Hw Hfl Hn HW xs _ _ Hs Hk S0 ltac:(discriminate) Hh) as [S1|(b & c & ->)]; [|destruct x; destruct Hx].
  destruct (plain_event E G g p Hw Hfl Hn HW x h S1 Hh Hx) as (h1 & H1 & _). eauto.
Qed.

(** A single step always comes to its end: within 89 ticks the VM stops again. *)
Lemma ticks_no_undef : forall E G g p, e_mode E = Wrap -> typed_fops (e_fops E) -> (g_rs g <= 2)%nat -> well_formed g p ->
  forall k h w, state E g p h -> sound h -> play E G true (repeat ETick k) h <> Some (Undef w).
Proof.
  intros E G g p Hw Hfl Hn HW. induction k as [|k IH]; intros h w HS Hh H; cbn [repeat play] in H; [discriminate|].
  destruct h as [r c|stop c|b c]; try discriminate H. destruct (plain_event E G g p Hw Hfl Hn HW ETick _ HS Hh I) as (h1 & E1 & S1). rewrite E1 in H.
  destruct (sound_dec h1) as [Hs|Hs]; [exact (IH h1 w (S1 Hs) Hs H)|].
  destruct h1 as [r c1|s c1|b c1]; try (elim Hs; exact I). destruct k; discriminate H.
Qed.

Theorem C110_step_answered : forall E G g p data input c0 xs r c,
  started E g p data input c0 -> e_mode E = Wrap -> well_formed g p -> (g_rs g <= 2)%nat -> (1 <= g_alus g)%nat -> (1 <= g_gates g)%nat -> Forall loads_or_stores p ->
  psession E G true xs (os_start true c0) (At r c) -> Forall (plain g p) (cmds xs) -> r <> RCpuError -> r <> RHalted ->
  exists k r' c', (k <= 89)%nat /\ play E G true (ECmd CSingleStep :: repeat ETick k) (At r c) = Some (Ok (At r' c')).
Proof.
  intros E G g p data input c0 xs r c Hst Hw HW Hn Ha Hg Hls Hs Hk Hr Hr'. pose proof (started_state E G g p data input c0 Hst HW) as S0.
  assert (Hfl : typed_fops (e_fops E)) by (destruct Hst as [_ [T _ _ _ _] _]; exact T).
  destruct (plain_session E G g p Hw Hfl Hn HW xs _ _ Hs Hk S0 ltac:(discriminate) Hr) as [S1|(b & c1 & H)]; [|discriminate].
  assert (Hl : Forall loads_or_stores (c_prog c)).
  { destruct S1 as (A & _ & _ & Hm). eapply masks_all; [exact Hm|left; reflexivity|exact Hls]. }
  destruct (C10_step_ends E G g p data input c0 xs r c Hst Ha Hg Hs Hr Hr' Hl) as (k & Hk9 & [[w Hu]|(r' & c' & Ho)]); [|exists k, r', c'; auto].
  exfalso. destruct (plain_event E G g p Hw Hfl Hn HW (ECmd CSingleStep) _ S1 Hr (conj I I)) as (h1 & E1 & S2). cbn [play] in Hu. rewrite E1 in Hu.
  assert (Hs1 : sound h1).
  { cbn [os_event] in E1. unfold os_cmd in E1. cbn [do_cmd bind] in E1. injection E1 as <-. destruct r; cbn [leave sound]; exact I || now elim Hr. }
  exact (ticks_no_undef E G g p Hw Hfl Hn HW k h1 w (S2 Hs1) Hs1 Hu).
Qed.

(** ---- t86-cli --debug ---- *)

Section Served.
Variable stod : text -> option Z.
Variable E : env.
Variable O : options.
Variable input : list Z.

Hypothesis stod_fits : forall s v, stod s = Some v -> fits v.
Hypothesis fops_fit : typed_fops (e_fops E).
Hypothesis memory_fits : Z.of_nat (o_memory O) < 2 ^ 63.
Hypothesis input_bytes : Forall (fun b => 0 <= b < 256) input.
Hypothesis debug : o_debug O = true.
Variable s : text.
Variable p : list instr.
Variable data : list Z.
Hypothesis file_read : o_file O = Some s.
Hypothesis assembled : assemble stod s = POk (p, data).
Hypothesis data_fit : (length data <= o_memory O)%nat.
Hypothesis wraps : e_mode E = Wrap.
Hypothesis only_jumps : Forall keeps_ip p.
Hypothesis is_harmless : Forall (fun i => harmless (o_regs O) (o_fregs O) i = true) p.
Hypothesis is_spread : spread p 2 = true.
Hypothesis no_input : Forall (fun i => reads_input i = false) p.

(** Started with --debug on a file, t86-cli waits for a debugger, and whatever a debugger
    asks for within the limits of [plain] it goes on serving. *)
Theorem C110_served : exists h0, (forall k, t86_main stod E O input k = Serves h0) /\
  forall G xs h x, psession E G true xs h0 h -> Forall (plain (o_machine O) p) (cmds xs) -> sound h -> expected (o_machine O) p x h ->
  exists h', os_event E G true x h = Some (Ok h').
Proof.
  destruct (boot_fits (o_machine O) p data input) as (c0 & B); [cbn; lia|exact data_fit|]. destruct (assembled_typed stod stod_fits _ _ _ assembled) as [T1 T2].
  assert (Hst : started E (o_machine O) p data input c0) by (constructor; [exact only_jumps|now constructor|exact B]).
  assert (HW : well_formed (o_machine O) p) by (constructor; assumption).
  exists (os_start true c0). split.
  - intros k. unfold t86_main. rewrite file_read. unfold assemble in assembled. destruct (Asm.open stod s) as [q|]; [|discriminate]. cbn [pbind] in assembled.
    rewrite assembled, B, debug. reflexivity.
  - intros G xs h x. eapply C110_debugging; eauto.
Qed.
End Served.

(** ---- cases ---- *)

(** The program of C107_case, with a breakpoint in the function it calls and cell 10
    watched: breakpoint, removal of the breakpoint, a changed register, a step, and on to
    the watched store. *)
Definition events110 : list event :=
  [ECmd (CPokeText 6 IBkpt); ECmd (CPokeDebugRegs 0 10); ECmd (CPokeDebugRegs 4 1); ECmd CContinue] ++ ticks_of 10 ++
  [ECmd (CPokeText 6 (IPush (OReg (R 0)))); ECmd (CPokeRegs PC 6); ECmd (CPokeRegs (R 0) 9); ECmd CSingleStep] ++ ticks_of 8 ++
  [ECmd (CPeekData 0 16); ECmd CPeekRegs; ECmd CContinue] ++ ticks_of 25.

Lemma calls_formed : well_formed cfg1 calls_prog.
Proof.
  constructor; [repeat constructor; discriminate| | |vm_compute; reflexivity|repeat constructor].
  - repeat (constructor; [cbn; repeat split; reflexivity || (unfold fits; cbn; lia)|]). constructor.
  - repeat constructor.
Qed.

Lemma events110_plain : Forall (plain cfg1 calls_prog) (cmds events110).
Proof.
  change (cmds events110) with [CPokeText 6 IBkpt; CPokeDebugRegs 0 10; CPokeDebugRegs 4 1; CContinue; CPokeText 6 (IPush (OReg (R 0))); CPokeRegs PC 6; CPokeRegs (R 0) 9; CSingleStep; CPeekData 0 16; CPeekRegs; CContinue].
  assert (F : forall v, 0 <= v < 100 -> fits v) by (intros v H; unfold fits, two63; lia).
  assert (L : Z.of_nat (length calls_prog) = 10) by reflexivity. assert (M : Z.of_nat (g_ram cfg1) = 16) by reflexivity.
  constructor; [split; [rewrite L; lia|now left]|]. constructor; [cbn [plain]; lia|]. constructor; [cbn [plain]; lia|]. constructor; [exact I|].
  constructor; [split; [rewrite L; lia|right; reflexivity]|]. constructor; [split; [apply F; lia|reflexivity]|]. constructor; [split; [apply F; lia|reflexivity]|].
  constructor; [exact I|]. constructor; [cbn [plain]; rewrite M; lia|]. constructor; [exact I|]. constructor; [exact I|]. constructor.
Qed.

Example C110_case : exists c,
  started env0 cfg1 calls_prog [] [] (booted cfg1 calls_prog [] []) /\ e_mode env0 = Wrap /\ well_formed cfg1 calls_prog /\ (g_rs cfg1 <= 2)%nat /\
  psession env0 cfg1 true events110 (os_start true (booted cfg1 calls_prog [] [])) (At RHwBkpt c) /\ Forall (plain cfg1 calls_prog) (cmds events110) /\
  expected cfg1 calls_prog (ECmd CContinue) (At RHwBkpt c) /\ ram_get (c_ram c) 10 = Some 13.
Proof.
  set (h := after_pplay (pplay env0 cfg1 true events110 (os_start true (booted cfg1 calls_prog [] [])))).
  assert (Hh : pplay env0 cfg1 true events110 (os_start true (booted cfg1 calls_prog [] [])) = Some h) by (vm_compute; reflexivity).
  exists (host_cpu h). split; [constructor; [apply calls_formed| |vm_compute; reflexivity]|].
  { constructor; [exact no_floats_typed|apply calls_formed|reflexivity|constructor|constructor]. }
  split; [reflexivity|]. split; [exact calls_formed|]. split; [cbn; lia|].
  split; [replace (At RHwBkpt _) with h by (vm_compute; reflexivity); now apply pplay_psession|].
  split; [exact events110_plain|].
  split; [split; exact I|]. vm_compute. reflexivity.
Qed.

(** The same program, given to t86-cli --debug as a file. *)
Example C110_served_case : let O := mkOptions (Some calls) true 8 4 1024 in
  assemble no_stod calls = POk (calls_prog, []) /\ (length (@nil Z) <= o_memory O)%nat /\ Forall keeps_ip calls_prog /\
  Forall (fun i => harmless (o_regs O) (o_fregs O) i = true) calls_prog /\ spread calls_prog 2 = true /\ Forall (fun i => reads_input i = false) calls_prog /\
  Forall loads_or_stores calls_prog /\ exists c, t86_main no_stod env0 O [] 0 = Serves (At RBegin c).
Proof.
  cbv zeta. split; [exact calls_assembled|]. split; [cbn; lia|]. split; [apply calls_formed|]. split; [repeat constructor|]. split; [vm_compute; reflexivity|].
  split; [repeat constructor|]. split; [repeat (constructor; [first [left; reflexivity|right; reflexivity]|]); constructor|].
  assert (H : match t86_main no_stod env0 (mkOptions (Some calls) true 8 4 1024) [] 0 with Serves (At RBegin _) => true | _ => false end = true) by (vm_compute; reflexivity).
  destruct (t86_main no_stod env0 (mkOptions (Some calls) true 8 4 1024) [] 0) as [| |[[] c| |]|]; try discriminate. exists c. reflexivity.
Qed.

(** With three entries a breakpoint in place of a jump does bring the VM down: it lets the
    VM hold the stores before and behind the jump at the same time. Without the breakpoint
    the program ends as it should, and it is well-formed. *)
Definition cfg110 : cfg := mkCfg 4 1 1 3 16 4.
Definition prog110 : list instr := [IMov (OMemImm 5) (OImm 1); IJmp (OImm 3); IMov (OMemImm 5) (OImm 2); IHalt].

Example C110_three_entries :
  well_formed cfg110 prog110 /\
  (exists c, play env0 cfg110 true (ECmd CContinue :: ticks_of 9) (os_start true (booted cfg110 prog110 [] [])) = Some (Ok (At RHalted c)) /\ ram_get (c_ram c) 5 = Some 1) /\
  exists w, play env0 cfg110 true ([ECmd (CPokeText 1 IBkpt); ECmd CContinue] ++ ticks_of 7) (os_start true (booted cfg110 prog110 [] [])) = Some (Undef w).
Proof.
  split.
  { constructor; [repeat constructor; discriminate| | |vm_compute; reflexivity|repeat constructor].
    - repeat (constructor; [cbn; repeat split; reflexivity || (unfold fits; cbn; lia)|]). constructor.
    - repeat constructor. }
  split.
  - assert (H : match play env0 cfg110 true (ECmd CContinue :: ticks_of 9) (os_start true (booted cfg110 prog110 [] [])) with
      | Some (Ok (At RHalted c)) => match ram_get (c_ram c) 5 with Some v => v =? 1 | None => false end | _ => false end = true) by (vm_compute; reflexivity).
    destruct (play env0 cfg110 true _ _) as [[[r c|s c|b c]|e s|w]|]; try discriminate. destruct r; try discriminate. exists c. split; [reflexivity|].
    destruct (ram_get (c_ram c) 5) as [v|]; [|discriminate]. apply Z.eqb_eq in H. now subst.
  - eexists. vm_compute. reflexivity.
Qed.

Print Assumptions C110_lives.
Print Assumptions C110_only_memory.
Print Assumptions C110_breakpoints.
Print Assumptions C110_debugging.
Print Assumptions C110_step_answered.
Print Assumptions C110_served.
