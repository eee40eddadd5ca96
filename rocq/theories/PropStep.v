(** Continuing and stepping by the debugger library: theorems C30, C31, C41 (see
    /verif/properties.jsonl) and the findings about them. The specification is in
    LibSpec.v. *)
From Coq Require Import Ascii String ZArith NArith List Bool Lia.
From Verif Require Import Base Text PropText PropNet StdMap Isa AluSpec State IsaSpec IsaSame Lexer Asm Show AsmPrint AsmSpec PropAsm Exec Ram Writes Rat Cpu Os DbgText Spaces
  InOrder PipeInv PipeBasics PipeActs PipeMem PipeTick PipeDom PipeRun PipeBoot PipePoke Session IsaRefine DbgSpec Stops PropPipe PropDbg Client Proto PropProto Native PropBreak PropWatch
  LibSpec NatRun NatStop.
Import ListNotations.
Open Scope Z_scope.

(** A debugged program before its first instruction: the library is connected, there
    are no breakpoints and no watchpoints. *)
Definition connected (c0 : cpu) : native := mkNative [] [] None (stopped RBegin c0).

(** A program without BKPT instructions of its own; the machine has no more general
    registers than the library assumes. *)
Record debuggee (U : setup) (g : cfg) (p : list instr) (data input : list Z) (c0 : cpu) : Prop := mkDebuggee {
  de_lines : prints_lines U;
  de_started : started (u_env U) g p data input c0;
  de_length : Z.of_nat (length p) < 2 ^ 63;
  de_bkpt : Forall (fun i => i <> IBkpt) p;
  de_regs : Z.of_nat (g_reg g) <= u_regs U;
  de_regs63 : Z.of_nat (g_reg g) < 2 ^ 63
}.
(** Breakpoints are used at addresses of the program, on instructions that can be put
    back (C29_restorable), and so are the instructions behind calls when stepping over or
    out; watched addresses are 64-bit numbers. *)
Definition usable (U : setup) (p : list instr) (k : call) : Prop :=
  match k with
  | KBp o => 0 <= op_addr o < Z.of_nat (length p) /\ restorable U (prog_at p (op_addr o))
  | KWatch a => word64 a
  | KOver | KOut => forall a, 0 <= a -> is_call (prog_at p a) -> a + 1 < Z.of_nat (length p) -> restorable U (prog_at p (a + 1))
  | _ => True
  end.

Lemma at_start : forall U g p data input c0, debuggee U g p data input c0 ->
  viewed U p (mkView no_marks [] (isa_boot (g_ram g) data input) false) (connected c0) RBegin c0.
Proof.
  intros U g p data input c0 [PL [Hip Hty Hb] Hl Hbk R1 R2].
  destruct (boot_host (u_env U) g p data input c0 true (keeps_valid _ Hip) Hb) as (_ & Hp & Hg & HR & Hh).
  destruct (boot_inv (u_env U) _ _ _ _ _ (keeps_valid _ Hip) Hb) as (_ & _ & _ & _ & Ht & Hi & Hd).
  constructor; cbn [v_marks v_watch v_state v_left connected n_wps map length].
  - constructor; cbn [connected n_link n_wps n_cache]; auto.
    + discriminate.
    + now apply boot_wordy with (F := e_fops (u_env U)) (p := p).
    + rewrite Hh. split; discriminate.
    + now rewrite Hd.
    + rewrite Hd. repeat constructor; cbn; lia.
    + constructor; [constructor|constructor|intros a i []].
    + subst p. now apply holds_start.
    + unfold covers_regs. now rewrite Hg.
  - intros a. unfold watched, listed, watches. rewrite Hd. cbn [connected n_wps map In nth]. split; [|tauto]. intros (i & H1 & H2 & H3). now rewrite Z.bits_0 in H2.
  - intros a. unfold listed. cbn. tauto.
  - reflexivity.
  - discriminate.
  - rewrite Ht. discriminate.
Qed.

(** What the library holds at the end of a history. *)
Record holds_view (m : marks) (S : arch) (N : native) : Prop := mkHoldsView {
  hv_machine : exists r c, n_link N = stopped r c /\ shows c S;
  hv_marks : forall a, m a = option_map bp_on (zget (n_bps N) a)
}.
Lemma viewed_holds : forall U p v N r c, viewed U p v N r c -> holds_view (v_marks v) (v_state v) N.
Proof.
  intros U p v N r c H. pose proof (vw_rested _ _ _ _ _ _ H) as HR. constructor.
  - exists r, c. split; [exact (rs_link _ _ _ _ _ _ _ HR)|]. exact (rests_shows _ _ _ (rs_rests _ _ _ _ _ _ _ HR)).
  - intros a. exact (h_marks _ _ _ _ _ _ (rs_holds _ _ _ _ _ _ _ HR) a).
Qed.

(** ---- C30 ---- *)

(** With watchpoints: every call of the user does what LibSpec.view_spec says. Stepping
    over and out are covered for users who set no watchpoints. *)
Theorem C31_history_partial : forall U fuel g p data input c0 ks xs N', debuggee U g p data input c0 -> Forall (usable U p) ks ->
  Forall no_over ks \/ Forall no_watch ks -> did_well U fuel ks (connected c0) xs N' ->
  exists v, views_spec (e_fops (u_env U)) p ks (mkView no_marks [] (isa_boot (g_ram g) data input) false) xs v /\
    holds_view (v_marks v) (v_state v) N' /\ (forall a, In a (map fst (n_wps N')) <-> In a (v_watch v)).
Proof.
  intros U fuel g p data input c0 ks xs N' HD Hk Hw H. pose proof HD as [PL [Hip Hty Hb] Hl Hbk R1 R2].
  destruct (calls_ok U fuel PL (ty_fops _ _ _ _ _ Hty) p (ty_prog _ _ _ _ _ Hty) Hip Hl Hbk ks _ _ _ _ xs N' (at_start U g p data input c0 HD)) as (v & r & c & V1 & V2); auto.
  { destruct Hw; [now left|right; now split]. }
  exists v. split; [exact V1|]. split; [eapply viewed_holds; exact V2|exact (vw_listed _ _ _ _ _ _ V2)].
Qed.

(** Breakpoint operations, continuing, stepping, stepping over. *)
Definition plain (k : call) : Prop := match k with KWatch _ | KOut => False | _ => True end.

Lemma plain_view : forall F p k v x v', view_spec F p k v x v' -> plain k -> v_watch v = [] -> v_left v = false ->
  call_spec F p k (v_marks v, v_state v) x (v_marks v', v_state v') /\ v_watch v' = [] /\ v_left v' = false.
Proof.
  assert (SN : forall F p S e S', steps F p (fun a => In a []) S e S' -> forall a, e <> EvWatchpoint a) by (intros F p S e S' H a; inversion H; subst; [contradiction|discriminate|discriminate]).
  assert (CN : forall F p m S e S', continues F p m (fun a => In a []) S e S' -> forall a, e <> EvWatchpoint a).
  { intros F p m S e S' H. induction H as [S S' e H1 H2|]; auto. intros a. inversion H2; subst; [contradiction|discriminate|discriminate]. }
  intros F p k v x v' H Hk Hw Hl. destruct H; cbn [v_marks v_watch v_state v_left plain] in *; subst; try contradiction; try discriminate.
  - repeat split. now constructor.
  - repeat split. now constructor.
  - split; [now apply cs_step|]. split; [reflexivity|]. destruct l'; [|reflexivity]. destruct (H0 eq_refl) as [a ->]. now elim (SN _ _ _ _ _ H a).
  - split; [now apply cs_continue|]. split; [reflexivity|]. destruct l'; [|reflexivity]. destruct (H1 eq_refl) as (_ & _ & a & ->). now elim (CN _ _ _ _ _ _ H0 a).
  - split; [now apply cs_over|]. split; reflexivity.
Qed.
Lemma plain_views : forall F p ks v xs v', views_spec F p ks v xs v' -> Forall plain ks -> v_watch v = [] -> v_left v = false ->
  calls_spec F p ks (v_marks v, v_state v) xs (v_marks v', v_state v').
Proof.
  intros F p ks v xs v' H. induction H as [v|k ks v x v1 xs v2 H1 H2 IH]; intros Hk Hw Hl; [constructor|]. inversion Hk as [|? ? K1 K2]; subst.
  destruct (plain_view _ _ _ _ _ _ H1 K1 Hw Hl) as (P1 & P2 & P3). econstructor; [exact P1|]. now apply IH.
Qed.

(** C30: whatever the user does to breakpoints, continues and steps, in whatever
    order: each continuing call executes instructions of the program as it was written
    until control reaches an enabled breakpoint or the program halts, and reports
    that; each stepping call executes one instruction, or a whole call if it steps over;
    the machine is then in the state of the program run without a debugger; and the
    breakpoints are those set. *)
Theorem C30_history : forall U fuel g p data input c0 ks xs N', debuggee U g p data input c0 -> Forall (usable U p) ks -> Forall plain ks ->
  did_well U fuel ks (connected c0) xs N' ->
  exists m S, calls_spec (e_fops (u_env U)) p ks (no_marks, isa_boot (g_ram g) data input) xs (m, S) /\ holds_view m S N'.
Proof.
  intros U fuel g p data input c0 ks xs N' HD Hk Hn H.
  assert (Hw : Forall no_watch ks) by (revert Hn; apply Forall_impl; intros []; cbn; tauto).
  destruct (C31_history_partial U fuel g p data input c0 ks xs N' HD Hk (or_intror Hw) H) as (v & V1 & V2 & _).
  exists (v_marks v), (v_state v). split; [|exact V2]. exact (plain_views _ _ _ _ _ _ V1 Hn eq_refl eq_refl).
Qed.

Lemma reported_run : forall F p m w S e S', continues F p m w S e S' -> exists n, isa_run F p (Datatypes.S n) S S'.
Proof.
  intros F p m w S e S' H. induction H as [S S' e H1 H2|S T0 S' e H1 _ _ [n IH]].
  - exists 0%nat. econstructor; [exact H1|constructor].
  - exists (Datatypes.S n). econstructor; eauto.
Qed.
Lemma comes_run : forall F p m w a bp S e S', comes_back F p m w a bp S e S' -> exists n, isa_run F p n S S'.
Proof.
  intros F p m w a bp S e S' H. induction H as [S S' H _|S T0 e S' H _ _ [n IH]|S e S' H _].
  - destruct (reported_run _ _ _ _ _ _ _ H) as [n Hn]. eauto.
  - destruct (reported_run _ _ _ _ _ _ _ H) as [j Hj]. exists (Datatypes.S j + n)%nat. eapply run_app; eauto.
  - destruct (reported_run _ _ _ _ _ _ _ H) as [n Hn]. eauto.
Qed.
Lemma over_run : forall F p m w S e S', over F p m w true S e S' -> exists n, isa_run F p n S S'.
Proof.
  intros F p m w S e S' H. inversion H as [S0 e0 S0' _ _ H1| |S0 T0 e0 S0' _ _ H1 H2|]; subst; try discriminate.
  - exists 1%nat. destruct H1; (econstructor; [eassumption|constructor]).
  - destruct (comes_run _ _ _ _ _ _ _ _ _ H2) as [n Hn]. exists (Datatypes.S n). econstructor; eauto.
Qed.
(** and the state is one that the program reaches without a debugger. *)
Theorem C30_undebugged : forall F p ks s xs s', calls_spec F p ks s xs s' -> exists n, isa_run F p n (snd s) (snd s').
Proof.
  intros F p ks s xs s' H. induction H as [s|k ks s x s1 xs s2 H1 H2 [n IH]]; [exists 0%nat; constructor|].
  assert (K : exists j, isa_run F p j (snd s) (snd s1)).
  { destruct H1 as [| |m S e S' H1|m S e S' H1|m S e S' H1]; cbn [snd].
    - exists 0%nat. constructor.
    - exists 0%nat. constructor.
    - destruct (reported_run _ _ _ _ _ _ _ H1) as [j J]. eauto.
    - exists 1%nat. destruct H1; (econstructor; [eassumption|constructor]).
    - eapply over_run; eauto. }
  destruct K as [j K]. exists (j + n)%nat. eapply run_app; eauto.
Qed.

(** ---- C59: a BKPT of the program's own ---- *)

(** The machine has stopped before a BKPT on which the user has set no breakpoint. *)
Record before_own (U : setup) (A : arch) (N : native) (r : reason) (c : cpu) : Prop := mkBeforeOwn {
  bo_link : n_link N = stopped r c;
  bo_live : live r;
  bo_rests : rests (u_env U) A c;
  bo_wordy : wordy A;
  bo_typed : Forall typed_instr (c_prog c);
  bo_dbg : length (c_dbg c) = 5%nat;
  bo_regs : covers_regs U c;
  bo_cache : n_cache N = None;
  bo_halted : a_halted A = false;
  bo_bkpt : instr_at (c_prog c) (a_pc A) = IBkpt;
  bo_unset : enabled_at N (a_pc A) = false
}.

Lemma own_again : forall U fuel A N r c t u N1 e N', typed_fops (e_fops (u_env U)) -> before_own U A N r c ->
  (t = true /\ proc (singlestep U) N = Done u N1 \/ t = c_trap c /\ proc (resume U) N = Done u N1) -> wait_event U fuel N1 = Done e N' ->
  (exists a, e = EvCpuError a) \/ e = EvBreakpoint (a_pc A) /\ exists A' r' c', before_own U A' N' r' c' /\ same A' A.
Proof.
  intros U fuel A N r c t u N1 e N' TF [B1 B2 B3 B4 B5 B6 B7 B8 B9 B10 B11] HS H.
  pose proof B3 as [HI HD HR]. pose proof (sh_halted _ _ (rests_shows _ _ _ B3)) as Hh. rewrite B9 in Hh.
  set (c1 := set_trap c t).
  assert (HN1 : N1 = set_link N (mkLink (Some (leave r false c1)) false)).
  { destruct HS as [[Ht HS]|[Ht HS]]; unfold c1; rewrite Ht.
    - exact (singlestep_ok U _ _ _ _ _ B1 HS).
    - replace (set_trap c (c_trap c)) with c by (destruct c; reflexivity). exact (resume_ok U _ _ _ _ _ B1 HS). }
  assert (HL : r = RHalted \/ leave r false c1 = Going false c1) by (destruct r; auto; now elim B2).
  destruct HL as [->|HL]; [subst N1; exfalso; eapply wait_ended; [| |exact H]; [reflexivity|exact B8]|]. rewrite HL in HN1.
  assert (L1 : n_link N1 = mkLink (Some (Going false c1)) false) by (subst N1; reflexivity).
  unfold wait_event, then_, get in H. replace (n_cache N1) with (@None devent) in H by (subst N1; cbn [set_link n_cache]; congruence).
  destruct (proc (wait U fuel) N1) as [u1 N2| | |] eqn:Hw; try discriminate.
  destruct (wait_ran U fuel N1 c1 A u1 N2 L1) as (r2 & c2 & -> & Hran); auto; [now apply Inv_trap|].
  assert (Hr : proc (get_reason U) (set_link N1 (stopped r2 c2)) = Done r2 (set_link N1 (stopped r2 c2))).
  { unfold proc. cbn [set_link n_link]. rewrite C33_reason. reflexivity. }
  rewrite Hr in H. set (N2 := set_link N1 (stopped r2 c2)) in *.
  destruct (classic_live r2) as [Hl|Hl].
  2: { left. subst r2. cbn [event_of] in H. unfold then_ in H. destruct (get_ip U N2) as [ip N3| | |]; try discriminate. unfold ret in H. exists ip. congruence. }
  right. destruct (Hran Hl) as [A1 [R1 R2 R3 R4 R5 R6 R7 R8]]. destruct R3 as [(n & S1 & M1 & M2 & M3 & M4 & M5) M6].
  change (c_prog c1) with (c_prog c) in *. change (c_dbg c1) with (c_dbg c) in *. change (c_cfg c1) with (c_cfg c) in R5.
  assert (Hn : noticed (c_dbg c) (c_prog c) A RSwBkpt) by now constructor.
  destruct M1 as [A|n A T0 S1 Mn _ _]; [|now elim (Mn _ Hn)].
  assert (r2 = RSwBkpt) as ->. { destruct M4 as [M4|(_ & _ & M4)]; [eapply noticed_fun; eauto|now elim (M4 _ Hn)]. }
  assert (Hs : same A1 (IsaSpec.next A)) by (destruct M2 as [_ M2]; rewrite B10 in M2; exact M2).
  cbn [event_of] in H. unfold then_ in H. destruct (get_ip U N2) as [ip N3| | |] eqn:Hip; try discriminate.
  destruct (get_ip_ok U N2 RSwBkpt c2 A1 ip N3 eq_refl R1 R2 Hip) as [-> ->]. unfold ret in H.
  destruct (step_back U N2) as [u2 N3| | |] eqn:Hsb; try discriminate. assert (N3 = N') as -> by congruence.
  assert (He : e = EvBreakpoint (u64 (a_pc A1 - 1))) by congruence. clear H.
  assert (Hpc : u64 (a_pc A1 - 1) = a_pc A).
  { rewrite (s_pc _ _ Hs). cbn [IsaSpec.next set_pc a_pc]. unfold u64, two64, address. change (2 ^ 64) with 18446744073709551616. rewrite Zminus_mod_idemp_l.
    replace (a_pc A + 1 - 1) with (a_pc A) by lia. apply Z.mod_small. apply (w_pc _ B4). }
  split; [now rewrite He, Hpc|].
  destruct (step_back_ok U N2 RSwBkpt c2 A1 u2 N' eq_refl R1 R2) as (c3 & A3 & C1 & C2 & C3 & [K1 K2 K3 K4 K5]).
  { unfold covers_regs in *. rewrite R5. exact B7. }
  { exact Hsb. }
  assert (Hs2 : same A3 A).
  { eapply same_trans; [exact C3|]. destruct Hs as [X1 X2 X3 X4 X5 X6]. constructor; auto. }
  exists A3, RSwBkpt, c3. split; [|exact Hs2]. constructor; try (rewrite C1; reflexivity); auto.
  - eapply wordy_same; [exact Hs2|exact B4].
  - now rewrite K1, R4.
  - now rewrite K2.
  - unfold covers_regs in *. rewrite K5, R5. exact B7.
  - rewrite C1. subst N2 N1. exact B8.
  - now rewrite (s_halted _ _ Hs2).
  - now rewrite K1, R4, (s_pc _ _ Hs2).
  - rewrite (s_pc _ _ Hs2), C1. subst N2 N1. exact B11.
Qed.

(** Neither continuing nor stepping gets past the BKPT: it is reported again and the
    machine stays as it is. *)
Theorem C59_own_bkpt_refuted : forall U fuel k A N r c e N', typed_fops (e_fops (u_env U)) -> before_own U A N r c ->
  k = KContinue \/ k = KStep -> did U fuel k N (Saw e) N' -> (forall a, e <> EvCpuError a) ->
  e = EvBreakpoint (a_pc A) /\ exists A' r' c', before_own U A' N' r' c' /\ same A' A.
Proof.
  intros U fuel k A N r c e N' TF B Hk H He. pose proof B as [B1 B2 B3 B4 B5 B6 B7 B8 B9 B10 B11].
  assert (G : exists t u N1, (t = true /\ proc (singlestep U) N = Done u N1 \/ t = c_trap c /\ proc (resume U) N = Done u N1) /\ wait_event U fuel N1 = Done e N').
  { destruct Hk as [-> | ->]; inversion H as [| | | |N0 e0 N0' G|N0 e0 N0' G| |]; subst.
    - unfold then_ in G. destruct (continue_ U fuel N) as [u N1| | |] eqn:Hc; try discriminate. unfold continue_ in Hc. unfold then_ at 1 in Hc.
      destruct (get_ip U N) as [ip N0| | |] eqn:Hip; try discriminate. destruct (get_ip_ok U _ _ _ _ _ _ B1 B3 B4 Hip) as [-> ->].
      unfold then_ at 1, get in Hc. rewrite B11 in Hc. exists (c_trap c), u, N1. auto.
    - unfold single_step in G.
      assert (G1 : raw_step U fuel N = Done e N').
      { assert (G2 : single_step_d U fuel fuel N = (let* ip := get_ip U in let* N := get in if enabled_at N ip then match fuel with O => fun _ => Blocked | Datatypes.S d' => disable U ip;; let* e := single_step_d U fuel d' in enable U ip;; ret e end else raw_step U fuel) N) by (set (d := fuel) at 2 3; destruct d; reflexivity).
        rewrite G2 in G. unfold then_ at 1 in G. destruct (get_ip U N) as [ip N0| | |] eqn:Hip; try discriminate.
        destruct (get_ip_ok U _ _ _ _ _ _ B1 B3 B4 Hip) as [-> ->]. unfold then_ at 1, get in G. now rewrite B11 in G. }
      unfold raw_step, then_ in G1. destruct (proc (singlestep U) N) as [u N1| | |] eqn:Hs; try discriminate. exists true, u, N1. auto. }
  destruct G as (t & u & N1 & G1 & G2). destruct (own_again U fuel A N r c t u N1 e N' TF B G1 G2) as [[a ->]|G]; [now elim (He a)|exact G].
Qed.
(** So it is for any number of calls. *)
Theorem C59_forever_refuted : forall U fuel ks A N r c xs N', typed_fops (e_fops (u_env U)) -> before_own U A N r c ->
  Forall (fun k => k = KContinue \/ k = KStep) ks -> did_all U fuel ks N xs N' -> (forall a, ~ In (Saw (EvCpuError a)) xs) ->
  Forall (fun x => x = Saw (EvBreakpoint (a_pc A))) xs /\ exists A' r' c', before_own U A' N' r' c' /\ same A' A.
Proof.
  intros U fuel ks A N r c xs N' TF B Hk H. revert A r c B Hk. induction H as [N|k ks N x N1 xs N2 H1 H2 IH]; intros A r c B Hk Hx.
  - split; [constructor|]. exists A, r, c. split; [exact B|apply same_refl].
  - inversion Hk as [|? ? K1 K2]; subst. assert (Hsaw : exists e, x = Saw e) by (destruct K1 as [-> | ->]; inversion H1; eauto).
    destruct Hsaw as [e ->]. destruct (C59_own_bkpt_refuted U fuel k A N r c e N1 TF B K1 H1) as (-> & A1 & r1 & c1 & B1 & S1).
    { intros a ->. apply (Hx a). now left. }
    destruct (IH A1 r1 c1 B1 K2) as (I1 & A2 & r2 & c2 & B2 & S2). { intros a I. apply (Hx a). now right. }
    rewrite (s_pc _ _ S1) in I1. split; [constructor; auto|]. exists A2, r2, c2. split; [exact B2|]. eapply same_trans; eauto.
Qed.

(** For example at the start of a program that begins with a BKPT. *)
Lemma own_at_start : forall U g p data input c0, started (u_env U) g p data input c0 -> Z.of_nat (g_reg g) <= u_regs U -> Z.of_nat (g_reg g) < 2 ^ 63 ->
  instr_at p 0 = IBkpt -> before_own U (isa_boot (g_ram g) data input) (connected c0) RBegin c0.
Proof.
  intros U g p data input c0 [Hip Hty Hb] R1 R2 Hi.
  destruct (boot_host (u_env U) g p data input c0 true (keeps_valid _ Hip) Hb) as (_ & Hp & Hg & HR & Hh).
  destruct (boot_inv (u_env U) _ _ _ _ _ (keeps_valid _ Hip) Hb) as (_ & _ & _ & _ & Ht & _ & Hd).
  constructor; auto.
  - discriminate.
  - now apply boot_wordy with (F := e_fops (u_env U)) (p := p).
  - rewrite Hp. exact (ty_prog _ _ _ _ _ Hty).
  - now rewrite Hd.
  - unfold covers_regs. now rewrite Hg.
  - rewrite Hp. exact Hi.
Qed.

(** ---- C60: a breakpoint outside the program ---- *)

(** It is refused, but the virtual machine is gone, and with it the debugger if the VM
    is one of its threads. *)
Theorem C60_outside_refuted : forall U r c N a, prints_lines U -> n_link N = stopped r c -> zget (n_bps N) a = None ->
  Z.of_nat (length (c_prog c)) <= a < 2 ^ 63 ->
  if u_local U then set_breakpoint U a N = Dead else exists N', set_breakpoint U a N = Failed N' /\ k_host (n_link N') = None.
Proof. intros U r c N a PL L B A. rewrite (outside_dead U PL r c N a L B A). destruct (u_local U); [reflexivity|]. eexists. split; reflexivity. Qed.

(** ---- C61: continuing after a watchpoint ---- *)

(** In stepping mode, which a watchpoint hit by a stepped instruction leaves switched
    on, continuing executes one instruction only. *)
Theorem C61_left_refuted : forall U fuel g p data input c0 v N r c e N', debuggee U g p data input c0 -> viewed U p v N r c ->
  v_left v = true -> v_marks v (a_pc (v_state v)) <> Some true -> did U fuel KContinue N (Saw e) N' -> (forall a, e <> EvCpuError a) ->
  exists S', steps (e_fops (u_env U)) p (fun a => In a (v_watch v)) (v_state v) e S'.
Proof.
  intros U fuel g p data input c0 v N r c e N' HD [V1 V2 V3 V4 V5 V6] Hl Hm H He. pose proof HD as [PL [Hip Hty Hb] Hlen Hbk R1 R2].
  inversion H as [| | | |N0 e0 N0' G| | |]; subst.
  destruct (left_ok U fuel (ty_fops _ _ _ _ _ Hty) p (ty_prog _ _ _ _ _ Hty) Hbk _ _ _ N r c e N' V1 V2 (V5 Hl) Hm G) as [[[a ->] _]|(A' & _ & _ & Y1 & _)]; [now elim (He a)|].
  exists A'. eapply steps_ext; [exact V3|exact Y1].
Qed.

(** ---- the hypotheses are met ---- *)

(** Calls played. *)
Definition play1 (U : setup) (fuel : nat) (k : call) (N : native) : option (answer * native) :=
  match k with
  | KBp o => match run_op U o N with Done _ N' => Some (Fine, N') | Failed N' => Some (Refused, N') | _ => None end
  | KWatch a => match set_watchpoint U a N with Done _ N' => Some (Fine, N') | Failed N' => Some (Refused, N') | _ => None end
  | KContinue => match (continue_ U fuel;; wait_event U fuel) N with Done e N' => Some (Saw e, N') | _ => None end
  | KStep => match single_step U fuel N with Done e N' => Some (Saw e, N') | _ => None end
  | KOver => match step_over U fuel true N with Done e N' => Some (Saw e, N') | _ => None end
  | KOut => match step_out U fuel N with Done e N' => Some (Saw e, N') | _ => None end
  end.
Fixpoint play (U : setup) (fuel : nat) (ks : list call) (N : native) : option (list answer * native) :=
  match ks with
  | [] => Some ([], N)
  | k :: ks' => match play1 U fuel k N with None => None | Some (x, N1) => option_map (fun y => (x :: fst y, snd y)) (play U fuel ks' N1) end
  end.
Lemma play1_did : forall U fuel k N x N', play1 U fuel k N = Some (x, N') -> did U fuel k N x N'.
Proof.
  intros U fuel k N x N' H. destruct k as [o|a| | | |]; cbn [play1] in H.
  - destruct (run_op U o N) as [[] N1|N1| |] eqn:E; try discriminate; injection H as <- <-; now constructor.
  - destruct (set_watchpoint U a N) as [[] N1|N1| |] eqn:E; try discriminate; injection H as <- <-; now constructor.
  - destruct ((continue_ U fuel;; wait_event U fuel) N) as [e N1| | |] eqn:E; try discriminate; injection H as <- <-; now constructor.
  - destruct (single_step U fuel N) as [e N1| | |] eqn:E; try discriminate; injection H as <- <-; now constructor.
  - destruct (step_over U fuel true N) as [e N1| | |] eqn:E; try discriminate; injection H as <- <-; now constructor.
  - destruct (step_out U fuel N) as [e N1| | |] eqn:E; try discriminate; injection H as <- <-; now constructor.
Qed.
Lemma play_did : forall U fuel ks N xs N', play U fuel ks N = Some (xs, N') -> did_all U fuel ks N xs N'.
Proof.
  intros U fuel. induction ks as [|k ks IH]; intros N xs N' H; cbn [play] in H; [injection H as <- <-; constructor|].
  destruct (play1 U fuel k N) as [[x N1]|] eqn:E; [|discriminate]. destruct (play U fuel ks N1) as [[ys N2]|] eqn:P; [|discriminate].
  cbn [option_map fst snd] in H. injection H as <- <-. econstructor; [apply play1_did; exact E|now apply IH].
Qed.
Definition fine (N : native) : bool := match k_host (n_link N) with Some (At RCpuError _) | Some (Ended _ _) => false | _ => true end.
Fixpoint play_well (U : setup) (fuel : nat) (ks : list call) (N : native) : option (list answer * native) :=
  match ks with
  | [] => Some ([], N)
  | k :: ks' => match play1 U fuel k N with None => None | Some (x, N1) => if fine N1 then option_map (fun y => (x :: fst y, snd y)) (play_well U fuel ks' N1) else None end
  end.
Lemma play_did_well : forall U fuel ks N xs N', play_well U fuel ks N = Some (xs, N') -> did_well U fuel ks N xs N'.
Proof.
  intros U fuel. induction ks as [|k ks IH]; intros N xs N' H; cbn [play_well] in H; [injection H as <- <-; constructor|].
  destruct (play1 U fuel k N) as [[x N1]|] eqn:E; [|discriminate]. destruct (fine N1) eqn:Hf; [|discriminate]. destruct (play_well U fuel ks N1) as [[ys N2]|] eqn:P; [|discriminate].
  cbn [option_map fst snd] in H. injection H as <- <-. econstructor; [apply play1_did; exact E| |now apply IH].
  unfold cpu_failed. unfold fine in Hf. destruct (k_host (n_link N1)) as [[[]| |]|]; try discriminate; auto.
Qed.
Definition answers (ks : list call) (p : list instr) : option (list answer) :=
  option_map fst (play_well U1 100 ks (connected (booted cfg1 p [7; 8] [65; 10]))).
Lemma answers_did : forall ks p xs, answers ks p = Some xs -> exists N', did_well U1 100 ks (connected (booted cfg1 p [7; 8] [65; 10])) xs N'.
Proof.
  intros ks p xs H. unfold answers in H. destruct (play_well U1 100 ks _) as [[ys N']|] eqn:E; [|discriminate]. injection H as <-. exists N'. now apply play_did_well.
Qed.

Lemma debuggee_case : forall p, Forall keeps_ip p -> Forall typed_instr p -> Forall (fun i => i <> IBkpt) p -> Z.of_nat (length p) < 2 ^ 63 ->
  boot cfg1 p [7; 8] [65; 10] = Ok (booted cfg1 p [7; 8] [65; 10]) -> debuggee U1 cfg1 p [7; 8] [65; 10] (booted cfg1 p [7; 8] [65; 10]).
Proof.
  intros p H1 H2 H3 H4 H5. constructor; [exact (proj1 (proj2 (proj2 C33_case_readable)))| |exact H4|exact H3|cbn; lia|cbn; lia].
  constructor; [exact H1| |exact H5]. constructor; [exact no_floats_typed|exact H2|cbn; lia|repeat constructor; cbn; lia|repeat constructor; cbn; lia].
Qed.

(** A loop with a breakpoint in it: stopped there twice, stepped, disabled, another one
    set, stopped there, stepped and run to the end. *)
Definition calls30 : list call := [KBp (OpSet 2); KContinue; KContinue; KStep; KBp (OpDisable 2); KBp (OpSet 6); KContinue; KStep; KContinue].
Example C30_case : debuggee U1 cfg1 prog0 [7; 8] [65; 10] (booted cfg1 prog0 [7; 8] [65; 10]) /\ Forall (usable U1 prog0) calls30 /\ Forall plain calls30 /\
  exists N', did_well U1 100 calls30 (connected (booted cfg1 prog0 [7; 8] [65; 10]))
    [Fine; Saw (EvBreakpoint 2); Saw (EvBreakpoint 2); Saw EvSinglestep; Fine; Fine; Saw (EvBreakpoint 6); Saw EvSinglestep; Saw EvEnd] N'.
Proof.
  split; [|split; [|split]].
  - apply debuggee_case.
    + repeat constructor; discriminate.
    + repeat constructor; cbn; lia.
    + repeat constructor; discriminate.
    + cbn; lia.
    + vm_compute. reflexivity.
  - assert (R : forall a, In a [2; 6] -> 0 <= a < Z.of_nat (length prog0) /\ restorable U1 (prog_at prog0 a)).
    { intros a Ia. split; [cbn in Ia; change (Z.of_nat (length prog0)) with 8; intuition lia|]. unfold restorable, writes_as.
      cbn in Ia. destruct Ia as [<-|[<-|[]]]; (split; [vm_compute; reflexivity|split; [vm_compute; reflexivity|apply instr_quote; vm_compute; repeat constructor]]). }
    repeat (apply Forall_cons; [first [exact I|apply R; cbn; auto]|]). apply Forall_nil.
  - repeat constructor.
  - apply answers_did. vm_compute. reflexivity.
Qed.

(** A watchpoint hit by the instruction under a breakpoint: the next continuing stops
    after one instruction. *)
Definition prog_watched : list instr := [INop; IMov (OMemImm 5) (OImm 1); INop; INop; IHalt].
Definition calls61 : list call := [KWatch 5; KBp (OpSet 1); KContinue; KContinue; KContinue].
Example C61_case_refuted : debuggee U1 cfg1 prog_watched [7; 8] [65; 10] (booted cfg1 prog_watched [7; 8] [65; 10]) /\ Forall (usable U1 prog_watched) calls61 /\
  exists N', did_well U1 100 calls61 (connected (booted cfg1 prog_watched [7; 8] [65; 10])) [Fine; Fine; Saw (EvBreakpoint 1); Saw (EvWatchpoint 5); Saw EvSinglestep] N'.
Proof.
  split; [|split].
  - apply debuggee_case.
    + repeat constructor; discriminate.
    + repeat constructor; cbn; lia.
    + repeat constructor; discriminate.
    + cbn; lia.
    + vm_compute. reflexivity.
  - repeat (apply Forall_cons; [try exact I|]); [vm_compute; split; [discriminate|reflexivity]| |apply Forall_nil].
    split; [cbn; lia|]. unfold restorable, writes_as. split; [vm_compute; reflexivity|]. split; [vm_compute; reflexivity|]. apply instr_quote. vm_compute. repeat constructor.
  - apply answers_did. vm_compute. reflexivity.
Qed.

(** A BKPT of the program's own: reported three times. With a breakpoint on it, the
    program counter is set back twice, so that it is executed again. *)
Definition prog_own : list instr := [INop; IBkpt; INop; IHalt].
Example C59_case : answers [KContinue; KContinue; KStep] prog_own = Some [Saw (EvBreakpoint 1); Saw (EvBreakpoint 1); Saw (EvBreakpoint 1)].
Proof. vm_compute. reflexivity. Qed.
Definition ip_after (ks : list call) (p : list instr) : option Z :=
  match play U1 100 ks (connected (booted cfg1 p [7; 8] [65; 10])) with
  | Some (_, N) => match get_ip U1 N with Done a _ => Some a | _ => None end
  | None => None
  end.
Theorem C59_breakpoint_on_it_refuted :
  answers [KBp (OpSet 1); KContinue; KContinue; KContinue] prog_own = Some [Fine; Saw (EvBreakpoint 1); Saw (EvBreakpoint 1); Saw EvSinglestep] /\
  ip_after [KBp (OpSet 1); KContinue] prog_own = Some 1 /\ ip_after [KBp (OpSet 1); KContinue; KContinue] prog_own = Some 0.
Proof. vm_compute. repeat split; reflexivity. Qed.

Print Assumptions C30_history.
Print Assumptions C30_undebugged.
Print Assumptions C31_history_partial.
Print Assumptions C59_own_bkpt_refuted.
Print Assumptions C59_forever_refuted.
Print Assumptions C59_breakpoint_on_it_refuted.
Print Assumptions C60_outside_refuted.
Print Assumptions C61_left_refuted.
