(** Towards C111: a single step of the library comes to its end. *)
From Coq Require Import Ascii String ZArith NArith List Bool Lia.
From Verif Require Import Base Text Alu PropText PropNet StdMap Isa AluSpec State IsaSpec IsaSame Lexer Asm Show AsmPrint AsmSpec PropAsm Exec Ram Writes Rat Cpu Os DbgText Spaces
  InOrder PipeInv PipeBasics PipeActs PipeMem PipeTick PipeDom PipeRun PipePoke Session IsaRefine DbgSpec Stops PropPipe PropDbg Client Proto PropProto Native PropBreak PropWatch LibSpec NatRun NatStop
  LiveSpec PropLive SafeSpec SafeDbgSpec SafeDbg PropSafeDbg PipeFault StepFault.
Import ListNotations.
Open Scope Z_scope.

Section U.
Variable U : setup.
Notation E := (u_env U).
Notation F := (e_fops (u_env U)).
Notation Q := (exact_text U).
Variable fuel : nat.
Hypothesis PL : prints_lines U.
Hypothesis TF : typed_fops F.
Variable orig : list instr.
Hypothesis orig_typed : Forall typed_instr orig.
Hypothesis orig_ip : Forall keeps_ip orig.
Hypothesis orig_len : Z.of_nat (length orig) < 2 ^ 63.
Hypothesis orig_bkpt : Forall (fun i => i <> IBkpt) orig.
Notation rested := (rested U orig).

(** The registers of the machine can be read. *)
Definition pc_fits (c : cpu) : Prop := forall v, get_lreg c (LR PC) = Some v -> fits v.
(** All watchpoints of the machine are the library's. *)
Definition owns (N : native) (c : cpu) : Prop := forall i a, watches (c_dbg c) i a -> exists b, In (b, i) (n_wps N).

Lemma wait_ticks : forall k c r c', play E (u_cfg U) true (repeat ETick k) (Going false c) = Some (Ok (At r c')) ->
  forall n, (k <= n)%nat -> wait U n (mkLink (Some (Going false c)) false) = Done tt (stopped r c').
Proof.
  induction k as [|k IH]; intros c r c' H n Hn; cbn [repeat play] in H; [discriminate|]. destruct n as [|n]; [lia|]. cbn [wait k_host].
  cbn [os_event] in H. destruct (os_tick E true false c) as [h|e s|w] eqn:Ht; try discriminate.
  destruct h as [r1 c1|b c1|b c1].
  - destruct k; cbn [repeat play os_event] in H; [|discriminate]. assert (r1 = r /\ c1 = c') as [-> ->] by (split; congruence).
    destruct n; reflexivity.
  - assert (b = false) as ->.
    { unfold os_tick in Ht. destruct (tick E c) as [cc|e s|w]; try discriminate. destruct (c_halted cc); [discriminate|].
      destruct (0 <? c_int cc); [destruct (reason_of (c_int cc)); discriminate|]. apply Ok_eq in Ht. congruence. }
    apply IH; [exact H|lia].
  - destruct k; cbn [repeat play os_event] in H; discriminate.
Qed.

Lemma get_ip_total : forall m A N r c, rested m A N r c -> pc_fits c -> get_ip U N = Done (a_pc A) N.
Proof.
  intros m A N r c HR Hpc. pose proof (rs_link _ _ _ _ _ _ _ HR) as L. pose proof (rs_rests _ _ _ _ _ _ _ HR) as RR. pose proof (rs_wordy _ _ _ _ _ _ _ HR) as W.
  pose proof (rests_readable U A c RR W Hpc) as Rd. destruct (fetch_shape U r c Rd) as (b & v & ps & Hv & Hb & Hs & P).
  assert (G : exists ip N1, get_ip U N = Done ip N1).
  { unfold get_ip, get_register, then_, proc. rewrite L, Hs. eexists. eexists. reflexivity. }
  destruct G as (ip & N1 & G). destruct (get_ip_ok U N r c A ip N1 L RR W G) as [-> ->]. exact G.
Qed.

Lemma raw_total : forall m A N r c k r' c', rested m A N r c -> r <> RHalted -> m (a_pc A) <> Some true -> owns N c ->
  play E (u_cfg U) true (ECmd CSingleStep :: repeat ETick k) (At r c) = Some (Ok (At r' c')) -> r' <> RCpuError -> (k <= fuel)%nat ->
  exists e, raw_step U fuel N = Done e (set_link N (stopped r' c')) /\ (forall a, e <> EvCpuError a) /\ c_prog c' = c_prog c /\
    (e = EvSinglestep \/ e = EvEnd \/ exists a, e = EvWatchpoint a).
Proof.
  intros m A N r c k r' c' HR Hr Hm Hown Hp Hr' Hk. pose proof HR as [R1 R2 R3 R4 R5 R6 R7 R8 R9 R10 R11].
  destruct (going_of U orig m A N r c true HR Hr (or_introl eq_refl)) as [HG HL].
  cbn [play os_event] in Hp. unfold os_cmd in Hp. cbn [do_cmd bind] in Hp. rewrite HL in Hp.
  pose proof (wait_ticks _ _ _ _ Hp _ Hk) as Hw.
  assert (G : proc (singlestep U) N = Done tt (set_link N (mkLink (Some (leave r false (set_trap c true))) false))).
  { unfold proc. rewrite R1. assert (G : singlestep U (stopped r c) = Done tt (mkLink (Some (leave r false (set_trap c true))) false)) by reflexivity. now rewrite G. }
  rewrite HL in G, HG. set (N1 := set_link N (mkLink (Some (Going false (set_trap c true))) false)) in *.
  assert (Hw1 : proc (wait U fuel) N1 = Done tt (set_link N (stopped r' c'))) by (unfold proc; cbn [N1 set_link n_link]; now rewrite Hw).
  pose proof (rested_patched U orig m A N r c HR) as P. pose proof (patched_all orig typed_instr _ _ P I orig_typed) as TP.
  destruct HG as [G1 [GI GD GR] G3 G4 G5 G6 G7 G8 G9 G10].
  destruct (wait_ran U fuel N1 (set_trap c true) A tt _ G1 GI GD G4 G3 TP TF G5 Hw1) as (r2 & c2 & E2 & Hran).
  assert (HLk : stopped r' c' = stopped r2 c2) by (apply (f_equal n_link) in E2; exact E2).
  assert (r2 = r' /\ c2 = c') as [-> ->] by (unfold stopped in HLk; split; congruence).
  assert (Hl : live r') by exact Hr'. destruct (Hran Hl) as [A1 [Q1 Q2 Q3 Q4 Q5 Q6 Q7 Q8]]. destruct Q3 as [(n & S1 & M1 & M2 & M3 & M4 & M5) M6].
  cbn [set_trap c_dbg c_prog c_trap] in *. rewrite (M3 eq_refl) in M1. inversion M1; subst S1.
  set (N2 := set_link N (stopped r' c')) in *.
  assert (Hcache : n_cache N1 = None) by exact R11.
  assert (Hreason : proc (get_reason U) N2 = Done r' N2) by (unfold proc; cbn [N2 set_link n_link]; rewrite C33_reason; reflexivity).
  assert (Hgo : forall e, event_of U r' N2 = Done e N2 -> (forall a, e <> EvBreakpoint a) -> raw_step U fuel N = Done e N2).
  { intros e He Hn. unfold raw_step, then_ at 1. rewrite G. unfold wait_event, then_, get. rewrite Hcache, Hw1, Hreason, He. unfold ret.
    destruct e; try reflexivity. exfalso. eapply Hn. reflexivity. }
  destruct r'.
  - exfalso. destruct M4 as [M4|[M4 _]]; [inversion M4|discriminate].
  - exfalso. destruct M4 as [M4|[M4 _]]; [|discriminate]. inversion M4 as [|Hi|]; subst. rewrite (patched_at orig m _ _ P) in Hi by apply (w_pc _ R4).
    destruct (m (a_pc A)) as [[]|]; [now elim Hm| |]; now apply (orig_at_bkpt orig orig_bkpt) in Hi.
  - destruct (M5 eq_refl) as (a & Ma & Mr).
    assert (Hwd : Forall word64 (c_dbg c')) by (destruct (slots_kept _ _ _ _ R8 Mr R6 R7); assumption).
    destruct (C32_responsible (c_dbg c) (c_dbg c') a (rows5 (c_dbg c')) Mr R6 (rows5_get (c_dbg c'))) as (i & Ri & Wi).
    destruct (Hown _ _ Wi) as [b Hb].
    destruct (find_wp (n_wps N) i) as [[b' j]|] eqn:Hf.
    2:{ exfalso. unfold find_wp in Hf. pose proof (find_none _ _ Hf _ Hb) as X. cbn in X. now rewrite Nat.eqb_refl in X. }
    exists (EvWatchpoint b'). split; [|split; [discriminate|split; [exact Q4|eauto]]]. apply Hgo; [|discriminate].
    cbn [event_of]. unfold then_, proc. cbn [N2 set_link n_link]. rewrite (fetch5 U RHwBkpt c' Hwd Q7). rewrite Ri. cbn [opt_or]. unfold ret, get.
    change (n_wps _) with (n_wps N). rewrite Hf. reflexivity.
  - exists EvSinglestep. split; [|split; [discriminate|split; [exact Q4|auto]]]. apply Hgo; [reflexivity|discriminate].
  - exists EvEnd. split; [|split; [discriminate|split; [exact Q4|auto]]]. apply Hgo; [reflexivity|discriminate].
  - now elim Hr'.
Qed.

(** ---- the machine's history ---- *)

Variable g : cfg.
Variables data input : list Z.
Variable c0 : cpu.
Hypothesis begun : started E g orig data input c0.
Hypothesis wraps : e_mode E = Wrap.
Hypothesis formed : well_formed g orig.
Hypothesis two : (g_rs g <= 2)%nat.
Hypothesis alus : (1 <= g_alus g)%nat.
Hypothesis gates : (1 <= g_gates g)%nat.
Hypothesis simple : Forall loads_or_stores orig.
Hypothesis enough : (90 <= fuel)%nat.

(** The machine has come to [c] by commands within the limits of [plain]. *)
Definition come_to (r : reason) (c : cpu) : Prop :=
  exists xs, psession E (u_cfg U) true xs (os_start true c0) (At r c) /\ Forall (plain g orig) (cmds xs).

Lemma prog_nth : forall (p : list instr) k, (k < length p)%nat -> prog_at p (Z.of_nat k) = nth k p INop.
Proof.
  intros p k Hk. unfold prog_at. destruct (Z.leb_spec 0 (Z.of_nat k)); [|lia]. destruct (Z.ltb_spec (Z.of_nat k) (Z.of_nat (length p))); [|lia]. cbn [andb]. now rewrite Nat2Z.id.
Qed.
Lemma patched_same : forall m p q, patched orig m p -> patched orig m q -> p = q.
Proof.
  intros m p q (P1 & _ & P2) (Q1 & _ & Q2). apply nth_ext with (d := INop) (d' := INop); [congruence|]. intros k Hk.
  assert (Ha : 0 <= Z.of_nat k < Z.of_nat (length orig)) by lia. specialize (P2 _ Ha). specialize (Q2 _ Ha). rewrite prog_nth in P2, Q2 by lia. congruence.
Qed.

Lemma cmds_app : forall xs ys, cmds (xs ++ ys) = cmds xs ++ cmds ys.
Proof. induction xs as [|[|k] xs IH]; intros ys; cbn [app cmds]; rewrite ?IH; reflexivity. Qed.

Lemma poked : forall r c a ins, come_to r c -> length (c_prog c) = length orig -> 0 <= a < Z.of_nat (length orig) -> ins = prog_at orig a ->
  come_to r (set_prog c (set_nth (c_prog c) (Z.to_nat a) ins)).
Proof.
  intros r c a ins (xs & H1 & H2) Hl Ha Hi. exists (xs ++ [ECmd (CPokeText a ins)]). split.
  - eapply psession_app; [exact H1|]. econstructor; [| |constructor].
    + cbn [polite_event polite]. subst ins. rewrite Forall_forall in orig_ip. apply orig_ip. now apply in_at.
    + cbn [os_event]. unfold os_cmd. cbn [do_cmd]. unfold poke_text. rewrite Hl. destruct (Z.leb_spec 0 a); [|lia]. destruct (Z.ltb_spec a (Z.of_nat (length orig))); [|lia]. reflexivity.
  - rewrite cmds_app. apply Forall_app. split; [exact H2|]. constructor; [|constructor]. cbn [plain]. split; [exact Ha|right]. subst ins. unfold prog_at.
    destruct (Z.leb_spec 0 a); [|lia]. destruct (Z.ltb_spec a (Z.of_nat (length orig))); [|lia]. cbn [andb]. apply nth_error_nth'. lia.
Qed.

Lemma patched_off : forall m p a, patched orig m p -> 0 <= a < Z.of_nat (length orig) -> patched orig (mark m a (Some false)) (set_nth p (Z.to_nat a) (prog_at orig a)).
Proof.
  intros m p a (P1 & P2 & P3) Ha. split; [rewrite set_nth_length; exact P1|]. unfold mark. split; intros b Hb.
  - destruct (b =? a); [discriminate|now apply P2].
  - rewrite prog_at_set by (rewrite P1; lia). destruct (Z.eqb_spec b a) as [->|Hn]; [reflexivity|]. now apply P3.
Qed.

(** The instruction at hand, as it was written, accesses a cell outside the memory. *)
Definition goes_wrong (A : arch) : Prop := faulty E orig A.

Lemma step_plays : forall r c, come_to r c -> r <> RCpuError -> r <> RHalted ->
  exists k r' c', (k <= 89)%nat /\ play E (u_cfg U) true (ECmd CSingleStep :: repeat ETick k) (At r c) = Some (Ok (At r' c')).
Proof.
  intros r c (xs & H1 & H2) Hr Hh. eapply C110_step_answered; eauto.
Qed.

Lemma single_raw : forall d m A N r c, rested m A N r c -> pc_fits c -> m (a_pc A) <> Some true -> single_step_d U fuel d N = raw_step U fuel N.
Proof.
  intros d m A N r c HR Hpc Hm.
  assert (G : single_step_d U fuel d N = (let* ip := get_ip U in let* N := get in if enabled_at N ip then match d with O => fun _ => Blocked | Datatypes.S d' => disable U ip;; let* e := single_step_d U fuel d' in enable U ip;; ret e end else raw_step U fuel) N) by (destruct d; reflexivity).
  rewrite G. unfold then_ at 1. rewrite (get_ip_total m A N r c HR Hpc). unfold then_ at 1, get. rewrite (enabled_mark U orig _ _ _ _ _ _ HR).
  destruct (m (a_pc A)) as [[]|]; [now elim Hm|reflexivity|reflexivity].
Qed.

Definition stepped (e : devent) : Prop := e = EvSinglestep \/ e = EvEnd \/ exists a, e = EvWatchpoint a.

Lemma prog_at_dec : forall a, 0 <= a < Z.of_nat (length orig) \/ ~ 0 <= a < Z.of_nat (length orig).
Proof. intros a. lia. Qed.
Lemma fault_here : forall m A N r c k c', rested m A N r c -> r <> RHalted -> m (a_pc A) <> Some true -> come_to r c ->
  play E (u_cfg U) true (ECmd CSingleStep :: repeat ETick k) (At r c) = Some (Ok (At RCpuError c')) -> goes_wrong A.
Proof.
  intros m A N r c k c' HR Hr Hm (xs & H1 & H2) Hp. pose proof (rs_live _ _ _ _ _ _ _ HR) as Hl.
  destruct (plain_session E (u_cfg U) g orig wraps TF two formed xs _ _ H1 H2 (started_state E (u_cfg U) g orig data input c0 begun formed) ltac:(discriminate) Hl) as [HS|(b & c1 & H)]; [|discriminate].
  assert (Hh : c_halted c = false).
  { pose proof (rs_halted _ _ _ _ _ _ _ HR) as Hh. destruct (c_halted c); [|reflexivity]. elim Hr. now apply Hh. }
  apply (faulty_at E (c_prog c)); [|exact (step_fault E (u_cfg U) g orig wraps TF two formed A r c k c' (rs_rests _ _ _ _ _ _ _ HR) Hh Hl Hr HS Hp)].
  destruct (rested_patched U orig m A N r c HR) as (P1 & _ & P3). destruct (prog_at_dec (a_pc A)) as [Ha|Ha].
  - rewrite (P3 _ Ha). destruct (m (a_pc A)) as [[]|]; [now elim Hm|reflexivity|reflexivity].
  - unfold prog_at. rewrite P1. destruct (Z.leb_spec 0 (a_pc A)); [|reflexivity]. destruct (Z.ltb_spec (a_pc A) (Z.of_nat (length orig))); [lia|reflexivity].
Qed.

Lemma unmarked_total : forall m A N r c, rested m A N r c -> r <> RHalted -> m (a_pc A) <> Some true -> owns N c -> come_to r c ->
  (exists e N', raw_step U fuel N = Done e N' /\ stepped e) \/ goes_wrong A.
Proof.
  intros m A N r c HR Hr Hm Ho Hc. destruct (step_plays r c Hc (rs_live _ _ _ _ _ _ _ HR) Hr) as (k & r' & c' & Hk & Hp).
  destruct (classic_live r') as [Hl| ->]; [left|right].
  2:{ eapply fault_here; eauto. }
  destruct (raw_total m A N r c k r' c' HR Hr Hm Ho Hp Hl ltac:(lia)) as (e & H1 & _ & _ & H4). eauto.
Qed.

(** Stepping over the breakpoint at hand. *)
Lemma over_total : forall d m A N r c, rested m A N r c -> r <> RHalted -> pc_fits c -> owns N c -> come_to r c -> m (a_pc A) = Some true ->
  (exists e N' r' c', (disable U (a_pc A);; let* e := single_step_d U fuel d in enable U (a_pc A);; ret e) N = Done e N' /\ stepped e /\ n_link N' = stopped r' c') \/
  goes_wrong A.
Proof.
  intros d m A N r c HR Hr Hpc Ho Hc Hm. pose proof (rested_patched U orig m A N r c HR) as P.
  assert (Hm0 : m (a_pc A) <> None) by congruence.
  pose proof (marked_T U orig _ _ _ _ _ _ HR Hm0) as HT. pose proof (proj1 HT) as Ha.
  destruct (disable_ok U Q (Q_ok U) (T U orig) r c orig m N (a_pc A) (fits_T U orig orig_len) (rs_holds _ _ _ _ _ _ _ HR) Hm0) as (N1 & D1 & D2 & D3 & D4 & D5).
  destruct (disable_rested U orig orig_ip orig_len m A N r c (a_pc A) tt N1 HR Hm0 D1) as (p1 & HR1 & HW1).
  assert (Hp1 : p1 = set_nth (c_prog c) (Z.to_nat (a_pc A)) (prog_at orig (a_pc A))).
  { pose proof (rested_patched U orig _ _ _ _ _ HR1) as P1. cbn [set_prog c_prog] in P1. eapply patched_same; [exact P1|]. now apply patched_off. }
  assert (Hc1 : come_to r (set_prog c p1)) by (rewrite Hp1; apply poked; auto; apply P).
  assert (Hm1 : mark m (a_pc A) (Some false) (a_pc A) = Some false) by (unfold mark; now rewrite Z.eqb_refl).
  assert (Hm2 : mark m (a_pc A) (Some false) (a_pc A) <> Some true) by congruence.
  assert (Hm3 : mark m (a_pc A) (Some false) (a_pc A) <> None) by congruence.
  assert (Ho1 : owns N1 (set_prog c p1)) by (intros i a W; rewrite HW1; eapply Ho; exact W).
  destruct (unmarked_total _ _ _ _ _ HR1 Hr Hm2 Ho1 Hc1) as [(e & N2 & S1 & S2)|X]; [left|now right].
  destruct (raw_ok U fuel TF orig orig_typed orig_bkpt (watched (set_prog c p1)) _ _ _ _ _ _ _ HR1 (fun a => iff_refl _) Hm2 S1) as [[[a X] _]|(A2 & r2 & c2 & X1 & X2 & _)].
  { exfalso. unfold stepped in S2. destruct S2 as [S2|[S2|[b S2]]]; congruence. }
  destruct (enable_ok U Q PL (T U orig) r2 c2 orig _ N2 (a_pc A) (fits_T U orig orig_len) (rs_holds _ _ _ _ _ _ _ X2) Hm3 HT) as (N3 & E1 & [(q & E2 & _) _ _] & _).
  exists e, N3, r2, (set_prog c2 q). split; [|split; [exact S2|exact E2]]. unfold then_. rewrite D1. rewrite (single_raw d _ _ _ _ _ HR1 Hpc Hm2), S1, E1. reflexivity.
Qed.

Lemma single_total : forall m A N r c, rested m A N r c -> r <> RHalted -> pc_fits c -> owns N c -> come_to r c ->
  (exists e N', single_step U fuel N = Done e N' /\ stepped e) \/ goes_wrong A.
Proof.
  intros m A N r c HR Hr Hpc Ho Hc. pose proof (rested_patched U orig m A N r c HR) as P. unfold single_step.
  destruct (match m (a_pc A) with Some true => true | _ => false end) eqn:Hb.
  2:{ assert (Hm : m (a_pc A) <> Some true) by (destruct (m (a_pc A)) as [[]|]; congruence).
      rewrite (single_raw fuel m A N r c HR Hpc Hm). eapply unmarked_total; eauto. }
  assert (Hm : m (a_pc A) = Some true) by (destruct (m (a_pc A)) as [[]|]; congruence).
  assert (HX : exists d, fuel = Datatypes.S d) by (destruct fuel as [|d]; [lia|eauto]). destruct HX as [d Hd].
  destruct (over_total d m A N r c HR Hr Hpc Ho Hc Hm) as [(e & N' & _ & _ & H1 & H2 & _)|H]; [left|now right].
  exists e, N'. split; [|exact H2]. rewrite Hd at 2. cbn [single_step_d]. unfold then_ at 1. rewrite (get_ip_total m A N r c HR Hpc). unfold then_ at 1, get.
  rewrite (enabled_mark U orig _ _ _ _ _ _ HR), Hm. exact H1.
Qed.

Lemma continue_total : forall m A N r c, rested m A N r c -> r <> RHalted -> pc_fits c -> owns N c -> come_to r c ->
  (exists N', continue_ U fuel N = Done tt N') \/ goes_wrong A.
Proof.
  intros m A N r c HR Hr Hpc Ho Hc. unfold continue_, then_ at 1. rewrite (get_ip_total m A N r c HR Hpc). unfold then_ at 1, get. rewrite (enabled_mark U orig _ _ _ _ _ _ HR).
  assert (Hres : forall N1 r1 c1, n_link N1 = stopped r1 c1 -> exists N', proc (resume U) N1 = Done tt N').
  { intros N1 r1 c1 H1. unfold proc. rewrite H1. assert (G : resume U (stopped r1 c1) = Done tt (mkLink (Some (leave r1 false c1)) false)) by reflexivity. rewrite G. eauto. }
  destruct (match m (a_pc A) with Some true => true | _ => false end) eqn:Hb.
  2:{ left. destruct (m (a_pc A)) as [[]|]; try discriminate; eapply Hres; exact (rs_link _ _ _ _ _ _ _ HR). }
  assert (Hm : m (a_pc A) = Some true) by (destruct (m (a_pc A)) as [[]|]; congruence). rewrite Hm.
  destruct (over_total fuel m A N r c HR Hr Hpc Ho Hc Hm) as [(e & N' & r' & c' & H1 & H2 & H3)|H]; [left|now right].
  unfold over_breakpoint, then_ at 1. rewrite H1. destruct H2 as [->|[->|[a ->]]]; [now apply (Hres _ r' c')| |]; unfold update; eauto.
Qed.

End U.
