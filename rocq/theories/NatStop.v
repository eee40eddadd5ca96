(** Continuing and stepping by the library: what the machine does in terms of the
    user's program. *)
From Coq Require Import Ascii String ZArith NArith List Bool Lia.
From Verif Require Import Base Text PropText PropNet StdMap Isa AluSpec State IsaSpec IsaSame Lexer Asm Show AsmPrint AsmSpec PropAsm Exec Ram Writes Rat Cpu Os DbgText Spaces
  InOrder PipeInv PipeBasics PipeActs PipeMem PipeTick PipeDom PipeRun PipePoke Session IsaRefine DbgSpec Stops PropPipe PropDbg Client Proto PropProto Native PropBreak PropWatch LibSpec NatRun.
Import ListNotations.
Open Scope Z_scope.

Section U.
Variable U : setup.
Notation E := (u_env U).
Notation F := (e_fops (u_env U)).
Notation Q := (exact_text U).
Variable fuel : nat.
Hypothesis PL : prints_lines U.
Hypothesis TF : typed_fops F.

(** The user's program. *)
Variable orig : list instr.
Hypothesis orig_typed : Forall typed_instr orig.
Hypothesis orig_ip : Forall keeps_ip orig.
Hypothesis orig_len : Z.of_nat (length orig) < 2 ^ 63.
Hypothesis orig_bkpt : Forall (fun i => i <> IBkpt) orig.

(** The library [N] over a machine [c] that has stopped for [r] and shows [A]. *)
Record rested (m : marks) (A : arch) (N : native) (r : reason) (c : cpu) : Prop := mkRested {
  rs_link : n_link N = stopped r c;
  rs_live : live r;
  rs_rests : rests E A c;
  rs_wordy : wordy A;
  rs_halted : c_halted c = true <-> r = RHalted;
  rs_dbg : length (c_dbg c) = 5%nat;
  rs_words : Forall word64 (c_dbg c);
  rs_slots : slots (n_wps N) (c_dbg c);
  rs_holds : holds Q r c orig m N;
  rs_regs : covers_regs U c;
  rs_cache : n_cache N = None
}.

Definition T (a : Z) : Prop := 0 <= a < Z.of_nat (length orig) /\ restorable U (prog_at orig a).
Lemma fits_T : fit U Q T orig.
Proof. split; [exact orig_len|]. intros a [T1 T2]. split; [exact T1|]. split; [reflexivity|exact T2]. Qed.
Lemma Q_ok : forall t i, Q t i -> writes_as U t i.
Proof. intros t i [-> R]. exact R. Qed.

Lemma set_prog_inj : forall c p, set_prog c p = c -> p = c_prog c.
Proof. intros c p H. rewrite <- H. reflexivity. Qed.

Lemma at_in : forall p i, In i p -> exists a, 0 <= a < Z.of_nat (length p) /\ prog_at p a = i.
Proof.
  intros p i H. apply In_nth with (d := INop) in H. destruct H as (k & K & <-). exists (Z.of_nat k). split; [lia|]. unfold prog_at.
  destruct (Z.leb_spec 0 (Z.of_nat k)); [|lia]. destruct (Z.ltb_spec (Z.of_nat k) (Z.of_nat (length p))); [|lia]. cbn [andb]. now rewrite Nat2Z.id.
Qed.
Lemma in_at : forall p a, 0 <= a < Z.of_nat (length p) -> In (prog_at p a) p.
Proof.
  intros p a H. unfold prog_at. destruct (Z.leb_spec 0 a); [|lia]. destruct (Z.ltb_spec a (Z.of_nat (length p))); [|lia]. cbn [andb]. apply nth_In. lia.
Qed.
Lemma instr_prog : forall p a, 0 <= a -> instr_at p a = prog_at p a.
Proof.
  intros p a H. unfold instr_at, prog_at. destruct (Z.leb_spec 0 a); [|lia]. destruct (Z.ltb_spec a (Z.of_nat (length p))); [reflexivity|]. cbn [andb].
  apply nth_overflow. lia.
Qed.

(** A program with breakpoints in it. *)
Definition patched (m : marks) (p : list instr) : Prop :=
  length p = length orig /\ (forall a, m a = Some true -> 0 <= a < Z.of_nat (length orig)) /\
  forall a, 0 <= a < Z.of_nat (length orig) -> prog_at p a = match m a with Some true => IBkpt | _ => prog_at orig a end.

Lemma patched_all : forall (P : instr -> Prop) m p, patched m p -> P IBkpt -> Forall P orig -> Forall P p.
Proof.
  intros P m p (H1 & _ & H2) HB HO. apply Forall_forall. intros i I. destruct (at_in p i I) as (a & A1 & <-). rewrite H1 in A1. rewrite (H2 a A1).
  rewrite Forall_forall in HO. destruct (m a) as [[]|]; [exact HB| |]; apply HO, in_at; exact A1.
Qed.
Lemma patched_at : forall m p a, patched m p -> 0 <= a -> instr_at p a = match m a with Some true => IBkpt | _ => instr_at orig a end.
Proof.
  intros m p a (H1 & H3 & H2) Ha. rewrite !instr_prog by exact Ha. destruct (Z.lt_ge_cases a (Z.of_nat (length orig))) as [L|L]; [apply H2; lia|].
  assert (Hm : m a <> Some true) by (intros Hm; specialize (H3 a Hm); lia).
  assert (Hi : forall q : list instr, length q = length orig -> prog_at q a = INop).
  { intros q Hq. unfold prog_at. rewrite Hq. destruct (Z.ltb_spec a (Z.of_nat (length orig))); [lia|]. now rewrite andb_false_r. }
  rewrite (Hi p H1), (Hi orig eq_refl). destruct (m a) as [[]|]; congruence.
Qed.

Lemma holds_patched : forall r c m N, holds Q r c orig m N -> exists p, n_link N = stopped r (set_prog c p) /\ patched m p.
Proof.
  intros r c m N [(p & H1 & H2 & H3) H4 H5]. exists p. split; [exact H1|]. split; [exact H2|]. split; [|exact H3].
  intros a Ha. rewrite H4 in Ha. destruct (zget (n_bps N) a) as [b|] eqn:Hb; [|discriminate]. now apply (H5 a b).
Qed.
Lemma rested_patched : forall m A N r c, rested m A N r c -> patched m (c_prog c).
Proof.
  intros m A N r c H. destruct (holds_patched _ _ _ _ (rs_holds _ _ _ _ _ H)) as (p & H1 & H2). rewrite (rs_link _ _ _ _ _ H) in H1.
  injection H1 as H1. symmetry in H1. apply set_prog_inj in H1. congruence.
Qed.

Lemma keeps_pc_ok : forall m p, patched m p -> valid_prog p.
Proof. intros m p H. eapply patched_all; [exact H|apply keeps_ip_ok; exact I|]. eapply Forall_impl; [exact keeps_ip_ok|exact orig_ip]. Qed.

(** Breakpoint operations. *)
Lemma holds_rested : forall m m' A N N' r c, rested m A N r c -> holds Q r c orig m' N' -> n_wps N' = n_wps N -> n_cache N' = n_cache N ->
  exists p, rested m' A N' r (set_prog c p).
Proof.
  intros m m' A N N' r c HR HH HW HC. destruct (holds_patched _ _ _ _ HH) as (p & H1 & H2). exists p.
  destruct HR as [R1 R2 [I1 I2 I3] R4 R5 R6 R7 R8 R9 R10 R11].
  destruct (poke_prog_inv E A c p I1 I2 I3 (keeps_pc_ok _ _ H2)) as (P1 & P2 & P3).
  constructor; rewrite ?HW, ?HC; auto; [constructor; assumption|].
  destruct HH as [(q & Q1 & Q2 & Q3) Q4 Q5]. constructor; auto. exists q. rewrite set_prog_set. auto.
Qed.

Lemma holds_ext : forall r c m m' N, holds Q r c orig m N -> (forall a, m a = m' a) -> holds Q r c orig m' N.
Proof.
  intros r c m m' N [(q & Q1 & Q2 & Q3) Q4 Q5] H. constructor; auto; [|intros a; now rewrite <- H]. exists q. split; [exact Q1|]. split; [exact Q2|].
  intros a Ha. now rewrite <- H, Q3.
Qed.
Lemma rested_ext : forall m m' A N r c, rested m A N r c -> (forall a, m a = m' a) -> rested m' A N r c.
Proof. intros m m' A N r c [] H. constructor; auto. eapply holds_ext; eauto. Qed.

Lemma holds_move : forall r c m N r' c' N', holds Q r c orig m N -> n_link N = stopped r c -> n_link N' = stopped r' c' -> c_prog c' = c_prog c -> n_bps N' = n_bps N ->
  holds Q r' c' orig m N'.
Proof.
  intros r c m N r' c' N' [(q & Q1 & Q2 & Q3) Q4 Q5] L L' P B. rewrite L in Q1. injection Q1 as Q1. symmetry in Q1. apply set_prog_inj in Q1. subst q.
  constructor; rewrite ?B; auto. exists (c_prog c'). split; [rewrite L'; now rewrite set_prog_same|]. rewrite P. auto.
Qed.

(** The marks of an address. *)
Lemma enabled_mark : forall m A N r c a, rested m A N r c -> enabled_at N a = match m a with Some b => b | None => false end.
Proof.
  intros m A N r c a H. unfold enabled_at. rewrite (h_marks _ _ _ _ _ _ (rs_holds _ _ _ _ _ H)). now destruct (zget (n_bps N) a).
Qed.
Lemma marked_T : forall m A N r c a, rested m A N r c -> m a <> None -> T a.
Proof.
  intros m A N r c a H Ha. rewrite (h_marks _ _ _ _ _ _ (rs_holds _ _ _ _ _ H)) in Ha. destruct (zget (n_bps N) a) as [b|] eqn:Hb; [|now elim Ha].
  destruct (h_data _ _ _ _ _ _ (rs_holds _ _ _ _ _ H) a b Hb) as [D1 [_ D2]]. split; assumption.
Qed.

Lemma disable_rested : forall m A N r c a u N', rested m A N r c -> m a <> None -> disable U a N = Done u N' ->
  exists p, rested (mark m a (Some false)) A N' r (set_prog c p) /\ n_wps N' = n_wps N.
Proof.
  intros m A N r c a u N' H Ha Hd. destruct (disable_ok U Q Q_ok T r c orig m N a fits_T (rs_holds _ _ _ _ _ H) Ha) as (N1 & D1 & D2 & _ & D3 & D4).
  assert (N' = N1) as -> by congruence. destruct (holds_rested _ _ _ _ N1 _ _ H ltac:(eassumption) D3 D4) as (p & HP). exists p. auto.
Qed.
Lemma enable_rested : forall m A N r c a u N', rested m A N r c -> m a <> None -> enable U a N = Done u N' ->
  exists p, rested (mark m a (Some true)) A N' r (set_prog c p) /\ n_wps N' = n_wps N.
Proof.
  intros m A N r c a u N' H Ha Hd.
  destruct (enable_ok U Q PL T r c orig m N a fits_T (rs_holds _ _ _ _ _ H) Ha (marked_T _ _ _ _ _ _ H Ha)) as (N1 & D1 & D2 & D3 & D4).
  assert (N' = N1) as -> by congruence. destruct (holds_rested _ _ _ _ N1 _ _ H ltac:(eassumption) D3 D4) as (p & HP). exists p. auto.
Qed.


(** ---- a run in terms of the user's program ---- *)

Definition watched (c : cpu) (a : Z) : Prop := exists i, watches (c_dbg c) i a.

(** [n] instructions of the program before which there is no enabled breakpoint, and
    which do not halt and write nothing that is watched. *)
Inductive calmly (m : marks) (w : Z -> Prop) : nat -> arch -> arch -> Prop :=
| ca_nil : forall S, calmly m w 0 S S
| ca_cons : forall n S T S', m (a_pc S) <> Some true -> ~ writes_watched orig w S -> isa_step F orig S T -> a_halted T = false ->
    calmly m w n T S' -> calmly m w (Datatypes.S n) S S'.

Lemma orig_at_bkpt : forall a, instr_at orig a <> IBkpt.
Proof.
  intros a. unfold instr_at. destruct (Nat.lt_ge_cases (Z.to_nat a) (length orig)) as [L|L].
  - rewrite Forall_forall in orig_bkpt. apply orig_bkpt. now apply nth_In.
  - rewrite nth_overflow by exact L. discriminate.
Qed.

Lemma patched_unmarked : forall m p S, patched m p -> wordy S -> m (a_pc S) <> Some true -> instr_at p (a_pc S) = instr_at orig (a_pc S).
Proof. intros m p S P W H. rewrite (patched_at m p) by (try exact P; apply (w_pc _ W)). destruct (m (a_pc S)) as [[]|]; congruence. Qed.
Lemma patched_step : forall m p S T, patched m p -> wordy S -> m (a_pc S) <> Some true -> isa_step F p S T -> isa_step F orig S T.
Proof. intros m p S T0 P W H [H1 H2]. constructor; [exact H1|]. now rewrite <- (patched_unmarked m p S P W H). Qed.

Lemma calm_unmarked : forall d m p S, patched m p -> wordy S -> ~ noticed d p S RSwBkpt -> m (a_pc S) <> Some true.
Proof.
  intros d m p S P W H Hm. apply H. constructor. rewrite (patched_at m p) by (try exact P; apply (w_pc _ W)). now rewrite Hm.
Qed.

Lemma calm_calmly : forall c m p n S S', patched m p -> Forall typed_instr p -> calm_run F (c_dbg c) p n S S' -> wordy S -> calmly m (watched c) n S S' /\ wordy S'.
Proof.
  intros c m p n S S' P TP H. induction H as [S|n S T0 S' Hn Hs Hr IH]; intros W; [split; [constructor|exact W]|].
  pose proof (calm_unmarked _ _ _ _ P W (Hn RSwBkpt)) as Hm.
  assert (W' : wordy T0) by (eapply step_wordy; [exact TF|exact TP|exact W|exact Hs]).
  destruct (IH W') as [IH1 IH2]. split; [|exact IH2]. econstructor; [exact Hm| | | |exact IH1].
  - intros (a & Wa & i & Wi). apply (Hn RHwBkpt). econstructor; [|exact Wi]. now rewrite (patched_unmarked m p S P W Hm).
  - eapply patched_step; eauto.
  - destruct Hs as [Hs1 Hs2]. rewrite (effect_halted U _ _ _ Hs2), Hs1. destruct (instr_at p (a_pc S)) eqn:Hi; try reflexivity.
    exfalso. apply (Hn RHalted). now constructor.
Qed.

(** How a run from [A] ends, in the user's terms. *)
Inductive ended (m : marks) (w : Z -> Prop) (t : bool) (A : arch) : devent -> arch -> Prop :=
| en_break : forall n S1 A', calmly m w n A S1 -> (t = true -> n = 0%nat) -> m (a_pc S1) = Some true -> a_halted S1 = false -> same A' S1 ->
    ended m w t A (EvBreakpoint (a_pc S1)) A'
| en_other : forall n S1 A' e, calmly m w n A S1 -> (t = true -> n = 0%nat) -> m (a_pc S1) <> Some true -> isa_step F orig S1 A' ->
    (exists a, e = EvWatchpoint a /\ writes_cell S1 (instr_at orig (a_pc S1)) a /\ w a) \/ (e = EvEnd /\ a_halted A' = true) \/
      (e = EvSinglestep /\ t = true /\ a_halted A' = false /\ ~ writes_watched orig w S1) ->
    ended m w t A e A'.

(** The machine has been set going. *)
Record going (m : marks) (A : arch) (N : native) (c : cpu) : Prop := mkGoing {
  go_link : n_link N = mkLink (Some (Going false c)) false;
  go_rests : rests E A c;
  go_wordy : wordy A;
  go_halted : c_halted c = false;
  go_dbg : length (c_dbg c) = 5%nat;
  go_words : Forall word64 (c_dbg c);
  go_slots : slots (n_wps N) (c_dbg c);
  go_holds : forall r, holds Q r c orig m (set_link N (stopped r c));
  go_regs : covers_regs U c;
  go_cache : n_cache N = None
}.

Lemma slots_kept : forall wps d d' a, slots wps d -> recorded d d' a -> length d = 5%nat -> Forall word64 d -> slots wps d' /\ Forall word64 d'.
Proof.
  intros wps d d' a [S1 S2 S3] R L W. destruct (recorded_words _ _ _ R L W) as (W' & _ & K). split; [|exact W']. constructor; auto.
Qed.

(** ---- after a failure of the CPU ---- *)

Definition lgone (L : link) : Prop := match k_host L with Some (At RCpuError _) => k_told L = true | Some (Ended _ _) => True | _ => False end.
Definition gone (N : native) : Prop := lgone (n_link N) /\ n_cache N = None.
Definition lkg {A} (a : act link A) : Prop := forall L x L', lgone L -> a L = Done x L' -> lgone L'.
Definition kg {A} (a : act native A) : Prop := forall N x N', gone N -> a N = Done x N' -> gone N'.

Lemma gone_failed : forall N, gone N -> cpu_failed N.
Proof. intros N [H _]. unfold lgone in H. unfold cpu_failed. destruct (k_host (n_link N)) as [[r c| |]|]; auto. destruct r; auto. Qed.

Lemma lkg_ask : forall B t (f : option text -> act link B), (forall x, lkg (f (Some x))) -> (forall L x L', f None L <> Done x L') -> lkg (let* r := ask U t in f r).
Proof.
  intros B t f H1 H2 L x L' G H. unfold then_ in H. destruct (ask U t L) as [o L1| | |] eqn:Ha; try discriminate.
  destruct o as [y|]; [|now elim (H2 _ _ _ H)]. apply (H1 y L1 x L'); [|exact H]. clear H H1 H2. unfold ask in Ha. unfold lgone in G.
  destruct (k_host L) as [[r c| |]|]; try contradiction; try discriminate; [|destruct (u_local U); discriminate]. destruct r; try contradiction. rewrite G in Ha.
  destruct (serve _ _ _ _ _ _ _ _) as [[[t1 c1] []]|e s|w0]; try (destruct (u_local U); discriminate); assert (L1 = _) as -> by (injection Ha as _ Ha; symmetry; exact Ha); cbn [lgone k_host k_told]; exact I || reflexivity.
Qed.
Lemma lkg_ret : forall B (x : B), lkg (ret x).
Proof. intros B x L y L' G H. unfold ret in H. now assert (L' = L) as -> by congruence. Qed.
Lemma lkg_never : forall B (a : act link B), (forall L x L', a L <> Done x L') -> lkg a.
Proof. intros B a H L x L' _ E. now elim (H _ _ _ E). Qed.
Lemma lkg_fail : forall B, lkg (@fail link B).
Proof. intros B. apply lkg_never. discriminate. Qed.
Lemma lkg_dead : forall B, lkg (@dead link B).
Proof. intros B. apply lkg_never. discriminate. Qed.
Lemma lkg_or : forall B (o : option B) a, lkg a -> lkg (opt_or a o).
Proof. intros B [x|] a H; [apply lkg_ret|exact H]. Qed.
Lemma lkg_then : forall B C (a : act link B) (f : B -> act link C), lkg a -> (forall x, lkg (f x)) -> lkg (then_ a f).
Proof. intros B C a f H1 H2 L x L' G H. unfold then_ in H. destruct (a L) as [y L1| | |] eqn:E; try discriminate. eapply H2; [eapply H1; eauto|exact H]. Qed.
Lemma lkg_each : forall B (f : B -> act link unit) l, (forall x, lkg (f x)) -> lkg (each f l).
Proof. intros B f l H. induction l; cbn [each]; [apply lkg_ret|now apply lkg_then]. Qed.
Lemma lkg_command : forall t, lkg (command U t).
Proof. intros t. unfold command. apply lkg_ask; [|discriminate]. intros x. destruct (teqb _ _); [apply lkg_ret|apply lkg_fail]. Qed.
Lemma lkg_read : forall a n, lkg (read_text U a n).
Proof. intros a n. unfold read_text. apply lkg_ask; [|discriminate]. intros x. apply lkg_ret. Qed.
Lemma lkg_size : lkg (text_size U).
Proof. unfold text_size. apply lkg_ask; [|discriminate]. intros x. apply lkg_or, lkg_dead. Qed.
Lemma lkg_write : forall a l, lkg (write_text U a l).
Proof. intros a l. apply lkg_each. intros [b t]. cbn [write_text_1]. destruct (check_instr _ _) as [|[]]; try apply lkg_command; try apply lkg_fail; apply lkg_dead. Qed.
Lemma lkg_fetch : lkg (fetch_registers U).
Proof. unfold fetch_registers, fetch. apply lkg_ask; [|discriminate]. intros x. apply lkg_or, lkg_dead. Qed.

Lemma kg_proc : forall B (a : act link B), lkg a -> kg (proc a).
Proof.
  intros B a H N x N' [G1 G2] E. unfold proc in E. destruct (a (n_link N)) as [y L| | |] eqn:Ea; try discriminate.
  assert (N' = set_link N L) as -> by congruence. split; [exact (H _ _ _ G1 Ea)|exact G2].
Qed.
Lemma kg_ret : forall B (x : B), kg (ret x).
Proof. intros B x N y N' G H. unfold ret in H. now assert (N' = N) as -> by congruence. Qed.
Lemma kg_fail : forall B, kg (@fail native B).
Proof. intros B N x N' _ H. discriminate. Qed.
Lemma kg_dead : forall B, kg (@dead native B).
Proof. intros B N x N' _ H. discriminate. Qed.
Lemma kg_get : kg get.
Proof. intros N x N' G H. unfold get in H. now assert (N' = N) as -> by congruence. Qed.
Lemma kg_or : forall B (o : option B) a, kg a -> kg (opt_or a o).
Proof. intros B [x|] a H; [apply kg_ret|exact H]. Qed.
Lemma kg_then : forall B C (a : act native B) (f : B -> act native C), kg a -> (forall x, kg (f x)) -> kg (then_ a f).
Proof. intros B C a f H1 H2 N x N' G H. unfold then_ in H. destruct (a N) as [y N1| | |] eqn:E; try discriminate. eapply H2; [eapply H1; eauto|exact H]. Qed.
Lemma kg_bps : forall f, kg (update (fun N => set_bps N (f N))).
Proof. intros f N x N' [G1 G2] H. unfold update in H. assert (N' = set_bps N (f N)) as -> by congruence. split; assumption. Qed.

Lemma kg_register : forall t, kg (get_register U t).
Proof. intros t. unfold get_register. apply kg_then; [apply kg_proc, lkg_fetch|]. intros x. apply kg_or, kg_fail. Qed.
Lemma kg_ip : kg (get_ip U).
Proof. unfold get_ip. apply kg_then; [apply kg_register|]. intros x. apply kg_ret. Qed.
Lemma kg_one : forall a, kg (read_one U a).
Proof. intros a. unfold read_one. apply kg_then; [apply kg_proc, lkg_read|]. intros [|t l]; [apply kg_dead|apply kg_ret]. Qed.
Lemma kg_create : forall a, kg (create_breakpoint U a).
Proof.
  intros a. unfold create_breakpoint. apply kg_then; [apply kg_one|]. intros b. apply kg_then; [apply kg_proc, lkg_write|]. intros _. apply kg_then; [apply kg_one|]. intros x.
  destruct (teqb _ _); [apply kg_ret|apply kg_fail].
Qed.
Lemma kg_the : forall a, kg (the_bp a).
Proof. intros a. unfold the_bp. apply kg_then; [apply kg_get|]. intros N. apply kg_or, kg_fail. Qed.
Lemma kg_disable : forall a, kg (disable U a).
Proof.
  intros a. unfold disable. apply kg_then; [apply kg_the|]. intros b. destruct (bp_on b); [|apply kg_ret]. apply kg_then; [apply kg_proc, lkg_write|]. intros _. unfold put_bp. apply kg_bps.
Qed.
Lemma kg_enable : forall a, kg (enable U a).
Proof. intros a. unfold enable. apply kg_then; [apply kg_the|]. intros b. destruct (bp_on b); [apply kg_ret|]. apply kg_then; [apply kg_create|]. intros b'. unfold put_bp. apply kg_bps. Qed.
Lemma kg_unset : forall a, kg (unset_breakpoint U a).
Proof. intros a. unfold unset_breakpoint. apply kg_then; [apply kg_disable|]. intros _. apply kg_bps. Qed.

Lemma gone_wait : forall N e N', gone N -> wait_event U fuel N <> Done e N'.
Proof.
  intros N e N' [G1 G2] H. unfold wait_event, then_, get in H. rewrite G2 in H. unfold proc at 1 in H. unfold lgone in G1.
  destruct (wait U fuel (n_link N)) as [u L| | |] eqn:W; try discriminate. clear H.
  destruct fuel; cbn [wait] in W; (destruct (k_host (n_link N)) as [[r c| |]|]; try contradiction; try discriminate; [|destruct (u_local U); discriminate]); destruct r; try contradiction; rewrite G1 in W; discriminate.
Qed.
Lemma gone_raw : forall N e N', gone N -> raw_step U fuel N <> Done e N'.
Proof.
  intros N e N' G H. unfold raw_step, then_ in H. destruct (proc (singlestep U) N) as [u N1| | |] eqn:E; try discriminate.
  revert H. apply gone_wait. eapply (kg_proc _ _ (lkg_command _)); [exact G|exact E].
Qed.
Lemma gone_single : forall d N e N', gone N -> single_step_d U fuel d N <> Done e N'.
Proof.
  induction d as [|d IH]; intros N e N' G H; cbn [single_step_d] in H; unfold then_ at 1 in H; (destruct (get_ip U N) as [ip N1| | |] eqn:E; try discriminate);
    pose proof (kg_ip _ _ _ G E) as G1; unfold then_ at 1, get in H; (destruct (enabled_at N1 ip); [|revert H; now apply gone_raw]); [discriminate|].
  unfold then_ in H. destruct (disable U ip N1) as [u N2| | |] eqn:E2; try discriminate. pose proof (kg_disable _ _ _ _ G1 E2) as G2.
  destruct (single_step_d U fuel d N2) as [e1 N3| | |] eqn:E3; try discriminate. exact (IH _ _ _ G2 E3).
Qed.
Lemma gone_continue : forall N u N', gone N -> continue_ U fuel N = Done u N' -> gone N'.
Proof.
  intros N u N' G H. unfold continue_ in H. unfold then_ at 1 in H. destruct (get_ip U N) as [ip N1| | |] eqn:E; try discriminate. pose proof (kg_ip _ _ _ G E) as G1.
  unfold then_ at 1, get in H. destruct (enabled_at N1 ip); [|eapply (kg_proc _ _ (lkg_command _)); eauto].
  exfalso. unfold over_breakpoint, then_ in H. destruct (disable U ip N1) as [u1 N2| | |] eqn:E2; try discriminate. pose proof (kg_disable _ _ _ _ G1 E2) as G2.
  destruct (single_step_d U fuel fuel N2) as [e1 N3| | |] eqn:E3; try discriminate. exact (gone_single _ _ _ _ G2 E3).
Qed.
Lemma gone_run : forall k ip bp N e N', gone N -> run_to U fuel k ip bp N <> Done e N'.
Proof.
  intros [|k] ip bp N e N' G H; [discriminate|]. cbn [run_to] in H. unfold then_ at 1 in H. destruct (continue_ U fuel N) as [u N1| | |] eqn:E; try discriminate.
  pose proof (gone_continue _ _ _ G E) as G1. unfold then_ at 1 in H. destruct (wait_event U fuel N1) as [e1 N2| | |] eqn:W; try discriminate. exact (gone_wait _ _ _ G1 W).
Qed.

Lemma kg_nread : forall a n, kg (nread_text U a n).
Proof.
  intros a n. unfold nread_text. apply kg_then; [apply kg_proc, lkg_size|]. intros z. destruct (_ <? _); [apply kg_fail|]. apply kg_then; [apply kg_proc, lkg_read|].
  intros l. apply kg_then; [apply kg_get|]. intros N. apply kg_ret.
Qed.
Lemma kg_set : forall a, kg (set_breakpoint U a).
Proof. intros a. unfold set_breakpoint. apply kg_then; [apply kg_get|]. intros N. destruct (zget _ _); [apply kg_fail|]. apply kg_then; [apply kg_create|]. intros b. unfold put_bp. apply kg_bps. Qed.
Lemma gone_over : forall skip N e N', gone N -> step_over U fuel skip N <> Done e N'.
Proof.
  intros skip N e N' G H. unfold step_over in H. unfold then_ at 1 in H. destruct (get_ip U N) as [ip N1| | |] eqn:E1; try discriminate. pose proof (kg_ip _ _ _ G E1) as G1.
  unfold then_ at 1 in H. destruct (nread_text U ip 1 N1) as [l N2| | |] eqn:E2; try discriminate. pose proof (kg_nread _ _ _ _ _ G1 E2) as G2.
  destruct l as [|t l]; [discriminate|]. destruct (is_call_text t).
  - unfold then_ at 1, get in H. cbv zeta in H. set (own := match zget (n_bps N2) (u64 (ip + 1)) with Some _ => false | None => true end) in *.
    unfold then_ at 1 in H. destruct ((if own then set_breakpoint U (u64 (ip + 1)) else ret tt) N2) as [u N3| | |] eqn:E3; try discriminate.
    assert (G3 : gone N3) by (destruct own; [eapply kg_set; eauto|eapply (kg_ret _ tt); eauto]).
    unfold then_ at 1 in H. destruct ((if skip then single_step U fuel;; ret tt else ret tt) N3) as [u2 N4| | |] eqn:E4; try discriminate.
    assert (G4 : gone N4).
    { destruct skip; [|eapply (kg_ret _ tt); eauto]. unfold then_ in E4. destruct (single_step U fuel N3) as [e1 N5| | |] eqn:E5; try discriminate. now elim (gone_single _ _ _ _ G3 E5). }
    unfold then_ at 1 in H. destruct (get_register U (str "BP") N4) as [b1 N5| | |] eqn:E5; try discriminate. pose proof (kg_register _ _ _ _ G4 E5) as G5.
    unfold then_ at 1 in H. destruct (run_to U fuel fuel ip b1 N5) as [e1 N6| | |] eqn:E6; try discriminate. exact (gone_run _ _ _ _ _ _ G5 E6).
  - destruct skip; [exact (gone_single _ _ _ _ G2 H)|exact (gone_raw _ _ _ G2 H)].
Qed.

Lemma wait_going : forall m A N c e N', going m A N c -> wait_event U fuel N = Done e N' ->
  (exists a, e = EvCpuError a) /\ gone N' \/
  exists A' r c', ended m (watched c) (c_trap c) A e A' /\ rested m A' N' r c' /\ (forall a, watched c' a <-> watched c a) /\
    (c_trap c' = true -> c_trap c = true /\ e <> EvSinglestep) /\ n_wps N' = n_wps N.
Proof.
  intros m A N c e N' G H. destruct G as [G1 G2 G3 G4 G5 G6 G7 G8 G9 G10].
  assert (P : patched m (c_prog c)).
  { destruct (holds_patched _ _ _ _ (G8 RBegin)) as (p & P1 & P2). cbn [set_link n_link] in P1. injection P1 as P1. symmetry in P1.
    apply set_prog_inj in P1. congruence. }
  pose proof (patched_all typed_instr _ _ P I orig_typed) as TP.
  unfold wait_event, then_, get in H. rewrite G10 in H.
  destruct (proc (wait U fuel) N) as [u N1| | |] eqn:Hw; try discriminate.
  destruct G2 as [GI GD GR].
  destruct (wait_ran U fuel N c A u N1 G1 GI GD G4 G3 TP TF G5 Hw) as (r & c1 & -> & Hran).
  assert (Hr : proc (get_reason U) (set_link N (stopped r c1)) = Done r (set_link N (stopped r c1))).
  { unfold proc. cbn [set_link n_link]. rewrite C33_reason. reflexivity. }
  rewrite Hr in H. set (N1 := set_link N (stopped r c1)) in *.
  destruct (classic_live r) as [Hl|Hl].
  2: { left. subst r. cbn [event_of] in H. unfold then_ in H. destruct (get_ip U N1) as [ip N2| | |] eqn:Hip; try discriminate. unfold ret in H.
       assert (e = EvCpuError ip /\ N' = N2) as [-> ->] by (split; congruence). split; [now exists ip|]. eapply kg_ip; [|exact Hip]. split; [reflexivity|exact G10]. }
  right. destruct (Hran Hl) as [A1 [R1 R2 R3 R4 R5 R6 R7 R8]]. destruct R3 as [(n & S1 & M1 & M2 & M3 & M4 & M5) M6].
  destruct (calm_calmly c m _ n A S1 P TP M1 G3) as [C1 C2].
  assert (HD : slots (n_wps N) (c_dbg c1) /\ Forall word64 (c_dbg c1) /\ (forall a, watched c1 a <-> watched c a)).
  { destruct r; try (rewrite (M6 ltac:(discriminate)); unfold watched; rewrite (M6 ltac:(discriminate)); tauto).
    destruct (M5 eq_refl) as (a & _ & Ra). destruct (slots_kept _ _ _ _ G7 Ra G5 G6) as [X Y]. split; [exact X|]. split; [exact Y|].
    intros b. destruct Ra as (i & _ & J1 & J2 & J3). unfold watched, watches. split; intros (j & K1 & K2 & K3); exists j; (split; [exact K1|]).
    - rewrite J3 in K2 by lia. destruct (Z.leb_spec 8 (Z.of_nat j)); [lia|]. cbn [andb] in K2. split; [exact K2|]. now rewrite <- J1.
    - rewrite J3 by lia. destruct (Z.leb_spec 8 (Z.of_nat j)); [lia|]. cbn [andb]. split; [exact K2|]. now rewrite J1. }
  destruct HD as (HD1 & HD2 & HD3).
  assert (Hres : forall A2 c2, n_wps N1 = n_wps N -> rests E A2 c2 -> wordy A2 -> keeps c1 c2 -> rested m A2 (set_link N (stopped r c2)) r c2).
  { intros A2 c2 _ X1 X2 [K1 K2 K3 K4 K5]. constructor; cbn [set_link n_wps n_cache]; auto; rewrite ?K2, ?K4; auto.
    - eapply (holds_move r c m (set_link N (stopped r c))); [apply G8|reflexivity|reflexivity|congruence|reflexivity].
    - unfold covers_regs in *. rewrite K5, R5. exact G9. }
  assert (Htr : forall c2, keeps c1 c2 -> c_trap c2 = true -> c_trap c = true /\ r <> RSingle).
  { intros c2 [_ _ K _ _] Ht. rewrite K, R6 in Ht. destruct r; auto; try (split; [exact Ht|discriminate]); discriminate Ht. }
  assert (Hnh : forall S, a_halted S = false -> ~ noticed (c_dbg c) (c_prog c) S RHalted -> forall S', isa_step F (c_prog c) S S' -> a_halted S' = false).
  { intros S X1 X2 S' [X3 X4]. rewrite (effect_halted U _ _ _ X4), X3. destruct (instr_at _ (a_pc S)) eqn:Q0; try reflexivity. exfalso. apply X2. now constructor. }
  assert (Hk0 : keeps c1 c1) by (constructor; reflexivity).
  destruct r.
  - (* RBegin *) exfalso. destruct M4 as [M4|[M4 _]]; [inversion M4|discriminate].
  - (* RSwBkpt *)
    assert (Hm : m (a_pc S1) = Some true).
    { destruct M4 as [M4|[M4 _]]; [|discriminate]. inversion M4 as [|Hi|]; subst. rewrite (patched_at m _ _ P) in Hi by apply (w_pc _ C2).
      destruct (m (a_pc S1)) as [[]|]; [reflexivity| |]; now apply orig_at_bkpt in Hi. }
    assert (Hs : same A1 (IsaSpec.next S1)).
    { destruct M2 as [_ M2]. rewrite (patched_at m _ _ P) in M2 by apply (w_pc _ C2). rewrite Hm in M2. exact M2. }
    cbn [event_of] in H. unfold then_ in H. destruct (get_ip U N1) as [ip N2| | |] eqn:Hip; try discriminate.
    destruct (get_ip_ok U N1 RSwBkpt c1 A1 ip N2 eq_refl R1 R2 Hip) as [-> ->]. unfold ret in H.
    destruct (step_back U N1) as [u2 N2| | |] eqn:Hsb; try discriminate. assert (N2 = N') as -> by congruence.
    assert (He : e = EvBreakpoint (u64 (a_pc A1 - 1))) by congruence. clear H.
    assert (Hpc : u64 (a_pc A1 - 1) = a_pc S1).
    { rewrite (s_pc _ _ Hs). cbn [IsaSpec.next set_pc a_pc]. unfold u64, two64, address. change (2 ^ 64) with 18446744073709551616. rewrite Zminus_mod_idemp_l.
      replace (a_pc S1 + 1 - 1) with (a_pc S1) by lia. apply Z.mod_small. apply (w_pc _ C2). }
    destruct (step_back_ok U N1 RSwBkpt c1 A1 u2 N' eq_refl R1 R2) as (c2 & A2 & B1 & B2 & B3 & B4).
    { unfold covers_regs in *. rewrite R5. exact G9. }
    { exact Hsb. }
    assert (Hs2 : same A2 S1).
    { eapply same_trans; [exact B3|]. destruct Hs as [X1 X2 X3 X4 X5 X6]. constructor; auto. }
    exists A2, RSwBkpt, c2. split; [|split; [|split; [|split]]].
    + rewrite He, Hpc. eapply en_break; eauto. destruct M2 as [M2 _]. exact M2.
    + replace N' with (set_link N (stopped RSwBkpt c2)) by (rewrite B1; reflexivity). apply Hres; auto. eapply wordy_same; [exact Hs2|exact C2].
    + intros b. unfold watched at 1. rewrite (ke_dbg _ _ B4). apply HD3.
    + intros Ht. destruct (Htr c2 B4 Ht) as [Y1 _]. split; [exact Y1|]. rewrite He. discriminate.
    + rewrite B1. reflexivity.
  - (* RHwBkpt *)
    destruct (M5 eq_refl) as (a & Ma & Mr).
    assert (Hm : m (a_pc S1) <> Some true).
    { intros Hm. rewrite (patched_at m _ _ P) in Ma by apply (w_pc _ C2). rewrite Hm in Ma. inversion Ma. }
    cbn [event_of] in H. unfold then_ in H. unfold proc in H at 1. cbn [N1 set_link n_link] in H.
    rewrite (fetch5 U RHwBkpt c1 HD2 R7) in H. change (set_link N1 (stopped RHwBkpt c1)) with N1 in H.
    destruct (C32_responsible (c_dbg c) (c_dbg c1) a (rows5 (c_dbg c1)) Mr G5 (rows5_get (c_dbg c1))) as (i & Ri & Wi). rewrite Ri in H. cbn [opt_or] in H.
    unfold ret, get in H. change (n_wps N1) with (n_wps N) in H.
    destruct (find_wp (n_wps N) i) as [[b j]|] eqn:Hf; [|discriminate].
    assert (b = a) as ->.
    { unfold find_wp in Hf. apply find_some in Hf. destruct Hf as [F1 F2]. cbn in F2. apply Nat.eqb_eq in F2. subst j.
      destruct (sl_watch _ _ G7 _ _ F1) as (_ & _ & X). destruct Wi as (_ & _ & Y). congruence. }
    assert (e = EvWatchpoint a /\ N' = N1) as [-> ->] by (split; congruence).
    exists A1, RHwBkpt, c1. split; [|split; [apply Hres; auto|split; [exact HD3|split; [|reflexivity]]]].
    + eapply en_other; eauto; [eapply patched_step; eauto|]. left. exists a. split; [reflexivity|].
      rewrite (patched_unmarked m _ _ P C2 Hm) in Ma. split; [exact Ma|]. now exists i.
    + intros Ht. destruct (Htr c1 Hk0 Ht) as [Y1 _]. split; [exact Y1|discriminate].
  - (* RSingle *)
    assert (Hm : m (a_pc S1) <> Some true /\ c_trap c = true /\ forall q, ~ noticed (c_dbg c) (c_prog c) S1 q).
    { destruct M4 as [M4|(_ & X & M4)]; [inversion M4|]. split; [|auto]. eapply calm_unmarked; eauto. }
    destruct Hm as (Hm & Ht & Hq).
    cbn [event_of] in H. unfold ret in H. assert (e = EvSinglestep /\ N' = N1) as [-> ->] by (split; congruence).
    exists A1, RSingle, c1. split; [|split; [apply Hres; auto|split; [exact HD3|split; [|reflexivity]]]].
    + eapply en_other; eauto; [eapply patched_step; eauto|]. right. right. split; [reflexivity|]. split; [exact Ht|].
      split; [eapply Hnh; eauto; destruct M2; assumption|]. intros (a & Wa & i & Wi). apply (Hq RHwBkpt). econstructor; [|exact Wi].
      now rewrite (patched_unmarked m _ _ P C2 Hm).
    + intros Ht1. destruct (Htr c1 Hk0 Ht1) as [_ Y]. now elim Y.
  - (* RHalted *)
    assert (Hm : m (a_pc S1) <> Some true /\ a_halted A1 = true).
    { destruct M4 as [M4|[M4 _]]; [|discriminate]. inversion M4 as [Hi| |]; subst. split.
      - intros Hm. rewrite (patched_at m _ _ P) in Hi by apply (w_pc _ C2). now rewrite Hm in Hi.
      - destruct M2 as [_ M2]. rewrite (effect_halted U _ _ _ M2), Hi. reflexivity. }
    destruct Hm as [Hm Ha].
    cbn [event_of] in H. unfold ret in H. assert (e = EvEnd /\ N' = N1) as [-> ->] by (split; congruence).
    exists A1, RHalted, c1. split; [|split; [apply Hres; auto|split; [exact HD3|split; [|reflexivity]]]].
    + eapply en_other; eauto. eapply patched_step; eauto.
    + intros Ht. destruct (Htr c1 Hk0 Ht) as [Y1 _]. split; [exact Y1|discriminate].
  - now elim Hl.
Qed.


(** ---- setting the machine going ---- *)

Lemma going_of : forall m A N r c t, rested m A N r c -> r <> RHalted -> (t = true \/ t = c_trap c) ->
  going m A (set_link N (mkLink (Some (leave r false (set_trap c t))) false)) (set_trap c t) /\ leave r false (set_trap c t) = Going false (set_trap c t).
Proof.
  intros m A N r c t [R1 R2 R3 R4 R5 R6 R7 R8 R9 R10 R11] Hr _.
  assert (HL : leave r false (set_trap c t) = Going false (set_trap c t)) by (destruct r; try reflexivity; [now elim Hr|now elim R2]).
  split; [|exact HL]. constructor; cbn [set_link n_link n_wps n_cache set_trap c_dbg c_halted]; auto.
  - now rewrite HL.
  - now apply rests_trap.
  - destruct (c_halted c) eqn:X; [|reflexivity]. exfalso. apply Hr. now apply R5.
  - intros r'. eapply holds_move; [exact R9|exact R1|reflexivity|reflexivity|reflexivity].
Qed.

Lemma wait_ended : forall N c e N', n_link N = mkLink (Some (Ended true c)) false -> n_cache N = None -> wait_event U fuel N = Done e N' -> False.
Proof.
  intros N c e N' L C H. unfold wait_event, then_, get in H. rewrite C in H. unfold proc at 1 in H. rewrite L in H.
  assert (G : exists k, wait U fuel (mkLink (Some (Ended true c)) false) = Failed k \/ wait U fuel (mkLink (Some (Ended true c)) false) = Blocked
     \/ wait U fuel (mkLink (Some (Ended true c)) false) = Dead).
  { exists (mkLink (Some (Ended true c)) false). destruct fuel; cbn [wait k_host]; destruct (u_local U); auto. }
  destruct G as (k & [G|[G|G]]); rewrite G in H; discriminate.
Qed.

Lemma calmly_ext : forall m w w' n S S', (forall a, w a <-> w' a) -> calmly m w n S S' -> calmly m w' n S S'.
Proof.
  intros m w w' n S S' X H. induction H; econstructor; eauto. intros (a & A1 & A2). apply H0. exists a. split; [exact A1|]. now apply X.
Qed.
Lemma ended_ext : forall m w w' t A e A', (forall a, w a <-> w' a) -> ended m w t A e A' -> ended m w' t A e A'.
Proof.
  intros m w w' t A e A' X H. destruct H as [n S1 A' H1 H2 H3 H4 H5|n S1 A' e H1 H2 H3 H4 H5].
  - eapply en_break; eauto using calmly_ext.
  - eapply en_other; eauto using calmly_ext. destruct H5 as [(a & H5 & H6 & H7)|[H5|(H5 & H6 & H7 & H8)]].
    + left. exists a. split; [exact H5|]. split; [exact H6|]. now apply X.
    + now right; left.
    + right; right. repeat (split; [assumption|]). intros (a & A1 & A2). apply H8. exists a. split; [exact A1|]. now apply X.
Qed.
Lemma ended_alive : forall m w t A e A', ended m w t A e A' -> a_halted A = false.
Proof.
  intros m w t A e A' H. destruct H as [n S1 A' H1 H2 H3 H4 H5|n S1 A' e H1 H2 H3 H4 H5].
  - destruct H1 as [|n S T0 S' _ _ H1 _ _]; [exact H4|apply H1].
  - destruct H1 as [|n S T0 S' _ _ H1 _ _]; [apply H4|apply H1].
Qed.

(** [w] is what is watched. *)
Definition watching (w : Z -> Prop) (c : cpu) : Prop := forall a, watched c a <-> w a.

Lemma go_on : forall w m A N r c t u N1 e N', rested m A N r c -> watching w c ->
  (t = true /\ proc (singlestep U) N = Done u N1 \/ t = c_trap c /\ proc (resume U) N = Done u N1) -> wait_event U fuel N1 = Done e N' ->
  (exists a, e = EvCpuError a) /\ gone N' \/
  exists A' r' c', ended m w t A e A' /\ rested m A' N' r' c' /\ watching w c' /\ (c_trap c' = true -> t = true /\ e <> EvSinglestep) /\ n_wps N' = n_wps N.
Proof.
  intros w m A N r c t u N1 e N' HR HW HS H.
  assert (HN1 : N1 = set_link N (mkLink (Some (leave r false (set_trap c t))) false)).
  { destruct HS as [[-> HS]|[-> HS]].
    - exact (singlestep_ok U _ _ _ _ _ (rs_link _ _ _ _ _ HR) HS).
    - replace (set_trap c (c_trap c)) with c by (destruct c; reflexivity). exact (resume_ok U _ _ _ _ _ (rs_link _ _ _ _ _ HR) HS). }
  assert (Hr : r <> RHalted).
  { intros ->. subst N1. eapply wait_ended; [| |exact H]; [reflexivity|exact (rs_cache _ _ _ _ _ HR)]. }
  destruct (going_of m A N r c t HR Hr) as [HG _]; [destruct HS as [[-> _]|[-> _]]; auto|]. rewrite <- HN1 in HG.
  destruct (wait_going m A N1 _ e N' HG H) as [X|(A' & r' & c' & X1 & X2 & X3 & X4 & X5)]; [now left|right].
  exists A', r', c'. split; [eapply ended_ext; [|exact X1]; exact HW|]. split; [exact X2|]. split; [|split; [exact X4|]].
  - intros a. rewrite X3. apply HW.
  - rewrite X5. subst N1. reflexivity.
Qed.

(** ---- stepping ---- *)

Lemma ended_steps : forall m w A e A', ended m w true A e A' -> m (a_pc A) <> Some true -> steps F orig w A e A'.
Proof.
  intros m w A e A' H Hm. destruct H as [n S1 A' H1 H2 H3 H4 H5|n S1 A' e H1 H2 H3 H4 H5]; rewrite (H2 eq_refl) in H1; inversion H1; subst.
  - now elim Hm.
  - destruct H5 as [(a & -> & H6 & H7)|[[-> H6]|(-> & _ & H6 & H7)]].
    + now apply st_watch.
    + now apply st_end.
    + now apply st_one.
Qed.

Definition trap_after (e : devent) (c : cpu) : Prop := c_trap c = true -> e = EvEnd \/ exists a, e = EvWatchpoint a.

Lemma raw_ok : forall w m A N r c e N', rested m A N r c -> watching w c -> m (a_pc A) <> Some true -> raw_step U fuel N = Done e N' ->
  (exists a, e = EvCpuError a) /\ gone N' \/
  exists A' r' c', steps F orig w A e A' /\ rested m A' N' r' c' /\ watching w c' /\ trap_after e c' /\ n_wps N' = n_wps N.
Proof.
  intros w m A N r c e N' HR HW Hm H. unfold raw_step, then_ in H. destruct (proc (singlestep U) N) as [u N1| | |] eqn:Hs; try discriminate.
  destruct (go_on w m A N r c true u N1 e N' HR HW ltac:(auto) H) as [X|(A' & r' & c' & X1 & X2 & X3 & X4 & X5)]; [now left|right].
  pose proof (ended_steps _ _ _ _ _ X1 Hm) as S1. exists A', r', c'. repeat (split; [assumption|]). split; [|exact X5].
  intros Ht. destruct (X4 Ht) as [_ X6]. inversion S1; subst; eauto. now elim X6.
Qed.

Lemma mark_back : forall m a, m a = Some true -> forall b, mark (mark m a (Some false)) a (Some true) b = m b.
Proof. intros m a H b. unfold mark. destruct (Z.eqb_spec b a) as [->|]; congruence. Qed.

Lemma single_unmarked : forall d m A N r c e N', rested m A N r c -> m (a_pc A) <> Some true -> single_step_d U fuel d N = Done e N' -> raw_step U fuel N = Done e N'.
Proof.
  intros d m A N r c e N' HR Hm H.
  assert (G : single_step_d U fuel d N = (let* ip := get_ip U in let* N := get in if enabled_at N ip then match d with O => fun _ => Blocked | Datatypes.S d' => disable U ip;; let* e := single_step_d U fuel d' in enable U ip;; ret e end else raw_step U fuel) N) by (destruct d; reflexivity).
  rewrite G in H. clear G. unfold then_, get in H. destruct (get_ip U N) as [ip N1| | |] eqn:Hip; try discriminate.
  destruct (get_ip_ok U _ _ _ _ _ _ (rs_link _ _ _ _ _ HR) (rs_rests _ _ _ _ _ HR) (rs_wordy _ _ _ _ _ HR) Hip) as [-> ->].
  rewrite (enabled_mark _ _ _ _ _ _ HR) in H. destruct (m (a_pc A)) as [[]|]; [now elim Hm|exact H|exact H].
Qed.

Lemma over_ok : forall d w m A N r c e N', rested m A N r c -> watching w c -> m (a_pc A) = Some true ->
  (disable U (a_pc A);; let* e := single_step_d U fuel d in enable U (a_pc A);; ret e) N = Done e N' ->
  (exists a, e = EvCpuError a) /\ gone N' \/
  exists A' r' c', steps F orig w A e A' /\ rested m A' N' r' c' /\ watching w c' /\ trap_after e c' /\ n_wps N' = n_wps N.
Proof.
  intros d w m A N r c e N' HR HW Hm H. unfold then_, ret in H.
  destruct (disable U (a_pc A) N) as [u N1| | |] eqn:Hd; try discriminate.
  assert (Hm0 : m (a_pc A) <> None) by congruence.
  destruct (disable_rested _ _ _ _ _ _ _ _ HR Hm0 Hd) as (p1 & HR1 & HW1).
  destruct (single_step_d U fuel d N1) as [e1 N2| | |] eqn:Hs; try discriminate.
  destruct (enable U (a_pc A) N2) as [u2 N3| | |] eqn:He; try discriminate. assert (e1 = e /\ N3 = N') as [-> ->] by (split; congruence).
  assert (Hm1 : mark m (a_pc A) (Some false) (a_pc A) = Some false) by (unfold mark; now rewrite Z.eqb_refl).
  apply (single_unmarked d _ _ _ _ _ _ _ HR1) in Hs; [|congruence].
  assert (Hm2 : mark m (a_pc A) (Some false) (a_pc A) <> Some true) by congruence. assert (Hm3 : mark m (a_pc A) (Some false) (a_pc A) <> None) by congruence.
  destruct (raw_ok w _ _ _ _ _ _ _ HR1 HW Hm2 Hs) as [[X G]|(A' & r' & c' & X1 & X2 & X3 & X4 & X5)]; [left; split; [exact X|eapply kg_enable; eauto]|right].
  destruct (enable_rested _ _ _ _ _ _ _ _ X2 Hm3 He) as (p2 & HR2 & HW2).
  exists A', r', (set_prog c' p2). split; [exact X1|]. split; [eapply rested_ext; [exact HR2|now apply mark_back]|]. split; [exact X3|]. split; [exact X4|]. congruence.
Qed.

Lemma single_ok : forall w m A N r c e N', rested m A N r c -> watching w c -> single_step U fuel N = Done e N' ->
  (exists a, e = EvCpuError a) /\ gone N' \/
  exists A' r' c', steps F orig w A e A' /\ rested m A' N' r' c' /\ watching w c' /\ trap_after e c' /\ n_wps N' = n_wps N.
Proof.
  intros w m A N r c e N' HR HW H. unfold single_step in H. destruct (match m (a_pc A) with Some true => true | _ => false end) eqn:Hb.
  - assert (Hm : m (a_pc A) = Some true) by (destruct (m (a_pc A)) as [[]|]; congruence).
    assert (G : exists d, (disable U (a_pc A);; let* e := single_step_d U fuel d in enable U (a_pc A);; ret e) N = Done e N').
    { set (f := fuel) in H at 2. revert H. destruct f as [|d]; intros H;
        cbn [single_step_d] in H; unfold then_ at 1 in H; (destruct (get_ip U N) as [ip N1| | |] eqn:Hip; try discriminate);
        (destruct (get_ip_ok U _ _ _ _ _ _ (rs_link _ _ _ _ _ HR) (rs_rests _ _ _ _ _ HR) (rs_wordy _ _ _ _ _ HR) Hip) as [-> ->]);
        unfold then_ at 1, get in H; rewrite (enabled_mark _ _ _ _ _ _ HR), Hm in H; [discriminate|]. exists d. exact H. }
    destruct G as (d & G). eapply over_ok; eauto.
  - assert (Hm : m (a_pc A) <> Some true) by (destruct (m (a_pc A)) as [[]|]; congruence).
    eapply raw_ok; eauto. eapply single_unmarked; eauto.
Qed.

(** ---- continuing ---- *)

Lemma reported_same : forall m w S T T' e, same T' T -> reported orig m w S T e -> reported orig m w S T' e.
Proof.
  intros m w S T0 T' e X H. destruct H as [a H1 H2|H|H1 H2 H3].
  - now apply rp_watch.
  - apply rp_end. rewrite (s_halted _ _ X). exact H.
  - rewrite <- (s_pc _ _ X). apply rp_break; [now rewrite (s_pc _ _ X)|now rewrite (s_halted _ _ X)|exact H3].
Qed.
Lemma not_reported : forall m w S T, ~ writes_watched orig w S -> a_halted T = false -> m (a_pc T) <> Some true -> forall e, ~ reported orig m w S T e.
Proof. intros m w S T0 H1 H2 H3 e H. destruct H as [a A1 A2|H|H _ _]; [apply H1; now exists a|congruence|now apply H3]. Qed.

Lemma ended_continues : forall m w t A e A', ended m w t A e A' -> m (a_pc A) <> Some true -> e <> EvSinglestep -> continues F orig m w A e A'.
Proof.
  intros m w t A e A' H Hm He. destruct H as [n S1 A' H1 _ H3 H4 H5|n S1 A' e H1 _ H3 H4 H5].
  - induction H1 as [|n S T0 S1 K1 K2 K3 K4 K5 IH]; [now elim Hm|].
    destruct K5 as [T0|n T0 T1 S1 L1 L2 L3 L4 L5].
    + apply co_last; [eapply step_to_same; eauto|]. eapply reported_same; [exact H5|]. now apply rp_break.
    + eapply co_more; [exact K3|now apply not_reported|]. apply IH; auto.
  - induction H1 as [|n S T0 S1 K1 K2 K3 K4 K5 IH].
    + apply co_last; [exact H4|]. destruct H5 as [(a & -> & X1 & X2)|[[-> X1]|(-> & _)]]; [now apply rp_watch|now apply rp_end|now elim He].
    + eapply co_more; [exact K3| |apply IH; auto].
      * apply not_reported; auto. destruct K5; auto.
      * destruct K5; auto.
Qed.

Definition continue_wait : act native devent := continue_ U fuel;; wait_event U fuel.

Lemma set_cache_back : forall N e, n_cache N = None -> set_cache (set_cache N (Some e)) None = N.
Proof. intros [a b k l] e H. cbn in H. subst. reflexivity. Qed.

Lemma continue_ok : forall w m A N r c e N', rested m A N r c -> watching w c -> (c_trap c = true -> a_halted A = true \/ m (a_pc A) = Some true) ->
  continue_wait N = Done e N' ->
  (exists a, e = EvCpuError a) /\ gone N' \/
  exists A' r' c', continues F orig m w A e A' /\ rested m A' N' r' c' /\ watching w c' /\
    (c_trap c' = true -> m (a_pc A) = Some true /\ isa_step F orig A A' /\ (e = EvEnd \/ exists a, e = EvWatchpoint a)) /\ n_wps N' = n_wps N.
Proof.
  intros w m A N r c e N' HR HW Ht H. unfold continue_wait, then_ in H.
  destruct (continue_ U fuel N) as [u N1| | |] eqn:Hc; try discriminate.
  unfold continue_ in Hc. unfold then_ at 1 in Hc. destruct (get_ip U N) as [ip N0| | |] eqn:Hip; try discriminate.
  destruct (get_ip_ok U _ _ _ _ _ _ (rs_link _ _ _ _ _ HR) (rs_rests _ _ _ _ _ HR) (rs_wordy _ _ _ _ _ HR) Hip) as [-> ->].
  unfold then_ at 1, get in Hc. rewrite (enabled_mark _ _ _ _ _ _ HR) in Hc.
  destruct (match m (a_pc A) with Some b => b | None => false end) eqn:Hb.
  - assert (Hm : m (a_pc A) = Some true) by (destruct (m (a_pc A)) as [[]|]; congruence).
    unfold then_ at 1 in Hc. destruct (over_breakpoint U fuel (a_pc A) N) as [e1 N2| | |] eqn:Ho; try discriminate.
    destruct (over_ok fuel w m A N r c e1 N2 HR HW Hm Ho) as [[[a ->] [GA GB]]|(A1 & r1 & c1 & X1 & X2 & X3 & X4 & X5)].
    { left. unfold update in Hc. assert (HN1 : N1 = set_cache N2 (Some (EvCpuError a))) by congruence. subst N1.
      unfold wait_event, then_, get in H. cbn [set_cache n_cache] in H. unfold update, ret in H.
      assert (e = EvCpuError a /\ N' = set_cache (set_cache N2 (Some (EvCpuError a))) None) as [-> ->] by (split; congruence). split; [now exists a|]. split; [exact GA|reflexivity]. }
    assert (Hcache : e1 <> EvSinglestep -> N1 = set_cache N2 (Some e1)).
    { intros He. destruct e1; try (unfold update in Hc; congruence). }
    assert (Hcase : e1 = EvSinglestep \/ e1 <> EvSinglestep) by (destruct e1; auto; right; discriminate).
    destruct Hcase as [He|He].
    + subst e1. assert (Ht1 : c_trap c1 = false).
      { destruct (c_trap c1) eqn:Q1; [|reflexivity]. destruct (X4 Q1) as [Q2|[a Q2]]; discriminate. }
      destruct (go_on w m A1 N2 r1 c1 (c_trap c1) u N1 e N' X2 X3 ltac:(auto) H) as [Y|(A' & r' & c' & Y1 & Y2 & Y3 & Y4 & Y5)]; [now left|right].
      exists A', r', c'. split; [|split; [exact Y2|split; [exact Y3|split; [|congruence]]]].
      2: { intros Q1. destruct (Y4 Q1). congruence. }
      assert (He : e <> EvSinglestep).
      { destruct Y1 as [|n S1 A' e _ _ _ _ [(a & -> & _)|[[-> _]|(_ & Q1 & _)]]]; try discriminate. congruence. }
      inversion X1 as [|S0 S0' K1 K2|S0 S0' K1 K2 K3]; subst S0 S0'.
      destruct (match m (a_pc A1) with Some true => true | _ => false end) eqn:Hb1.
      * assert (Hm1 : m (a_pc A1) = Some true) by (destruct (m (a_pc A1)) as [[]|]; congruence).
        destruct Y1 as [n S1 A' L1 _ L3 L4 L5|n S1 A' e L1 _ L3 _ _].
        -- destruct L1 as [|n S T0 S1 L1 _ _ _ _]; [|now elim L1]. apply co_last; [eapply step_to_same; eauto|]. eapply reported_same; [exact L5|]. now apply rp_break.
        -- destruct L1 as [|n S T0 S1 L1 _ _ _ _]; [now elim L3|now elim L1].
      * assert (Hm1 : m (a_pc A1) <> Some true) by (destruct (m (a_pc A1)) as [[]|]; congruence).
        eapply co_more; [exact K1|now apply not_reported|]. eapply ended_continues; eauto.
    + pose proof (Hcache He) as ->. right. unfold wait_event, then_, get in H. cbn [set_cache n_cache] in H. unfold update, ret in H.
      change (mkNative (n_bps (set_cache N2 (Some e1))) (n_wps (set_cache N2 (Some e1))) None (n_link (set_cache N2 (Some e1)))) with (set_cache (set_cache N2 (Some e1)) None) in H.
      rewrite (set_cache_back N2 e1 (rs_cache _ _ _ _ _ X2)) in H.
      assert (e = e1 /\ N' = N2 /\ continues F orig m w A e1 A1) as (-> & -> & HC).
      { inversion X1 as [S0 S0' a K1 K2 K3|S0 S0' K1 K2|]; subst; [| |now elim He];
          (split; [congruence|split; [congruence|]]); apply co_last; auto; [now apply rp_watch|now apply rp_end]. }
      exists A1, r1, c1. repeat (split; [assumption|]). split; [|assumption]. intros Q1. split; [exact Hm|]. split; [inversion X1; assumption|now apply X4].
  - assert (Hm : m (a_pc A) <> Some true) by (destruct (m (a_pc A)) as [[]|]; congruence).
    destruct (go_on w m A N r c (c_trap c) u N1 e N' HR HW ltac:(auto) H) as [Y|(A' & r' & c' & Y1 & Y2 & Y3 & Y4 & Y5)]; [now left|right].
    assert (Htf : c_trap c = false).
    { destruct (c_trap c) eqn:Q1; [|reflexivity]. destruct (Ht eq_refl) as [Q2|Q2]; [|contradiction]. rewrite (ended_alive _ _ _ _ _ _ Y1) in Q2. discriminate. }
    exists A', r', c'. split; [|split; [exact Y2|split; [exact Y3|split; [|congruence]]]].
    + eapply ended_continues; eauto. destruct Y1 as [|n S1 A' e _ _ _ _ [(a & -> & _)|[[-> _]|(_ & Q1 & _)]]]; try discriminate. congruence.
    + intros Q1. destruct (Y4 Q1). congruence.
Qed.


(** In stepping mode. *)
Lemma left_ok : forall w m A N r c e N', rested m A N r c -> watching w c -> c_trap c = true -> m (a_pc A) <> Some true -> continue_wait N = Done e N' ->
  (exists a, e = EvCpuError a) /\ gone N' \/
  exists A' r' c', steps F orig w A e A' /\ rested m A' N' r' c' /\ watching w c' /\ trap_after e c' /\ n_wps N' = n_wps N.
Proof.
  intros w m A N r c e N' HR HW Ht Hm H. unfold continue_wait, then_ in H.
  destruct (continue_ U fuel N) as [u N1| | |] eqn:Hc; try discriminate.
  unfold continue_ in Hc. unfold then_ at 1 in Hc. destruct (get_ip U N) as [ip N0| | |] eqn:Hip; try discriminate.
  destruct (get_ip_ok U _ _ _ _ _ _ (rs_link _ _ _ _ _ HR) (rs_rests _ _ _ _ _ HR) (rs_wordy _ _ _ _ _ HR) Hip) as [-> ->].
  unfold then_ at 1, get in Hc. rewrite (enabled_mark _ _ _ _ _ _ HR) in Hc.
  destruct (match m (a_pc A) with Some b => b | None => false end) eqn:Hb; [destruct (m (a_pc A)) as [[]|]; congruence|].
  destruct (go_on w m A N r c (c_trap c) u N1 e N' HR HW ltac:(auto) H) as [Y|(A' & r' & c' & Y1 & Y2 & Y3 & Y4 & Y5)]; [now left|right].
  rewrite Ht in Y1. pose proof (ended_steps _ _ _ _ _ Y1 Hm) as S1. exists A', r', c'. repeat (split; [assumption|]). split; [|exact Y5].
  intros Q1. destruct (Y4 Q1) as [_ X6]. inversion S1; subst; eauto. now elim X6.
Qed.

(** ---- setting a watchpoint ---- *)

Lemma put_watch_only : forall d i a j b, length d = 5%nat -> (i < 4)%nat -> watches (put_watch d i a) j b -> j = i /\ b = a \/ j <> i /\ watches d j b.
Proof.
  intros d i a j b L Hi (J1 & J2 & J3). unfold put_watch in J2, J3.
  rewrite nth_set in J2 by (rewrite set_nth_length; lia). cbn [Nat.eqb] in J2. rewrite nth_set in J3 by (rewrite set_nth_length; lia).
  destruct (Nat.eqb_spec j 4); [lia|]. rewrite nth_set in J3 by lia. destruct (Nat.eqb_spec j i) as [->|Hj]; [left; auto|right].
  split; [exact Hj|]. split; [exact J1|]. split; [|exact J3]. rewrite Z.lor_spec, one_bit in J2 by lia.
  destruct (Z.eqb_spec (Z.of_nat j) (Z.of_nat i)); [lia|]. now rewrite orb_false_r in J2.
Qed.

Definition listed (N : native) (a : Z) : Prop := In a (map fst (n_wps N)).

Lemma watch_ok : forall m A N r c a, rested m A N r c -> watching (listed N) c -> word64 a ->
  (listed N a \/ (4 <= length (n_wps N))%nat -> set_watchpoint U a N = Failed N) /\
  (~ listed N a -> (length (n_wps N) < 4)%nat -> exists N' c', set_watchpoint U a N = Done tt N' /\ rested m A N' r c' /\ watching (listed N') c' /\ c_trap c' = c_trap c /\
     (forall b, listed N' b <-> b = a \/ listed N b) /\ length (n_wps N') = Datatypes.S (length (n_wps N))).
Proof.
  intros m A N r c a [R1 R2 [I1 I2 I3] R4 R5 R6 R7 R8 R9 R10 R11] HW Wa. unfold set_watchpoint, get, listed in *. split.
  - intros H. unfold then_. destruct (zget (n_wps N) a) as [i|] eqn:G; [reflexivity|]. apply zget_key in G. destruct H as [H|H]; [contradiction|].
    apply (free_none _ _ R8) in H. now rewrite H.
  - intros Hn Hl. apply zget_key in Hn. unfold then_. rewrite Hn.
    destruct (free_register (n_wps N)) as [i|] eqn:Fr; [|apply (free_none _ _ R8) in Fr; lia]. destruct (free_some _ _ Fr) as [Hi Ni].
    cbn [opt_or]. unfold ret, proc. rewrite R1, (fetch5 U r c R7 R6). cbn [set_link n_link].
    destruct (watch_sent U r c i a R7 R6 Hi Wa) as (regs1 & regs2 & E1 & E2 & E3). rewrite E1. cbn [opt_or]. unfold ret. rewrite E2. cbn [opt_or]. unfold ret.
    cbn [set_link n_link]. rewrite E3. unfold update. eexists. exists (set_dbg c (put_watch (c_dbg c) i a) (c_int c)). split; [reflexivity|].
    destruct (put_watch_bits (c_dbg c) i a R6 Hi R7 Wa) as (B1 & B2 & B3 & B4).
    assert (K : forall b, In b (map fst (zput (n_wps N) a i)) <-> b = a \/ In b (map fst (n_wps N))).
    { intros b. rewrite (mput_keys Z.eqb Z.ltb zeqb_eq). intuition congruence. }
    split; [|split; [|split; [reflexivity|split; [exact K|]]]].
    + constructor; cbn [set_wps set_link n_link n_wps n_cache set_dbg c_dbg c_halted]; auto; [constructor|now apply slots_put|].
      * now apply poke_dbg_inv.
      * exact I2.
      * exact I3.
      * eapply holds_move; [exact R9|exact R1|reflexivity|reflexivity|reflexivity].
    + intros b. unfold watched. cbn [set_dbg c_dbg set_wps set_link n_wps]. rewrite K. split.
      * intros (j & Wj). destruct (put_watch_only _ _ _ _ _ R6 Hi Wj) as [[-> ->]|[_ Wj']]; [now left|right]. apply HW. now exists j.
      * intros [->|Hb]; [now exists i|]. apply in_map_iff in Hb. destruct Hb as ([b' j] & Hb1 & Hb). cbn in Hb1. subst b'. exists j. apply B4; [|now apply (sl_watch _ _ R8)].
        intros ->. apply Ni, in_map_iff. now exists (b, i).
    + cbn [set_wps set_link n_wps]. rewrite (Permutation.Permutation_length (zput_perm (n_wps N) a i Hn)). reflexivity.
Qed.

(** Setting a breakpoint outside the program: the VM is gone. *)
Lemma outside_dead : forall r c N a, n_link N = stopped r c -> zget (n_bps N) a = None -> Z.of_nat (length (c_prog c)) <= a < 2 ^ 63 ->
  set_breakpoint U a N = if u_local U then Dead else Failed (set_link N (mkLink None true)).
Proof.
  clear orig_len. intros r c N a L B A. unfold set_breakpoint, get, then_ at 1. rewrite B. unfold then_, create_breakpoint, read_one, then_, proc. rewrite L.
  rewrite (C33_read_text U r c a 1 PL) by lia. change (Z.to_nat 1) with 1%nat. unfold range. cbn [seq map]. unfold ret. cbn [set_link n_link].
  unfold write_text. cbn [length addresses seq map combine each]. unfold then_. cbn [write_text_1].
  change (Z.of_nat 0) with 0. rewrite Z.add_0_r. unfold u64, two64. rewrite Z.mod_small by lia.
  assert (CK : check_instr (u_stod U) BKPT = POk tt) by reflexivity. rewrite CK. unfold command, then_.
  unfold ask. cbn [stopped k_host k_told].
  assert (E : serve (u_stod U) (u_ftos U) (u_gtos U) (u_stof U) (u_cfg U) r (str "POKETEXT " ++ show_Z a ++ [SPACE] ++ BKPT) c = Throw ETextRange c).
  { unfold serve. rewrite (decode_poketext_msg _ _ a BKPT IBkpt); [|lia|cbn; intuition discriminate|reflexivity]. cbn [do_cmd]. unfold poke_text.
    destruct (Z.ltb_spec a (Z.of_nat (length (c_prog c)))); [lia|]. rewrite andb_false_r. reflexivity. }
  rewrite E. destruct (u_local U); reflexivity.
Qed.
Lemma outside_fails : forall r c N a u N', n_link N = stopped r c -> zget (n_bps N) a = None -> Z.of_nat (length (c_prog c)) <= a < 2 ^ 63 -> set_breakpoint U a N = Done u N' -> False.
Proof. intros r c N a u N' L B A H. rewrite (outside_dead r c N a L B A) in H. destruct (u_local U); discriminate. Qed.

(** ---- stepping over ---- *)

Notation none := (fun _ : Z => False).
(** Behind every CALL there is an instruction that can be put back. *)
Definition calls_return : Prop := forall a, 0 <= a -> is_call (prog_at orig a) -> a + 1 < Z.of_nat (length orig) -> restorable U (prog_at orig (a + 1)).

Lemma call_text : forall i, is_call_text (show_instr (u_ftos U) i) = true <-> is_call i.
Proof.
  intros i. unfold is_call_text, show_instr. rewrite C43_prefix. split.
  - intros [t E]. destruct i as [[]|[]|[]| | | | | | | | | | | |[]| | | | | | | | | | |]; try discriminate E; exact I.
  - destruct i; try contradiction. intros _. eexists. reflexivity.
Qed.
Lemma ret_text : forall i, is_ret_text (show_instr (u_ftos U) i) = true <-> i = IRet.
Proof.
  intros i. unfold is_ret_text, show_instr. rewrite C43_prefix. split.
  - intros [t E]. destruct i as [[]|[]|[]| | | | | | | | | | | |[]| | | | | | | | | | |]; try discriminate E; reflexivity.
  - intros ->. exists []. reflexivity.
Qed.

Lemma text_ok : forall m A N r c l N', rested m A N r c -> nread_text U (a_pc A) 1 N = Done l N' ->
  N' = N /\ l = [show_instr (u_ftos U) (instr_at orig (a_pc A))] /\ a_pc A < Z.of_nat (length orig).
Proof.
  intros m A N r c l N' HR H. pose proof (w_pc _ (rs_wordy _ _ _ _ _ HR)) as Hpc.
  destruct (Z.lt_ge_cases (a_pc A) (Z.of_nat (length orig))) as [L|L].
  - rewrite (read_ok U Q PL T r c orig m N (a_pc A) 1 orig_len (rs_holds _ _ _ _ _ HR)) in H by lia.
    assert (E1 : l = map (reads_at U N orig) (range (a_pc A) (Z.to_nat 1))) by congruence. assert (E2 : N' = N) by congruence.
    split; [exact E2|]. split; [|exact L]. rewrite E1. unfold range. change (Z.to_nat 1) with 1%nat. cbn [seq map]. rewrite Z.add_0_r. f_equal.
    unfold reads_at. rewrite instr_prog by lia. destruct (zget (n_bps N) (a_pc A)) as [b|] eqn:Hb; [|reflexivity].
    now destruct (h_data _ _ _ _ _ _ (rs_holds _ _ _ _ _ HR) _ _ Hb) as [_ [-> _]].
  - exfalso. pose proof (rested_patched _ _ _ _ _ HR) as (Lp & _). unfold nread_text, then_ in H. unfold proc at 1 in H. rewrite (rs_link _ _ _ _ _ HR) in H.
    rewrite C33_text_size in H by (rewrite Lp; lia). rewrite Lp in H. destruct (Z.ltb_spec (Z.of_nat (length orig)) (u64 (a_pc A + 1))) as [G|G]; [discriminate|].
    assert (Hm : a_pc A = 18446744073709551615).
    { destruct (Z.eq_dec (a_pc A) 18446744073709551615) as [e|e]; [exact e|]. unfold u64, two64 in G. rewrite Z.mod_small in G; unfold two64 in *; lia. }
    rewrite Hm in H. unfold proc in H. cbn [set_link n_link] in H. unfold read_text, then_ in H. unfold ask in H. cbn [stopped k_host k_told] in H.
    assert (DT : forall s s1, decode s s1 (str "PEEKTEXT " ++ show_Z 18446744073709551615 ++ [SPACE] ++ show_Z 1) = DThrow) by reflexivity.
    unfold serve in H. rewrite DT in H. destruct (u_local U); discriminate.
Qed.

Lemma with_break_self : forall m a x, x <> a -> with_break m a x = m x.
Proof. intros m a x H. unfold with_break, mark. destruct (m a); [reflexivity|]. destruct (Z.eqb_spec x a); [contradiction|reflexivity]. Qed.
Lemma with_break_away : forall m a, m a = None -> forall x, mark (with_break m a) a None x = m x.
Proof. intros m a H x. unfold with_break. rewrite H. unfold mark. destruct (Z.eqb_spec x a) as [->|]; congruence. Qed.

Lemma reported_none : forall m S T e, reported orig m none S T e -> e = EvEnd /\ a_halted T = true \/ e = EvBreakpoint (a_pc T) /\ m (a_pc T) = Some true /\ a_halted T = false.
Proof. intros m S T0 e H. destruct H as [a _ []|H|H1 H2 _]; auto. Qed.
Lemma continues_none : forall m S e S', continues F orig m none S e S' -> e = EvEnd /\ a_halted S' = true \/ e = EvBreakpoint (a_pc S') /\ m (a_pc S') = Some true /\ a_halted S' = false.
Proof. intros m S e S' H. induction H as [S S' e H1 H2|]; auto. eapply reported_none; eauto. Qed.

Lemma run_to_ok : forall k m A N r c a e N', rested (with_break m a) A N r c -> watching none c -> (c_trap c = true -> a_halted A = true) ->
  forall ip bp, u64 (ip + 1) = a -> run_to U fuel k ip bp N = Done e N' ->
  (exists b, e = EvCpuError b) /\ gone N' \/
  exists e1 A' r' c', comes_back F orig m none a bp A e1 A' /\ e1 = (if a_pc A' =? a then match e with EvBreakpoint _ => EvSinglestep | _ => e end else e) /\
    rested (with_break m a) A' N' r' c' /\ watching none c' /\ (c_trap c' = true -> a_halted A' = true) /\ n_wps N' = n_wps N.
Proof.
  induction k as [|k IH]; intros m A N r c a e N' HR HW Ht ip bp Ha H; [discriminate|].
  cbn [run_to] in H. unfold then_ at 1 in H. destruct (continue_ U fuel N) as [u N1| | |] eqn:Hc; try discriminate.
  unfold then_ at 1 in H. destruct (wait_event U fuel N1) as [e1 N2| | |] eqn:Hw; try discriminate.
  assert (G : continue_wait N = Done e1 N2) by (unfold continue_wait, then_; rewrite Hc; exact Hw).
  destruct (continue_ok none _ A N r c e1 N2 HR HW ltac:(auto) G) as [[[b ->] GG]|(A1 & r1 & c1 & Y1 & Y2 & Y3 & Y4 & Y5)].
  { left. cbn [is_bp_event negb] in H. unfold then_ in H. destruct (get_register U (str "BP") N2) as [b1 N3| | |] eqn:E1; try discriminate.
    destruct (get_ip U N3) as [i1 N4| | |] eqn:E2; try discriminate. rewrite !andb_false_r in H. cbn [andb] in H. unfold ret in H.
    assert (e = EvCpuError b /\ N' = N4) as [-> ->] by (split; congruence). split; [now exists b|]. eapply kg_ip; [eapply kg_register; eauto|exact E2]. }
  assert (Ht1 : c_trap c1 = true -> a_halted A1 = true).
  { intros Q1. destruct (Y4 Q1) as (_ & _ & [->|[b ->]]); destruct (continues_none _ _ _ _ Y1) as [[X1 X2]|(X1 & _)]; try discriminate; auto. }
  unfold then_ at 1 in H. destruct (get_register U (str "BP") N2) as [b1 N3| | |] eqn:Hb; try discriminate.
  destruct (get_bp_ok U _ _ _ _ _ _ (rs_link _ _ _ _ _ Y2) (rs_rests _ _ _ _ _ Y2) (rs_wordy _ _ _ _ _ Y2) Hb) as [-> ->].
  unfold then_ at 1 in H. destruct (get_ip U N2) as [i1 N3| | |] eqn:Hi; try discriminate.
  destruct (get_ip_ok U _ _ _ _ _ _ (rs_link _ _ _ _ _ Y2) (rs_rests _ _ _ _ _ Y2) (rs_wordy _ _ _ _ _ Y2) Hi) as [-> ->].
  rewrite Ha in H. destruct (continues_none _ _ _ _ Y1) as [[-> X2]|(-> & X2 & X3)]; cbn [is_bp_event negb] in H; rewrite ?andb_false_r, ?andb_true_r in H; cbn [andb] in H.
  - right. unfold ret in H. assert (e = EvEnd /\ N' = N2) as [-> ->] by (split; congruence). exists EvEnd, A1, r1, c1.
    split; [apply cb_other; [exact Y1|discriminate]|]. split; [now destruct (_ =? _)|]. auto.
  - destruct (Z.eqb_spec (a_pc A1) a) as [Hp|Hp]; cbn [negb] in H; rewrite ?andb_true_r, ?andb_false_r in H.
    + destruct (Z.eqb_spec bp (a_reg A1 (LR BP))) as [Hbp|Hbp].
      * right. unfold ret in H. assert (e = EvBreakpoint (a_pc A1) /\ N' = N2) as [-> ->] by (split; congruence). exists EvSinglestep, A1, r1, c1.
        split; [apply cb_back; [rewrite <- Hp at 2; exact Y1|congruence]|]. rewrite Hp, Z.eqb_refl. auto.
      * destruct (IH m A1 N2 r1 c1 a e N' Y2 Y3 Ht1 ip bp Ha H) as [X|(e2 & A2 & r2 & c2 & Z1 & Z2 & Z3 & Z4 & Z5 & Z6)]; [now left|right].
        exists e2, A2, r2, c2. split; [eapply cb_deeper; [rewrite <- Hp at 2; exact Y1|congruence|exact Z1]|]. rewrite Z6, Y5. auto.
    + right. unfold ret in H. assert (e = EvBreakpoint (a_pc A1) /\ N' = N2) as [-> ->] by (split; congruence). exists (EvBreakpoint (a_pc A1)), A1, r1, c1.
      split; [apply cb_other; [exact Y1|congruence]|]. destruct (Z.eqb_spec (a_pc A1) a); [contradiction|]. auto.
Qed.

Lemma continues_wordy : forall m w S e S', continues F orig m w S e S' -> wordy S -> wordy S'.
Proof. intros m w S e S' H. induction H; intros W; eauto using step_wordy. Qed.
Lemma comes_event : forall m a bp A e A', comes_back F orig m none a bp A e A' -> e = EvSinglestep \/ e = EvEnd \/ exists b, e = EvBreakpoint b.
Proof. intros m a bp A e A' H. induction H as [| |S e S' H _]; auto. destruct (continues_none _ _ _ _ H) as [[-> _]|[-> _]]; eauto. Qed.

(** An instruction that halts is HALT, hence nothing halts right before the return address. *)
Lemma comes_halt : forall m a bp A e A', comes_back F orig m none a bp A e A' -> e = EvEnd -> wordy A ->
  exists S, wordy S /\ isa_step F orig S A' /\ instr_at orig (a_pc S) = IHalt.
Proof.
  intros m a bp A e A' H. induction H as [|S T0 e S' H1 _ _ IH|S e S' H _]; intros He W; try discriminate.
  - apply IH; [exact He|]. eapply continues_wordy; eauto.
  - induction H as [S S' e H1 H2|S T0 S' e H1 _ _ IH].
    + exists S. split; [exact W|]. split; [exact H1|]. subst e.
      inversion H2. destruct H1 as [H3 H4]. rewrite (effect_halted U _ _ _ H4), H3 in H. destruct (instr_at orig (a_pc S)); try discriminate. reflexivity.
    + apply IH; [exact He|]. eapply step_wordy; eauto.
Qed.

Lemma call_step : forall S S', is_call (instr_at orig (a_pc S)) -> isa_step F orig S S' -> a_reg S' (LR BP) = a_reg S (LR BP) /\ a_halted S' = false.
Proof.
  intros S S' Hc [H1 H2]. split.
  - destruct (instr_at orig (a_pc S)) eqn:Hi; try contradiction. destruct H2 as (t & sp & ret & _ & _ & _ & _ & H2). rewrite (s_reg _ _ H2) by discriminate. reflexivity.
  - rewrite (effect_halted U _ _ _ H2), H1. destruct (instr_at orig (a_pc S)); try contradiction; reflexivity.
Qed.

Lemma over_all : forall skip m A N r c e N', calls_return -> rested m A N r c -> watching none c -> (skip = false -> c_trap c = true -> a_halted A = true) ->
  step_over U fuel skip N = Done e N' ->
  gone N' \/
  exists A' r' c', over F orig m none skip A e A' /\ rested m A' N' r' c' /\ watching none c' /\
    (c_trap c' = true -> a_halted A' = true \/ skip = false /\ exists a, e = EvBreakpoint a) /\ n_wps N' = n_wps N.
Proof.
  intros skip m A N r c e N' CR HR HW Ht H. unfold step_over in H. unfold then_ at 1 in H.
  destruct (get_ip U N) as [ip N0| | |] eqn:Hip; try discriminate.
  destruct (get_ip_ok U _ _ _ _ _ _ (rs_link _ _ _ _ _ HR) (rs_rests _ _ _ _ _ HR) (rs_wordy _ _ _ _ _ HR) Hip) as [-> ->].
  unfold then_ at 1 in H. destruct (nread_text U (a_pc A) 1 N) as [l N0| | |] eqn:Hl; try discriminate.
  destruct (text_ok _ _ _ _ _ _ _ HR Hl) as (-> & -> & Hlen). pose proof (w_pc _ (rs_wordy _ _ _ _ _ HR)) as Hpc.
  assert (Ua : u64 (a_pc A + 1) = a_pc A + 1) by (unfold u64, two64; rewrite Z.mod_small; lia).
  assert (Aa : address (a_pc A + 1) = a_pc A + 1) by exact Ua.
  destruct (is_call_text (show_instr (u_ftos U) (instr_at orig (a_pc A)))) eqn:Hct.
  - apply call_text in Hct. unfold get in H. unfold then_ at 1 in H. rewrite Ua in H. cbv zeta in H.
    set (a := a_pc A + 1) in *. set (own := match zget (n_bps N) a with Some _ => false | None => true end) in *.
    assert (Hown : m a = None <-> own = true).
    { rewrite (h_marks _ _ _ _ _ _ (rs_holds _ _ _ _ _ HR)). unfold own. destruct (zget (n_bps N) a); cbn [option_map]; split; congruence. }
    unfold then_ at 1 in H. destruct ((if own then set_breakpoint U a else ret tt) N) as [u N1| | |] eqn:Hset; try discriminate.
    assert (G1 : exists q, rested (with_break m a) A N1 r (set_prog c q) /\ n_wps N1 = n_wps N /\ (own = true -> T a)).
    { destruct own eqn:Ho.
      - assert (Hm : m a = None) by now apply Hown.
        assert (Hin : a < Z.of_nat (length orig)).
        { destruct (Z.lt_ge_cases a (Z.of_nat (length orig))) as [X|X]; [exact X|exfalso]. eapply (outside_fails r c N a); [| | |exact Hset].
          - exact (rs_link _ _ _ _ _ HR).
          - destruct (zget (n_bps N) a) eqn:Z1; [unfold own in Ho; congruence|reflexivity].
          - destruct (rested_patched _ _ _ _ _ HR) as (Lp & _). rewrite Lp. unfold a. lia. }
        assert (HT : T a).
        { split; [unfold a; lia|]. apply CR; [lia| |unfold a in Hin; lia]. rewrite <- instr_prog by lia. exact Hct. }
        pose proof (op_ok U Q Q_ok PL T (OpSet a) r c orig m N fits_T (rs_holds _ _ _ _ _ HR) HT) as K. cbn [op_spec] in K. rewrite Hm in K.
        destruct K as (N2 & K1 & K2 & K3 & K4). cbn [run_op] in K1. assert (N2 = N1) as -> by congruence.
        destruct (holds_rested m _ A N N1 r c HR K2 K3 K4) as (q & HP). exists q. unfold with_break. rewrite Hm. auto.
      - unfold ret in Hset. assert (N1 = N) as -> by congruence. exists (c_prog c). rewrite set_prog_same. unfold with_break.
        destruct (m a) eqn:Hm; [|destruct Hown as [X _]; discriminate (X eq_refl)]. split; [exact HR|]. split; [reflexivity|discriminate]. }
    destruct G1 as (q & HR1 & HW1 & HT).
    assert (G2 : exists N2, (if skip then single_step U fuel;; ret tt else ret tt) N1 = Done tt N2 /\
      (let* bp := get_register U (str "BP") in let* e := run_to U fuel fuel (a_pc A) bp in (if own then unset_breakpoint U a else ret tt);;
         let* ip' := get_ip U in if ip' =? a then ret EvSinglestep else ret e) N2 = Done e N').
    { unfold then_ at 1 in H. destruct ((if skip then single_step U fuel;; ret tt else ret tt) N1) as [[] N2| | |] eqn:X; try discriminate. exists N2. split; [reflexivity|exact H]. }
    clear H. destruct G2 as (N2 & Hstep & H).
    assert (G3 : gone N2 \/ exists A2 r2 c2, (if skip then isa_step F orig A A2 else A2 = A) /\ rested (with_break m a) A2 N2 r2 c2 /\ watching none c2 /\
       (c_trap c2 = true -> a_halted A2 = true) /\ n_wps N2 = n_wps N /\ a_reg A2 (LR BP) = a_reg A (LR BP)).
    { destruct skip.
      - unfold then_ in Hstep. destruct (single_step U fuel N1) as [e1 N3| | |] eqn:Hs; try discriminate. unfold ret in Hstep. assert (N3 = N2) as -> by congruence.
        destruct (single_ok none _ A N1 r _ e1 N2 HR1 HW Hs) as [[_ X]|(A2 & r2 & c2 & Y1 & Y2 & Y3 & Y4 & Y5)]; [now left|right].
        assert (Hst : isa_step F orig A A2) by (inversion Y1; assumption). destruct (call_step A A2 Hct Hst) as [C1 C2].
        exists A2, r2, c2. split; [exact Hst|]. split; [exact Y2|]. split; [exact Y3|]. split; [|split; [congruence|exact C1]].
        intros Q1. exfalso. destruct (Y4 Q1) as [->|[b ->]]; inversion Y1; subst; [congruence|contradiction].
      - right. unfold ret in Hstep. assert (N2 = N1) as -> by congruence. exists A, r, (set_prog c q). split; [reflexivity|]. split; [exact HR1|]. split; [exact HW|].
        split; [exact (Ht eq_refl)|]. split; [exact HW1|reflexivity]. }
    destruct G3 as [GG|(A2 & r2 & c2 & W1 & W2 & W3 & W4 & W5 & W6)].
    { exfalso. unfold then_ at 1 in H. destruct (get_register U (str "BP") N2) as [b1 N3| | |] eqn:Hb; try discriminate. pose proof (kg_register _ _ _ _ GG Hb) as G3.
      unfold then_ at 1 in H. destruct (run_to U fuel fuel (a_pc A) b1 N3) as [e1 N4| | |] eqn:Hr; try discriminate. exact (gone_run _ _ _ _ _ _ G3 Hr). }
    unfold then_ at 1 in H. destruct (get_register U (str "BP") N2) as [b1 N3| | |] eqn:Hb; try discriminate.
    destruct (get_bp_ok U _ _ _ _ _ _ (rs_link _ _ _ _ _ W2) (rs_rests _ _ _ _ _ W2) (rs_wordy _ _ _ _ _ W2) Hb) as [-> ->].
    unfold then_ at 1 in H. destruct (run_to U fuel fuel (a_pc A) (a_reg A2 (LR BP)) N2) as [e1 N4| | |] eqn:Hr; try discriminate.
    destruct (run_to_ok fuel m A2 N2 r2 c2 a e1 N4 W2 W3 W4 (a_pc A) _ Ua Hr) as [[_ GG]|(e2 & A3 & r3 & c3 & V1 & V2 & V3 & V4 & V5 & V6)].
    { left. unfold then_ at 1 in H. destruct ((if own then unset_breakpoint U a else ret tt) N4) as [u2 N5| | |] eqn:Hun; try discriminate.
      assert (G5 : gone N5) by (destruct own; [eapply kg_unset; eauto|eapply (kg_ret _ tt); eauto]).
      unfold then_ at 1 in H. destruct (get_ip U N5) as [i5 N6| | |] eqn:Hi5; try discriminate. pose proof (kg_ip _ _ _ G5 Hi5) as G6.
      destruct (i5 =? a); unfold ret in H; now assert (N' = N6) as -> by congruence. }
    unfold then_ at 1 in H. destruct ((if own then unset_breakpoint U a else ret tt) N4) as [u2 N5| | |] eqn:Hun; try discriminate.
    assert (G4 : exists q2, rested m A3 N5 r3 (set_prog c3 q2) /\ n_wps N5 = n_wps N4).
    { destruct own eqn:Ho.
      - assert (Hm : m a = None) by now apply Hown.
        pose proof (op_ok U Q Q_ok PL T (OpUnset a) r3 c3 orig _ N4 fits_T (rs_holds _ _ _ _ _ V3) (HT eq_refl)) as K. cbn [op_spec] in K.
        assert (Hw : with_break m a a = Some true) by (unfold with_break, mark; rewrite Hm, Z.eqb_refl; reflexivity). rewrite Hw in K.
        destruct K as (N6 & K1 & K2 & K3 & K4). cbn [run_op] in K1. assert (N6 = N5) as -> by congruence.
        destruct (holds_rested _ _ A3 N4 N5 r3 c3 V3 K2 K3 K4) as (q2 & HP). exists q2. split; [|exact K3]. eapply rested_ext; [exact HP|now apply with_break_away].
      - unfold ret in Hun. assert (N5 = N4) as -> by congruence. exists (c_prog c3). rewrite set_prog_same. split; [|reflexivity]. eapply rested_ext; [exact V3|].
        intros x. unfold with_break. destruct (m a) eqn:Hm; [reflexivity|destruct Hown as [X _]; discriminate (X eq_refl)]. }
    destruct G4 as (q2 & HR5 & HW5).
    unfold then_ at 1 in H. destruct (get_ip U N5) as [i5 N6| | |] eqn:Hi5; try discriminate.
    destruct (get_ip_ok U _ _ _ _ _ _ (rs_link _ _ _ _ _ HR5) (rs_rests _ _ _ _ _ HR5) (rs_wordy _ _ _ _ _ HR5) Hi5) as [-> ->].
    right. exists A3, r3, (set_prog c3 q2).
    assert (He : e = e2 /\ N' = N5).
    { rewrite V2. destruct (Z.eqb_spec (a_pc A3) a) as [Hp|Hp]; unfold ret in H; [|split; congruence].
      assert (e = EvSinglestep) by congruence. split; [|congruence]. subst e.
      destruct (comes_event _ _ _ _ _ _ V1) as [X|[X|[b X]]]; [congruence| |exfalso; destruct e1; congruence].
      exfalso. destruct (comes_halt _ _ _ _ _ _ V1 X (rs_wordy _ _ _ _ _ W2)) as (S1 & X1 & [_ X2] & X3). rewrite X3 in X2. cbn [effect] in X2.
      assert (X4 : address (a_pc S1 + 1) = a) by (rewrite <- Hp, (s_pc _ _ X2); reflexivity).
      pose proof (w_pc _ X1) as X5. assert (X6 : a_pc S1 = a_pc A).
      { unfold a in X4. unfold address in X4. change (2 ^ 64) with 18446744073709551616 in *.
        destruct (Z.eq_dec (a_pc S1 + 1) 18446744073709551616) as [X6|X6]; [rewrite X6, Z_mod_same_full in X4; lia|]. rewrite Z.mod_small in X4; lia. }
      rewrite X6 in X3. rewrite X3 in Hct. exact Hct. }
    destruct He as [-> ->].
    split; [|split; [exact HR5|split; [exact V4|split; [intros Q1; left; exact (V5 Q1)|congruence]]]].
    rewrite W6 in V1. destruct skip.
    + eapply ov_call; [exact Hct|reflexivity|exact W1|]. fold a. rewrite Aa. exact V1.
    + subst A2. eapply ov_next_call; [exact Hct|reflexivity|]. fold a. rewrite Aa. exact V1.
  - assert (Hnc : ~ is_call (instr_at orig (a_pc A))) by (intros X; apply call_text in X; congruence).
    destruct skip.
    + destruct (single_ok none m A N r c e N' HR HW H) as [[_ X]|(A' & r' & c' & Y1 & Y2 & Y3 & Y4 & Y5)]; [now left|right].
      exists A', r', c'. split; [apply ov_plain; auto|]. split; [exact Y2|]. split; [exact Y3|]. split; [|exact Y5].
      intros Q1. left. destruct (Y4 Q1) as [->|[b ->]]; inversion Y1; subst; auto; contradiction.
    + destruct (match m (a_pc A) with Some true => true | _ => false end) eqn:Hb.
      * assert (Hm : m (a_pc A) = Some true) by (destruct (m (a_pc A)) as [[]|]; congruence).
        unfold raw_step, then_ in H. destruct (proc (singlestep U) N) as [u N1| | |] eqn:Hs; try discriminate.
        destruct (go_on none m A N r c true u N1 e N' HR HW ltac:(auto) H) as [[_ X]|(A' & r' & c' & X1 & X2 & X3 & X4 & X5)]; [now left|right].
        exists A', r', c'. assert (HB : e = EvBreakpoint (a_pc A) /\ same A' A /\ a_halted A = false).
        { destruct X1 as [n S1 A' H1 H2 H3 H4 H5|n S1 A' e H1 H2 H3 H4 H5]; rewrite (H2 eq_refl) in H1; inversion H1; subst; [auto|contradiction]. }
        destruct HB as (-> & HB & HH). split; [now apply ov_stop|]. split; [exact X2|]. split; [exact X3|]. split; [|exact X5]. intros _. right. eauto.
      * assert (Hm : m (a_pc A) <> Some true) by (destruct (m (a_pc A)) as [[]|]; congruence).
        destruct (raw_ok none m A N r c e N' HR HW Hm H) as [[_ X]|(A' & r' & c' & Y1 & Y2 & Y3 & Y4 & Y5)]; [now left|right].
        exists A', r', c'. split; [apply ov_plain; auto|]. split; [exact Y2|]. split; [exact Y3|]. split; [|exact Y5].
        intros Q1. left. destruct (Y4 Q1) as [->|[b ->]]; inversion Y1; subst; auto; contradiction.
Qed.

(** ---- stepping out ---- *)

Lemma out_ok : forall k first m A N r c e N', calls_return -> rested m A N r c -> watching none c -> (first = false -> c_trap c = true -> a_halted A = true) ->
  step_out_loop U fuel k first N = Done e N' ->
  gone N' \/
  exists A' r' c', steps_out F orig m none first A e A' /\ rested m A' N' r' c' /\ watching none c' /\
    (c_trap c' = true -> a_halted A' = true \/ exists a, e = EvBreakpoint a) /\ n_wps N' = n_wps N.
Proof.
  induction k as [|k IH]; intros first m A N r c e N' CR HR HW Ht H; [discriminate|]. cbn [step_out_loop] in H. unfold then_ at 1 in H.
  destruct (get_ip U N) as [ip N0| | |] eqn:Hip; try discriminate.
  destruct (get_ip_ok U _ _ _ _ _ _ (rs_link _ _ _ _ _ HR) (rs_rests _ _ _ _ _ HR) (rs_wordy _ _ _ _ _ HR) Hip) as [-> ->].
  unfold then_ at 1 in H. destruct (nread_text U (a_pc A) 1 N) as [l N0| | |] eqn:Hl; try discriminate.
  destruct (text_ok _ _ _ _ _ _ _ HR Hl) as (-> & -> & _). unfold then_ at 1 in H.
  destruct (step_over U fuel first N) as [e1 N1| | |] eqn:Hs; try discriminate.
  destruct (over_all first m A N r c e1 N1 CR HR HW Ht Hs) as [X|(A1 & r1 & c1 & Y1 & Y2 & Y3 & Y4 & Y5)].
  { left. destruct (is_ret_text _); [unfold ret in H; now assert (N' = N1) as -> by congruence|].
    destruct e1; try (unfold ret in H; now assert (N' = N1) as -> by congruence). exfalso.
    destruct k as [|k]; [discriminate|]. cbn [step_out_loop] in H. unfold then_ at 1 in H. destruct (get_ip U N1) as [ip N2| | |] eqn:E1; try discriminate.
    pose proof (kg_ip _ _ _ X E1) as X1. unfold then_ at 1 in H. destruct (nread_text U ip 1 N2) as [l N3| | |] eqn:E2; try discriminate.
    pose proof (kg_nread _ _ _ _ _ X1 E2) as X2. destruct l as [|t l]; [discriminate|]. unfold then_ at 1 in H. destruct (step_over U fuel false N3) as [e2 N4| | |] eqn:E3; try discriminate.
    exact (gone_over _ _ _ _ X2 E3). }
  assert (Hq : c_trap c1 = true -> a_halted A1 = true \/ exists a, e1 = EvBreakpoint a) by (intros Q1; destruct (Y4 Q1) as [|[_ ?]]; auto).
  destruct (is_ret_text (show_instr (u_ftos U) (instr_at orig (a_pc A)))) eqn:Hr.
  - right. unfold ret in H. assert (e = e1 /\ N' = N1) as [-> ->] by (split; congruence). exists A1, r1, c1. split; [|auto]. apply so_ret; [now apply ret_text|exact Y1].
  - assert (Hn : instr_at orig (a_pc A) <> IRet) by (intros X; apply ret_text in X; congruence).
    assert (Hcase : e1 = EvSinglestep \/ e1 <> EvSinglestep) by (destruct e1; auto; right; discriminate).
    destruct Hcase as [->|He].
    + destruct (IH false m A1 N1 r1 c1 e N' CR Y2 Y3) as [X|(A2 & r2 & c2 & Z1 & Z2 & Z3 & Z4 & Z5)]; [|exact H|now left|right].
      { intros _ Q1. destruct (Hq Q1) as [Q2|[a Q2]]; [exact Q2|discriminate]. }
      exists A2, r2, c2. split; [eapply so_more; eauto|]. rewrite Z5. auto.
    + right. assert (e = e1 /\ N' = N1) as [-> ->] by (destruct e1; try (now elim He); unfold ret in H; split; congruence).
      exists A1, r1, c1. split; [apply so_event; auto|auto].
Qed.

(** A call at the last address cannot be stepped over. *)
Lemma over_last : forall m A N r c e N', rested m A N r c -> is_call (instr_at orig (a_pc A)) -> a_pc A + 1 = Z.of_nat (length orig) -> m (a_pc A + 1) = None ->
  step_over U fuel true N = Done e N' -> False.
Proof.
  intros m A N r c e N' HR Hc Hend Hm H. unfold step_over in H. unfold then_ at 1 in H.
  destruct (get_ip U N) as [ip N0| | |] eqn:Hip; try discriminate.
  destruct (get_ip_ok U _ _ _ _ _ _ (rs_link _ _ _ _ _ HR) (rs_rests _ _ _ _ _ HR) (rs_wordy _ _ _ _ _ HR) Hip) as [-> ->].
  unfold then_ at 1 in H. destruct (nread_text U (a_pc A) 1 N) as [l N0| | |] eqn:Hl; try discriminate.
  destruct (text_ok _ _ _ _ _ _ _ HR Hl) as (-> & -> & Hlen). pose proof (w_pc _ (rs_wordy _ _ _ _ _ HR)) as Hpc.
  assert (Ua : u64 (a_pc A + 1) = a_pc A + 1) by (unfold u64, two64; rewrite Z.mod_small; lia).
  apply call_text in Hc. rewrite Hc in H. unfold get in H. unfold then_ at 1 in H. rewrite Ua in H. cbv zeta in H.
  assert (HB : zget (n_bps N) (a_pc A + 1) = None).
  { rewrite (h_marks _ _ _ _ _ _ (rs_holds _ _ _ _ _ HR)) in Hm. destruct (zget (n_bps N) (a_pc A + 1)); [discriminate|reflexivity]. }
  rewrite HB in H. unfold then_ at 1 in H. destruct (set_breakpoint U (a_pc A + 1) N) as [u N1| | |] eqn:Hset; try discriminate.
  eapply (outside_fails r c N (a_pc A + 1)); [exact (rs_link _ _ _ _ _ HR)|exact HB| |exact Hset].
  destruct (rested_patched _ _ _ _ _ HR) as (Lp & _). rewrite Lp. lia.
Qed.

(** ---- one call ---- *)

Record viewed (v : view) (N : native) (r : reason) (c : cpu) : Prop := mkViewed {
  vw_rested : rested (v_marks v) (v_state v) N r c;
  vw_watching : watching (listed N) c;
  vw_listed : forall a, listed N a <-> In a (v_watch v);
  vw_count : length (v_watch v) = length (n_wps N);
  vw_trap : v_left v = true -> c_trap c = true;
  vw_left : c_trap c = true -> v_left v = true \/ a_halted (v_state v) = true
}.

Definition may_call (k : call) : Prop := match k with KBp o => T (op_addr o) | KWatch a => word64 a | KOver | KOut => calls_return | _ => True end.
Definition no_over (k : call) : Prop := match k with KOver | KOut => False | _ => True end.

Lemma continues_ext : forall m w w' S e S', (forall a, w a <-> w' a) -> continues F orig m w S e S' -> continues F orig m w' S e S'.
Proof.
  intros m w w' S e S' X.
  assert (R : forall w w', (forall a, w a <-> w' a) -> forall S T e, reported orig m w S T e -> reported orig m w' S T e).
  { clear. intros w w' X S T0 e H. destruct H as [a H1 H2|H|H1 H2 H3]; [apply rp_watch; [exact H1|now apply X]|now apply rp_end|apply rp_break; auto].
    intros (a & A1 & A2). apply H3. exists a. split; [exact A1|now apply X]. }
  intros H. induction H as [S S' e H1 H2|S T0 S' e H1 H2 H3 IH]; [apply co_last; eauto|]. eapply co_more; [exact H1| |exact IH].
  intros e' H. apply (H2 e'). eapply R; [|exact H]. intros a. symmetry. apply X.
Qed.
Lemma steps_ext : forall w w' S e S', (forall a, w a <-> w' a) -> steps F orig w S e S' -> steps F orig w' S e S'.
Proof.
  intros w w' S e S' X H. destruct H as [S S' a H1 H2 H3|S S' H1 H2|S S' H1 H2 H3]; [apply st_watch; auto; now apply X|now apply st_end|apply st_one; auto].
  intros (a & A1 & A2). apply H3. exists a. split; [exact A1|now apply X].
Qed.
Lemma steps_end : forall w S S', steps F orig w S EvEnd S' -> a_halted S' = true.
Proof. intros w S S' H. inversion H; auto. Qed.
Lemma continues_end : forall m w S e S', continues F orig m w S e S' -> e = EvEnd -> a_halted S' = true.
Proof. induction 1 as [S S' e H1 H2|]; auto. intros ->. inversion H2; auto. Qed.

Lemma call_ok : forall k v N r c x N', viewed v N r c -> may_call k -> v_watch v = [] \/ no_over k -> did U fuel k N x N' -> ~ cpu_failed N' ->
  exists v' r' c', view_spec F orig k v x v' /\ viewed v' N' r' c'.
Proof.
  intros k v N r c x N' [V1 V2 V3 V4 V5 V6] Hk Hw H Hx. destruct v as [m ws S l]. cbn [v_marks v_watch v_state v_left] in *.
  assert (VX : forall a, listed N a <-> In a ws) by exact V3.
  destruct H as [o N N' H|o N N' H|a N N' H|a N N' H|N e N' H|N e N' H|N e N' H|N e N' H]; cbn [may_call no_over] in Hk, Hw.
  - pose proof (op_ok U Q Q_ok PL T o r c orig m N fits_T (rs_holds _ _ _ _ _ V1) Hk) as K. destruct (op_spec o m) as [m'|] eqn:Ho; [|congruence].
    destruct K as (N1 & K1 & K2 & K3 & K4). assert (N1 = N') as -> by congruence.
    destruct (holds_rested m m' S N N' r c V1 K2 K3 K4) as (p & HP).
    exists (mkView m' ws S l), r, (set_prog c p). split; [now apply vs_done|].
    constructor; cbn [v_marks v_watch v_state v_left]; auto; try (unfold listed; rewrite K3); auto.
  - pose proof (op_ok U Q Q_ok PL T o r c orig m N fits_T (rs_holds _ _ _ _ _ V1) Hk) as K. destruct (op_spec o m) as [m'|] eqn:Ho.
    { destruct K as (N1 & K1 & _). congruence. }
    assert (N' = N) as -> by congruence. exists (mkView m ws S l), r, c. split; [now apply vs_refused|]. now constructor.
  - destruct (watch_ok m S N r c a V1 V2 Hk) as [W1 W2].
    destruct (in_dec Z.eq_dec a ws) as [I|I]; [rewrite W1 in H by (left; now apply VX); discriminate|].
    destruct (Nat.lt_ge_cases (length ws) 4) as [L|L]; [|rewrite W1 in H by (right; lia); discriminate].
    destruct W2 as (N1 & c1 & K1 & K2 & K3 & K4 & K5 & K6); [now rewrite VX|lia|]. assert (N1 = N') as -> by congruence.
    exists (mkView m (a :: ws) S l), r, c1. split; [now apply vs_watch|]. constructor; cbn [v_marks v_watch v_state v_left]; auto.
    + intros b. rewrite K5, VX. cbn [In]. intuition congruence.
    + cbn [length]. lia.
    + now rewrite K4.
    + now rewrite K4.
  - destruct (watch_ok m S N r c a V1 V2 Hk) as [W1 W2].
    destruct (in_dec Z.eq_dec a ws) as [I|I].
    { rewrite W1 in H by (left; now apply VX). assert (N' = N) as -> by congruence. exists (mkView m ws S l), r, c. split; [apply vs_watch_refused; auto|now constructor]. }
    destruct (Nat.lt_ge_cases (length ws) 4) as [L|L].
    { destruct W2 as (N1 & c1 & K1 & _); [now rewrite VX|lia|]. congruence. }
    rewrite W1 in H by (right; lia). assert (N' = N) as -> by congruence. exists (mkView m ws S l), r, c. split; [apply vs_watch_refused; auto|now constructor].
  - destruct (match m (a_pc S) with Some true => true | _ => false end) eqn:Hb.
    + assert (Hm : m (a_pc S) = Some true) by (destruct (m (a_pc S)) as [[]|]; congruence).
      destruct (continue_ok _ m S N r c e N' V1 V2 ltac:(auto) H) as [[_ X]|(A' & r' & c' & Y1 & Y2 & Y3 & Y4 & Y5)]; [now elim (Hx (gone_failed _ X))|].
      set (l' := c_trap c' && negb (a_halted A')). exists (mkView m ws A' l'), r', c'. split.
      * apply vs_continue; [auto|eapply continues_ext; [exact VX|exact Y1]|]. intros Hl. apply andb_true_iff in Hl. destruct Hl as [Hl1 Hl2].
        destruct (Y4 Hl1) as (Z1 & Z2 & [Z3|Z3]); [|auto]. rewrite (continues_end _ _ _ _ _ Y1 Z3) in Hl2. discriminate.
      * constructor; cbn [v_marks v_watch v_state v_left]; try (unfold watching, listed; rewrite Y5); auto.
        -- intros Hl. now apply andb_true_iff in Hl.
        -- intros Hl. unfold l'. rewrite Hl. destruct (a_halted A'); auto.
    + assert (Hm : m (a_pc S) <> Some true) by (destruct (m (a_pc S)) as [[]|]; congruence).
      destruct l.
      * destruct (left_ok _ m S N r c e N' V1 V2 ltac:(auto) Hm H) as [[_ X]|(A' & r' & c' & Y1 & Y2 & Y3 & Y4 & Y5)]; [now elim (Hx (gone_failed _ X))|].
        set (l' := c_trap c' && negb (a_halted A')). exists (mkView m ws A' l'), r', c'. split.
        -- apply vs_left; [exact Hm|eapply steps_ext; [exact VX|exact Y1]|]. intros Hl. apply andb_true_iff in Hl. destruct Hl as [Hl1 Hl2].
           destruct (Y4 Hl1) as [->|Z3]; [|auto]. rewrite (steps_end _ _ _ Y1) in Hl2. discriminate.
        -- constructor; cbn [v_marks v_watch v_state v_left]; try (unfold watching, listed; rewrite Y5); auto.
           ++ intros Hl. now apply andb_true_iff in Hl.
           ++ intros Hl. unfold l'. rewrite Hl. destruct (a_halted A'); auto.
      * destruct (continue_ok _ m S N r c e N' V1 V2) as [[_ X]|(A' & r' & c' & Y1 & Y2 & Y3 & Y4 & Y5)]; [|exact H|now elim (Hx (gone_failed _ X))|].
        { intros Ht. destruct (V6 Ht); [discriminate|auto]. }
        exists (mkView m ws A' false), r', c'. split.
        -- apply vs_continue; [discriminate|eapply continues_ext; [exact VX|exact Y1]|discriminate].
        -- constructor; cbn [v_marks v_watch v_state v_left]; try (unfold watching, listed; rewrite Y5); auto; [discriminate|].
           intros Ht. destruct (Y4 Ht) as [Z1 _]. contradiction.
  - destruct (single_ok _ m S N r c e N' V1 V2 H) as [[_ X]|(A' & r' & c' & Y1 & Y2 & Y3 & Y4 & Y5)]; [now elim (Hx (gone_failed _ X))|].
    set (l' := c_trap c' && negb (a_halted A')). exists (mkView m ws A' l'), r', c'. split.
    + apply vs_step; [eapply steps_ext; [exact VX|exact Y1]|]. intros Hl. apply andb_true_iff in Hl. destruct Hl as [Hl1 Hl2].
      destruct (Y4 Hl1) as [->|Z3]; [|auto]. rewrite (steps_end _ _ _ Y1) in Hl2. discriminate.
    + constructor; cbn [v_marks v_watch v_state v_left]; try (unfold watching, listed; rewrite Y5); auto.
      * intros Hl. now apply andb_true_iff in Hl.
      * intros Hl. unfold l'. rewrite Hl. destruct (a_halted A'); auto.
  - assert (ws = []) as -> by (destruct Hw; [assumption|contradiction]).
    assert (HN : forall x, listed N x <-> False) by exact V3.
    assert (HW : watching none c) by (intros x; rewrite (V2 x); apply HN).
    destruct (over_all true m S N r c e N' Hk V1 HW ltac:(discriminate) H) as [X|(A' & r' & c' & Y1 & Y2 & Y3 & Y4 & Y5)]; [now elim (Hx (gone_failed _ X))|].
    exists (mkView m [] A' false), r', c'. split; [now apply vs_over|].
    constructor; cbn [v_marks v_watch v_state v_left]; try (unfold watching, listed; rewrite Y5); auto; try discriminate.
    + intros x. rewrite (Y3 x). symmetry. apply HN.
    + intros Q1. destruct (Y4 Q1) as [Q2|[Q2 _]]; [auto|discriminate].
  - assert (ws = []) as -> by (destruct Hw; [assumption|contradiction]).
    assert (HN : forall x, listed N x <-> False) by exact V3.
    assert (HW : watching none c) by (intros x; rewrite (V2 x); apply HN).
    destruct (out_ok fuel true m S N r c e N' Hk V1 HW ltac:(discriminate) H) as [X|(A' & r' & c' & Y1 & Y2 & Y3 & Y4 & Y5)]; [now elim (Hx (gone_failed _ X))|].
    set (l' := c_trap c' && negb (a_halted A')). exists (mkView m [] A' l'), r', c'. split.
    + apply vs_out; [exact Y1|]. intros Hl. apply andb_true_iff in Hl. destruct Hl as [Hl1 Hl2]. destruct (Y4 Hl1) as [Q2|Q2]; [|exact Q2]. rewrite Q2 in Hl2. discriminate.
    + constructor; cbn [v_marks v_watch v_state v_left]; try (unfold watching, listed; rewrite Y5); auto.
      * intros x. rewrite (Y3 x). symmetry. apply HN.
      * intros Hl. now apply andb_true_iff in Hl.
      * intros Hl. unfold l'. rewrite Hl. destruct (a_halted A'); auto.
Qed.

Definition no_watch (k : call) : Prop := match k with KWatch _ => False | _ => True end.

Lemma calls_ok : forall ks v N r c xs N', viewed v N r c -> Forall may_call ks -> Forall no_over ks \/ v_watch v = [] /\ Forall no_watch ks -> did_well U fuel ks N xs N' ->
  exists v' r' c', views_spec F orig ks v xs v' /\ viewed v' N' r' c'.
Proof.
  intros ks v N r c xs N' HV Hk Hw H. revert v r c HV Hk Hw. induction H as [N|k ks N x N1 xs N2 H1 Hf H2 IH]; intros v r c HV Hk Hw; [exists v, r, c; split; [constructor|exact HV]|].
  inversion Hk as [|? ? K1 K2]; subst.
  assert (Hw1 : v_watch v = [] \/ no_over k) by (destruct Hw as [Hw|[Hw _]]; [right; now inversion Hw|now left]).
  destruct (call_ok k v N r c x N1 HV K1 Hw1 H1 Hf) as (v1 & r1 & c1 & A1 & A2).
  destruct (IH v1 r1 c1 A2 K2) as (v2 & r2 & c2 & B1 & B2).
  { destruct Hw as [Hw|[Hw Hw2]]; [left; now inversion Hw|right]. inversion Hw2 as [|? ? X1 X2]; subst. split; [|exact X2].
    destruct A1; try exact Hw; try reflexivity. contradiction. }
  exists v2, r2, c2. split; [econstructor; eauto|exact B2].
Qed.

End U.
