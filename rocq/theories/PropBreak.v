(** C29, C55: breakpoints and the text of the program. *)
From Coq Require Import Ascii String ZArith NArith List Bool Lia.
From Verif Require Import Base Text PropText PropNet StdMap Isa AluSpec State IsaSpec Lexer Asm Show AsmPrint AsmSpec PropAsm Exec Ram Writes Rat Cpu Os DbgText Spaces
  PipeInv PipeBasics PipeRun PipePoke Session IsaRefine DbgSpec PropPipe PropDbg Client Proto PropProto Native.
Import ListNotations.
Open Scope Z_scope.

(** ---- specification ---- *)

(** What the user does with breakpoints. *)
Inductive bpop : Type := OpSet (a : Z) | OpUnset (a : Z) | OpEnable (a : Z) | OpDisable (a : Z).
Definition op_addr (o : bpop) : Z := match o with OpSet a | OpUnset a | OpEnable a | OpDisable a => a end.

(** Which breakpoints there are ([Some]) and which are enabled ([Some true]). *)
Definition marks : Type := Z -> option bool.
Definition mark (m : marks) (a : Z) (v : option bool) : marks := fun x => if x =? a then v else m x.
(** The effect of an operation; [None] if it is an error. *)
Definition op_spec (o : bpop) (m : marks) : option marks :=
  match o with
  | OpSet a => match m a with None => Some (mark m a (Some true)) | Some _ => None end
  | OpUnset a => match m a with None => None | Some _ => Some (mark m a None) end
  | OpEnable a => match m a with None => None | Some _ => Some (mark m a (Some true)) end
  | OpDisable a => match m a with None => None | Some _ => Some (mark m a (Some false)) end
  end.
Fixpoint ops_spec (os : list bpop) (m : marks) : list bool * marks :=
  match os with
  | [] => ([], m)
  | o :: os' => match op_spec o m with
                | Some m' => let (l, m2) := ops_spec os' m' in (true :: l, m2)
                | None => let (l, m2) := ops_spec os' m in (false :: l, m2)
                end
  end.

(** The operations of the library, in a row: which succeeded, and the state after. *)
Definition run_op (U : setup) (o : bpop) : act native unit :=
  match o with
  | OpSet a => set_breakpoint U a | OpUnset a => unset_breakpoint U a
  | OpEnable a => enable U a | OpDisable a => disable U a
  end.
Fixpoint run_ops (U : setup) (os : list bpop) (N : native) : option (list bool * native) :=
  match os with
  | [] => Some ([], N)
  | o :: os' => match run_op U o N with
                | Done _ N' => option_map (fun x => (true :: fst x, snd x)) (run_ops U os' N')
                | Failed N' => option_map (fun x => (false :: fst x, snd x)) (run_ops U os' N')
                | _ => None
                end
  end.

(** A text that stands for the instruction [i], and an instruction whose printed form
    does. By C22 these are all instructions that can be written in assembly, but for
    float operands (whose digits may not suffice) and negative absolute addresses. *)
Definition writes_as (U : setup) (t : text) (i : instr) : Prop :=
  check_instr (u_stod U) t = POk tt /\ assemble_instr (u_stod U) t = POk i /\ ~ In QUOTE t.
Definition restorable (U : setup) (i : instr) : Prop := writes_as U (show_instr (u_ftos U) i) i.

(** ---- a library with breakpoints over the program [orig] ---- *)

Section U.
Variable U : setup.
(** What is kept in place of the instruction under a breakpoint. *)
Variable Q : text -> instr -> Prop.
Hypothesis Q_writes : forall t i, Q t i -> writes_as U t i.
Hypothesis lines_ok : prints_lines U.
Notation shown i := (show_instr (u_ftos U) i).

Record holds (r : reason) (c : cpu) (orig : list instr) (m : marks) (N : native) : Prop := mkHolds {
  h_prog : exists p, n_link N = stopped r (set_prog c p) /\ length p = length orig /\
    forall a, 0 <= a < Z.of_nat (length orig) -> prog_at p a = match m a with Some true => IBkpt | _ => prog_at orig a end;
  h_marks : forall a, m a = option_map bp_on (zget (n_bps N) a);
  h_data : forall a b, zget (n_bps N) a = Some b -> 0 <= a < Z.of_nat (length orig) /\ Q (bp_data b) (prog_at orig a)
}.

Lemma zeqb_eq : forall a b : Z, (a =? b) = true <-> a = b. Proof. intros. apply Z.eqb_eq. Qed.
Lemma zget_put : forall {V} (m : list (Z * V)) a v x, zget (zput m a v) x = if x =? a then Some v else zget m x.
Proof.
  intros V m a v x. destruct (Z.eqb_spec x a) as [->|N]; [apply mget_put_same; [exact zeqb_eq]|apply mget_put_other; [exact zeqb_eq|exact N]].
Qed.
Lemma zget_erase : forall {V} (m : list (Z * V)) a x, zget (zerase m a) x = if x =? a then None else zget m x.
Proof.
  intros V m a x. destruct (Z.eqb_spec x a) as [->|N]; [apply mget_erase_same|apply mget_erase_other; [exact zeqb_eq|exact N]].
Qed.

Lemma set_prog_set : forall c p q, set_prog (set_prog c p) q = set_prog c q.
Proof. reflexivity. Qed.

Lemma writes_bkpt : writes_as U BKPT IBkpt.
Proof. split; [vm_compute; reflexivity|]. split; [vm_compute; reflexivity|]. cbn. intuition discriminate. Qed.

Lemma proc_write : forall r c p a t i N, n_link N = stopped r (set_prog c p) -> 0 <= a < Z.of_nat (length p) -> a < 2 ^ 63 -> writes_as U t i ->
  proc (write_text U a [t]) N = Done tt (set_link N (stopped r (set_prog c (set_nth p (Z.to_nat a) i)))).
Proof.
  intros r c p a t i N L A B (W1 & W2 & W3). unfold proc. rewrite L. rewrite (C33_write_text U r a t i) by assumption. reflexivity.
Qed.
Lemma read_one_at : forall r c p a N, n_link N = stopped r (set_prog c p) -> 0 <= a < 2 ^ 63 ->
  read_one U a N = Done (shown (prog_at p a)) N.
Proof.
  intros r c p a N L A. unfold read_one, then_, proc. rewrite L, C33_read_text by (assumption || lia). unfold range. cbn [Z.to_nat seq map]. change (Pos.to_nat 1) with 1%nat.
  cbn [seq map]. rewrite Z.add_0_r. cbn [set_prog c_prog ret]. unfold ret. f_equal. destruct N; cbn in *. now rewrite L.
Qed.

Lemma set_link_same : forall N, set_link N (n_link N) = N. Proof. now intros []. Qed.

Lemma create_ok : forall r c p a N, n_link N = stopped r (set_prog c p) -> 0 <= a < Z.of_nat (length p) -> a < 2 ^ 63 ->
  create_breakpoint U a N = Done (mkBp (shown (prog_at p a)) true) (set_link N (stopped r (set_prog c (set_nth p (Z.to_nat a) IBkpt)))).
Proof.
  intros r c p a N L A B. unfold create_breakpoint, then_ at 1. rewrite (read_one_at r c p a N L) by lia. unfold then_ at 1.
  rewrite (proc_write r c p a BKPT IBkpt N L A B writes_bkpt). unfold then_.
  rewrite (read_one_at r c (set_nth p (Z.to_nat a) IBkpt) a) by (reflexivity || lia). rewrite prog_at_set by exact A. rewrite Z.eqb_refl.
  change (shown IBkpt) with BKPT. now rewrite teqb_refl.
Qed.

(** [T]: the addresses at which breakpoints are set. *)
Variable T : Z -> Prop.
Definition fit (orig : list instr) : Prop :=
  Z.of_nat (length orig) < 2 ^ 63 /\ forall a, T a -> 0 <= a < Z.of_nat (length orig) /\ Q (shown (prog_at orig a)) (prog_at orig a).

Lemma disable_ok : forall r c orig m N a, fit orig -> holds r c orig m N -> m a <> None ->
  exists N', disable U a N = Done tt N' /\ holds r c orig (mark m a (Some false)) N' /\ zget (n_bps N') a <> None /\ n_wps N' = n_wps N /\ n_cache N' = n_cache N.
Proof.
  intros r c orig m N a [F1 F2] [(p & L & Lp & P) M D] Ha. unfold disable, the_bp, then_ at 1 2. unfold get. cbn [then_].
  pose proof (M a) as Ma. destruct (zget (n_bps N) a) as [b|] eqn:Hb; [|cbn in Ma; congruence]. cbn [opt_or ret option_map] in *. unfold ret at 1.
  destruct (D a b Hb) as [A Qb]. destruct (bp_on b) eqn:On.
  - unfold then_. rewrite (proc_write r c p a (bp_data b) (prog_at orig a) N L) by (try (apply Q_writes; exact Qb); lia).
    unfold put_bp, update. eexists. split; [reflexivity|]. split; [|split; [cbn; rewrite zget_put, Z.eqb_refl; discriminate|split; reflexivity]]. constructor.
    + exists (set_nth p (Z.to_nat a) (prog_at orig a)). split; [reflexivity|]. rewrite set_nth_length. split; [exact Lp|].
      intros x Hx. rewrite prog_at_set by lia. unfold mark. destruct (Z.eqb_spec x a) as [->|Nx]; [reflexivity|now apply P].
    + intros x. cbn [set_bps set_link n_bps]. rewrite zget_put. unfold mark. destruct (x =? a); [reflexivity|apply M].
    + intros x bx. cbn [set_bps set_link n_bps]. rewrite zget_put. destruct (Z.eqb_spec x a) as [->|Nx]; [|apply D].
      intros E. injection E as <-. cbn [bp_data]. auto.
  - exists N. unfold ret. split; [reflexivity|]. split; [|split; [now rewrite Hb|auto]]. constructor.
    + exists p. split; [exact L|]. split; [exact Lp|]. intros x Hx. rewrite P by exact Hx. unfold mark. destruct (Z.eqb_spec x a) as [->|Nx]; [|reflexivity].
      now rewrite Ma.
    + intros x. unfold mark. destruct (Z.eqb_spec x a) as [->|Nx]; [rewrite Hb; cbn; now rewrite On|apply M].
    + exact D.
Qed.

Lemma enable_ok : forall r c orig m N a, fit orig -> holds r c orig m N -> m a <> None -> T a ->
  exists N', enable U a N = Done tt N' /\ holds r c orig (mark m a (Some true)) N' /\ n_wps N' = n_wps N /\ n_cache N' = n_cache N.
Proof.
  intros r c orig m N a [F1 F2] [(p & L & Lp & P) M D] Ha Ta. unfold enable, the_bp, then_ at 1 2. unfold get. cbn [then_].
  pose proof (M a) as Ma. destruct (zget (n_bps N) a) as [b|] eqn:Hb; [|cbn in Ma; congruence]. cbn [opt_or ret option_map] in *. unfold ret at 1.
  destruct (D a b Hb) as [A Qb]. destruct (F2 a Ta) as [_ Qa]. destruct (bp_on b) eqn:On.
  - exists N. split; [reflexivity|]. split; [|auto]. constructor.
    + exists p. split; [exact L|]. split; [exact Lp|]. intros x Hx. rewrite P by exact Hx. unfold mark. destruct (Z.eqb_spec x a) as [->|Nx]; [|reflexivity].
      now rewrite Ma.
    + intros x. unfold mark. destruct (Z.eqb_spec x a) as [->|Nx]; [rewrite Hb; cbn; now rewrite On|apply M].
    + exact D.
  - unfold then_. rewrite (create_ok r c p a N L) by lia. unfold put_bp, update. eexists. split; [reflexivity|].
    assert (Pa : prog_at p a = prog_at orig a) by (rewrite P by exact A; now rewrite Ma).
    split; [|split; reflexivity]. constructor.
    + exists (set_nth p (Z.to_nat a) IBkpt). split; [reflexivity|]. rewrite set_nth_length. split; [exact Lp|].
      intros x Hx. rewrite prog_at_set by lia. unfold mark. destruct (Z.eqb_spec x a) as [->|Nx]; [reflexivity|now apply P].
    + intros x. cbn [set_bps set_link n_bps]. rewrite zget_put. unfold mark. destruct (x =? a); [reflexivity|apply M].
    + intros x bx. cbn [set_bps set_link n_bps]. rewrite zget_put. destruct (Z.eqb_spec x a) as [->|Nx]; [|apply D].
      intros E. injection E as <-. cbn [bp_data]. rewrite Pa. auto.
Qed.

Lemma set_ok : forall r c orig m N a, fit orig -> holds r c orig m N -> m a = None -> T a ->
  exists N', set_breakpoint U a N = Done tt N' /\ holds r c orig (mark m a (Some true)) N' /\ n_wps N' = n_wps N /\ n_cache N' = n_cache N.
Proof.
  intros r c orig m N a [F1 F2] [(p & L & Lp & P) M D] Ha Ta. unfold set_breakpoint, get, then_ at 1.
  pose proof (M a) as Ma. rewrite Ha in Ma. destruct (zget (n_bps N) a) as [b|] eqn:Hb; [discriminate|].
  destruct (F2 a Ta) as [A Qa]. unfold then_. rewrite (create_ok r c p a N L) by lia. unfold put_bp, update. eexists. split; [reflexivity|].
  assert (Pa : prog_at p a = prog_at orig a) by (rewrite P by exact A; now rewrite Ha).
  split; [|split; reflexivity]. constructor.
  + exists (set_nth p (Z.to_nat a) IBkpt). split; [reflexivity|]. rewrite set_nth_length. split; [exact Lp|].
    intros x Hx. rewrite prog_at_set by lia. unfold mark. destruct (Z.eqb_spec x a) as [->|Nx]; [reflexivity|now apply P].
  + intros x. cbn [set_bps set_link n_bps]. rewrite zget_put. unfold mark. destruct (x =? a); [reflexivity|apply M].
  + intros x bx. cbn [set_bps set_link n_bps]. rewrite zget_put. destruct (Z.eqb_spec x a) as [->|Nx]; [|apply D].
    intros E. injection E as <-. cbn [bp_data]. rewrite Pa. auto.
Qed.

Lemma unset_ok : forall r c orig m N a, fit orig -> holds r c orig m N -> m a <> None ->
  exists N', unset_breakpoint U a N = Done tt N' /\ holds r c orig (mark m a None) N' /\ n_wps N' = n_wps N /\ n_cache N' = n_cache N.
Proof.
  intros r c orig m N a F H Ha. destruct (disable_ok r c orig m N a F H Ha) as (N1 & E & [(p & L & Lp & P) M D] & _ & W & C).
  unfold unset_breakpoint, then_, update. rewrite E. eexists. split; [reflexivity|]. split; [|split; [exact W|exact C]]. constructor.
  - exists p. split; [exact L|]. split; [exact Lp|]. intros x Hx. rewrite P by exact Hx. unfold mark. now destruct (x =? a).
  - intros x. cbn [set_bps n_bps]. rewrite zget_erase. specialize (M x). unfold mark in *. now destruct (x =? a).
  - intros x b. cbn [set_bps n_bps]. rewrite zget_erase. destruct (x =? a); [discriminate|apply D].
Qed.

(** One operation does what it should, or is refused. *)
Lemma op_ok : forall o r c orig m N, fit orig -> holds r c orig m N -> T (op_addr o) ->
  match op_spec o m with
  | Some m' => exists N', run_op U o N = Done tt N' /\ holds r c orig m' N' /\ n_wps N' = n_wps N /\ n_cache N' = n_cache N
  | None => run_op U o N = Failed N
  end.
Proof.
  intros o r c orig m N F H Ta. destruct o; cbn [op_spec run_op op_addr] in *; destruct (m a) as [v|] eqn:Ha.
  - unfold set_breakpoint, get, then_. rewrite (h_marks _ _ _ _ _ H) in Ha. now destruct (zget (n_bps N) a).
  - now apply set_ok.
  - apply unset_ok; auto; congruence.
  - unfold unset_breakpoint, disable, the_bp, get, then_. rewrite (h_marks _ _ _ _ _ H) in Ha. destruct (zget (n_bps N) a); [discriminate|reflexivity].
  - apply enable_ok; auto; congruence.
  - unfold enable, the_bp, get, then_. rewrite (h_marks _ _ _ _ _ H) in Ha. destruct (zget (n_bps N) a); [discriminate|reflexivity].
  - destruct (disable_ok r c orig m N a F H) as (N' & E & H1 & _ & H2); [congruence|]. eauto.
  - unfold disable, the_bp, get, then_. rewrite (h_marks _ _ _ _ _ H) in Ha. destruct (zget (n_bps N) a); [discriminate|reflexivity].
Qed.

Lemma ops_ok : forall os r c orig m N, fit orig -> holds r c orig m N -> Forall (fun o => T (op_addr o)) os ->
  exists N', run_ops U os N = Some (fst (ops_spec os m), N') /\ holds r c orig (snd (ops_spec os m)) N'.
Proof.
  induction os as [|o os IH]; intros r c orig m N F H A; cbn [ops_spec run_ops]; [eauto|]. inversion A as [|? ? A1 A2]; subst.
  pose proof (op_ok o r c orig m N F H A1) as K. destruct (op_spec o m) as [m'|].
  - destruct K as (N1 & E & H1 & _). rewrite E. destruct (IH r c orig m' N1 F H1 A2) as (N' & E2 & H2). rewrite E2. destruct (ops_spec os m'); cbn in *. eauto.
  - rewrite K. destruct (IH r c orig m N F H A2) as (N' & E2 & H2). rewrite E2. destruct (ops_spec os m); cbn in *. eauto.
Qed.

(** What the user reads. *)
Definition reads_at (N : native) (orig : list instr) (a : Z) : text :=
  match zget (n_bps N) a with Some b => bp_data b | None => shown (prog_at orig a) end.

Lemma covered_range : forall bps f n a, 0 <= a -> a + Z.of_nat n < 2 ^ 64 ->
  covered bps a (map f (range a n)) = map (fun x => match zget bps x with Some b => bp_data b | None => f x end) (range a n).
Proof.
  intros bps f. unfold range. assert (G : forall n s a, 0 <= a -> a + Z.of_nat s + Z.of_nat n < 2 ^ 64 ->
    covered bps (a + Z.of_nat s) (map f (map (fun k => a + Z.of_nat k) (seq s n))) =
    map (fun x => match zget bps x with Some b => bp_data b | None => f x end) (map (fun k => a + Z.of_nat k) (seq s n))).
  { induction n as [|n IH]; intros s a A B; [reflexivity|]. cbn [seq map covered]. f_equal.
    assert (E : u64 (a + Z.of_nat s + 1) = a + Z.of_nat (S s)) by (unfold u64, two64; rewrite Z.mod_small; lia). rewrite E. apply IH; lia. }
  intros n a A B. specialize (G n 0%nat a A). rewrite Z.add_0_r in G. apply G. lia.
Qed.

Lemma read_ok : forall r c orig m N a n, Z.of_nat (length orig) < 2 ^ 63 -> holds r c orig m N -> 0 <= a -> 0 <= n -> a + n <= Z.of_nat (length orig) ->
  nread_text U a n N = Done (map (reads_at N orig) (range a (Z.to_nat n))) N.
Proof.
  intros r c orig m N a n Hl [(p & L & Lp & P) M D] A B C. unfold nread_text, then_ at 1. unfold proc at 1. rewrite L.
  rewrite C33_text_size by (cbn [set_prog c_prog]; rewrite Lp; lia). cbn [set_prog c_prog]. rewrite Lp, <- L, set_link_same.
  assert (E : u64 (a + n) = a + n) by (unfold u64, two64; rewrite Z.mod_small; lia). rewrite E. destruct (Z.ltb_spec (Z.of_nat (length orig)) (a + n)); [lia|].
  unfold then_. unfold proc. rewrite L, C33_read_text by (assumption || lia). rewrite <- L, set_link_same. unfold get, ret. f_equal.
  rewrite covered_range by lia. apply map_ext_in. intros x Hx. unfold reads_at.
  assert (X : 0 <= x < Z.of_nat (length orig)) by (apply in_map_iff in Hx; destruct Hx as (k & <- & Hk); apply in_seq in Hk; lia).
  specialize (M x). destruct (zget (n_bps N) x) as [b|]; [reflexivity|]. cbn [set_prog c_prog]. rewrite P by exact X. now rewrite M.
Qed.

(** The user writes an instruction. *)
Lemma write_ok : forall r c orig m N a t i, Z.of_nat (length orig) < 2 ^ 63 -> holds r c orig m N -> 0 <= a < Z.of_nat (length orig) ->
  m a <> Some false -> writes_as U t i -> (m a <> None -> Q t i) ->
  exists N', nwrite_text U a [t] N = Done tt N' /\ holds r c (set_nth orig (Z.to_nat a) i) m N'.
Proof.
  intros r c orig m N a t i Hl [(p & L & Lp & P) M D] A Ma W Qt. unfold nwrite_text, then_ at 1. unfold proc at 1. rewrite L.
  rewrite C33_text_size by (cbn [set_prog c_prog]; rewrite Lp; lia). cbn [set_prog c_prog]. rewrite Lp, <- L, set_link_same.
  cbn [length Z.of_nat]. change (Z.pos (Pos.of_succ_nat 0)) with 1.
  assert (E : u64 (a + 1) = a + 1) by (unfold u64, two64; rewrite Z.mod_small; lia). rewrite E. destruct (Z.ltb_spec (Z.of_nat (length orig)) (a + 1)); [lia|].
  unfold get, then_ at 1. cbn [uncover]. pose proof (M a) as Mb. destruct (zget (n_bps N) a) as [b|] eqn:Hb.
  - cbn in Mb. assert (On : bp_on b = true) by (destruct (bp_on b); congruence).
    unfold update, then_. rewrite (proc_write r c p a BKPT IBkpt) by (auto using writes_bkpt; lia || (rewrite Lp; lia)). eexists. split; [reflexivity|]. constructor.
    + exists (set_nth p (Z.to_nat a) IBkpt). split; [reflexivity|]. rewrite !set_nth_length. split; [exact Lp|].
      intros x Hx. rewrite prog_at_set by lia. destruct (Z.eqb_spec x a) as [->|Nx]; [now rewrite Mb, On|]. rewrite P by exact Hx. rewrite prog_at_set by exact A.
      destruct (Z.eqb_spec x a); [contradiction|reflexivity].
    + intros x. cbn [set_bps set_link n_bps]. rewrite zget_put. destruct (Z.eqb_spec x a) as [->|Nx]; [exact Mb|apply M].
    + intros x bx. cbn [set_bps set_link n_bps]. rewrite zget_put, set_nth_length, prog_at_set by exact A. destruct (Z.eqb_spec x a) as [->|Nx]; [|apply D].
      intros X. injection X as <-. split; [exact A|]. apply Qt. rewrite Mb. discriminate.
  - unfold update, then_. rewrite (proc_write r c p a t i) by (auto; lia || (rewrite Lp; lia)). eexists. split; [reflexivity|]. constructor.
    + exists (set_nth p (Z.to_nat a) i). split; [reflexivity|]. rewrite !set_nth_length. split; [exact Lp|].
      intros x Hx. rewrite prog_at_set by lia. rewrite prog_at_set by exact A. destruct (Z.eqb_spec x a) as [->|Nx]; [now rewrite Mb|now apply P].
    + exact M.
    + intros x bx Hx. cbn [set_bps set_link n_bps] in Hx. rewrite set_nth_length, prog_at_set by exact A. destruct (Z.eqb_spec x a) as [->|Nx]; [congruence|now apply D].
Qed.

End U.

(** ---- C29 ---- *)

Definition no_marks : marks := fun _ => None.

Lemma holds_start : forall (Q : text -> instr -> Prop) r c N, n_bps N = [] -> n_link N = stopped r c -> holds Q r c (c_prog c) no_marks N.
Proof.
  intros Q r c N E L. constructor.
  - exists (c_prog c). split; [rewrite L; now destruct c|]. split; [reflexivity|]. reflexivity.
  - intros a. now rewrite E.
  - intros a b. rewrite E. discriminate.
Qed.

Lemma prog_ext : forall p q, length p = length q -> (forall a, 0 <= a < Z.of_nat (length p) -> prog_at p a = prog_at q a) -> p = q.
Proof.
  intros p q L H. apply (nth_ext _ _ INop INop L). intros n Hn. specialize (H (Z.of_nat n) ltac:(lia)). unfold prog_at in H. rewrite Nat2Z.id, <- L in H.
  destruct (Z.leb_spec 0 (Z.of_nat n)); [|lia]. destruct (Z.ltb_spec (Z.of_nat n) (Z.of_nat (length p))); [exact H|lia].
Qed.

Definition exact_text (U : setup) (t : text) (i : instr) : Prop := t = show_instr (u_ftos U) i /\ restorable U i.

Lemma set_prog_same : forall c, set_prog c (c_prog c) = c. Proof. now intros []. Qed.

(** C29: whatever sequence of setting, removing, enabling and disabling of breakpoints
    the user gives to a stopped program, each operation succeeds exactly when it should;
    the text of the program as the user reads it stays the same; in the VM exactly the
    enabled breakpoints are BKPT; and nothing else changes there, so that the VM is in
    the very state it was in when no breakpoint is enabled any more. *)
Theorem C29_original_kept : forall U r c N os, prints_lines U ->
  n_bps N = [] -> n_link N = stopped r c -> Z.of_nat (length (c_prog c)) < 2 ^ 63 ->
  Forall (fun o => 0 <= op_addr o < Z.of_nat (length (c_prog c)) /\ restorable U (prog_at (c_prog c) (op_addr o))) os ->
  let m := snd (ops_spec os no_marks) in
  exists N' p, run_ops U os N = Some (fst (ops_spec os no_marks), N') /\
    n_link N' = stopped r (set_prog c p) /\ length p = length (c_prog c) /\
    (forall a, 0 <= a < Z.of_nat (length p) ->
       prog_at p a = match m a with Some true => IBkpt | _ => prog_at (c_prog c) a end) /\
    (forall a n, 0 <= a -> 0 <= n -> a + n <= Z.of_nat (length p) ->
       nread_text U a n N' = Done (map (fun x => show_instr (u_ftos U) (prog_at (c_prog c) x)) (range a (Z.to_nat n))) N') /\
    ((forall a, m a <> Some true) -> n_link N' = n_link N).
Proof.
  intros U r c N os PL B L Hl A m. set (T := fun a => 0 <= a < Z.of_nat (length (c_prog c)) /\ restorable U (prog_at (c_prog c) a)).
  assert (F : fit U (exact_text U) T (c_prog c)) by (split; [exact Hl|]; intros a [T1 T2]; split; [exact T1|split; [reflexivity|exact T2]]).
  assert (QW : forall t i, exact_text U t i -> writes_as U t i) by (intros t i [-> R]; exact R).
  destruct (ops_ok U (exact_text U) QW PL T os r c (c_prog c) no_marks N F (holds_start _ r c N B L) A) as (N' & E & H).
  pose proof H as [(p & Lk & Lp & P) M D]. fold m in P, M, H. exists N', p.
  split; [exact E|]. split; [exact Lk|]. split; [exact Lp|]. split; [rewrite Lp; exact P|]. split.
  - intros a n A1 A2 A3. rewrite Lp in A3. rewrite (read_ok U (exact_text U) PL T r c (c_prog c) m N' a n Hl H A1 A2 A3). f_equal. apply map_ext.
    intros x. unfold reads_at. destruct (zget (n_bps N') x) as [b|] eqn:Hb; [|reflexivity]. now destruct (D x b Hb) as [_ [-> _]].
  - intros Off. rewrite Lk, L. unfold stopped. do 3 f_equal. rewrite <- (set_prog_same c) at 2. f_equal. apply prog_ext; [exact Lp|].
    intros a Ha. rewrite Lp in Ha. rewrite P by exact Ha. specialize (Off a). destruct (m a) as [[]|]; congruence.
Qed.

(** Which instructions are restorable: all that the assembler accepts, but for those of
    C49 and those with a float constant. *)
Lemma op_quote : forall ftos o, no_float o -> ~ In QUOTE (show_operand ftos o).
Proof.
  assert (Z1 : forall v, ~ In QUOTE (show_Z v)) by (intros v I; apply show_Z_chars, digitc_not in I; tauto).
  assert (N0 : forall n : N, ~ In QUOTE (show_nat (Z.of_N n))) by (intros n; rewrite <- show_nat_Z by lia; apply Z1).
  assert (R1 : forall r, ~ In QUOTE (show_reg r)) by (intros [n| | | |]; cbn [show_reg]; try (cbn; intuition discriminate); intros [I|I]; [discriminate|now apply N0 in I]).
  assert (F1 : forall n, ~ In QUOTE (show_freg n)) by (intros n [I|I]; [discriminate|now apply N0 in I]).
  assert (N1 : forall v, ~ In QUOTE (show_nat v)).
  { intros v. destruct (Z_lt_le_dec v 0) as [L|L]; [|rewrite <- show_nat_Z by exact L; apply Z1].
    unfold show_nat. rewrite Z.log2_nonpos by lia. cbn [Z.to_nat put_digits]. destruct (Z.ltb_spec v 10); [|lia].
    intros [X|[]]. assert (0 <= v mod 10 < 10) by (apply Z.mod_pos_bound; lia).
    remember (v mod 10) as q eqn:Hq. assert (Q : q = 0 \/ q = 1 \/ q = 2 \/ q = 3 \/ q = 4 \/ q = 5 \/ q = 6 \/ q = 7 \/ q = 8 \/ q = 9) by lia.
    clear Hq. repeat (destruct Q as [->|Q]; [discriminate X|]). subst q. discriminate X. }
  assert (P : forall a b, ~ In QUOTE a -> ~ In QUOTE b -> ~ In QUOTE (a ++ b)) by (intros a b Ha Hb I; apply in_app_or in I; tauto).
  assert (S1 : ~ In QUOTE (str " + ")) by (cbn; intuition discriminate).
  assert (S2 : ~ In QUOTE (str " * ")) by (cbn; intuition discriminate).
  assert (S3 : ~ In QUOTE (str "[")) by (cbn; intuition discriminate).
  assert (S4 : ~ In QUOTE (str "]")) by (cbn; intuition discriminate).
  intros ftos o F. destruct o; cbn [no_float] in F; try contradiction; cbn [show_operand];
    unfold bracket, show_off_scaled, show_reg_scaled, show_off_reg, show_reg_reg, show_scaled, show_off; auto; repeat (apply P; auto).
Qed.
Lemma instr_quote : forall ftos i, Forall no_float (signature i) -> ~ In QUOTE (show_instr ftos i).
Proof.
  intros ftos i F. assert (N2 : ~ In QUOTE (name_of i)) by (destruct i as [[]| [] | [] | | | | | | | | | | | |[]| | | | | | | | | | |]; cbn; intuition discriminate).
  unfold show_instr. intros I. apply in_app_or in I. destruct I as [I|I]; [now apply N2|]. revert I F. destruct (signature i) as [|o l]; cbn [map]; [intros []|].
  intros I F. inversion F as [|? ? F1 F2]; subst. apply in_app_or in I. destruct I as [I|I]; [cbn in I; intuition discriminate|]. apply in_app_or in I.
  destruct I as [I|I]; [revert I; now apply op_quote|]. apply in_concat in I. destruct I as (x & X1 & X2).
  apply in_map_iff in X1. destruct X1 as (y & <- & X1). apply in_map_iff in X1. destruct X1 as (o' & <- & X1).
  apply in_app_or in X2. destruct X2 as [I|I]; [cbn in I; intuition discriminate|]. revert I. apply op_quote. rewrite Forall_forall in F2. now apply F2.
Qed.
Theorem C29_restorable : forall U s i, assemble_instr (u_stod U) s = POk i ->
  Forall no_float (signature i) -> Forall small_address (signature i) -> restorable U i.
Proof.
  intros U s i H F A. destruct (C22_printed_form_reads_back (u_stod U) (u_ftos U) s i H F A) as [H1 H2]. split; [exact H2|]. split; [exact H1|now apply instr_quote].
Qed.

(** ---- C55 ---- *)

(** Now the user also writes instructions: the text [t], which stands for [i]. *)
Inductive wop : Type := WBp (o : bpop) | WWrite (a : Z) (t : text) (i : instr).
Fixpoint wops_spec (os : list wop) (m : marks) (p : list instr) : list bool * marks * list instr :=
  match os with
  | [] => ([], m, p)
  | WBp o :: os' =>
      let ok := match op_spec o m with Some _ => true | None => false end in
      let '(l, m2, p2) := wops_spec os' (match op_spec o m with Some m' => m' | None => m end) p in (ok :: l, m2, p2)
  | WWrite a _ i :: os' => let '(l, m2, p2) := wops_spec os' m (set_nth p (Z.to_nat a) i) in (true :: l, m2, p2)
  end.
(** No instruction is written over a disabled breakpoint. *)
Fixpoint wfair (U : setup) (os : list wop) (m : marks) (p : list instr) : Prop :=
  match os with
  | [] => True
  | WBp o :: os' => 0 <= op_addr o < Z.of_nat (length p) /\ restorable U (prog_at p (op_addr o)) /\
      wfair U os' (match op_spec o m with Some m' => m' | None => m end) p
  | WWrite a t i :: os' => 0 <= a < Z.of_nat (length p) /\ writes_as U t i /\ m a <> Some false /\ wfair U os' m (set_nth p (Z.to_nat a) i)
  end.
Definition run_wop (U : setup) (o : wop) : act native unit :=
  match o with WBp o => run_op U o | WWrite a t _ => nwrite_text U a [t] end.
Fixpoint run_wops (U : setup) (os : list wop) (N : native) : option (list bool * native) :=
  match os with
  | [] => Some ([], N)
  | o :: os' => match run_wop U o N with
                | Done _ N' => option_map (fun x => (true :: fst x, snd x)) (run_wops U os' N')
                | Failed N' => option_map (fun x => (false :: fst x, snd x)) (run_wops U os' N')
                | _ => None
                end
  end.

Lemma wops_ok : forall U, prints_lines U -> forall os r c p m N, Z.of_nat (length p) < 2 ^ 63 -> holds (writes_as U) r c p m N -> wfair U os m p ->
  exists N', run_wops U os N = Some (fst (fst (wops_spec os m p)), N') /\
    holds (writes_as U) r c (snd (wops_spec os m p)) (snd (fst (wops_spec os m p))) N' /\ length (snd (wops_spec os m p)) = length p.
Proof.
  intros U PL. induction os as [|[o|a t i] os IH]; intros r c p m N Hl H W; cbn [wops_spec run_wops run_wop wfair] in *; [eauto| |].
  - destruct W as (W1 & W2 & W). assert (F : fit U (writes_as U) (fun a => a = op_addr o) p) by (split; [exact Hl|intros a ->; split; assumption]).
    pose proof (op_ok U (writes_as U) (fun t i X => X) PL _ o r c p m N F H eq_refl) as K. destruct (op_spec o m) as [m'|].
    + destruct K as (N1 & E & H1 & _). rewrite E. destruct (IH r c p m' N1 Hl H1 W) as (N' & E2 & H2 & H3). rewrite E2. destruct (wops_spec os m' p) as [[? ?] ?]; cbn in *. eauto.
    + rewrite K. destruct (IH r c p m N Hl H W) as (N' & E2 & H2 & H3). rewrite E2. destruct (wops_spec os m p) as [[? ?] ?]; cbn in *. eauto.
  - destruct W as (W1 & W2 & W3 & W). destruct (write_ok U (writes_as U) (fun t i X => X) (fun _ => True) r c p m N a t i Hl H W1 W3 W2 (fun _ => W2)) as (N1 & E & H1). rewrite E.
    destruct (IH r c (set_nth p (Z.to_nat a) i) m N1 ltac:(rewrite set_nth_length; exact Hl) H1 W) as (N' & E2 & H2 & H3). rewrite E2.
    rewrite set_nth_length in H3. destruct (wops_spec os m (set_nth p (Z.to_nat a) i)) as [[? ?] ?]; cbn in *. eauto.
Qed.

(** C55: when the user also writes instructions, under enabled breakpoints and
    elsewhere, the program is what they wrote: as they read it, and in the VM but for the
    enabled breakpoints. *)
Theorem C55_written_kept_partial : forall U r c N os, prints_lines U ->
  n_bps N = [] -> n_link N = stopped r c -> Z.of_nat (length (c_prog c)) < 2 ^ 63 -> wfair U os no_marks (c_prog c) ->
  let '(oks, m, want) := wops_spec os no_marks (c_prog c) in
  exists N' p, run_wops U os N = Some (oks, N') /\
    n_link N' = stopped r (set_prog c p) /\ length p = length (c_prog c) /\
    (forall a, 0 <= a < Z.of_nat (length p) -> prog_at p a = match m a with Some true => IBkpt | _ => prog_at want a end) /\
    (forall a n, 0 <= a -> 0 <= n -> a + n <= Z.of_nat (length p) -> exists l, nread_text U a n N' = Done l N' /\
       Forall2 (fun x t => writes_as U t (prog_at want x) \/ t = show_instr (u_ftos U) (prog_at want x)) (range a (Z.to_nat n)) l) /\
    ((forall a, m a <> Some true) -> p = want).
Proof.
  intros U r c N os PL B L Hl W.
  destruct (wops_ok U PL os r c (c_prog c) no_marks N Hl (holds_start _ r c N B L) W) as (N' & E & H & Hw).
  destruct (wops_spec os no_marks (c_prog c)) as [[oks m] want]. cbn [fst snd] in *. pose proof H as [(p & Lk & Lp & P) M D]. exists N', p.
  assert (Hl' : Z.of_nat (length want) < 2 ^ 63) by (rewrite Hw; exact Hl).
  split; [exact E|]. split; [exact Lk|]. split; [congruence|]. split; [rewrite Lp; exact P|]. split.
  - intros a n A1 A2 A3. rewrite Lp in A3. rewrite (read_ok U (writes_as U) PL (fun _ => True) r c want m N' a n Hl' H A1 A2 A3).
    eexists. split; [reflexivity|]. induction (range a (Z.to_nat n)) as [|x l IH]; cbn [map]; constructor; [|exact IH].
    unfold reads_at. destruct (zget (n_bps N') x) as [b|] eqn:Hb; [|now right]. left. now destruct (D x b Hb).
  - intros Off. apply prog_ext; [exact Lp|]. intros a Ha. rewrite Lp in Ha. rewrite P by exact Ha. specialize (Off a). destruct (m a) as [[]|]; congruence.
Qed.

(** What is missing: an instruction written over a disabled breakpoint becomes BKPT in
    the VM, though the breakpoint is disabled and the user reads their instruction. *)
Theorem C55_disabled_breakpoint_refuted : forall U r c N a t i, prints_lines U ->
  n_bps N = [] -> n_link N = stopped r c -> Z.of_nat (length (c_prog c)) < 2 ^ 63 -> 0 <= a < Z.of_nat (length (c_prog c)) ->
  restorable U (prog_at (c_prog c) a) -> writes_as U t i ->
  exists N', run_wops U [WBp (OpSet a); WBp (OpDisable a); WWrite a t i] N = Some ([true; true; true], N') /\
    n_link N' = stopped r (set_prog c (set_nth (c_prog c) (Z.to_nat a) IBkpt)) /\
    enabled_at N' a = false /\ nread_text U a 1 N' = Done [t] N'.
Proof.
  intros U r c N a t i PL B L Hl A R W.
  assert (Wf : wfair U [WBp (OpSet a); WBp (OpDisable a)] no_marks (c_prog c)) by (cbn [wfair op_addr]; auto).
  destruct (wops_ok U PL [WBp (OpSet a); WBp (OpDisable a)] r c (c_prog c) no_marks N Hl (holds_start _ r c N B L) Wf) as (N1 & E & H & _).
  cbn [wops_spec op_spec no_marks fst snd] in E, H. unfold mark at 1 in E. rewrite Z.eqb_refl in E. cbn [op_spec fst] in E. unfold mark at 1 in H. rewrite Z.eqb_refl in H. cbn [fst snd] in H.
  destruct H as [(p & Lk & Lp & P) M D]. pose proof (M a) as Ma. unfold mark in Ma at 1. rewrite Z.eqb_refl in Ma.
  destruct (zget (n_bps N1) a) as [b|] eqn:Hb; [|discriminate]. cbn in Ma. assert (Off : bp_on b = false) by congruence.
  assert (Pp : p = c_prog c).
  { apply prog_ext; [exact Lp|]. intros x Hx. rewrite Lp in Hx. rewrite P by exact Hx. unfold mark. now destruct (x =? a). }
  subst p. rewrite set_prog_same in Lk.
  set (N2 := set_link (set_bps N1 (zput (n_bps N1) a (mkBp t false))) (stopped r (set_prog c (set_nth (c_prog c) (Z.to_nat a) IBkpt)))).
  assert (U1 : u64 (a + 1) = a + 1) by (unfold u64, two64; rewrite Z.mod_small; lia).
  assert (E2 : nwrite_text U a [t] N1 = Done tt N2).
  { unfold nwrite_text, then_ at 1. unfold proc at 1. rewrite Lk, C33_text_size by lia. rewrite <- Lk, set_link_same.
    cbn [length Z.of_nat]. change (Z.pos (Pos.of_succ_nat 0)) with 1. rewrite U1. destruct (Z.ltb_spec (Z.of_nat (length (c_prog c))) (a + 1)); [lia|].
    unfold get, then_ at 1. cbn [uncover]. rewrite Hb, Off. unfold update, then_.
    rewrite (proc_write U r c (c_prog c) a BKPT IBkpt) by (auto using writes_bkpt; try lia; cbn [set_bps n_link]; rewrite set_prog_same; exact Lk). reflexivity. }
  exists N2. split; [|split; [reflexivity|split]].
  - change (run_wops U [WBp (OpSet a); WBp (OpDisable a); WWrite a t i] N) with
      (match run_op U (OpSet a) N with
       | Done _ N' => option_map (fun x => (true :: fst x, snd x)) (run_wops U [WBp (OpDisable a); WWrite a t i] N')
       | Failed N' => option_map (fun x => (false :: fst x, snd x)) (run_wops U [WBp (OpDisable a); WWrite a t i] N') | _ => None end).
    change (run_wops U [WBp (OpSet a); WBp (OpDisable a)] N) with
      (match run_op U (OpSet a) N with
       | Done _ N' => option_map (fun x => (true :: fst x, snd x)) (run_wops U [WBp (OpDisable a)] N')
       | Failed N' => option_map (fun x => (false :: fst x, snd x)) (run_wops U [WBp (OpDisable a)] N') | _ => None end) in E.
    destruct (run_op U (OpSet a) N) as [[] N3|N3| |]; try discriminate; cbn [run_wops run_wop] in *;
      (destruct (run_op U (OpDisable a) N3) as [[] N4|N4| |]; try discriminate; cbn [option_map fst snd] in *; injection E as E; try discriminate; subst N4; now rewrite E2).
  - unfold enabled_at, N2. cbn [set_link set_bps n_bps]. now rewrite zget_put, Z.eqb_refl.
  - unfold nread_text, then_ at 1. unfold proc at 1. change (n_link N2) with (stopped r (set_prog c (set_nth (c_prog c) (Z.to_nat a) IBkpt))).
    rewrite C33_text_size by (cbn [set_prog c_prog]; rewrite set_nth_length; lia). cbn [set_prog c_prog]. rewrite set_nth_length, U1.
    destruct (Z.ltb_spec (Z.of_nat (length (c_prog c))) (a + 1)); [lia|]. unfold then_, proc. cbn [set_link n_link]. rewrite C33_read_text by (assumption || lia).
    unfold range. change (Z.to_nat 1) with 1%nat. cbn [seq map]. unfold get, ret. cbn [covered set_link n_bps N2 set_bps]. rewrite zget_put, Z.eqb_refl. reflexivity.
Qed.

(** Text that is no instruction is refused where there is no breakpoint, but over an
    enabled one it is taken; from then on the breakpoint can not be removed. *)
Theorem C55_nonsense_refuted : forall U r c N a t, prints_lines U -> Z.of_nat (length (c_prog c)) < 2 ^ 63 ->
  n_link N = stopped r c -> 0 <= a < Z.of_nat (length (c_prog c)) -> prog_at (c_prog c) a = IBkpt -> check_instr (u_stod U) t = PFail PSyntax ->
  (zget (n_bps N) a = None -> nwrite_text U a [t] N = Failed N) /\
  (enabled_at N a = true -> exists N', nwrite_text U a [t] N = Done tt N' /\ nread_text U a 1 N' = Done [t] N' /\
     unset_breakpoint U a N' = Failed N' /\ disable U a N' = Failed N').
Proof.
  intros U r c N a t PL Hl L A Bk Ck. assert (U1 : u64 (a + 1) = a + 1) by (unfold u64, two64; rewrite Z.mod_small; lia). split.
  - intros Hb. unfold nwrite_text, then_ at 1. unfold proc at 1. rewrite L, C33_text_size by lia. rewrite <- L, set_link_same.
    cbn [length Z.of_nat]. change (Z.pos (Pos.of_succ_nat 0)) with 1. rewrite U1. destruct (Z.ltb_spec (Z.of_nat (length (c_prog c))) (a + 1)); [lia|].
    unfold get, then_ at 1. cbn [uncover]. rewrite Hb. unfold update, then_, proc, write_text. cbn [length combine addresses seq map each write_text_1].
    unfold then_. cbn [write_text_1]. rewrite Ck. unfold fail. destruct N; reflexivity.
  - intros En. unfold enabled_at in En. destruct (zget (n_bps N) a) as [b|] eqn:Hb; [|discriminate].
    set (N2 := set_bps N (zput (n_bps N) a (mkBp t true))). assert (Same : set_prog c (set_nth (c_prog c) (Z.to_nat a) IBkpt) = c).
    { transitivity (set_prog c (c_prog c)); [|apply set_prog_same]. f_equal. apply prog_ext; [apply set_nth_length|]. intros x Hx. rewrite set_nth_length in Hx. rewrite prog_at_set by exact A.
      destruct (Z.eqb_spec x a) as [->|Nx]; [now rewrite Bk|reflexivity]. }
    assert (Dis : disable U a N2 = Failed N2).
    { unfold disable, the_bp, get, then_. unfold N2 at 1. cbn [set_bps n_bps]. rewrite zget_put, Z.eqb_refl. cbn [opt_or ret bp_on]. unfold ret.
      unfold proc, write_text. cbn [length combine addresses seq map each bp_data bp_on]. unfold then_. cbn [write_text_1]. rewrite Ck. unfold fail. destruct N; reflexivity. }
    exists N2. split; [|split; [|split; [|exact Dis]]].
    + unfold nwrite_text, then_ at 1. unfold proc at 1. rewrite L, C33_text_size by lia. rewrite <- L, set_link_same.
      cbn [length Z.of_nat]. change (Z.pos (Pos.of_succ_nat 0)) with 1. rewrite U1. destruct (Z.ltb_spec (Z.of_nat (length (c_prog c))) (a + 1)); [lia|].
      unfold get, then_ at 1. cbn [uncover]. rewrite Hb, En. unfold update, then_.
      rewrite (proc_write U r c (c_prog c) a BKPT IBkpt) by (auto using writes_bkpt; try lia; cbn [set_bps n_link]; rewrite set_prog_same; exact L).
      rewrite Same, <- L. unfold N2. now destruct N.
    + unfold nread_text, then_ at 1. unfold proc at 1. change (n_link N2) with (n_link N). rewrite L, C33_text_size by lia.
      destruct (Z.ltb_spec (Z.of_nat (length (c_prog c))) (u64 (a + 1))) as [X|X]; [lia|]. unfold then_, proc. cbn [set_link n_link]. rewrite C33_read_text by (assumption || lia).
      unfold range. change (Z.to_nat 1) with 1%nat. cbn [seq map]. unfold get, ret. cbn [covered set_link n_bps N2 set_bps]. rewrite zget_put, Z.eqb_refl. cbn [bp_data].
      rewrite <- L. unfold N2, set_link, set_bps. reflexivity.
    + unfold unset_breakpoint, then_. now rewrite Dis.
Qed.

(** ---- C56: the rest of C29 ---- *)

(** A float constant that has no exact six-digit decimal form is lost. *)
Theorem C56_float_constant_refuted : forall U r c N a f v, prints_lines U -> Z.of_nat (length (c_prog c)) < 2 ^ 63 ->
  n_bps N = [] -> n_link N = stopped r c -> 0 <= a < Z.of_nat (length (c_prog c)) ->
  prog_at (c_prog c) a = IMov (OFReg f) (OFImm v) ->
  writes_as U (show_instr (u_ftos U) (IMov (OFReg f) (OFImm v))) (IMov (OFReg f) (OFImm 0)) -> v <> 0 ->
  exists N' p, run_ops U [OpSet a; OpUnset a] N = Some ([true; true], N') /\ n_bps N' = [] /\ n_link N' = stopped r (set_prog c p) /\
    prog_at p a = IMov (OFReg f) (OFImm 0) /\ prog_at p a <> prog_at (c_prog c) a.
Proof.
  intros U r c N a f v PL Hl B L A I W Nz.
  cbn [run_ops run_op]. unfold set_breakpoint at 1, get, then_ at 1. rewrite B. cbn [mget]. unfold then_ at 1.
  rewrite (create_ok U PL r c (c_prog c) a N) by (try lia; rewrite set_prog_same; exact L). rewrite I. unfold put_bp, update. cbn [n_bps set_link set_bps]. rewrite B. cbn [mput].
  unfold unset_breakpoint, disable, the_bp, get, then_ at 1 2 3. cbn [n_bps set_bps mget]. rewrite Z.eqb_refl. cbn [opt_or]. unfold ret. cbn [bp_on bp_data].
  unfold then_ at 1. rewrite (proc_write U r c (set_nth (c_prog c) (Z.to_nat a) IBkpt) a _ (IMov (OFReg f) (OFImm 0))) by (reflexivity || rewrite ?set_nth_length; (lia || exact W)).
  unfold put_bp, update, then_. cbn [option_map fst snd set_bps set_link n_bps mput]. rewrite Z.eqb_refl.
  eexists. eexists. split; [reflexivity|]. cbn [n_bps n_link set_bps set_link]. split; [cbn; now rewrite Z.eqb_refl|]. split; [reflexivity|].
  rewrite prog_at_set by (rewrite set_nth_length; exact A). rewrite Z.eqb_refl. split; [reflexivity|]. congruence.
Qed.

(** A breakpoint on an instruction with a negative absolute address can be set, but when
    it is to be removed the debugger dies. *)
Theorem C56_negative_address_refuted : forall U r c N a, prints_lines U -> Z.of_nat (length (c_prog c)) < 2 ^ 63 ->
  n_bps N = [] -> n_link N = stopped r c -> 0 <= a < Z.of_nat (length (c_prog c)) ->
  prog_at (c_prog c) a = IBin BADD (R 0) (R 0) (OMemImm 18446744073709551611) false ->
  assemble_instr (u_stod U) (str "ADD R0, [-5]") = POk (prog_at (c_prog c) a) /\
  exists N', run_ops U [OpSet a] N = Some ([true], N') /\ unset_breakpoint U a N' = Dead.
Proof.
  intros U r c N a PL Hl B L A I. split; [rewrite I; vm_compute; reflexivity|].
  cbn [run_ops run_op]. unfold set_breakpoint at 1, get, then_ at 1. rewrite B. cbn [mget]. unfold then_ at 1.
  rewrite (create_ok U PL r c (c_prog c) a N) by (try lia; rewrite set_prog_same; exact L). rewrite I. unfold put_bp, update. cbn [n_bps set_link set_bps]. rewrite B. cbn [mput].
  eexists. split; [reflexivity|]. cbn [snd].
  unfold unset_breakpoint, disable, the_bp, get, then_ at 1 2 3. cbn [n_bps set_bps mget]. rewrite Z.eqb_refl. cbn [opt_or]. unfold ret. cbn [bp_on bp_data].
  unfold then_, proc, write_text. cbn [length combine addresses seq map each]. unfold then_. cbn [write_text_1].
  assert (Ck : check_instr (u_stod U) (show_instr (u_ftos U) (IBin BADD (R 0) (R 0) (OMemImm 18446744073709551611) false)) = PFail PRange) by (vm_compute; reflexivity).
  now rewrite Ck.
Qed.

(** ---- C57: replacing all breakpoints ---- *)

(** Replacing the breakpoints by the same ones is an error, *)
Theorem C57_existing_refuted : forall U r c N a, prints_lines U -> Z.of_nat (length (c_prog c)) < 2 ^ 63 ->
  n_bps N = [] -> n_link N = stopped r c -> 0 <= a < Z.of_nat (length (c_prog c)) -> restorable U (prog_at (c_prog c) a) ->
  exists N1 N', set_breakpoint U a N = Done tt N1 /\ set_all_breakpoints U (n_bps N1) N1 = Failed N' /\ enabled_at N' a = false.
Proof.
  intros U r c N a PL Hl B L A R.
  assert (F : fit U (writes_as U) (fun x => x = a) (c_prog c)) by (split; [exact Hl|intros x ->; split; assumption]).
  destruct (set_ok U (writes_as U) PL _ r c (c_prog c) no_marks N a F (holds_start _ r c N B L) eq_refl eq_refl) as (N1 & E & H & _).
  destruct (disable_ok U (writes_as U) (fun t i X => X) _ r c (c_prog c) _ N1 a F H) as (N2 & E2 & H2 & Z2 & _); [unfold mark; rewrite Z.eqb_refl; discriminate|].
  exists N1, N2. split; [exact E|].
  assert (B1 : exists b, n_bps N1 = [(a, b)] /\ bp_on b = true).
  { revert E. unfold set_breakpoint, get, then_ at 1. rewrite B. cbn [mget]. unfold then_.
    rewrite (create_ok U PL r c (c_prog c) a N) by (try lia; rewrite set_prog_same; exact L). unfold put_bp, update. cbn [set_bps set_link n_bps]. rewrite B. cbn [mput].
    intros X. injection X as <-. eexists. split; [reflexivity|reflexivity]. }
  destruct B1 as (b & B1 & On). split.
  - unfold set_all_breakpoints, get, then_ at 1. rewrite B1. cbn [each fst snd]. rewrite On. unfold then_. rewrite E2. unfold ret at 1. unfold set_breakpoint, get, then_. destruct (zget (n_bps N2) a); [reflexivity|congruence].
  - unfold enabled_at. pose proof (h_marks _ _ _ _ _ _ H2 a) as M. unfold mark in M. rewrite Z.eqb_refl in M. destruct (zget (n_bps N2) a); cbn in M; congruence.
Qed.

(** and a disabled breakpoint among the new ones hides the instruction under it. *)
Theorem C57_disabled_refuted : forall U r c N a, prints_lines U -> Z.of_nat (length (c_prog c)) < 2 ^ 63 ->
  n_bps N = [] -> n_link N = stopped r c -> 0 <= a < Z.of_nat (length (c_prog c)) ->
  exists N', set_all_breakpoints U [(a, mkBp (show_instr (u_ftos U) (prog_at (c_prog c) a)) false)] N = Done tt N' /\
    nread_text U a 1 N' = Done [ [] ] N'.
Proof.
  intros U r c N a PL Hl B L A. unfold set_all_breakpoints, get, then_ at 1. rewrite B. cbn [each fst snd bp_on]. unfold then_, ret, put_bp, update. cbn [set_bps]. rewrite B. cbn [mput].
  eexists. split; [reflexivity|]. assert (U1 : u64 (a + 1) = a + 1) by (unfold u64, two64; rewrite Z.mod_small; lia).
  unfold nread_text, then_ at 1. unfold proc at 1. cbn [set_bps n_link]. rewrite L, C33_text_size by lia. rewrite U1. destruct (Z.ltb_spec (Z.of_nat (length (c_prog c))) (a + 1)); [lia|].
  unfold then_, proc. cbn [set_link set_bps n_link]. rewrite C33_read_text by (assumption || lia). unfold range. change (Z.to_nat 1) with 1%nat. cbn [seq map]. unfold get, ret.
  cbn [covered set_link set_bps n_bps mget bp_data]. rewrite Z.eqb_refl. cbn [bp_data]. destruct N; cbn in *; subst. reflexivity.
Qed.

(** ---- the hypotheses are met ---- *)

Lemma ops_case : forall c, c_prog c = prog0 ->
  Forall (fun o => 0 <= op_addr o < Z.of_nat (length (c_prog c)) /\ restorable U1 (prog_at (c_prog c) (op_addr o)))
    [OpSet 2; OpSet 4; OpSet 2; OpDisable 2; OpEnable 3; OpEnable 2; OpUnset 4; OpUnset 4].
Proof.
  intros c H. rewrite H.
  assert (R : forall a, In a [2; 3; 4] -> 0 <= a < Z.of_nat (length prog0) /\ restorable U1 (prog_at prog0 a)).
  { intros a Ia. split; [cbn in Ia; change (Z.of_nat (length prog0)) with 8; intuition lia|]. unfold restorable, writes_as.
    cbn in Ia. destruct Ia as [<-|[<-|[<-|[]]]]; (split; [vm_compute; reflexivity|split; [vm_compute; reflexivity|apply instr_quote; vm_compute; repeat constructor]]). }
  repeat (apply Forall_cons; [apply R; cbn; auto|]). apply Forall_nil.
Qed.
(** On the stopped machine of C33_case: eight operations, three of which are refused;
    afterwards there is one breakpoint, at 2. *)
Example C29_case : exists N' p, run_ops U1 [OpSet 2; OpSet 4; OpSet 2; OpDisable 2; OpEnable 3; OpEnable 2; OpUnset 4; OpUnset 4]
    (mkNative [] [] None (stopped RHwBkpt cpu1)) = Some ([true; true; false; true; false; true; true; false], N') /\
  n_link N' = stopped RHwBkpt (set_prog cpu1 p) /\ prog_at p 2 = IBkpt /\ prog_at p 4 = prog_at prog0 4.
Proof.
  assert (Hp : c_prog cpu1 = prog0) by (vm_compute; reflexivity).
  destruct (C29_original_kept U1 RHwBkpt cpu1 (mkNative [] [] None (stopped RHwBkpt cpu1)) _ (proj1 (proj2 (proj2 C33_case_readable))) eq_refl eq_refl
    ltac:(rewrite Hp; cbn; lia) (ops_case cpu1 Hp)) as (N' & p & E & L & Lp & P & _).
  exists N', p. split; [exact E|]. split; [exact L|]. rewrite Lp, Hp in P. split; [exact (P 2 ltac:(cbn; lia))|exact (P 4 ltac:(cbn; lia))].
Qed.

(** A breakpoint, then a new instruction under it and one beside it. *)
Example C55_case : exists N' p, run_wops U1 [WBp (OpSet 2); WWrite 2 (str "SUB R1, R0") (IBin BSUB (R 1) (R 1) (OReg (R 0)) false); WWrite 5 (str "NOP") INop; WBp (OpUnset 2)]
    (mkNative [] [] None (stopped RHwBkpt cpu1)) = Some ([true; true; true; true], N') /\ n_link N' = stopped RHwBkpt (set_prog cpu1 p) /\
  p = [IMov (OReg (R 0)) (OImm 3); IMov (OReg (R 1)) (OImm 0); IBin BSUB (R 1) (R 1) (OReg (R 0)) false; ILoop (R 0) (OImm 2);
       IMov (OMemImm 5) (OReg (R 1)); INop; IPutnum (R 2); IHalt].
Proof.
  assert (Hp : c_prog cpu1 = prog0) by (vm_compute; reflexivity).
  assert (W : wfair U1 [WBp (OpSet 2); WWrite 2 (str "SUB R1, R0") (IBin BSUB (R 1) (R 1) (OReg (R 0)) false); WWrite 5 (str "NOP") INop; WBp (OpUnset 2)] no_marks prog0).
  { assert (R1 : restorable U1 (prog_at prog0 2)) by (split; [vm_compute; reflexivity|split; [vm_compute; reflexivity|apply instr_quote; vm_compute; repeat constructor]]).
    assert (W1 : writes_as U1 (str "SUB R1, R0") (IBin BSUB (R 1) (R 1) (OReg (R 0)) false)) by (split; [vm_compute; reflexivity|split; [vm_compute; reflexivity|cbn; intuition discriminate]]).
    assert (R2 : restorable U1 (IBin BSUB (R 1) (R 1) (OReg (R 0)) false)) by (split; [vm_compute; reflexivity|split; [vm_compute; reflexivity|apply instr_quote; vm_compute; repeat constructor]]).
    assert (W2 : writes_as U1 (str "NOP") INop) by (split; [vm_compute; reflexivity|split; [vm_compute; reflexivity|cbn; intuition discriminate]]).
    cbn [wfair]. split; [cbn; lia|]. split; [exact R1|]. split; [cbn; lia|]. split; [exact W1|]. split; [cbn; discriminate|].
    split; [vm_compute; split; [discriminate|reflexivity]|]. split; [exact W2|]. split; [cbn; discriminate|]. split; [vm_compute; split; [discriminate|reflexivity]|]. split; [exact R2|exact I]. }
  pose proof (C55_written_kept_partial U1 RHwBkpt cpu1 (mkNative [] [] None (stopped RHwBkpt cpu1)) _ (proj1 (proj2 (proj2 C33_case_readable))) eq_refl eq_refl
    ltac:(rewrite Hp; cbn; lia) ltac:(rewrite Hp; exact W)) as H. rewrite Hp in H.
  destruct H as (N' & p & E & L & Lp & P & _ & Off). exists N', p. split; [exact E|]. split; [exact L|]. apply Off. intros a. cbn. unfold mark.
  destruct (a =? 2); discriminate.
Qed.

Example C55_case_nonsense : check_instr (u_stod U1) (str "HELLO") = PFail PSyntax. Proof. vm_compute. reflexivity. Qed.
(** 0.0000001 is printed as 0.000000, which is read as 0. *)
Definition U2 : setup := mkSetup (fun t => if teqb t (str "0.000000") then Some 0 else None) (fun _ => str "0.000000") (fun _ => str "0") (fun _ => Some 0) 4 1 16 env0 cfg1 false.
Example C56_case_float : writes_as U2 (show_instr (u_ftos U2) (IMov (OFReg 0) (OFImm 4502148214488346440))) (IMov (OFReg 0) (OFImm 0)).
Proof. split; [vm_compute; reflexivity|]. split; [vm_compute; reflexivity|]. cbn. intuition discriminate. Qed.

Print Assumptions C29_original_kept.
Print Assumptions C29_restorable.
Print Assumptions C55_written_kept_partial.
Print Assumptions C55_disabled_breakpoint_refuted.
Print Assumptions C55_nonsense_refuted.
Print Assumptions C56_float_constant_refuted.
Print Assumptions C56_negative_address_refuted.
Print Assumptions C57_existing_refuted.
Print Assumptions C57_disabled_refuted.
