(** C81, C82: stepping by lines of the source. *)
From Coq Require Import Ascii String ZArith NArith List Bool Lia.
From Verif Require Import Base Text PropText PropNet StdMap Isa Alu AluSpec State IsaSpec IsaSame Lexer Asm Show AsmPrint AsmSpec PropAsm Exec Ram Writes Rat Cpu Os DbgText Spaces
  InOrder PipeInv PipeBasics PipeActs PipeMem PipeTick PipeDom PipeRun PipeBoot PipePoke Session IsaRefine DbgSpec Stops PropPipe PropDbg Client Proto PropProto Native PropBreak PropWatch
  LibSpec NatRun NatStop PropStep PropOver Src PropLines.
Import ListNotations.
Open Scope Z_scope.

(** ---- specification ---- *)

(** A line of the source begins at the address. *)
Definition begins (s : source) (a : Z) : Prop := exists line, line_to_addr s line = Some a.

Section Line.
Variable F : fops.
Variable p : list instr.
Variable m : marks.
Variable w : Z -> Prop.
Variable L : Z -> Prop.

(** One instruction; an enabled breakpoint on it is reported instead unless the user is
    at the instruction already. *)
Inductive into (first : bool) : arch -> devent -> arch -> Prop :=
| in_step : forall S e S', first = true \/ m (a_pc S) <> Some true -> steps F p w S e S' -> into first S e S'
| in_stop : forall S S', first = false -> m (a_pc S) = Some true -> a_halted S = false -> same S' S -> into first S (EvBreakpoint (a_pc S)) S'.
(** Steps of the kind [one] until a line begins, or there is something to report. *)
Inductive to_line (one : bool -> arch -> devent -> arch -> Prop) : bool -> arch -> devent -> arch -> Prop :=
| tl_line : forall first S S', one first S EvSinglestep S' -> L (a_pc S') -> to_line one first S EvSinglestep S'
| tl_event : forall first S e S', one first S e S' -> e <> EvSinglestep -> to_line one first S e S'
| tl_more : forall first S T e S', one first S EvSinglestep T -> ~ L (a_pc T) -> to_line one false T e S' -> to_line one first S e S'.
End Line.

(** What a user does with the lines of the source, besides the calls of LibSpec.v:
    breakpoint operations by line, stepping by lines into and over calls. *)
Inductive lineop : Type := LSet | LUnset | LEnable | LDisable.
Definition op_at (o : lineop) (a : Z) : bpop := match o with LSet => OpSet a | LUnset => OpUnset a | LEnable => OpEnable a | LDisable => OpDisable a end.
Inductive deed : Type := DCall (k : call) | DLine (o : lineop) (line : Z) | DInto | DOver.

Section Deeds.
Variable F : fops.
Variable p : list instr.
Variable s : source.
(** [v_left] as in LibSpec.v: a watchpoint or a breakpoint ended the step, and the
    machine is still in stepping mode. *)
Inductive deed_spec : deed -> view -> answer -> view -> Prop :=
| ds_call : forall k v x v', view_spec F p k v x v' -> deed_spec (DCall k) v x v'
| ds_line : forall o line a v x v', line_to_addr s line = Some a -> view_spec F p (KBp (op_at o a)) v x v' -> deed_spec (DLine o line) v x v'
| ds_no_line : forall o line v, line_to_addr s line = None -> deed_spec (DLine o line) v Refused v
| ds_into : forall m ws S l e S' l', to_line (begins s) (into F p m (fun a => In a ws)) true S e S' ->
    (l' = true -> exists a, e = EvWatchpoint a \/ e = EvBreakpoint a) -> deed_spec DInto (mkView m ws S l) (Saw e) (mkView m ws S' l')
| ds_over : forall m S l e S' l', to_line (begins s) (over F p m (fun _ => False)) true S e S' ->
    (l' = true -> exists a, e = EvBreakpoint a) -> deed_spec DOver (mkView m [] S l) (Saw e) (mkView m [] S' l').
Inductive deeds_spec : list deed -> view -> list answer -> view -> Prop :=
| dl_nil : forall v, deeds_spec [] v [] v
| dl_cons : forall d ds v x v1 xs v2, deed_spec d v x v1 -> deeds_spec ds v1 xs v2 -> deeds_spec (d :: ds) v (x :: xs) v2.
End Deeds.

(** What the library does. *)
Section Did.
Variable U : setup.
Variable fuel : nat.
Variable s : source.
Definition line_op (o : lineop) : source -> Z -> act native Z :=
  match o with LSet => set_source_breakpoint U | LUnset => unset_source_breakpoint U | LEnable => enable_source_breakpoint U | LDisable => disable_source_breakpoint U end.
Inductive deed_did : deed -> native -> answer -> native -> Prop :=
| dd_call : forall k N x N', did U fuel k N x N' -> deed_did (DCall k) N x N'
| dd_line : forall o line N a N', line_op o s line N = Done a N' -> deed_did (DLine o line) N Fine N'
| dd_refused : forall o line N N', line_op o s line N = Failed N' -> deed_did (DLine o line) N Refused N'
| dd_into : forall N e N', source_step_in U fuel s N = Done e N' -> deed_did DInto N (Saw e) N'
| dd_over : forall N e N', source_step_over U fuel s N = Done e N' -> deed_did DOver N (Saw e) N'.
(** In a row; the CPU has not failed. *)
Inductive deeds_did : list deed -> native -> list answer -> native -> Prop :=
| ed_nil : forall N, deeds_did [] N [] N
| ed_cons : forall d ds N x N1 xs N2, deed_did d N x N1 -> ~ cpu_failed N1 -> deeds_did ds N1 xs N2 -> deeds_did (d :: ds) N (x :: xs) N2.
End Did.

(** As [usable], [no_over], [no_watch]. *)
Definition usable_deed (U : setup) (p : list instr) (s : source) (d : deed) : Prop :=
  match d with
  | DCall k => usable U p k
  | DLine o line => forall a, line_to_addr s line = Some a -> usable U p (KBp (op_at o a))
  | DInto => True
  | DOver => usable U p KOver
  end.
Definition deed_no_over (d : deed) : Prop := match d with DCall k => no_over k | DOver => False | _ => True end.
Definition deed_no_watch (d : deed) : Prop := match d with DCall k => no_watch k | _ => True end.

(** ---- proofs ---- *)

Lemma line_begins : forall s a, mapped s -> (has_line s a = true <-> begins s a).
Proof.
  intros s a M. pose proof (C34_addr_to_line s a M) as H. unfold has_line, begins. destruct (addr_to_line s a) as [l|]; split; intros X; try reflexivity; try discriminate.
  - exists l. apply H.
  - destruct X as [l X]. now elim (H l).
Qed.

Lemma over_kind1 : forall F p m first A e A', over F p m (fun _ => False) first A e A' -> e = EvSinglestep /\ a_halted A' = false \/ e = EvEnd /\ a_halted A' = true \/
  (e = EvBreakpoint (a_pc A') /\ m (a_pc A') = Some true /\ a_halted A' = false).
Proof.
  intros F p m first A e A' H. destruct H as [S e S' X1 X2 X3|S S' X1 X2 X3 X4 X5|S T e S' X1 X2 X3 X4|S e S' X1 X2 X3].
  - destruct X3 as [? ? a _ _ []|? ? Y1 Y2|? ? Y1 Y2 Y3]; auto.
  - right; right. rewrite (s_pc _ _ X5), (s_halted _ _ X5). auto.
  - destruct (comes_by _ _ _ _ _ _ _ _ X4) as [_ [(-> & _ & _ & Y & _)|[(-> & Y2 & _ & Y)|Y]]]; auto.
  - destruct (comes_by _ _ _ _ _ _ _ _ X3) as [_ [(-> & _ & _ & Y & _)|[(-> & Y2 & _ & Y)|Y]]]; auto.
Qed.
Section U.
Variable U : setup.
Notation E := (u_env U).
Notation F := (e_fops (u_env U)).
Variable fuel : nat.
Hypothesis PL : prints_lines U.
Hypothesis TF : typed_fops F.
Variable orig : list instr.
Hypothesis orig_typed : Forall typed_instr orig.
Hypothesis orig_ip : Forall keeps_ip orig.
Hypothesis orig_len : Z.of_nat (length orig) < 2 ^ 63.
Hypothesis orig_bkpt : Forall (fun i => i <> IBkpt) orig.
Notation rested := (rested U orig).
Notation watching := NatStop.watching.
Variable s : source.
Hypothesis SM : mapped s.

Lemma raw_all : forall w m A N r c e N', rested m A N r c -> watching w c -> raw_step U fuel N = Done e N' ->
  gone N' /\ e <> EvSinglestep \/
  exists A' r' c', into F orig m w false A e A' /\ rested m A' N' r' c' /\ watching w c' /\ (c_trap c' = true -> e <> EvSinglestep) /\ n_wps N' = n_wps N.
Proof.
  intros w m A N r c e N' HR HW H. destruct (match m (a_pc A) with Some true => true | _ => false end) eqn:Hb.
  - assert (Hm : m (a_pc A) = Some true) by (destruct (m (a_pc A)) as [[]|]; congruence).
    unfold raw_step, then_ in H. destruct (proc (singlestep U) N) as [u N1| | |] eqn:Hs; try discriminate.
    destruct (go_on U fuel TF orig orig_typed orig_bkpt w m A N r c true u N1 e N' HR HW ltac:(auto) H) as [[[a ->] X]|(A' & r' & c' & X1 & X2 & X3 & X4 & X5)]; [left; split; [exact X|discriminate]|right].
    exists A', r', c'. assert (HB : e = EvBreakpoint (a_pc A) /\ same A' A /\ a_halted A = false).
    { destruct X1 as [n S1 A' H1 H2 H3 H4 H5|n S1 A' e H1 H2 H3 H4 H5]; rewrite (H2 eq_refl) in H1; inversion H1; subst; [auto|contradiction]. }
    destruct HB as (-> & HB & HH). split; [now apply in_stop|]. split; [exact X2|]. split; [exact X3|]. split; [discriminate|exact X5].
  - assert (Hm : m (a_pc A) <> Some true) by (destruct (m (a_pc A)) as [[]|]; congruence).
    destruct (raw_ok U fuel TF orig orig_typed orig_bkpt w m A N r c e N' HR HW Hm H) as [[[a ->] X]|(A' & r' & c' & Y1 & Y2 & Y3 & Y4 & Y5)]; [left; split; [exact X|discriminate]|right].
    exists A', r', c'. split; [apply in_step; auto|]. split; [exact Y2|]. split; [exact Y3|]. split; [|exact Y5]. intros Q1. destruct (Y4 Q1) as [->|[b ->]]; discriminate.
Qed.
Lemma into_loop : forall k w m A0 first A N r c e0 e N', into F orig m w first A0 e0 A -> rested m A N r c -> watching w c -> (c_trap c = true -> e0 <> EvSinglestep) -> step_in_loop U fuel k s e0 N = Done e N' ->
  gone N' \/
  exists A' r' c', to_line (begins s) (into F orig m w) first A0 e A' /\ rested m A' N' r' c' /\ watching w c' /\ (c_trap c' = true -> e <> EvSinglestep) /\ n_wps N' = n_wps N.
Proof.
  induction k as [|k IH]; intros w m A0 first A N r c e0 e N' HI HR HW HT H.
  all: assert (Hcase : e0 = EvSinglestep \/ e0 <> EvSinglestep) by (destruct e0; auto; right; discriminate).
  all: destruct Hcase as [->|He]; [|right; assert (e = e0 /\ N' = N) as [-> ->] by (destruct e0; try (now elim He); cbn [step_in_loop] in H; unfold ret in H; split; congruence);
    exists A, r, c; split; [now apply tl_event|auto]].
  all: cbn [step_in_loop] in H; unfold then_ at 1 in H; (destruct (get_ip U N) as [ip N0| | |] eqn:Hip; try discriminate).
  all: destruct (get_ip_ok U _ _ _ _ _ _ (rs_link _ _ _ _ _ _ _ HR) (rs_rests _ _ _ _ _ _ _ HR) (rs_wordy _ _ _ _ _ _ _ HR) Hip) as [-> ->].
  all: destruct (has_line s (a_pc A)) eqn:Hl; [right; unfold ret in H; assert (e = EvSinglestep /\ N' = N) as [-> ->] by (split; congruence);
    exists A, r, c; split; [apply tl_line; [exact HI|now apply line_begins]|auto]|].
  - discriminate.
  - unfold then_ at 1 in H. destruct (raw_step U fuel N) as [e1 N1| | |] eqn:Hs; try discriminate.
    destruct (raw_all w m A N r c e1 N1 HR HW Hs) as [[G Ne]|(A1 & r1 & c1 & Y1 & Y2 & Y3 & Y4 & Y5)].
    { left. assert (Q : step_in_loop U fuel k s e1 N1 = Done e1 N1) by (destruct e1; try (now elim Ne); destruct k; reflexivity). rewrite Q in H. now assert (N' = N1) as -> by congruence. }
    destruct (IH w m A false A1 N1 r1 c1 e1 e N' Y1 Y2 Y3 Y4 H) as [X|(A' & r' & c' & X1 & X2 & X3 & X4 & X5)]; [now left|right].
    exists A', r', c'. split; [|rewrite X5; auto]. eapply tl_more; [exact HI| |exact X1]. intros B. apply line_begins in B; [congruence|exact SM].
Qed.
Lemma step_in_ok : forall w m A N r c e N', rested m A N r c -> watching w c -> source_step_in U fuel s N = Done e N' ->
  gone N' \/
  exists A' r' c', to_line (begins s) (into F orig m w) true A e A' /\ rested m A' N' r' c' /\ watching w c' /\ (c_trap c' = true -> e <> EvSinglestep) /\ n_wps N' = n_wps N.
Proof.
  intros w m A N r c e N' HR HW H. unfold source_step_in in H. unfold then_ at 1 in H. destruct (single_step U fuel N) as [e1 N1| | |] eqn:Hs; try discriminate.
  destruct (single_ok U fuel PL TF orig orig_typed orig_ip orig_len orig_bkpt w m A N r c e1 N1 HR HW Hs) as [[[a ->] G]|(A1 & r1 & c1 & Y1 & Y2 & Y3 & Y4 & Y5)].
  - left. destruct fuel; cbn [step_in_loop] in H; unfold ret in H; now assert (N' = N1) as -> by congruence.
  - destruct (into_loop fuel w m A true A1 N1 r1 c1 e1 e N' ltac:(apply in_step; auto) Y2 Y3 ltac:(intros Q1; destruct (Y4 Q1) as [->|[b ->]]; discriminate) H) as [X|(A' & r' & c' & X1 & X2 & X3 & X4 & X5)]; [now left|right].
    exists A', r', c'. rewrite X5. auto.
Qed.

Lemma over_loop : forall k m A0 first A N r c e0 e N', calls_return U orig -> over F orig m (fun _ => False) first A0 e0 A -> rested m A N r c -> watching (fun _ => False) c ->
  (c_trap c = true -> a_halted A = true \/ exists a, e0 = EvBreakpoint a) -> step_over_loop U fuel k s e0 N = Done e N' ->
  gone N' \/
  exists A' r' c', to_line (begins s) (over F orig m (fun _ => False)) first A0 e A' /\ rested m A' N' r' c' /\ watching (fun _ => False) c' /\ (c_trap c' = true -> a_halted A' = true \/ exists a, e = EvBreakpoint a) /\ n_wps N' = n_wps N.
Proof.
  induction k as [|k IH]; intros m A0 first A N r c e0 e N' CR HI HR HW HT H.
  all: assert (Hcase : e0 = EvSinglestep \/ e0 <> EvSinglestep) by (destruct e0; auto; right; discriminate).
  all: destruct Hcase as [->|He]; [|right; assert (e = e0 /\ N' = N) as [-> ->] by (destruct e0; try (now elim He); cbn [step_over_loop] in H; unfold ret in H; split; congruence);
    exists A, r, c; split; [now apply tl_event|auto]].
  all: cbn [step_over_loop] in H; unfold then_ at 1 in H; (destruct (get_ip U N) as [ip N0| | |] eqn:Hip; try discriminate).
  all: destruct (get_ip_ok U _ _ _ _ _ _ (rs_link _ _ _ _ _ _ _ HR) (rs_rests _ _ _ _ _ _ _ HR) (rs_wordy _ _ _ _ _ _ _ HR) Hip) as [-> ->].
  all: destruct (has_line s (a_pc A)) eqn:Hl; [right; unfold ret in H; assert (e = EvSinglestep /\ N' = N) as [-> ->] by (split; congruence);
    exists A, r, c; split; [apply tl_line; [exact HI|now apply line_begins]|auto]|].
  - discriminate.
  - unfold then_ at 1 in H. destruct (step_over U fuel false N) as [e1 N1| | |] eqn:Hs; try discriminate.
    destruct (over_all U fuel PL TF orig orig_typed orig_ip orig_len orig_bkpt false m A N r c e1 N1 CR HR HW ltac:(intros _ Q1; destruct (HT Q1) as [Q2|[a Q2]]; [exact Q2|discriminate]) Hs)
      as [G|(A1 & r1 & c1 & Y1 & Y2 & Y3 & Y4 & Y5)].
    { left. destruct (match e1 with EvSinglestep => true | _ => false end) eqn:He1.
      - destruct e1; try discriminate. destruct k as [|k]; cbn [step_over_loop] in H; unfold then_ at 1 in H; (destruct (get_ip U N1) as [ip N2| | |] eqn:E1; try discriminate);
          pose proof (kg_ip U _ _ _ G E1) as G1; (destruct (has_line s ip); [unfold ret in H; now assert (N' = N2) as -> by congruence|]); [discriminate|].
        unfold then_ at 1 in H. destruct (step_over U fuel false N2) as [e2 N3| | |] eqn:E3; try discriminate. exfalso. exact (gone_over U fuel false _ _ _ G1 E3).
      - assert (Q : step_over_loop U fuel k s e1 N1 = Done e1 N1) by (destruct e1; try discriminate He1; destruct k; reflexivity). rewrite Q in H. now assert (N' = N1) as -> by congruence. }
    destruct (IH m A false A1 N1 r1 c1 e1 e N' CR Y1 Y2 Y3 ltac:(intros Q1; destruct (Y4 Q1) as [|[_ ?]]; auto) H) as [X|(A' & r' & c' & X1 & X2 & X3 & X4 & X5)]; [now left|right].
    exists A', r', c'. split; [|rewrite X5; auto]. eapply tl_more; [exact HI| |exact X1]. intros B. apply line_begins in B; [congruence|exact SM].
Qed.
Lemma step_over_ok : forall m A N r c e N', calls_return U orig -> rested m A N r c -> watching (fun _ => False) c -> source_step_over U fuel s N = Done e N' ->
  gone N' \/
  exists A' r' c', to_line (begins s) (over F orig m (fun _ => False)) true A e A' /\ rested m A' N' r' c' /\ watching (fun _ => False) c' /\ (c_trap c' = true -> a_halted A' = true \/ exists a, e = EvBreakpoint a) /\ n_wps N' = n_wps N.
Proof.
  intros m A N r c e N' CR HR HW H. unfold source_step_over in H. unfold then_ at 1 in H. destruct (step_over U fuel true N) as [e1 N1| | |] eqn:Hs; try discriminate.
  destruct (over_all U fuel PL TF orig orig_typed orig_ip orig_len orig_bkpt true m A N r c e1 N1 CR HR HW ltac:(discriminate) Hs) as [G|(A1 & r1 & c1 & Y1 & Y2 & Y3 & Y4 & Y5)].
  { left. destruct (match e1 with EvSinglestep => true | _ => false end) eqn:He1.
    - destruct e1; try discriminate. set (k := fuel) in H at 2. destruct k as [|k]; cbn [step_over_loop] in H; unfold then_ at 1 in H; (destruct (get_ip U N1) as [ip N2| | |] eqn:E1; try discriminate);
        pose proof (kg_ip U _ _ _ G E1) as G1; (destruct (has_line s ip); [unfold ret in H; now assert (N' = N2) as -> by congruence|]); [discriminate|].
      unfold then_ at 1 in H. destruct (step_over U fuel false N2) as [e2 N3| | |] eqn:E3; try discriminate. exfalso. exact (gone_over U fuel false _ _ _ G1 E3).
    - assert (Q : step_over_loop U fuel fuel s e1 N1 = Done e1 N1) by (set (k := fuel) at 2; destruct e1; try discriminate He1; destruct k; reflexivity). rewrite Q in H. now assert (N' = N1) as -> by congruence. }
  destruct (over_loop fuel m A true A1 N1 r1 c1 e1 e N' CR Y1 Y2 Y3 ltac:(intros Q1; destruct (Y4 Q1) as [|[X _]]; [auto|discriminate]) H) as [X|(A' & r' & c' & X1 & X2 & X3 & X4 & X5)]; [now left|right].
  exists A', r', c'. rewrite X5. auto.
Qed.
Lemma into_kind : forall m w first A e A', into F orig m w first A e A' -> e = EvSinglestep /\ a_halted A' = false \/ e = EvEnd /\ a_halted A' = true \/ (exists a, e = EvWatchpoint a \/ e = EvBreakpoint a).
Proof. intros m w first A e A' H. destruct H as [S e S' _ H|]; [|right; right; eauto]. destruct H; eauto 6. Qed.
Lemma to_line_kind : forall m w first A e A', to_line (begins s) (into F orig m w) first A e A' ->
  e = EvSinglestep \/ e = EvEnd /\ a_halted A' = true \/ (exists a, e = EvWatchpoint a \/ e = EvBreakpoint a).
Proof. intros m w first A e A' H. induction H as [|first S e S' H _|]; auto. destruct (into_kind _ _ _ _ _ _ H) as [[X _]|[X|X]]; auto. Qed.
Lemma steps_ext1 : forall w w' S e S', (forall a, w a <-> w' a) -> steps F orig w S e S' -> steps F orig w' S e S'.
Proof.
  intros w w' S e S' X H. destruct H as [S S' a H1 H2 H3|S S' H1 H2|S S' H1 H2 H3]; [eapply st_watch; eauto; now apply X|now apply st_end|].
  apply st_one; auto. intros (a & A1 & A2). apply H3. exists a. split; [exact A1|now apply X].
Qed.
Lemma to_line_ext : forall m w w' first S e S', (forall a, w a <-> w' a) -> to_line (begins s) (into F orig m w) first S e S' -> to_line (begins s) (into F orig m w') first S e S'.
Proof.
  intros m w w' first S e S' X H.
  assert (I : forall first S e S', into F orig m w first S e S' -> into F orig m w' first S e S').
  { intros f A e0 A' [B e1 B' Y1 Y2|B B' Y1 Y2 Y3 Y4]; [apply in_step; [exact Y1|eapply steps_ext1; eauto]|now apply in_stop]. }
  induction H as [f A A' H1 H2|f A e A' H1 H2|f A B e A' H1 H2 H3 IH]; [apply tl_line|apply tl_event|eapply tl_more]; eauto.
Qed.

Definition fit_deed (d : deed) : Prop :=
  match d with
  | DCall k => may_call U orig k
  | DLine o line => forall a, line_to_addr s line = Some a -> may_call U orig (KBp (op_at o a))
  | DInto => True
  | DOver => calls_return U orig
  end.

Lemma deed_ok : forall d v N r c x N', viewed U orig v N r c -> fit_deed d -> v_watch v = [] \/ deed_no_over d -> deed_did U fuel s d N x N' -> ~ cpu_failed N' ->
  exists v' r' c', deed_spec F orig s d v x v' /\ viewed U orig v' N' r' c'.
Proof.
  intros d v N r c x N' HV Hk Hw H Hx. destruct H as [k N x N' H|o line N a N' H|o line N N' H|N e N' H|N e N' H]; cbn [fit_deed deed_no_over] in Hk, Hw.
  - destruct (call_ok U fuel PL TF orig orig_typed orig_ip orig_len orig_bkpt k v N r c x N' HV Hk Hw H Hx) as (v' & r' & c' & A1 & A2). exists v', r', c'. split; [now apply ds_call|exact A2].
  - destruct (line_to_addr s line) as [b|] eqn:Hl.
    + assert (G : run_op U (op_at o b) N = Done tt N').
      { destruct o; unfold line_op, set_source_breakpoint, unset_source_breakpoint, enable_source_breakpoint, disable_source_breakpoint, at_line in H; rewrite Hl in H; unfold then_ in H;
          cbn [op_at run_op]; match type of H with context [match ?x with _ => _ end] => destruct x as [[] N1| | |] eqn:E end; try discriminate; unfold ret in H; congruence. }
      destruct (call_ok U fuel PL TF orig orig_typed orig_ip orig_len orig_bkpt (KBp (op_at o b)) v N r c Fine N' HV (Hk b eq_refl) ltac:(now right) ltac:(now constructor) Hx) as (v' & r' & c' & A1 & A2).
      exists v', r', c'. split; [eapply ds_line; eauto|exact A2].
    + exfalso. destruct o; unfold line_op, set_source_breakpoint, unset_source_breakpoint, enable_source_breakpoint, disable_source_breakpoint, at_line in H; rewrite Hl in H; discriminate.
  - destruct (line_to_addr s line) as [b|] eqn:Hl.
    + assert (G : run_op U (op_at o b) N = Failed N').
      { destruct o; unfold line_op, set_source_breakpoint, unset_source_breakpoint, enable_source_breakpoint, disable_source_breakpoint, at_line in H; rewrite Hl in H; unfold then_ in H;
          cbn [op_at run_op]; match type of H with context [match ?x with _ => _ end] => destruct x as [[] N1| | |] eqn:E end; try discriminate; unfold ret in H; congruence. }
      destruct (call_ok U fuel PL TF orig orig_typed orig_ip orig_len orig_bkpt (KBp (op_at o b)) v N r c Refused N' HV (Hk b eq_refl) ltac:(now right) ltac:(now constructor) Hx) as (v' & r' & c' & A1 & A2).
      exists v', r', c'. split; [eapply ds_line; eauto|exact A2].
    + assert (N' = N) as ->.
      { destruct o; unfold line_op, set_source_breakpoint, unset_source_breakpoint, enable_source_breakpoint, disable_source_breakpoint, at_line in H; rewrite Hl in H; unfold fail in H; congruence. }
      exists v, r, c. split; [now apply ds_no_line|exact HV].
  - destruct HV as [V1 V2 V3 V4 V5 V6]. destruct v as [m ws S l]. cbn [v_marks v_watch v_state v_left] in *.
    destruct (step_in_ok _ m S N r c e N' V1 V2 H) as [X|(A' & r' & c' & X1 & X2 & X3 & X4 & X5)]; [now elim (Hx (gone_failed _ X))|].
    set (l' := c_trap c' && negb (a_halted A')). exists (mkView m ws A' l'), r', c'. split.
    + apply ds_into; [eapply to_line_ext; [exact V3|exact X1]|]. intros Hl. apply andb_true_iff in Hl. destruct Hl as [Hl1 Hl2].
      destruct (to_line_kind _ _ _ _ _ _ X1) as [->|[[-> Y]|Y]]; [now elim (X4 Hl1)|rewrite Y in Hl2; discriminate|exact Y].
    + constructor; cbn [v_marks v_watch v_state v_left]; try (unfold NatStop.watching, listed; rewrite X5); auto.
      * intros Hl. now apply andb_true_iff in Hl.
      * intros Hl. unfold l'. rewrite Hl. destruct (a_halted A'); auto.
  - destruct Hw as [Hw|[]]. destruct HV as [V1 V2 V3 V4 V5 V6]. destruct v as [m ws S l]. cbn [v_marks v_watch v_state v_left] in *. subst ws.
    assert (V2' : watching (fun _ => False) c).
    { intros a. rewrite (V2 a), (V3 a). cbn [In]. tauto. }
    destruct (step_over_ok m S N r c e N' Hk V1 V2' H) as [X|(A' & r' & c' & X1 & X2 & X3 & X4 & X5)]; [now elim (Hx (gone_failed _ X))|].
    set (l' := c_trap c' && negb (a_halted A')). exists (mkView m [] A' l'), r', c'. split.
    + apply ds_over; [exact X1|]. intros Hl. apply andb_true_iff in Hl. destruct Hl as [Hl1 Hl2]. destruct (X4 Hl1) as [Y|Y]; [rewrite Y in Hl2; discriminate|exact Y].
    + constructor; cbn [v_marks v_watch v_state v_left]; try (unfold listed; rewrite X5); auto.
      * intros a. rewrite (X3 a). fold (listed N a). rewrite (V3 a). cbn [In]. tauto.
      * intros Hl. now apply andb_true_iff in Hl.
      * intros Hl. unfold l'. rewrite Hl. destruct (a_halted A'); auto.
Qed.

Lemma deeds_ok : forall ds v N r c xs N', viewed U orig v N r c -> Forall fit_deed ds -> Forall deed_no_over ds \/ v_watch v = [] /\ Forall deed_no_watch ds -> deeds_did U fuel s ds N xs N' ->
  exists v' r' c', deeds_spec F orig s ds v xs v' /\ viewed U orig v' N' r' c'.
Proof.
  intros ds v N r c xs N' HV Hk Hw H. revert v r c HV Hk Hw. induction H as [N|k ks N x N1 xs N2 H1 Hf H2 IH]; intros v r c HV Hk Hw; [exists v, r, c; split; [constructor|exact HV]|].
  inversion Hk as [|? ? K1 K2]; subst.
  assert (Hw1 : v_watch v = [] \/ deed_no_over k) by (destruct Hw as [Hw|[Hw _]]; [right; now inversion Hw|now left]).
  destruct (deed_ok k v N r c x N1 HV K1 Hw1 H1 Hf) as (v1 & r1 & c1 & A1 & A2).
  destruct (IH v1 r1 c1 A2 K2) as (v2 & r2 & c2 & B1 & B2).
  { destruct Hw as [Hw|[Hw Hw2]]; [left; now inversion Hw|right]. inversion Hw2 as [|? ? X1 X2]; subst. split; [|exact X2].
    destruct A1 as [k v x v' A1|o line a v x v' _ A1| | |]; try exact Hw; try reflexivity; inversion A1; subst; try exact Hw; try reflexivity; elim X1. }
  exists v2, r2, c2. split; [econstructor; eauto|exact B2].
Qed.
End U.

(** ---- C81 ---- *)

Lemma deeds_fit : forall U p s ds, Forall (usable_deed U p s) ds -> Forall (fit_deed U p s) ds.
Proof.
  intros U p s ds. apply Forall_impl. intros [k|o line| |]; cbn [usable_deed fit_deed]; auto.
Qed.

(** C81. The calls of the library, breakpoints by line, and stepping by lines, in any
    order and any number: what is reported and what the program has done is what
    [deeds_spec] says. *)
Theorem C81_history : forall U fuel g p data input c0 s ds xs N', debuggee U g p data input c0 -> mapped s -> Forall (usable_deed U p s) ds ->
  Forall deed_no_over ds \/ Forall deed_no_watch ds -> deeds_did U fuel s ds (connected c0) xs N' ->
  exists v, deeds_spec (e_fops (u_env U)) p s ds (mkView no_marks [] (isa_boot (g_ram g) data input) false) xs v /\
    holds_view (v_marks v) (v_state v) N' /\ (forall a, In a (map fst (n_wps N')) <-> In a (v_watch v)).
Proof.
  intros U fuel g p data input c0 s ds xs N' HD SM Hk Hw H. pose proof HD as [PL [Hip Hty Hb] Hl Hbk R1 R2].
  destruct (deeds_ok U fuel PL (ty_fops _ _ _ _ _ Hty) p (ty_prog _ _ _ _ _ Hty) Hip Hl Hbk s SM ds _ _ _ _ xs N' (at_start U g p data input c0 HD) (deeds_fit _ _ _ _ Hk)) as (v & r & c & V1 & V2); auto.
  { destruct Hw; [now left|right; now split]. }
  exists v. split; [exact V1|]. split; [eapply viewed_holds; exact V2|exact (vw_listed _ _ _ _ _ _ V2)].
Qed.

(** After any such history, one step. [w] are the watched addresses. *)
Theorem C81_step_into : forall U fuel g p data input c0 s ds xs N e N', debuggee U g p data input c0 -> mapped s -> Forall (usable_deed U p s) ds ->
  Forall deed_no_over ds \/ Forall deed_no_watch ds -> deeds_did U fuel s ds (connected c0) xs N -> deed_did U fuel s DInto N (Saw e) N' -> ~ cpu_failed N' ->
  exists m S S', holds_view m S N /\ holds_view m S' N' /\ (forall a, In a (map fst (n_wps N)) <-> In a (map fst (n_wps N'))) /\
    to_line (begins s) (into (e_fops (u_env U)) p m (fun a => In a (map fst (n_wps N)))) true S e S'.
Proof.
  intros U fuel g p data input c0 s ds xs N e N' HD SM Hk Hw H H1 Hf. pose proof HD as [PL [Hip Hty Hb] Hl Hbk R1 R2].
  destruct (deeds_ok U fuel PL (ty_fops _ _ _ _ _ Hty) p (ty_prog _ _ _ _ _ Hty) Hip Hl Hbk s SM ds _ _ _ _ xs N (at_start U g p data input c0 HD) (deeds_fit _ _ _ _ Hk)) as (v & r & c & V1 & V2); auto.
  { destruct Hw; [now left|right; now split]. }
  destruct (deed_ok U fuel PL (ty_fops _ _ _ _ _ Hty) p (ty_prog _ _ _ _ _ Hty) Hip Hl Hbk s SM DInto v N r c (Saw e) N' V2 I (or_intror I) H1 Hf) as (v' & r' & c' & V3 & V4).
  pose proof (vw_listed _ _ _ _ _ _ V2) as L1. pose proof (vw_listed _ _ _ _ _ _ V4) as L2. pose proof (viewed_holds _ _ _ _ _ _ V2) as B1. pose proof (viewed_holds _ _ _ _ _ _ V4) as B2.
  inversion V3 as [| | |m ws S l e0 S' l' X1 X2|]; subst. cbn [v_marks v_watch v_state] in *. exists m, S, S'. split; [exact B1|]. split; [exact B2|].
  split; [intros a; fold (listed N a); fold (listed N' a); now rewrite (L1 a), (L2 a)|]. eapply to_line_ext; [|exact X1]. intros a. symmetry. exact (L1 a).
Qed.
Theorem C82_step_over : forall U fuel g p data input c0 s ds xs N e N', debuggee U g p data input c0 -> mapped s -> Forall (usable_deed U p s) (DOver :: ds) ->
  Forall deed_no_watch ds -> deeds_did U fuel s ds (connected c0) xs N -> deed_did U fuel s DOver N (Saw e) N' -> ~ cpu_failed N' ->
  exists m S S', holds_view m S N /\ holds_view m S' N' /\ to_line (begins s) (over (e_fops (u_env U)) p m (fun _ => False)) true S e S'.
Proof.
  intros U fuel g p data input c0 s ds xs N e N' HD SM Hk Hw H H1 Hf. pose proof HD as [PL [Hip Hty Hb] Hl Hbk R1 R2]. inversion Hk as [|? ? K1 K2]; subst.
  destruct (deeds_ok U fuel PL (ty_fops _ _ _ _ _ Hty) p (ty_prog _ _ _ _ _ Hty) Hip Hl Hbk s SM ds _ _ _ _ xs N (at_start U g p data input c0 HD) (deeds_fit _ _ _ _ K2)) as (v & r & c & V1 & V2); auto.
  assert (Hv : v_watch v = []).
  { assert (G : forall v0, deeds_spec (e_fops (u_env U)) p s ds v0 xs v -> v_watch v0 = [] -> v_watch v = []); [|exact (G _ V1 eq_refl)]. clear - Hw. intros v0 G. induction G as [v|d ds v0 x v1 xs v2 G1 G2 IH]; intros X; [exact X|].
    inversion Hw as [|? ? W1 W2]; subst. apply IH; [exact W2|].
    destruct G1 as [k v x v' A1|o line a v x v' _ A1| | |]; try exact X; try reflexivity; inversion A1; subst; try exact X; try reflexivity; elim W1. }
  destruct (deed_ok U fuel PL (ty_fops _ _ _ _ _ Hty) p (ty_prog _ _ _ _ _ Hty) Hip Hl Hbk s SM DOver v N r c (Saw e) N' V2 K1 (or_introl Hv) H1 Hf) as (v' & r' & c' & V3 & V4).
  pose proof (viewed_holds _ _ _ _ _ _ V2) as B1. pose proof (viewed_holds _ _ _ _ _ _ V4) as B2.
  inversion V3 as [| | | |m S l e0 S' l' X1 X2]; subst. exists m, S, S'. auto.
Qed.

(** On the way: not halted, no line begins there, no enabled breakpoint. *)
Definition quiet (m : marks) (L : Z -> Prop) (T : arch) : Prop := a_halted T = false /\ ~ L (a_pc T) /\ m (a_pc T) <> Some true.
(** One or more instructions, none of which writes to a watched cell. *)
Inductive runs_quiet (F : fops) (p : list instr) (w : Z -> Prop) (Q : arch -> Prop) : arch -> arch -> Prop :=
| rq_one : forall S S', isa_step F p S S' -> ~ writes_watched p w S -> runs_quiet F p w Q S S'
| rq_more : forall S T S', isa_step F p S T -> ~ writes_watched p w S -> Q T -> runs_quiet F p w Q T S' -> runs_quiet F p w Q S S'.
(** [T] is [S] or reached from there by a quiet run. *)
Definition quiet_to (F : fops) (p : list instr) (w : Z -> Prop) (Q : arch -> Prop) (S T : arch) : Prop := T = S \/ runs_quiet F p w Q S T /\ Q T.

(** How stepping by lines can end: where the next line begins; at an enabled breakpoint
    within the line; with a write to a watched cell; with the end of the program. *)
Theorem C81_into_ends : forall F p m w L S e S', to_line L (into F p m w) true S e S' ->
  e = EvSinglestep /\ runs_quiet F p w (quiet m L) S S' /\ L (a_pc S') /\ a_halted S' = false \/
  (exists T, e = EvBreakpoint (a_pc T) /\ m (a_pc T) = Some true /\ ~ L (a_pc T) /\ a_halted T = false /\ same S' T /\ runs_quiet F p w (quiet m L) S T) \/
  (exists T a, e = EvWatchpoint a /\ w a /\ quiet_to F p w (quiet m L) S T /\ isa_step F p T S' /\ writes_cell T (instr_at p (a_pc T)) a) \/
  (exists T, e = EvEnd /\ quiet_to F p w (quiet m L) S T /\ isa_step F p T S' /\ a_halted S' = true).
Proof.
  intros F p m w L S e S' H.
  assert (C : forall T, quiet_to F p w (quiet m L) S T -> forall R, isa_step F p T R -> ~ writes_watched p w T -> runs_quiet F p w (quiet m L) S R).
  { intros T [->|[R1 R2]] R H1 H2; [now apply rq_one|]. clear H. revert H1 H2. induction R1 as [A B A1 A2|A B C0 A1 A2 A3 A4 IH]; intros H1 H2; [eapply rq_more; eauto; now apply rq_one|].
    eapply rq_more; [exact A1|exact A2|exact A3|]. now apply IH. }
  assert (G : forall first A, to_line L (into F p m w) first A e S' -> (first = true -> A = S) -> (first = false -> runs_quiet F p w (quiet m L) S A /\ ~ L (a_pc A) /\ a_halted A = false) ->
    e = EvSinglestep /\ runs_quiet F p w (quiet m L) S S' /\ L (a_pc S') /\ a_halted S' = false \/
    (exists T, e = EvBreakpoint (a_pc T) /\ m (a_pc T) = Some true /\ ~ L (a_pc T) /\ a_halted T = false /\ same S' T /\ runs_quiet F p w (quiet m L) S T) \/
    (exists T a, e = EvWatchpoint a /\ w a /\ quiet_to F p w (quiet m L) S T /\ isa_step F p T S' /\ writes_cell T (instr_at p (a_pc T)) a) \/
    (exists T, e = EvEnd /\ quiet_to F p w (quiet m L) S T /\ isa_step F p T S' /\ a_halted S' = true)).
  { clear H. intros first A H. induction H as [first A S' H1 H2|first A e S' H1 H2|first A T e S' H1 H2 H3 IH]; intros Hf Hg.
    - assert (Q : quiet_to F p w (quiet m L) S A).
      { destruct first; [left; now apply Hf|right]. destruct (Hg eq_refl) as (G1 & G2 & G3). split; [exact G1|]. split; [exact G3|]. split; [exact G2|]. inversion H1 as [? ? ? [X|X] _|]; subst; [discriminate|exact X]. }
      left. inversion H1 as [? ? ? _ X|]; subst. inversion X; subst. split; [reflexivity|]. split; [eapply C; eauto|auto].
    - destruct H1 as [A e S' X1 X2|A S' X1 X2 X3 X4].
      + assert (Q : quiet_to F p w (quiet m L) S A).
        { destruct first; [left; now apply Hf|right]. destruct (Hg eq_refl) as (G1 & G2 & G3). split; [exact G1|]. split; [exact G3|]. split; [exact G2|]. destruct X1 as [X|X]; [discriminate|exact X]. }
        right. right. destruct X2 as [A S' a Y1 Y2 Y3|A S' Y1 Y2|A S' Y1 Y2 Y3]; [left|right|now elim H2].
        * exists A, a. auto.
        * exists A. auto.
      + right. left. exists A. destruct (Hg X1) as (G1 & G2 & G3). auto 8.
    - apply IH; [discriminate|]. intros _. inversion H1 as [? ? ? Z X|]; subst. inversion X; subst.
      assert (Q : quiet_to F p w (quiet m L) S A).
      { destruct first; [left; now apply Hf|right]. destruct (Hg eq_refl) as (G1 & G2 & G3). split; [exact G1|]. split; [exact G3|]. split; [exact G2|]. destruct Z as [Z|Z]; [discriminate|exact Z]. }
      split; [eapply C; eauto|auto]. }
  apply (G true S H); [auto|discriminate].
Qed.

(** C82. Stepping over by lines ends where a line begins, at an enabled breakpoint, or
    with the end of the program. *)
Theorem C82_over_ends : forall F p m L first S e S', to_line L (over F p m (fun _ => False)) first S e S' ->
  e = EvSinglestep /\ L (a_pc S') /\ a_halted S' = false \/ e = EvBreakpoint (a_pc S') /\ m (a_pc S') = Some true /\ a_halted S' = false \/ e = EvEnd /\ a_halted S' = true.
Proof.
  intros F p m L first S e S' H. induction H as [first S S' H1 H2|first S e S' H1 H2|]; [| |assumption].
  - left. destruct (over_kind1 _ _ _ _ _ _ _ H1) as [[_ X]|[[X _]|[X _]]]; [auto|discriminate|discriminate].
  - destruct (over_kind1 _ _ _ _ _ _ _ H1) as [[X _]|[X|X]]; [contradiction|auto|auto].
Qed.

(** ---- the hypotheses are met ---- *)

Section Act.
Variable U : setup.
Variable fuel : nat.
Variable s : source.
Definition act1 (d : deed) (N : native) : option (answer * native) :=
  match d with
  | DCall k => play1 U fuel k N
  | DLine o line => match line_op U o s line N with Done _ N' => Some (Fine, N') | Failed N' => Some (Refused, N') | _ => None end
  | DInto => match source_step_in U fuel s N with Done e N' => Some (Saw e, N') | _ => None end
  | DOver => match source_step_over U fuel s N with Done e N' => Some (Saw e, N') | _ => None end
  end.
Fixpoint acts (ds : list deed) (N : native) : option (list answer * native) :=
  match ds with
  | [] => Some ([], N)
  | d :: ds' => match act1 d N with None => None | Some (x, N1) => if fine N1 then option_map (fun y => (x :: fst y, snd y)) (acts ds' N1) else None end
  end.
Lemma acts_did : forall ds N xs N', acts ds N = Some (xs, N') -> deeds_did U fuel s ds N xs N'.
Proof.
  induction ds as [|d ds IH]; intros N xs N' H; cbn [acts] in H; [injection H as <- <-; constructor|].
  destruct (act1 d N) as [[x N1]|] eqn:E; [|discriminate]. destruct (fine N1) eqn:Hf; [|discriminate]. destruct (acts ds N1) as [[ys N2]|] eqn:P; [|discriminate].
  cbn [option_map fst snd] in H. injection H as <- <-. apply ed_cons with (N1 := N1); [| |now apply IH].
  - destruct d as [k|o line| |]; cbn [act1] in E.
    + apply dd_call. now apply play1_did.
    + destruct (line_op U o s line N) as [a N3|N3| |] eqn:G; try discriminate; injection E as <- <-; econstructor; eauto.
    + destruct (source_step_in U fuel s N) as [e N3| | |] eqn:G; try discriminate; injection E as <- <-; now constructor.
    + destruct (source_step_over U fuel s N) as [e N3| | |] eqn:G; try discriminate; injection E as <- <-; now constructor.
  - unfold cpu_failed. unfold fine in Hf. destruct (k_host (n_link N1)) as [[[]| |]|]; try discriminate; auto.
Qed.
End Act.

Definition outcome (s : source) (ds : list deed) (p : list instr) : option (list answer * Z) :=
  match acts U1 100 s ds (connected (booted cfg1 p [7; 8] [65; 10])) with
  | Some (xs, N) => match get_ip U1 N with Done a _ => Some (xs, a) | _ => None end
  | None => None
  end.

(** The first line is three instructions, of which the second is a call; the second line
    is at 3; the function is the third line. *)
Definition prog81 : list instr := [IMov (OReg (R 0)) (OImm 3); ICall (OImm 4); INop; IHalt; INop; IRet].
Definition source81 : source := mkSource (Some [(0, 0); (1, 3); (2, 4)]) None None [].
Lemma mapped81 : mapped source81.
Proof. intros m E. injection E as <-. unfold rising. cbn [map fst]. repeat (constructor; [|repeat (constructor; [lia|]); constructor]). constructor. Qed.
Lemma case81 : forall ds, Forall (fun d => match d with DCall (KBp o) => 0 <= op_addr o < 6 | DCall (KWatch _) => False | _ => True end) ds ->
  debuggee U1 cfg1 prog81 [7; 8] [65; 10] (booted cfg1 prog81 [7; 8] [65; 10]) /\ mapped source81 /\ Forall (usable_deed U1 prog81 source81) ds /\ Forall deed_no_watch ds.
Proof.
  intros ds H.
  assert (G : debuggee U1 cfg1 prog81 [7; 8] [65; 10] (booted cfg1 prog81 [7; 8] [65; 10]) /\
    Forall (usable U1 prog81) (KOver :: KOut :: map (fun a => KBp (OpSet a)) [0; 1; 2; 3; 4; 5]) /\ Forall no_watch (KOver :: KOut :: map (fun a => KBp (OpSet a)) [0; 1; 2; 3; 4; 5])) by (cbn [map]; case_tac).
  destruct G as (G1 & G2 & _). split; [exact G1|]. split; [exact mapped81|].
  assert (B : forall o, 0 <= op_addr o < 6 -> usable U1 prog81 (KBp o)).
  { intros o Ho. rewrite Forall_forall in G2. assert (X : usable U1 prog81 (KBp (OpSet (op_addr o)))); [|exact X].
    apply G2. right. right. apply (in_map (fun a => KBp (OpSet a))). assert (Y : op_addr o = 0 \/ op_addr o = 1 \/ op_addr o = 2 \/ op_addr o = 3 \/ op_addr o = 4 \/ op_addr o = 5) by lia.
    cbn [In]. intuition congruence. }
  assert (L : forall line a, line_to_addr source81 line = Some a -> 0 <= a < 6).
  { intros line a E. unfold line_to_addr, source81 in E. cbn in E. repeat match type of E with context [if ?b then _ else _] => destruct b end; try discriminate E; injection E as <-; lia. }
  inversion G2 as [|? ? K1 K2]; subst. inversion K2 as [|? ? K3 _]; subst.
  split; revert H; apply Forall_impl; intros [[o|a| | | |]|o line| |] Hd; cbn [usable_deed deed_no_watch no_watch] in *; auto; try contradiction; try exact I.
  - intros a E. apply B. replace (op_addr (op_at o a)) with a by (destruct o; reflexivity). eapply L. exact E.
Qed.

(** Into the function and over it; a breakpoint by line in the function stops the step
    over; a line without instructions cannot have a breakpoint; a breakpoint within the line
    is reported. *)
Example C81_case : (debuggee U1 cfg1 prog81 [7; 8] [65; 10] (booted cfg1 prog81 [7; 8] [65; 10]) /\ mapped source81 /\
    Forall (usable_deed U1 prog81 source81) [DLine LSet 2; DOver; DLine LUnset 2; DLine LSet 7; DInto] /\ Forall deed_no_watch [DLine LSet 2; DOver; DLine LUnset 2; DLine LSet 7; DInto]) /\
  outcome source81 [DInto] prog81 = Some ([Saw EvSinglestep], 4) /\ outcome source81 [DOver] prog81 = Some ([Saw EvSinglestep], 3) /\
  outcome source81 [DInto; DInto] prog81 = Some ([Saw EvSinglestep; Saw EvSinglestep], 3) /\
  outcome source81 [DCall (KBp (OpSet 5)); DOver] prog81 = Some ([Fine; Saw (EvBreakpoint 5)], 5) /\
  outcome source81 [DCall (KBp (OpSet 2)); DOver; DOver; DInto] prog81 = Some ([Fine; Saw (EvBreakpoint 2); Saw EvSinglestep; Saw EvEnd], 4) /\
  outcome source81 [DLine LSet 2; DOver; DLine LUnset 2; DLine LSet 7; DInto] prog81 = Some ([Fine; Saw (EvBreakpoint 4); Fine; Refused; Saw EvSinglestep], 3).
Proof. split; [apply case81; repeat constructor|]. vm_compute. repeat split; reflexivity. Qed.

(** ---- C83 ---- *)

(** A call within the line is executed by stepping over, whether or not there is a
    breakpoint on it. *)
Theorem C83_call_refuted : forall F p m S e S', over F p m (fun _ => False) false S e S' -> is_call (instr_at p (a_pc S)) ->
  exists T n, isa_step F p S T /\ isa_run F p n T S'.
Proof.
  intros F p m S e S' H Hc. destruct H as [S e S' X1 _ _|S S' X1 _ _ _ _|S T e S' _ X2 _ _|S e S' _ _ X3]; try contradiction; [discriminate|].
  destruct (comes_by _ _ _ _ _ _ _ _ X3) as [R _]. clear - R. induction R as [A B R|A A1 B R1 R2 R3 (A2 & n & I1 & I2)].
  - exists B, 0%nat. split; [exact R|constructor].
  - exists A1, (Datatypes.S n). split; [exact R1|]. econstructor; eauto.
Qed.
(** The breakpoint at 1 is reported by continuing and by stepping into, but not by
    stepping over. *)
Theorem C83_refuted : (debuggee U1 cfg1 prog81 [7; 8] [65; 10] (booted cfg1 prog81 [7; 8] [65; 10]) /\ mapped source81 /\
    Forall (usable_deed U1 prog81 source81) [DCall (KBp (OpSet 1)); DOver] /\ Forall deed_no_watch [DCall (KBp (OpSet 1)); DOver]) /\
  outcome source81 [DCall (KBp (OpSet 1)); DOver] prog81 = Some ([Fine; Saw EvSinglestep], 3) /\
  outcome source81 [DCall (KBp (OpSet 1)); DInto] prog81 = Some ([Fine; Saw (EvBreakpoint 1)], 1) /\
  outcome source81 [DCall (KBp (OpSet 1)); DCall KContinue] prog81 = Some ([Fine; Saw (EvBreakpoint 1)], 1).
Proof. split; [apply case81; repeat constructor; cbn; lia|]. vm_compute. repeat split; reflexivity. Qed.
(** A step by lines that is stopped by a breakpoint leaves the machine in stepping mode:
    continuing after the breakpoint has been removed executes one instruction. *)
Theorem C83_left_refuted : (debuggee U1 cfg1 prog81 [7; 8] [65; 10] (booted cfg1 prog81 [7; 8] [65; 10]) /\ mapped source81 /\
    Forall (usable_deed U1 prog81 source81) [DCall (KBp (OpSet 1)); DInto; DCall (KBp (OpUnset 1)); DCall KContinue] /\
    Forall deed_no_watch [DCall (KBp (OpSet 1)); DInto; DCall (KBp (OpUnset 1)); DCall KContinue]) /\
  outcome source81 [DCall (KBp (OpSet 1)); DInto; DCall (KBp (OpUnset 1)); DCall KContinue] prog81 = Some ([Fine; Saw (EvBreakpoint 1); Fine; Saw EvSinglestep], 4) /\
  outcome source81 [DCall (KBp (OpSet 1)); DCall KContinue; DCall (KBp (OpUnset 1)); DCall KContinue] prog81 = Some ([Fine; Saw (EvBreakpoint 1); Fine; Saw EvEnd], 4).
Proof. split; [apply case81; repeat constructor; cbn; lia|]. vm_compute. repeat split; reflexivity. Qed.

Print Assumptions C81_history.
Print Assumptions C81_step_into.
Print Assumptions C81_into_ends.
Print Assumptions C82_step_over.
Print Assumptions C82_over_ends.
Print Assumptions C83_call_refuted.
Print Assumptions C83_refuted.
Print Assumptions C83_left_refuted.
