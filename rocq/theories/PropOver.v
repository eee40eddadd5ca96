(** Stepping over and out: theorems C41, C62, C63, C64 (see /verif/properties.jsonl). The
    specification is in LibSpec.v and in the first section below. *)
From Coq Require Import Ascii String ZArith NArith List Bool Lia.
From Verif Require Import Base Text PropText PropNet StdMap Isa Alu AluSpec State IsaSpec IsaSame Lexer Asm Show AsmPrint AsmSpec PropAsm Exec Ram Writes Rat Cpu Os DbgText Spaces
  InOrder PipeInv PipeBasics PipeActs PipeMem PipeTick PipeDom PipeRun PipeBoot PipePoke Session IsaRefine DbgSpec Stops PropPipe PropDbg Client Proto PropProto Native PropBreak PropWatch
  LibSpec NatRun NatStop PropStep.
Import ListNotations.
Open Scope Z_scope.

(** ---- specification ---- *)

(** One or more instructions; the states on the way, without the first and the last,
    satisfy [Q]. *)
Inductive runs_by (F : fops) (p : list instr) (Q : arch -> Prop) : arch -> arch -> Prop :=
| rb_one : forall S S', isa_step F p S S' -> runs_by F p Q S S'
| rb_more : forall S T S', isa_step F p S T -> Q T -> runs_by F p Q T S' -> runs_by F p Q S S'.

(** What is passed without a stop while the program returns to [ret] with base pointer
    [bp]: states elsewhere without an enabled breakpoint, and at [ret] those of another
    base pointer or with a disabled breakpoint there. *)
Definition passed (m : marks) (ret bp : Z) (T : arch) : Prop :=
  a_halted T = false /\ if a_pc T =? ret then m ret = Some false \/ a_reg T (LR BP) <> bp else m (a_pc T) <> Some true.

(** A call at [S] stepped over. *)
Definition stepped_over (F : fops) (p : list instr) (m : marks) (S : arch) (e : devent) (S' : arch) : Prop :=
  let ret := address (a_pc S + 1) in let bp := a_reg S (LR BP) in
  exists T, isa_step F p S T /\ runs_by F p (passed m ret bp) T S' /\
    (e = EvSinglestep /\ a_pc S' = ret /\ a_reg S' (LR BP) = bp /\ a_halted S' = false /\ m ret <> Some false \/
     e = EvBreakpoint (a_pc S') /\ m (a_pc S') = Some true /\ a_pc S' <> ret /\ a_halted S' = false \/
     e = EvEnd /\ a_halted S' = true).

(** ---- C41 ---- *)

Notation none := (fun _ : Z => False).

Lemma continues_by : forall F p m S e S', continues F p m none S e S' -> runs_by F p (fun T => a_halted T = false /\ m (a_pc T) <> Some true) S S'.
Proof.
  intros F p m S e S' H. induction H as [S S' e H _|S T S' e H1 H2 H3 IH]; [now apply rb_one|]. eapply rb_more; [exact H1| |exact IH].
  assert (Hh : a_halted T = false) by (inversion H3 as [? ? ? [X _] _|? ? ? ? [X _] _ _]; exact X). split; [exact Hh|].
  intros Hm. apply (H2 (EvBreakpoint (a_pc T))). apply rp_break; auto. intros (a & _ & []).
Qed.
Lemma runs_weaken : forall F p (P Q : arch -> Prop) S S', (forall T, P T -> Q T) -> runs_by F p P S S' -> runs_by F p Q S S'.
Proof. intros F p P Q S S' H R. induction R; [now apply rb_one|]. eapply rb_more; eauto. Qed.
Lemma runs_app : forall F p (Q : arch -> Prop) S T S', runs_by F p Q S T -> Q T -> runs_by F p Q T S' -> runs_by F p Q S S'.
Proof. intros F p Q S T S' R. induction R; intros H1 H2; eapply rb_more; eauto. Qed.

Lemma comes_by : forall F p m ret bp S e S', comes_back F p m none ret bp S e S' -> runs_by F p (passed m ret bp) S S' /\
  (e = EvSinglestep /\ a_pc S' = ret /\ a_reg S' (LR BP) = bp /\ a_halted S' = false /\ m ret <> Some false \/
   e = EvBreakpoint (a_pc S') /\ m (a_pc S') = Some true /\ a_pc S' <> ret /\ a_halted S' = false \/
   e = EvEnd /\ a_halted S' = true).
Proof.
  intros F p m ret bp S e S' H.
  assert (W : forall S S', runs_by F p (fun T => a_halted T = false /\ with_break m ret (a_pc T) <> Some true) S S' -> runs_by F p (passed m ret bp) S S').
  { intros A B. apply runs_weaken. intros T [T1 T2]. split; [exact T1|]. unfold with_break, mark in T2. destruct (Z.eqb_spec (a_pc T) ret) as [He|He].
    - rewrite He in T2. destruct (m ret) as [[]|] eqn:Hm; [congruence|now left|]. rewrite Z.eqb_refl in T2. congruence.
    - destruct (m ret); [exact T2|]. destruct (Z.eqb_spec (a_pc T) ret); [contradiction|exact T2]. }
  assert (B : forall S S', continues F p (with_break m ret) none S (EvBreakpoint ret) S' -> a_pc S' = ret /\ a_halted S' = false /\ m ret <> Some false).
  { intros A C HC. assert (X : EvBreakpoint ret = EvBreakpoint (a_pc C) /\ with_break m ret (a_pc C) = Some true /\ a_halted C = false).
    { clear - HC. remember (EvBreakpoint ret) as e. induction HC as [S S' e H1 H2|]; auto. destruct H2 as [a _ []|H|H1' H2' _]; [discriminate|auto]. }
    destruct X as (X1 & X2 & X3). injection X1 as X1. split; [auto|]. split; [exact X3|]. intros Hm. rewrite <- X1 in X2. unfold with_break in X2. rewrite Hm in X2. congruence. }
  induction H as [S S' H1 H2|S T e S' H1 H2 H3 [IH1 IH2]|S e S' H1 H2].
  - destruct (B _ _ H1) as (B1 & B2 & B3). split; [apply W; eapply continues_by; exact H1|]. left. auto.
  - destruct (B _ _ H1) as (B1 & B2 & B3). split; [|exact IH2]. eapply runs_app; [apply W; eapply continues_by; exact H1| |exact IH1].
    split; [exact B2|]. rewrite B1, Z.eqb_refl. now right.
  - split; [apply W; eapply continues_by; exact H1|]. right.
    assert (X : e = EvEnd /\ a_halted S' = true \/ e = EvBreakpoint (a_pc S') /\ with_break m ret (a_pc S') = Some true /\ a_halted S' = false).
    { clear - H1. induction H1 as [S S' e H1 H2|]; auto. destruct H2 as [a _ []|H|H1' H2' _]; auto. }
    destruct X as [X|(X1 & X2 & X3)]; [now right|left]. split; [exact X1|]. assert (Hp : a_pc S' <> ret) by congruence. split; [|auto].
    unfold with_break, mark in X2. destruct (m ret); [exact X2|]. destruct (Z.eqb_spec (a_pc S') ret); [contradiction|exact X2].
Qed.

Lemma watch_empty : forall F p ks v xs v', views_spec F p ks v xs v' -> Forall no_watch ks -> v_watch v = [] -> v_watch v' = [].
Proof.
  intros F p ks v xs v' H. induction H as [v|k ks v x v1 xs v2 H1 H2 IH]; intros Hk Hw; [exact Hw|]. inversion Hk as [|? ? K1 K2]; subst. apply IH; [exact K2|].
  destruct H1; try exact Hw; try reflexivity. contradiction.
Qed.

(** After any history without watchpoints, stepping over and out. *)
Lemma after_history : forall U fuel g p data input c0 ks xs N, debuggee U g p data input c0 -> Forall (usable U p) ks -> Forall no_watch ks ->
  did_well U fuel ks (connected c0) xs N ->
  exists v r c, viewed U p v N r c /\ v_watch v = [] /\ views_spec (e_fops (u_env U)) p ks (mkView no_marks [] (isa_boot (g_ram g) data input) false) xs v.
Proof.
  intros U fuel g p data input c0 ks xs N HD Hk Hw H. pose proof HD as [PL [Hip Hty Hb] Hl Hbk R1 R2].
  destruct (calls_ok U fuel PL (ty_fops _ _ _ _ _ Hty) p (ty_prog _ _ _ _ _ Hty) Hip Hl Hbk ks _ _ _ _ xs N (at_start U g p data input c0 HD)) as (v & r & c & V1 & V2); auto.
  exists v, r, c. split; [exact V2|]. split; [|exact V1]. eapply watch_empty; eauto.
Qed.

Lemma over_after : forall U fuel g p data input c0 v N r c k x N', debuggee U g p data input c0 -> viewed U p v N r c -> v_watch v = [] -> usable U p k ->
  did U fuel k N x N' -> ~ cpu_failed N' -> exists v' r' c', view_spec (e_fops (u_env U)) p k v x v' /\ viewed U p v' N' r' c'.
Proof.
  intros U fuel g p data input c0 v N r c k x N' HD HV Hw Hk H Hf. pose proof HD as [PL [Hip Hty Hb] Hl Hbk R1 R2].
  eapply (call_ok U fuel PL (ty_fops _ _ _ _ _ Hty) p (ty_prog _ _ _ _ _ Hty) Hip Hl Hbk); eauto.
Qed.

(** C41, stepping over. After any history of breakpoint operations, continuing and
    stepping in any way, [m] being the breakpoints and [S] the state of the program:
    stepping over an instruction that is no call is a step; stepping over a call executes
    the call and goes on until it has come back to the instruction behind the call, which
    is reported as a step, or reached an enabled breakpoint elsewhere, which is
    reported, or the program has halted. The breakpoints are as before. *)
Theorem C41_step_over : forall U fuel g p data input c0 ks xs N e N', debuggee U g p data input c0 -> Forall (usable U p) (KOver :: ks) -> Forall no_watch ks ->
  did_well U fuel ks (connected c0) xs N -> did U fuel KOver N (Saw e) N' -> ~ cpu_failed N' ->
  exists m S S', holds_view m S N /\ holds_view m S' N' /\
    (is_call (instr_at p (a_pc S)) -> stepped_over (e_fops (u_env U)) p m S e S') /\
    (~ is_call (instr_at p (a_pc S)) -> steps (e_fops (u_env U)) p none S e S').
Proof.
  intros U fuel g p data input c0 ks xs N e N' HD Hk Hw H H1 Hf. inversion Hk as [|? ? K1 K2]; subst.
  destruct (after_history _ _ _ _ _ _ _ _ _ _ HD K2 Hw H) as (v & r & c & V1 & V2 & _).
  destruct (over_after _ _ _ _ _ _ _ _ _ _ _ _ _ _ HD V1 V2 K1 H1 Hf) as (v' & r' & c' & V3 & V4).
  inversion V3 as [| | | | | |m S l e0 S' HO| |]; subst. exists m, S, S'.
  split; [exact (viewed_holds _ _ _ _ _ _ V1)|]. split; [exact (viewed_holds _ _ _ _ _ _ V4)|].
  inversion HO as [S0 e0 S0' X1 _ X3| |S0 T e0 S0' X1 _ X3 X4|]; subst; try discriminate; split; intros Hc; try contradiction; [exact X3|].
  exists T. split; [exact X3|]. now apply comes_by.
Qed.

(** C41, stepping out: the same until a RET is executed that is met at the level of the
    function (calls are stepped over). *)
Theorem C41_step_out : forall U fuel g p data input c0 ks xs N e N', debuggee U g p data input c0 -> Forall (usable U p) (KOut :: ks) -> Forall no_watch ks ->
  did_well U fuel ks (connected c0) xs N -> did U fuel KOut N (Saw e) N' -> ~ cpu_failed N' ->
  exists m S S', holds_view m S N /\ holds_view m S' N' /\ steps_out (e_fops (u_env U)) p m none true S e S'.
Proof.
  intros U fuel g p data input c0 ks xs N e N' HD Hk Hw H H1 Hf. inversion Hk as [|? ? K1 K2]; subst.
  destruct (after_history _ _ _ _ _ _ _ _ _ _ HD K2 Hw H) as (v & r & c & V1 & V2 & _).
  destruct (over_after _ _ _ _ _ _ _ _ _ _ _ _ _ _ HD V1 V2 K1 H1 Hf) as (v' & r' & c' & V3 & V4).
  inversion V3 as [| | | | | | |m S l e0 S' l' HO|]; subst. exists m, S, S'.
  split; [exact (viewed_holds _ _ _ _ _ _ V1)|]. split; [exact (viewed_holds _ _ _ _ _ _ V4)|exact HO].
Qed.

(** A completed stepping out has executed a RET last. Everything else that ends it is an
    enabled breakpoint or the end. *)
Theorem C41_out_ends : forall F p m first S e S', steps_out F p m none first S e S' ->
  e = EvSinglestep /\ (exists T, instr_at p (a_pc T) = IRet /\ isa_step F p T S') \/
  e = EvBreakpoint (a_pc S') /\ m (a_pc S') = Some true \/ e = EvEnd /\ a_halted S' = true.
Proof.
  assert (O : forall F p m first S e S', over F p m none first S e S' -> e <> EvSinglestep \/ instr_at p (a_pc S) = IRet ->
    e = EvSinglestep /\ (exists T, instr_at p (a_pc T) = IRet /\ isa_step F p T S') \/ e = EvBreakpoint (a_pc S') /\ m (a_pc S') = Some true \/ e = EvEnd /\ a_halted S' = true).
  { intros F p m first S e S' H Hc. destruct H as [S e S' X1 X2 X3|S S' X1 X2 X3 X4 X5|S T e S' X1 X2 X3 X4|S e S' X1 X2 X3].
    - inversion X3 as [? ? a _ _ []|? ? Y1 Y2|? ? Y1 Y2 Y3]; subst; [auto|]. left. split; [reflexivity|]. exists S. destruct Hc as [Hc|Hc]; [now elim Hc|auto].
    - right; left. rewrite (s_pc _ _ X5). auto.
    - destruct (comes_by _ _ _ _ _ _ _ _ X4) as [_ [(-> & _)|[(-> & Y2 & _)|Y]]]; auto. destruct Hc as [Hc|Hc]; [now elim Hc|]. rewrite Hc in X1. contradiction.
    - destruct (comes_by _ _ _ _ _ _ _ _ X3) as [_ [(-> & _)|[(-> & Y2 & _)|Y]]]; auto. destruct Hc as [Hc|Hc]; [now elim Hc|]. rewrite Hc in X1. contradiction. }
  intros F p m first S e S' H. induction H as [first S e S' H1 H2|first S e S' H1 H2|]; eauto.
Qed.

(** ---- C62: breakpoints that are met on the way are reported ---- *)

(** The first instruction of the called function is executed although there is a
    breakpoint on it. *)
Theorem C62_entry_refuted : forall U fuel g p data input c0 ks xs N e N', debuggee U g p data input c0 -> Forall (usable U p) (KOver :: ks) -> Forall no_watch ks ->
  did_well U fuel ks (connected c0) xs N -> did U fuel KOver N (Saw e) N' -> ~ cpu_failed N' ->
  exists m S S', holds_view m S N /\ holds_view m S' N' /\ (is_call (instr_at p (a_pc S)) ->
    exists T T2 n, isa_step (e_fops (u_env U)) p S T /\ isa_step (e_fops (u_env U)) p T T2 /\ isa_run (e_fops (u_env U)) p n T2 S').
Proof.
  intros U fuel g p data input c0 ks xs N e N' HD Hk Hw H H1 Hf.
  destruct (C41_step_over _ _ _ _ _ _ _ _ _ _ _ _ HD Hk Hw H H1 Hf) as (m & S & S' & V1 & V2 & V3 & _). exists m, S, S'. split; [exact V1|]. split; [exact V2|].
  intros Hc. destruct (V3 Hc) as (T & T1 & T2 & _).
  assert (R : forall Q A B, runs_by (e_fops (u_env U)) p Q A B -> exists A1 n, isa_step (e_fops (u_env U)) p A A1 /\ isa_run (e_fops (u_env U)) p n A1 B).
  { intros Q A B R. induction R as [A B R|A A1 B R1 R2 R3 (A2 & n & I1 & I2)].
    - exists B, 0%nat. split; [exact R|constructor].
    - exists A1, (Datatypes.S n). split; [exact R1|]. econstructor; eauto. }
  destruct (R _ _ _ T2) as (T3 & n & R1 & R2). exists T, T3, n. auto.
Qed.

Definition prog_call : list instr := [ICall (OImm 3); INop; IHalt; INop; IRet].
(** A recursive function with its frame: called three times; the breakpoint is on the
    instruction behind the recursive call. *)
Definition prog_rec : list instr :=
  [IMov (OReg (R 0)) (OImm 3); ICall (OImm 4); INop; IHalt;
   IPush (OReg BP); IMov (OReg BP) (OReg SP); IUn UDEC (R 0); IJcc CZ (OImm 9); ICall (OImm 4); IMov (OReg SP) (OReg BP); IPop BP; IRet].
(** A function that calls another one. *)
Definition prog_inner : list instr := [ICall (OImm 2); IHalt; INop; ICall (OImm 5); IRet; INop; IRet].

Definition reg_after (name : string) (ks : list call) (p : list instr) : option Z :=
  match play U1 100 ks (connected (booted cfg1 p [7; 8] [65; 10])) with
  | Some (_, N) => match get_register U1 (str name) N with Done a _ => Some a | _ => None end
  | None => None
  end.

Lemma prog_at_in : forall p a, 0 <= a < Z.of_nat (length p) -> In (prog_at p a) p.
Proof. intros p a H. unfold prog_at. destruct (Z.leb_spec 0 a); [|lia]. destruct (Z.ltb_spec a (Z.of_nat (length p))); [|lia]. cbn [andb]. apply nth_In. lia. Qed.
Lemma case_of : forall p ks, Forall keeps_ip p -> Forall typed_instr p -> Forall (fun i => i <> IBkpt) p -> Z.of_nat (length p) < 2 ^ 63 ->
  boot cfg1 p [7; 8] [65; 10] = Ok (booted cfg1 p [7; 8] [65; 10]) -> Forall (restorable U1) p ->
  Forall (fun k => match k with KBp o => 0 <= op_addr o < Z.of_nat (length p) | KWatch _ => False | _ => True end) ks ->
  debuggee U1 cfg1 p [7; 8] [65; 10] (booted cfg1 p [7; 8] [65; 10]) /\ Forall (usable U1 p) ks /\ Forall no_watch ks.
Proof.
  intros p ks H1 H2 H3 H4 H5 H6 H7. rewrite Forall_forall in H6. split; [now apply debuggee_case|]. split.
  - revert H7. apply Forall_impl. intros [o|a| | | |] Hk; cbn [usable]; auto; try contradiction; try (intros a A1 A2 A3; apply H6, prog_at_in; lia).
    split; [exact Hk|apply H6, prog_at_in, Hk].
  - revert H7. apply Forall_impl. intros [o|a| | | |]; cbn; auto.
Qed.
Ltac case_tac := apply case_of; [repeat constructor; discriminate|repeat constructor; cbn; lia|repeat constructor; discriminate|cbn; lia|vm_compute; reflexivity
  |repeat (apply Forall_cons; [unfold restorable, writes_as; split; [vm_compute; reflexivity|split; [vm_compute; reflexivity|apply instr_quote; vm_compute; repeat constructor]]|]); apply Forall_nil
  |repeat constructor; cbn; lia].

(** A call that is stepped over, with a breakpoint inside on which it stops the first
    time. *)
Definition calls41 : list call := [KBp (OpSet 4); KOver; KOver].
Example C41_case : (debuggee U1 cfg1 prog_call [7; 8] [65; 10] (booted cfg1 prog_call [7; 8] [65; 10]) /\ Forall (usable U1 prog_call) calls41 /\ Forall no_watch calls41) /\
  answers calls41 prog_call = Some [Fine; Saw (EvBreakpoint 4); Saw EvSinglestep] /\
  answers [KOver] prog_call = Some [Saw EvSinglestep] /\ ip_after [KOver] prog_call = Some 1.
Proof. split; [case_tac|]. vm_compute. repeat split; reflexivity. Qed.
Definition calls41r : list call := [KBp (OpSet 7); KContinue; KBp (OpUnset 7); KStep; KOver].
Example C41_case_recursive : (debuggee U1 cfg1 prog_rec [7; 8] [65; 10] (booted cfg1 prog_rec [7; 8] [65; 10]) /\ Forall (usable U1 prog_rec) calls41r /\ Forall no_watch calls41r) /\
  answers calls41r prog_rec = Some [Fine; Saw (EvBreakpoint 7); Fine; Saw EvSinglestep; Saw EvSinglestep] /\ ip_after calls41r prog_rec = Some 9.
Proof. split; [case_tac|]. vm_compute. repeat split; reflexivity. Qed.
Definition calls41o : list call := [KStep; KStep; KOut].
Example C41_case_out : (debuggee U1 cfg1 prog_inner [7; 8] [65; 10] (booted cfg1 prog_inner [7; 8] [65; 10]) /\ Forall (usable U1 prog_inner) calls41o /\ Forall no_watch calls41o) /\
  answers calls41o prog_inner = Some [Saw EvSinglestep; Saw EvSinglestep; Saw EvSinglestep] /\ ip_after calls41o prog_inner = Some 1.
Proof. split; [case_tac|]. vm_compute. repeat split; reflexivity. Qed.

(** The breakpoint on the first instruction of the called function is not reported. *)
Example C62_entry_case : (debuggee U1 cfg1 prog_call [7; 8] [65; 10] (booted cfg1 prog_call [7; 8] [65; 10]) /\ Forall (usable U1 prog_call) [KBp (OpSet 3); KOver] /\
    Forall no_watch [KBp (OpSet 3); KOver]) /\
  answers [KBp (OpSet 3); KOver] prog_call = Some [Fine; Saw EvSinglestep] /\ ip_after [KBp (OpSet 3); KOver] prog_call = Some 1 /\
  answers [KBp (OpSet 3); KContinue] prog_call = Some [Fine; Saw (EvBreakpoint 3)].
Proof. split; [case_tac|]. vm_compute. repeat split; reflexivity. Qed.

(** A breakpoint of the user on the instruction behind the call: met by a deeper call
    (base pointer 10), it is passed; continuing reports it there. *)
Theorem C62_deeper_refuted : let before := [KBp (OpSet 8); KContinue; KBp (OpUnset 8); KBp (OpSet 9)] in
  (debuggee U1 cfg1 prog_rec [7; 8] [65; 10] (booted cfg1 prog_rec [7; 8] [65; 10]) /\ Forall (usable U1 prog_rec) (before ++ [KOver]) /\ Forall no_watch (before ++ [KOver])) /\
  answers (before ++ [KOver]) prog_rec = Some [Fine; Saw (EvBreakpoint 8); Fine; Fine; Saw EvSinglestep] /\ reg_after "BP" (before ++ [KOver]) prog_rec = Some 14 /\
  answers (before ++ [KContinue]) prog_rec = Some [Fine; Saw (EvBreakpoint 8); Fine; Fine; Saw (EvBreakpoint 9)] /\ reg_after "BP" (before ++ [KContinue]) prog_rec = Some 10.
Proof. split; [case_tac|]. vm_compute. repeat split; reflexivity. Qed.

(** Stepping out passes a breakpoint on a CALL. *)
Theorem C62_out_refuted : (debuggee U1 cfg1 prog_inner [7; 8] [65; 10] (booted cfg1 prog_inner [7; 8] [65; 10]) /\ Forall (usable U1 prog_inner) [KStep; KBp (OpSet 3); KOut] /\
    Forall no_watch [KStep; KBp (OpSet 3); KOut]) /\
  answers [KStep; KBp (OpSet 3); KOut] prog_inner = Some [Saw EvSinglestep; Fine; Saw EvSinglestep] /\ ip_after [KStep; KBp (OpSet 3); KOut] prog_inner = Some 1 /\
  answers [KStep; KBp (OpSet 3); KContinue] prog_inner = Some [Saw EvSinglestep; Fine; Saw (EvBreakpoint 3)].
Proof. split; [case_tac|]. vm_compute. repeat split; reflexivity. Qed.

(** ---- C63: stepping over a call stops behind it ---- *)

(** With a disabled breakpoint behind the call it never does. *)
Theorem C63_disabled_refuted : forall U fuel g p data input c0 ks xs N e N', debuggee U g p data input c0 -> Forall (usable U p) (KOver :: ks) -> Forall no_watch ks ->
  did_well U fuel ks (connected c0) xs N -> did U fuel KOver N (Saw e) N' -> ~ cpu_failed N' ->
  exists m S S', holds_view m S N /\ holds_view m S' N' /\
    (is_call (instr_at p (a_pc S)) -> m (address (a_pc S + 1)) = Some false -> e <> EvSinglestep /\ (a_halted S' = true \/ a_pc S' <> address (a_pc S + 1))).
Proof.
  intros U fuel g p data input c0 ks xs N e N' HD Hk Hw H H1 Hf.
  destruct (C41_step_over _ _ _ _ _ _ _ _ _ _ _ _ HD Hk Hw H H1 Hf) as (m & S & S' & V1 & V2 & V3 & _). exists m, S, S'. split; [exact V1|]. split; [exact V2|].
  intros Hc Hm. destruct (V3 Hc) as (T & _ & _ & [(_ & _ & _ & _ & X)|[(-> & _ & X & _)|(-> & X)]]); [contradiction| |]; (split; [discriminate|auto]).
Qed.
Example C63_disabled_case : (debuggee U1 cfg1 prog_call [7; 8] [65; 10] (booted cfg1 prog_call [7; 8] [65; 10]) /\
    Forall (usable U1 prog_call) [KBp (OpSet 1); KBp (OpDisable 1); KOver] /\ Forall no_watch [KBp (OpSet 1); KBp (OpDisable 1); KOver]) /\
  answers [KBp (OpSet 1); KBp (OpDisable 1); KOver] prog_call = Some [Fine; Fine; Saw EvEnd].
Proof. split; [case_tac|]. vm_compute. reflexivity. Qed.

(** A call at the last address of the program cannot be stepped over. *)
Theorem C63_last_refuted : forall U fuel g p data input c0 ks xs N, debuggee U g p data input c0 -> Forall (usable U p) ks -> Forall no_watch ks ->
  did_well U fuel ks (connected c0) xs N -> exists m S, holds_view m S N /\
  (is_call (instr_at p (a_pc S)) -> a_pc S + 1 = Z.of_nat (length p) -> m (a_pc S + 1) = None -> forall e N', ~ did U fuel KOver N (Saw e) N').
Proof.
  intros U fuel g p data input c0 ks xs N HD Hk Hw H. destruct (after_history _ _ _ _ _ _ _ _ _ _ HD Hk Hw H) as (v & r & c & V1 & _ & _).
  exists (v_marks v), (v_state v). split; [exact (viewed_holds _ _ _ _ _ _ V1)|]. intros Hc Hp Hm e N' H1. inversion H1; subst.
  pose proof HD as [PL _ Hl _ _ _]. eapply (over_last U fuel PL p Hl); [exact (vw_rested _ _ _ _ _ _ V1)|exact Hc|exact Hp|exact Hm|eassumption].
Qed.
Definition prog_last : list instr := [IJmp (OImm 2); IRet; ICall (OImm 1)].
Example C63_last_case : (debuggee U1 cfg1 prog_last [7; 8] [65; 10] (booted cfg1 prog_last [7; 8] [65; 10]) /\ Forall (usable U1 prog_last) [KStep; KOver] /\ Forall no_watch [KStep; KOver]) /\
  ip_after [KStep] prog_last = Some 2 /\ answers [KStep; KOver] prog_last = None /\
  (exists N N', play U1 100 [KStep] (connected (booted cfg1 prog_last [7; 8] [65; 10])) = Some ([Saw EvSinglestep], N) /\ step_over U1 100 true N = Failed N' /\ k_host (n_link N') = None).
Proof.
  split; [case_tac|]. split; [vm_compute; reflexivity|]. split; [vm_compute; reflexivity|]. eexists. eexists. split; [vm_compute; reflexivity|]. split; [vm_compute; reflexivity|]. reflexivity.
Qed.

(** The CALL writes to a watched address: the watchpoint is not reported, and stepping
    over ends inside the function. *)
Theorem C63_watch_refuted : Forall (usable U1 prog_call) [KWatch 15; KOver; KContinue] /\
  answers [KWatch 15; KOver; KContinue] prog_call = Some [Fine; Saw EvSinglestep; Saw EvEnd] /\ ip_after [KWatch 15; KOver] prog_call = Some 4 /\
  answers [KWatch 15; KContinue] prog_call = Some [Fine; Saw (EvWatchpoint 15)].
Proof.
  split; [|vm_compute; repeat split; reflexivity]. apply Forall_cons; [vm_compute; split; [discriminate|reflexivity]|].
  destruct C41_case as [(_ & K & _) _]. unfold calls41 in K. inversion K as [|? ? _ K1]; subst. inversion K1 as [|? ? K2 _]; subst. repeat (apply Forall_cons; [first [exact K2|exact I]|]). apply Forall_nil.
Qed.

(** ---- C64: what is left after stepping over and out ---- *)

(** A fault in the called function is reported as a completed step. *)
Definition prog_fault : list instr := [IJmp (OImm 2); IMov (OReg (R 0)) (OMemImm 9999); ICall (OImm 1); IHalt].
Theorem C64_fault_refuted : (debuggee U1 cfg1 prog_fault [7; 8] [65; 10] (booted cfg1 prog_fault [7; 8] [65; 10]) /\ Forall (usable U1 prog_fault) [KStep; KOver] /\ Forall no_watch [KStep; KOver]) /\
  (exists N', did_all U1 100 [KStep; KOver] (connected (booted cfg1 prog_fault [7; 8] [65; 10])) [Saw EvSinglestep; Saw EvSinglestep] N' /\
    match k_host (n_link N') with Some (At RCpuError _) => True | _ => False end) /\
  ip_after [KStep; KOver] prog_fault = Some 3.
Proof.
  split; [case_tac|]. split; [|vm_compute; reflexivity].
  assert (X : match play U1 100 [KStep; KOver] (connected (booted cfg1 prog_fault [7; 8] [65; 10])) with
    | Some ([Saw EvSinglestep; Saw EvSinglestep], N) => match k_host (n_link N) with Some (At RCpuError _) => True | _ => False end | _ => False end) by (vm_compute; exact I).
  destruct (play U1 100 [KStep; KOver] _) as [[xs N]|] eqn:E; [|contradiction]. exists N. split.
  - apply play_did. rewrite E. destruct xs as [|[| |[]] [|[| |[]] []]]; try contradiction. reflexivity.
  - destruct xs as [|[| |[]] [|[| |[]] []]]; try contradiction. exact X.
Qed.

(** Stepping out that is stopped by a breakpoint leaves the machine in stepping mode: the
    next continuing executes one instruction only (C61_left_refuted). *)
Definition calls64 : list call := [KStep; KBp (OpSet 4); KOut; KBp (OpUnset 4); KContinue].
Theorem C64_out_stepping_refuted : (debuggee U1 cfg1 prog_call [7; 8] [65; 10] (booted cfg1 prog_call [7; 8] [65; 10]) /\ Forall (usable U1 prog_call) calls64 /\ Forall no_watch calls64) /\
  answers calls64 prog_call = Some [Saw EvSinglestep; Fine; Saw (EvBreakpoint 4); Fine; Saw EvSinglestep] /\ ip_after calls64 prog_call = Some 1.
Proof. split; [case_tac|]. vm_compute. repeat split; reflexivity. Qed.

Print Assumptions C41_step_over.
Print Assumptions C41_step_out.
Print Assumptions C41_out_ends.
Print Assumptions C62_entry_refuted.
Print Assumptions C62_deeper_refuted.
Print Assumptions C62_out_refuted.
Print Assumptions C63_disabled_refuted.
Print Assumptions C63_last_refuted.
Print Assumptions C63_watch_refuted.
Print Assumptions C64_fault_refuted.
Print Assumptions C64_out_stepping_refuted.
