(** What a user of the debugger sees of a program that runs under it: the
    independent specification of continuing and stepping. Models no code. *)
From Coq Require Import ZArith NArith List Bool.
From Verif Require Import Base Alu Isa AluSpec State IsaSpec DbgSpec  Os Client Native PropBreak.
Import ListNotations.
Open Scope Z_scope.

Section Lib.
Variable F : fops.
(** The program as the user wrote it. *)
Variable p : list instr.
(** The breakpoints (PropBreak.v): [Some true] is an enabled one. *)
Variable m : marks.
(** The addresses that are watched. *)
Variable w : Z -> Prop.

Definition writes_watched (S : arch) : Prop := exists a, writes_cell S (instr_at p (a_pc S)) a /\ w a.

(** What is to be reported after the instruction that leads from [S] to [T]. *)
Inductive reported (S T : arch) : devent -> Prop :=
| rp_watch : forall a, writes_cell S (instr_at p (a_pc S)) a -> w a -> reported S T (EvWatchpoint a)
| rp_end : a_halted T = true -> reported S T EvEnd
| rp_break : m (a_pc T) = Some true -> a_halted T = false -> ~ writes_watched S -> reported S T (EvBreakpoint (a_pc T)).

(** Continuing: instructions of the program are executed, at least one, until there
    is something to report. *)
Inductive continues : arch -> devent -> arch -> Prop :=
| co_last : forall S S' e, isa_step F p S S' -> reported S S' e -> continues S e S'
| co_more : forall S T S' e, isa_step F p S T -> (forall e', ~ reported S T e') -> continues T e S' -> continues S e S'.

(** Stepping: one instruction is executed. *)
Inductive steps : arch -> devent -> arch -> Prop :=
| st_watch : forall S S' a, isa_step F p S S' -> writes_cell S (instr_at p (a_pc S)) a -> w a -> steps S (EvWatchpoint a) S'
| st_end : forall S S', isa_step F p S S' -> a_halted S' = true -> steps S EvEnd S'
| st_one : forall S S', isa_step F p S S' -> a_halted S' = false -> ~ writes_watched S -> steps S EvSinglestep S'.
End Lib.

(** ---- stepping over and out ---- *)

Definition is_call (i : instr) : Prop := match i with ICall _ => True | _ => False end.
(** A breakpoint at [a], unless there is one, be it disabled. *)
Definition with_break (m : marks) (a : Z) : marks := match m a with None => mark m a (Some true) | Some _ => m end.

Section Over.
Variable F : fops.
Variable p : list instr.
Variable m : marks.
Variable w : Z -> Prop.

(** From a call with return address [a] and base pointer [bp]: the program goes on
    until it is back, that is, at [a] with the same base pointer (reported as a step), or
    until there is something else to report. Recursive calls may come by at [a] with
    another base pointer. *)
Inductive comes_back (a bp : Z) : arch -> devent -> arch -> Prop :=
| cb_back : forall S S', continues F p (with_break m a) w S (EvBreakpoint a) S' -> a_reg S' (LR BP) = bp -> comes_back a bp S EvSinglestep S'
| cb_deeper : forall S T e S', continues F p (with_break m a) w S (EvBreakpoint a) T -> a_reg T (LR BP) <> bp -> comes_back a bp T e S' -> comes_back a bp S e S'
| cb_other : forall S e S', continues F p (with_break m a) w S e S' -> e <> EvBreakpoint a -> comes_back a bp S e S'.

(** Stepping over. [first]: the user is at the instruction already, so that a
    breakpoint on it is not reported. *)
Inductive over (first : bool) : arch -> devent -> arch -> Prop :=
| ov_plain : forall S e S', ~ is_call (instr_at p (a_pc S)) -> first = true \/ m (a_pc S) <> Some true -> steps F p w S e S' -> over first S e S'
| ov_stop : forall S S', ~ is_call (instr_at p (a_pc S)) -> first = false -> m (a_pc S) = Some true -> a_halted S = false -> same S' S -> over first S (EvBreakpoint (a_pc S)) S'
| ov_call : forall S T e S', is_call (instr_at p (a_pc S)) -> first = true -> isa_step F p S T ->
    comes_back (address (a_pc S + 1)) (a_reg S (LR BP)) T e S' -> over first S e S'
| ov_next_call : forall S e S', is_call (instr_at p (a_pc S)) -> first = false ->
    comes_back (address (a_pc S + 1)) (a_reg S (LR BP)) S e S' -> over first S e S'.

(** Stepping out: stepping over until a RET has been executed or there is something
    else to report. *)
Inductive steps_out : bool -> arch -> devent -> arch -> Prop :=
| so_ret : forall first S e S', instr_at p (a_pc S) = IRet -> over first S e S' -> steps_out first S e S'
| so_event : forall first S e S', e <> EvSinglestep -> over first S e S' -> steps_out first S e S'
| so_more : forall first S T e S', instr_at p (a_pc S) <> IRet -> over first S EvSinglestep T -> steps_out false T e S' -> steps_out first S e S'.
End Over.

(** The calls of a user: breakpoint operations, setting a watchpoint, going on, stepping,
    stepping over and out. *)
Inductive call : Type := KBp (o : bpop) | KWatch (a : Z) | KContinue | KStep | KOver | KOut.
(** and what came of them: done, refused, or an event. *)
Inductive answer : Type := Fine | Refused | Saw (e : devent).

(** ---- without watchpoints ---- *)

(** What a call does to the breakpoints and the state of the program. *)
Inductive call_spec (F : fops) (p : list instr) : call -> marks * arch -> answer -> marks * arch -> Prop :=
| cs_done : forall o m m' S, op_spec o m = Some m' -> call_spec F p (KBp o) (m, S) Fine (m', S)
| cs_refused : forall o m S, op_spec o m = None -> call_spec F p (KBp o) (m, S) Refused (m, S)
| cs_continue : forall m S e S', continues F p m (fun _ => False) S e S' -> call_spec F p KContinue (m, S) (Saw e) (m, S')
| cs_step : forall m S e S', steps F p (fun _ => False) S e S' -> call_spec F p KStep (m, S) (Saw e) (m, S')
| cs_over : forall m S e S', over F p m (fun _ => False) true S e S' -> call_spec F p KOver (m, S) (Saw e) (m, S').

Inductive calls_spec (F : fops) (p : list instr) : list call -> marks * arch -> list answer -> marks * arch -> Prop :=
| cl_nil : forall s, calls_spec F p [] s [] s
| cl_cons : forall k ks s x s1 xs s2, call_spec F p k s x s1 -> calls_spec F p ks s1 xs s2 -> calls_spec F p (k :: ks) s (x :: xs) s2.

(** ---- with watchpoints ---- *)

(** [v_left]: a watchpoint was hit by an instruction that was executed as a step of
    its own, or a breakpoint stopped stepping out, and no step has been completed since.
    The machine is then still in stepping mode, which is not what the user asked for. *)
Record view : Type := mkView { v_marks : marks; v_watch : list Z; v_state : arch; v_left : bool }.
Definition v_is_watched (v : view) (a : Z) : Prop := In a (v_watch v).

Inductive view_spec (F : fops) (p : list instr) : call -> view -> answer -> view -> Prop :=
| vs_done : forall o m m' ws S l, op_spec o m = Some m' -> view_spec F p (KBp o) (mkView m ws S l) Fine (mkView m' ws S l)
| vs_refused : forall o m ws S l, op_spec o m = None -> view_spec F p (KBp o) (mkView m ws S l) Refused (mkView m ws S l)
| vs_watch : forall a m ws S l, ~ In a ws -> (length ws < 4)%nat -> view_spec F p (KWatch a) (mkView m ws S l) Fine (mkView m (a :: ws) S l)
| vs_watch_refused : forall a m ws S l, In a ws \/ (4 <= length ws)%nat -> view_spec F p (KWatch a) (mkView m ws S l) Refused (mkView m ws S l)
| vs_step : forall m ws S l e S' l', steps F p (fun a => In a ws) S e S' -> (l' = true -> exists a, e = EvWatchpoint a) ->
    view_spec F p KStep (mkView m ws S l) (Saw e) (mkView m ws S' l')
    (** Continuing as it should be; the instruction under a breakpoint is executed as
        a step of its own. *)
| vs_continue : forall m ws S l e S' l', (l = true -> m (a_pc S) = Some true) -> continues F p m (fun a => In a ws) S e S' ->
    (l' = true -> m (a_pc S) = Some true /\ isa_step F p S S' /\ exists a, e = EvWatchpoint a) ->
    view_spec F p KContinue (mkView m ws S l) (Saw e) (mkView m ws S' l')
| vs_over : forall m S l e S', over F p m (fun _ => False) true S e S' -> view_spec F p KOver (mkView m [] S l) (Saw e) (mkView m [] S' false)
| vs_out : forall m S l e S' l', steps_out F p m (fun _ => False) true S e S' -> (l' = true -> exists a, e = EvBreakpoint a) ->
    view_spec F p KOut (mkView m [] S l) (Saw e) (mkView m [] S' l')
    (** The defect: in stepping mode continuing is a step. *)
| vs_left : forall m ws S e S' l', m (a_pc S) <> Some true -> steps F p (fun a => In a ws) S e S' -> (l' = true -> exists a, e = EvWatchpoint a) ->
    view_spec F p KContinue (mkView m ws S true) (Saw e) (mkView m ws S' l').

Inductive views_spec (F : fops) (p : list instr) : list call -> view -> list answer -> view -> Prop :=
| vl_nil : forall s, views_spec F p [] s [] s
| vl_cons : forall k ks s x s1 xs s2, view_spec F p k s x s1 -> views_spec F p ks s1 xs s2 -> views_spec F p (k :: ks) s (x :: xs) s2.

(** What the library does: a call returns, or throws. *)
Section Did.
Variable U : setup.
Variable fuel : nat.
Inductive did : call -> native -> answer -> native -> Prop :=
| di_done : forall o N N', run_op U o N = Done tt N' -> did (KBp o) N Fine N'
| di_refused : forall o N N', run_op U o N = Failed N' -> did (KBp o) N Refused N'
| di_watch : forall a N N', set_watchpoint U a N = Done tt N' -> did (KWatch a) N Fine N'
| di_watch_refused : forall a N N', set_watchpoint U a N = Failed N' -> did (KWatch a) N Refused N'
| di_continue : forall N e N', (continue_ U fuel;; wait_event U fuel) N = Done e N' -> did KContinue N (Saw e) N'
| di_step : forall N e N', single_step U fuel N = Done e N' -> did KStep N (Saw e) N'
| di_over : forall N e N', step_over U fuel true N = Done e N' -> did KOver N (Saw e) N'
| di_out : forall N e N', step_out U fuel N = Done e N' -> did KOut N (Saw e) N'.
Inductive did_all : list call -> native -> list answer -> native -> Prop :=
| da_nil : forall N, did_all [] N [] N
| da_cons : forall k ks N x N1 xs N2, did k N x N1 -> did_all ks N1 xs N2 -> did_all (k :: ks) N (x :: xs) N2.

(** The same, and the CPU has not failed: the VM does not report CPU_ERROR, and it has
    not ended. *)
Definition cpu_failed (N : native) : Prop := match k_host (n_link N) with Some (At RCpuError _) | Some (Ended _ _) => True | _ => False end.
Inductive did_well : list call -> native -> list answer -> native -> Prop :=
| dw_nil : forall N, did_well [] N [] N
| dw_cons : forall k ks N x N1 xs N2, did k N x N1 -> ~ cpu_failed N1 -> did_well ks N1 xs N2 -> did_well (k :: ks) N (x :: xs) N2.
End Did.
