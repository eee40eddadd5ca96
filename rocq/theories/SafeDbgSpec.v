(** Sessions that cannot bring the VM down: what is asked of the program and of the
    commands. Written for the theorems of PropSafeDbg.v; models no code. *)
From Coq Require Import ZArith NArith List Bool.
From Verif Require Import Base Alu Isa AluSpec IsaSpec Exec Cpu Os DbgSpec SafeSpec.
Import ListNotations.
Open Scope Z_scope.

Definition reads_input (i : instr) : bool := match i with IGetchar _ => true | _ => false end.

(** A program that cannot make a VM with the configuration [g] stumble (C107), whatever the
    registers and the memory hold when it starts. *)
Record well_formed (g : cfg) (p : list instr) : Prop := mkWellFormed {
  wf_ip : Forall keeps_ip p;
  wf_typed : Forall typed_instr p;
  wf_harmless : Forall (fun i => harmless (g_reg g) (g_freg g) i = true) p;
  wf_spread : spread p (g_rs g) = true;
  wf_input : Forall (fun i => reads_input i = false) p
}.

(** Commands that name what exists: cells of the memory that no access is on its way to,
    registers of the machine, debug registers, instructions of the program; what is written
    into the program leaves it well-formed. *)
Definition fine (g : cfg) (k : cmd) (c : cpu) : Prop :=
  match k with
  | CPokeText i ins => 0 <= i < Z.of_nat (length (c_prog c)) /\ keeps_ip ins /\ well_formed g (replace (c_prog c) (Z.to_nat i) ins)
  | CPeekData i n => 0 <= i /\ i + Z.of_nat n <= Z.of_nat (g_ram g)
  | CPokeData i v => fits v /\ 0 <= i < Z.of_nat (g_ram g) /\ quiet c i
  | CPokeDebugRegs i _ => 0 <= i < 5
  | CPokeFloatRegs n v => fits v /\ has_freg (g_freg g) n = true
  | CPokeRegs r v => fits v /\ has_reg (g_reg g) r = true
  | _ => True
  end.

(** The next event is one the host expects: a tick when the machine runs, a command when it
    is stopped. *)
Definition comes (g : cfg) (x : event) (h : host) : Prop :=
  match x, h with
  | ETick, Going _ _ => True
  | ECmd k, At _ c => fine g k c
  | _, _ => False
  end.

Inductive careful (E : env) (G g : cfg) : list event -> host -> host -> Prop :=
| ca_nil : forall h, careful E G g [] h h
| ca_cons : forall x xs h h1 h2, comes g x h -> os_event E G true x h = Some (Ok h1) ->
    careful E G g xs h1 h2 -> careful E G g (x :: xs) h h2.

(** The host has not reported that the program went wrong. *)
Definition sound (h : host) : Prop := match h with At r _ => r <> RCpuError | _ => True end.

(** Commands of a debugger that writes nothing into the program [p] but breakpoints and the
    instructions that were there. *)
Definition plain (g : cfg) (p : list instr) (k : cmd) : Prop :=
  match k with
  | CPokeText i ins => 0 <= i < Z.of_nat (length p) /\ (ins = IBkpt \/ nth_error p (Z.to_nat i) = Some ins)
  | CPeekData i n => 0 <= i /\ i + Z.of_nat n <= Z.of_nat (g_ram g)
  | CPokeData i v => fits v /\ 0 <= i < Z.of_nat (g_ram g)
  | CPokeDebugRegs i _ => 0 <= i < 5
  | CPokeFloatRegs n v => fits v /\ has_freg (g_freg g) n = true
  | CPokeRegs r v => fits v /\ has_reg (g_reg g) r = true
  | _ => True
  end.
