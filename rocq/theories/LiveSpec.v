(** What the progress property (C10) speaks about: which instructions load from and
    store to memory, and how many instructions a tick retires. *)
From Coq Require Import ZArith NArith List Bool.
From Verif Require Import Base Alu Isa Exec Ram Writes Rat Cpu.
Import ListNotations.
Open Scope nat_scope.

(** an operand in brackets *)
Definition is_memory (o : operand) : bool :=
  match o with
  | OMemImm _ | OMemReg _ | OMemRegOff _ _ | OMemRegReg _ _ | OMemRegScaled _ _ | OMemRegOffReg _ _ _
  | OMemRegRegScaled _ _ _ | OMemRegOffRegScaled _ _ _ _ => true
  | _ => false
  end.

Definition loads (i : instr) : bool :=
  match i with
  | IBin _ _ _ v _ | IFBin _ _ v | IMov _ v | ICmp _ v | IFcmp _ v | IJmp v | ILoop _ v | IJcc _ v | ICall v
  | IPush v | IFpush v => is_memory v
  | IRet | IPop _ | IFpop _ => true
  | _ => false
  end.

Definition stores (i : instr) : bool :=
  match i with
  | IMov d _ => is_memory d
  | ICall _ | IPush _ | IFpush _ => true
  | _ => false
  end.

(** not both *)
Definition loads_or_stores (i : instr) : Prop := loads i = false \/ stores i = false.

(** The number of instructions that [retire_loop] (reservation_station.cpp:24-40) retires:
    the same loop, counting its rounds. *)
Fixpoint retire_count (fuel : nat) (c : cpu) : nat :=
  match fuel with
  | O => 0
  | S n =>
      match c_rs c with
      | [] => 0
      | e :: es =>
          match e_state e with
          | Retiring => match retire_entry (set_rs c es) e with Ok c' => S (retire_count n c') | _ => 0 end
          | _ => 0
          end
      end
  end.

(** The number of instructions a tick retires (cpu.cpp:17-25, as in [tick_retire]), and
    the number that [n] ticks retire. *)
Definition tick_count (E : env) (c : cpu) : nat :=
  let r := ram_tick (c_ram c) in
  let c1 := set_stop (set_mem c r (wm_remove_finished (c_wm c) r)) (c_single c) 0%Z in
  match exec_loop E (c_regs c1) (c_wm c1) (c_alus c1) (c_rs c1) with
  | Ok (f, w, a, es) => retire_count (length es) (set_exec c1 f w es a)
  | _ => 0
  end.
Fixpoint ticks_count (E : env) (n : nat) (c : cpu) : nat :=
  match n with
  | O => 0
  | S n' => tick_count E c + match tick E c with Ok c' => ticks_count E n' c' | _ => 0 end
  end.
