(** Model of src/t86/cpu/register_allocation_table.{h,cpp} and of the physical
    register file of cpu.h:273-280. *)
From Coq Require Import ZArith NArith List Bool.
From Verif Require Import Base Isa.
Import ListNotations.
Open Scope Z_scope.

(** table_: unordered_map from logical to physical registers *)
Definition rat := list (lreg * nat).

Fixpoint rget (t : rat) (l : lreg) : option nat :=
  match t with
  | [] => None
  | (k, p) :: t' => if lreg_eqb l k then Some p else rget t' l
  end.

(** insert_or_assign *)
Fixpoint rset (t : rat) (l : lreg) (p : nat) : rat :=
  match t with
  | [] => [(l, p)]
  | (k, q) :: t' => if lreg_eqb l k then (k, p) :: t' else (k, q) :: rset t' l p
  end.

Fixpoint seq_regs (f : N -> lreg) (from : N) (phys : nat) (n : nat) : rat :=
  match n with
  | O => []
  | S n' => (f from, phys) :: seq_regs f (from + 1) (S phys) n'
  end.

(** register_allocation_table.cpp:11-25. Physical register [nreg + nfreg] is
    skipped by the ++i in the code. *)
Definition rat_init (nreg nfreg : nat) : rat :=
  seq_regs (fun n => LR (R n)) 0 0 nreg
  ++ seq_regs LF 0 nreg nfreg
  ++ [(LR PC, nreg + nfreg + 1); (LR SP, nreg + nfreg + 2);
      (LR BP, nreg + nfreg + 3); (LR Flags, nreg + nfreg + 4)]%nat.

(** register_allocation_table.cpp:105-109 isUnmapped *)
Definition rat_unmapped (t : rat) (p : nat) : bool :=
  forallb (fun m => negb (Nat.eqb (snd m) p)) t.

(** cpu.h:273-277 RegisterValue *)
Record preg : Set := mkPreg { p_val : Z; p_ready : bool; p_subs : nat }.

Definition pfile := list preg.

(** registers_.at(p) = ... *)
Definition pset (f : pfile) (p : nat) (g : preg -> preg) : option pfile :=
  match nth_error f p with
  | None => None
  | Some r => Some (set_nth f p (g r))
  end.

(** cpu.cpp:285-292. [None]: index out of range or the assert in unsubscribe. *)
Definition psub (f : pfile) (p : nat) : option pfile :=
  pset f p (fun r => mkPreg (p_val r) (p_ready r) (S (p_subs r))).

Definition punsub (f : pfile) (p : nat) : option pfile :=
  match nth_error f p with
  | None => None
  | Some r => match p_subs r with
              | O => None
              | S n => Some (set_nth f p (mkPreg (p_val r) (p_ready r) n))
              end
  end.

(** register_allocation_table.cpp:41-51 subscribeToReads, unsubscribeFromReads *)
Fixpoint psub_all (f : pfile) (t : rat) : option pfile :=
  match t with
  | [] => Some f
  | (_, p) :: t' => match psub f p with None => None | Some f' => psub_all f' t' end
  end.

Fixpoint punsub_all (f : pfile) (t : rat) : option pfile :=
  match t with
  | [] => Some f
  | (_, p) :: t' => match punsub f p with None => None | Some f' => punsub_all f' t' end
  end.
