(** The state of the T86 machine a program and its user can see. Used by the
    specification (IsaSpec.v) and by the proofs; it models no code. *)
From Coq Require Import ZArith NArith List Bool.
From Verif Require Import Base Isa.
Import ListNotations.
Open Scope Z_scope.

(** What a program prints: a character, or a decimal number followed by a newline. *)
Inductive outev : Set := OutChar (c : Z) | OutNum (n : Z).

(** Architectural state. [a_mem] is [None] outside the memory. The program
    counter is kept apart, as an unsigned address; the entry of [a_reg] for PC
    has no meaning. *)
Record arch : Type := mkArch {
  a_pc : Z;
  a_reg : lreg -> Z;
  a_mem : Z -> option Z;
  a_out : list outev;
  a_in : list Z;              (* bytes of standard input not read yet *)
  a_halted : bool
}.

Definition set_pc (S : arch) pc := mkArch pc (a_reg S) (a_mem S) (a_out S) (a_in S) (a_halted S).

Definition upd {V} (f : lreg -> V) (l : lreg) (v : V) : lreg -> V :=
  fun k => if lreg_eqb k l then v else f k.

Definition mupd (f : Z -> option Z) (a v : Z) : Z -> option Z :=
  fun k => if k =? a then Some v else f k.
