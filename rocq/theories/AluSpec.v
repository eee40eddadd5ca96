(** What the integer instructions mean, independently of how alu.cpp computes it. *)
From Coq Require Import ZArith Bool.
From Verif Require Import Base Alu Isa.
Open Scope Z_scope.

(** [v] is the integer [z] reduced to a signed 64-bit word. *)
Definition is_word_of (z v : Z) : Prop :=
  - 2 ^ 63 <= v < 2 ^ 63 /\ exists k, v = z + k * 2 ^ 64.

(** The unsigned reading of a signed word. *)
Definition unsigned (x : Z) : Z := if x <? 0 then x + 2 ^ 64 else x.

Definition fits (z : Z) : Prop := - 2 ^ 63 <= z < 2 ^ 63.

Definition sz_spec (r : aresult) : Prop :=
  (sf (rflags r) = true <-> rval r < 0) /\ (zf (rflags r) = true <-> rval r = 0).

Definition cv_clear (r : aresult) : Prop :=
  cf (rflags r) = false /\ vf (rflags r) = false.

Definition bin_spec (op : binop) (x y : Z) (r : aresult) : Prop :=
  sz_spec r /\
  match op with
  | BADD => is_word_of (x + y) (rval r)
            /\ (cf (rflags r) = true <-> 2 ^ 64 <= unsigned x + unsigned y)
            /\ (vf (rflags r) = true <-> ~ fits (x + y))
  | BSUB => is_word_of (x - y) (rval r)
            /\ (cf (rflags r) = true <-> unsigned x < unsigned y)
            /\ (vf (rflags r) = true <-> ~ fits (x - y))
  | BMUL => is_word_of (x * y) (rval r)
            /\ (cf (rflags r) = true <-> 2 ^ 64 <= unsigned x * unsigned y)
            /\ vf (rflags r) = false
  | BIMUL => is_word_of (x * y) (rval r)
            /\ cf (rflags r) = false
            /\ (vf (rflags r) = true <-> ~ fits (x * y))
  | BDIV => y <> 0 /\ is_word_of (unsigned x / unsigned y) (rval r) /\ cv_clear r
  | BIDIV => y <> 0 /\ rval r = Z.quot x y /\ fits (rval r) /\ cv_clear r
  | BMOD => y <> 0 /\ rval r = Z.rem x y /\ fits (rval r) /\ cv_clear r
  | BAND => fits (rval r) /\ cv_clear r
            /\ (forall i, 0 <= i -> Z.testbit (rval r) i = Z.testbit x i && Z.testbit y i)
  | BOR => fits (rval r) /\ cv_clear r
            /\ (forall i, 0 <= i -> Z.testbit (rval r) i = Z.testbit x i || Z.testbit y i)
  | BXOR => fits (rval r) /\ cv_clear r
            /\ (forall i, 0 <= i -> Z.testbit (rval r) i = xorb (Z.testbit x i) (Z.testbit y i))
  | BLSH => fits (rval r) /\ vf (rflags r) = false
            /\ (0 <= y < 64 -> is_word_of (x * 2 ^ y) (rval r))
            /\ (1 <= y < 64 -> cf (rflags r) = Z.testbit x (64 - y))
  | BRSH => fits (rval r) /\ vf (rflags r) = false
            /\ (0 <= y < 64 -> rval r = x / 2 ^ y)
            /\ (1 <= y < 64 -> cf (rflags r) = Z.testbit x (y - 1))
  end.

Definition un_spec (op : unop) (x : Z) (r : aresult) : Prop :=
  sz_spec r /\
  match op with
  | UINC => is_word_of (x + 1) (rval r)
            /\ (cf (rflags r) = true <-> unsigned x = 2 ^ 64 - 1)
            /\ (vf (rflags r) = true <-> x = 2 ^ 63 - 1)
  | UDEC => is_word_of (x - 1) (rval r)
            /\ (cf (rflags r) = true <-> x = 0)
            /\ (vf (rflags r) = true <-> x = - 2 ^ 63)
  | UNEG => is_word_of (- x) (rval r) /\ cv_clear r
  | UNOT => fits (rval r) /\ cv_clear r
            /\ (forall i, 0 <= i -> Z.testbit (rval r) i = negb (Z.testbit x i))
  end.

(** When each integer operation traps or is undefined if signed overflow wraps. *)
Definition bin_traps (op : binop) (x y : Z) : Prop :=
  match op with
  | BDIV => y = 0
  | BIDIV | BMOD => y = 0 \/ (x = - 2 ^ 63 /\ y = -1)
  | BIMUL => x = - 2 ^ 63 /\ y = -1
  | _ => False
  end.

(** What each conditional jump is named after, as a relation on the operands
    of the preceding CMP. *)
Definition cmp_meaning (c : cond) (a b : Z) : Prop :=
  match c with
  | CZ | CE => a = b
  | CNZ | CNE => a <> b
  | CL => a < b
  | CLE => a <= b
  | CG => a > b
  | CGE => a >= b
  | CB => unsigned a < unsigned b
  | CBE => unsigned a <= unsigned b
  | CA => unsigned a > unsigned b
  | CAE => unsigned a >= unsigned b
  | CO => ~ fits (a - b)
  | CNO => fits (a - b)
  | CS => exists v, is_word_of (a - b) v /\ v < 0
  | CNS => exists v, is_word_of (a - b) v /\ 0 <= v
  end.
