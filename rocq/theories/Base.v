(** Common definitions of the model: 64-bit words, outcomes, finite maps. *)
From Coq Require Import ZArith List Bool Lia.
Import ListNotations.
Open Scope Z_scope.

(** 64-bit machine words are integers; [u64] is the unsigned, [s64] the signed
    two's-complement representative modulo 2^64 (C++ uint64_t / int64_t). *)
Definition two63 : Z := 9223372036854775808.
Definition two64 : Z := 18446744073709551616.

Definition u64 (z : Z) : Z := z mod two64.

Definition s64 (z : Z) : Z :=
  let r := z mod two64 in if r <? two63 then r else r - two64.

Definition in_s64 (z : Z) : Prop := - two63 <= z < two63.
Definition in_u64 (z : Z) : Prop := 0 <= z < two64.

Definition in_s64b (z : Z) : bool := (- two63 <=? z) && (z <? two63).

(** Kinds of C++ exceptions the modelled code can throw. *)
Inductive exn : Set :=
| EMemRange      (* std::out_of_range from mem_.at(address), ram.cpp *)
| ERegRange      (* T86ExecutionError / std::out_of_range: register that does not exist *)
| ENoFreeReg     (* std::runtime_error, cpu.cpp:312 *)
| EOperand       (* std::runtime_error "Unhandled operand type" and the like *)
| ETextRange     (* std::out_of_range from instructions_.at *)
| ECommand       (* std::runtime_error / std::out_of_range from a malformed debugger command *)
| EParse.        (* ParserError *)

(** Kinds of undefined behaviour and failed asserts (asserts are compiled in). *)
Inductive ub : Set :=
| UAssert        (* assert() fails: abort *)
| UDangling      (* use of a reference invalidated by a vector modification *)
| UDiv           (* division by zero, or INT64_MIN / -1 *)
| UOverflow      (* signed overflow (only in mode Strict) *)
| UShift         (* shift count outside 0..63 (only in mode Strict) *)
| UIndex         (* vector index out of bounds with operator[] *)
| UUninit        (* read of an uninitialised variable *)
| UFloatConv.    (* conversion of an out-of-range double to an integer *)

(** Outcome of an operation on state [S] returning [A]. An exception keeps the
    state reached so far, because the debugger can look at it afterwards. *)
Inductive res (S A : Type) : Type :=
| Ok (a : A)
| Throw (e : exn) (s : S)
| Undef (w : ub).
Arguments Ok {S A}. Arguments Throw {S A}. Arguments Undef {S A}.

Definition bind {S A B} (r : res S A) (f : A -> res S B) : res S B :=
  match r with
  | Ok a => f a
  | Throw e s => Throw e s
  | Undef w => Undef w
  end.

Declare Scope res_scope.
Delimit Scope res_scope with res.
Notation "'let!' x ':=' a 'in' b" := (bind a (fun x => b))
  (at level 200, x pattern, a at level 100, b at level 200) : res_scope.
Open Scope res_scope.

(** Association maps keyed by integers (std::unordered_map; iteration order is
    never observable in the modelled code). *)
Definition amap (V : Type) := list (Z * V).

Fixpoint aget {V} (m : amap V) (k : Z) : option V :=
  match m with
  | [] => None
  | (k', v) :: m' => if k =? k' then Some v else aget m' k
  end.

Fixpoint aset {V} (m : amap V) (k : Z) (v : V) : amap V :=
  match m with
  | [] => [(k, v)]
  | (k', v') :: m' => if k =? k' then (k, v) :: m' else (k', v') :: aset m' k v
  end.

(** [set_nth]: vector element assignment (no effect out of range). *)
Fixpoint set_nth {A} (l : list A) (n : nat) (a : A) : list A :=
  match l, n with
  | [], _ => []
  | _ :: l', O => a :: l'
  | x :: l', S n' => x :: set_nth l' n' a
  end.
