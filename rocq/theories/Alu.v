(** Model of src/t86/cpu/alu.h and src/t86/cpu/alu.cpp. *)
From Coq Require Import ZArith Bool.
From Verif Require Import Base.
Open Scope Z_scope.

(** Reading of C++ signed overflow and out-of-range shifts: [Strict] makes them
    undefined behaviour (the language standard); [Wrap] is what x86-64 machine
    code does (two's-complement wrap-around, shift counts modulo 64). *)
Inductive mode : Set := Strict | Wrap.

(** alu.h:6-21 struct Flags *)
Record flags : Set := mkFlags { sf : bool; zf : bool; cf : bool; vf : bool }.

(** alu.cpp:7-9 Flags::operator int64_t *)
Definition flags_to_word (f : flags) : Z :=
  Z.lor (Z.lor (Z.lor (Z.shiftl (Z.b2z (sf f)) 0) (Z.shiftl (Z.b2z (zf f)) 1))
        (Z.shiftl (Z.b2z (cf f)) 2)) (Z.shiftl (Z.b2z (vf f)) 3).

(** alu.cpp:11-16 Flags::Flags(int64_t) *)
Definition flags_of_word (v : Z) : flags :=
  mkFlags (negb (Z.land v 1 =? 0)) (negb (Z.land v 2 =? 0))
          (negb (Z.land v 4 =? 0)) (negb (Z.land v 8 =? 0)).

(** alu.h:23-26 struct Result *)
Record aresult : Set := mkRes { rval : Z; rflags : flags }.

(** Result of a C++ signed operation whose mathematical value is [z]. *)
Definition arith (m : mode) (z : Z) : res unit Z :=
  match m with
  | Wrap => Ok (s64 z)
  | Strict => if in_s64b z then Ok z else Undef UOverflow
  end.

Definition int64_max : Z := two63 - 1.
Definition int64_min : Z := - two63.
Definition uint64_max : Z := two64 - 1.

(** alu.cpp:21-31 add *)
Definition alu_add (m : mode) (x y : Z) : res unit aresult :=
  let! result := arith m (x + y) in
  let ux := u64 x in
  let uy := u64 y in
  Ok (mkRes result
    (mkFlags (result <? 0) (result =? 0) (ux >? uint64_max - uy)
       (((y >? 0) && (x >? int64_max - y)) || ((y <? 0) && (x <? int64_min - y))))).

(** alu.cpp:33-43 subtract *)
Definition alu_sub (m : mode) (x y : Z) : res unit aresult :=
  let! result := arith m (x - y) in
  let ux := u64 x in
  let uy := u64 y in
  Ok (mkRes result
    (mkFlags (result <? 0) (result =? 0) (ux <? uy)
       (((y >? 0) && (x <? int64_min + y)) || ((y <? 0) && (x >? int64_max + y))))).

(** Flags of the operations that clear carry and overflow (alu.cpp:45-52, 87-130, 176-183). *)
Definition logic_flags (result : Z) : flags :=
  mkFlags (result <? 0) (result =? 0) false false.

(** alu.cpp:45-52 negate *)
Definition alu_neg (m : mode) (x : Z) : res unit aresult :=
  let! result := arith m (- x) in
  Ok (mkRes result (logic_flags result)).

(** alu.cpp:54-64 multiply (unsigned; wraps, no undefined behaviour) *)
Definition alu_mul (x y : Z) : res unit aresult :=
  let ux := u64 x in
  let uy := u64 y in
  let uresult := u64 (ux * uy) in
  let result := s64 uresult in
  Ok (mkRes result
    (mkFlags (result <? 0) (uresult =? 0)
       (negb (x =? 0) && negb (y =? 0) && negb (ux =? uresult / uy)) false)).

(** alu.cpp:66-76 divide (unsigned; division by zero traps) *)
Definition alu_div (x y : Z) : res unit aresult :=
  let ux := u64 x in
  let uy := u64 y in
  if uy =? 0 then Undef UDiv else
  let uresult := ux / uy in
  let result := s64 uresult in
  Ok (mkRes result (mkFlags (result <? 0) (uresult =? 0) false false)).

(** C++ signed division truncates toward zero; x/0 and INT64_MIN/-1 trap. *)
Definition sdiv (x y : Z) : res unit Z :=
  if (y =? 0) || ((x =? int64_min) && (y =? -1)) then Undef UDiv
  else Ok (Z.quot x y).

(** alu.cpp:78-85 signed_multiply *)
Definition alu_imul (m : mode) (x y : Z) : res unit aresult :=
  let! result := arith m (x * y) in
  let! ovf :=
     (if negb (x =? 0) && negb (y =? 0)
      then let! q := sdiv result y in Ok (negb (x =? q))
      else Ok false) in
  Ok (mkRes result (mkFlags (result <? 0) (result =? 0) false ovf)).

(** alu.cpp:87-94 signed_divide *)
Definition alu_idiv (x y : Z) : res unit aresult :=
  let! result := sdiv x y in
  Ok (mkRes result (logic_flags result)).

(** alu.cpp:96-103, 105-112, 114-121, 123-130 bit_and, bit_or, bit_xor, bit_not *)
Definition alu_and (x y : Z) : res unit aresult :=
  let result := Z.land x y in Ok (mkRes result (logic_flags result)).
Definition alu_or (x y : Z) : res unit aresult :=
  let result := Z.lor x y in Ok (mkRes result (logic_flags result)).
Definition alu_xor (x y : Z) : res unit aresult :=
  let result := Z.lxor x y in Ok (mkRes result (logic_flags result)).
Definition alu_not (x : Z) : res unit aresult :=
  let result := Z.lnot x in Ok (mkRes result (logic_flags result)).

(** A C++ shift count: undefined outside 0..63; x86-64 uses the low six bits. *)
Definition shift_count (m : mode) (y : Z) : res unit Z :=
  match m with
  | Wrap => Ok (y mod 64)
  | Strict => if (0 <=? y) && (y <? 64) then Ok y else Undef UShift
  end.

(** [x << y] on int64_t (modulo 2^64 since C++20) and [x >> y] (arithmetic). *)
Definition shl (m : mode) (x y : Z) : res unit Z :=
  let! k := shift_count m y in Ok (s64 (Z.shiftl x k)).
Definition shr (m : mode) (x y : Z) : res unit Z :=
  let! k := shift_count m y in Ok (Z.shiftr x k).

(** alu.cpp:132-143 bit_left_shift. [y - 1] overflows only for INT64_MIN, where
    [y] itself is already an invalid count. *)
Definition alu_lsh (m : mode) (x y : Z) : res unit aresult :=
  let! result := shl m x y in
  let! carry :=
     (if y <=? 64 then let! p := shl m x (y - 1) in Ok (p <? 0) else Ok false) in
  Ok (mkRes result (mkFlags (result <? 0) (result =? 0) carry false)).

(** alu.cpp:145-156 bit_right_shift *)
Definition alu_rsh (m : mode) (x y : Z) : res unit aresult :=
  let! result := shr m x y in
  let! carry :=
     (if y <=? 64 then let! p := shr m x (y - 1) in Ok (negb (Z.land p 1 =? 0)) else Ok false) in
  Ok (mkRes result (mkFlags (result <? 0) (result =? 0) carry false)).

(** alu.cpp:176-183 mod: C++ remainder has the sign of the dividend. *)
Definition alu_mod (x y : Z) : res unit aresult :=
  if (y =? 0) || ((x =? int64_min) && (y =? -1)) then Undef UDiv
  else let result := Z.rem x y in Ok (mkRes result (logic_flags result)).

(** Floating point (alu.cpp:185-216) is a parameter: doubles are 64-bit
    patterns (stored as int64_t values), operations are functions on patterns. *)
Record fops := mkFops {
  f_add : Z -> Z -> Z; f_sub : Z -> Z -> Z; f_mul : Z -> Z -> Z; f_div : Z -> Z -> Z;
  f_neg : Z -> bool;        (* result < 0 *)
  f_zero : Z -> bool;       (* result == 0 *)
  f_inf : Z -> bool;        (* std::isinf(result) *)
  f_of_int : Z -> Z;        (* static_cast<double>(int64_t) *)
  f_to_int : Z -> option Z  (* static_cast<int64_t>(double); None: not representable, UB *)
}.

(** alu.cpp:185-216: flags of the four float operations *)
Definition fflags (F : fops) (r : Z) : flags :=
  mkFlags (f_neg F r) (f_zero F r) false (f_inf F r).
