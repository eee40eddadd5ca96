(** Model of the evaluation of debugger expressions: src/debugger/Source/
    Expression.{h,cpp} and Source::EvaluateExpression. *)
From Coq Require Import Ascii String ZArith NArith List Bool.
From Verif Require Import Base Text StdMap Alu Lexer Exec Os DbgText Client Native Src Expr.
Import ListNotations.
Open Scope Z_scope.

(** Expression.h:17-80: typed values and where they are. PointerValue has the members of
    its PointerType, ArrayValue those of its ArrayType. A double is its bit pattern, as an
    int64_t. *)
Inductive tvalue : Type :=
| VPtr (id size v : Z) (l : option loc)
| VInt (v : Z) (l : option loc)
| VFloat (v : Z) (l : option loc)
| VChar (v : Z) (l : option loc)
| VStruct (name : text) (size : Z) (members : list (text * tvalue)) (l : option loc)
| VArr (id cnt first : Z) (members : list tvalue) (l : option loc).
Definition value_loc (v : tvalue) : option loc :=
  match v with VPtr _ _ _ l | VInt _ l | VFloat _ l | VChar _ l | VStruct _ _ _ l | VArr _ _ _ _ l => l end.

(** Comparisons and conversion of doubles: bit patterns. [d_word] is the conversion to
    uint64_t, undefined for values outside its range; [d_show] std::to_string. *)
Record dops : Type := mkDops { d_lt : Z -> Z -> bool; d_le : Z -> Z -> bool; d_eq : Z -> Z -> bool; d_word : Z -> option Z; d_show : Z -> text }.

(** Conversions to char and int *)
Definition s8 (z : Z) : Z := (z + 128) mod 256 - 128.
Definition s32 (z : Z) : Z := (z + 2 ^ 31) mod 2 ^ 32 - 2 ^ 31.
Definition bit (b : bool) : Z := if b then 1 else 0.

(** 27-34 AddLocation *)
Definition with_loc (v : tvalue) (l : loc) : tvalue :=
  match v with
  | VPtr i s x _ => VPtr i s x (Some l)
  | VInt x _ => VInt x (Some l)
  | VFloat x _ => VFloat x (Some l)
  | VChar x _ => VChar x (Some l)
  | VStruct n s m _ => VStruct n s m (Some l)
  | VArr i c f m _ => VArr i c f m (Some l)
  end.

Section Eval.
Variable U : setup.
Variable D : dops.
(** Bound on the depth of types *)
Variable fuel : nat.
Variable src : source.
Let F : fops := e_fops (u_env U).

(** 9-18 GetRawValue, as a int64_t *)
Definition raw_value (l : loc) : act native Z :=
  match l with LReg n => get_register U n | LMem v => read_cell U v end.

(** map::emplace: does not change an entry *)
Definition emplace (m : list (text * tvalue)) (n : text) (v : tvalue) : list (text * tvalue) :=
  match tget m n with Some _ => m | None => tput m n v end.

(** 36-95 EvaluateTypeAndLocation; [k] bounds the depth. NOT_IMPLEMENTED ends the
    debugger. *)
Fixpoint eval_type (k : nat) (l : loc) (t : ty) {struct k} : act native tvalue :=
  match k with
  | O => fun _ => Blocked
  | S k' =>
      match t with
      | TyPrim p _ =>
          let* v := raw_value l in
          match p with
          | PrSigned => ret (VInt v (Some l))
          | PrFloat => ret (VFloat v (Some l))
          | PrChar => ret (VChar (s8 v) (Some l))
          | PrUnsigned => dead
          end
      | TyPtr id size => let* v := raw_value l in ret (VPtr id size (u64 v) (Some l))
      | TyStruct name size members =>
          let* m := (fix all (ms : list memb) (acc : list (text * tvalue)) : act native (list (text * tvalue)) :=
                       match ms with
                       | [] => ret acc
                       | x :: ms' =>
                           let* ml := interpret U [LPush l; LPush (LMem (mb_off x)); LAdd] in
                           let* mt := opt_or fail (get_type src (mb_type x)) in
                           let* v := eval_type k' ml mt in
                           all ms' (emplace acc (mb_name x) (with_loc v ml))
                       end) members [] in
          ret (VStruct name size m (Some l))
      | TyArr id cnt =>
          match l with
          | LReg _ => fail
          | LMem v =>
              let* mt := opt_or fail (get_type src id) in
              let* m := (fix all (n : nat) (i : Z) : act native (list tvalue) :=
                           match n with
                           | O => ret []
                           | S n' =>
                               let* sz := type_size k' src id in
                               let ml := LMem (s64 (v + i * sz)) in
                               let* x := eval_type k' ml mt in
                               let* xs := all n' (i + 1) in
                               ret (with_loc x ml :: xs)
                           end) (Z.to_nat cnt) 0 in
              ret (VArr id cnt (u64 v) m (Some l))
          end
      end
  end.

(** 113-125 Dereference *)
Definition dereference (v : tvalue) : act native tvalue :=
  match v with
  | VPtr id _ p _ => let* t := opt_or fail (get_type src id) in eval_type fuel (LMem (s64 p)) t
  | _ => fail
  end.

(** 127-150 AddValues: int64_t overflow is undefined, uint64_t wraps *)
Definition add_values (a b : tvalue) : act native tvalue :=
  match a, b with
  | VInt x _, VInt y _ => let* z := checked (x + y) in ret (VInt z None)
  | VFloat x _, VFloat y _ => ret (VFloat (f_add F x y) None)
  | VChar x _, VChar y _ => ret (VInt (x + y) None)
  | VInt x _, VPtr id size p _ => let* n := type_size fuel src id in ret (VPtr id size (u64 (x * n + p)) None)
  | VPtr id size p _, VInt x _ => let* n := type_size fuel src id in ret (VPtr id size (u64 (p + x * n)) None)
  | _, _ => fail
  end.
(** 152-174 SubValues *)
Definition sub_values (a b : tvalue) : act native tvalue :=
  match a, b with
  | VInt x _, VInt y _ => let* z := checked (x - y) in ret (VInt z None)
  | VFloat x _, VFloat y _ => ret (VFloat (f_sub F x y) None)
  | VPtr id size p _, VInt x _ => let* n := type_size fuel src id in ret (VPtr id size (u64 (p - x * n)) None)
  | VPtr id _ p _, VPtr id' _ q _ => if id =? id' then ret (VInt (s64 (p - q)) None) else fail
  | _, _ => fail
  end.
(** 176-192 ArithmeticOp: [f] on integers (undefined if it does not fit), [g] on doubles.
    Two chars are promoted to int, where the operations cannot overflow. *)
Definition arithmetic (f : Z -> Z -> Z) (g : Z -> Z -> Z) (a b : tvalue) : act native tvalue :=
  match a, b with
  | VInt x _, VInt y _ => let* z := checked (f x y) in ret (VInt z None)
  | VFloat x _, VFloat y _ => ret (VFloat (g x y) None)
  | VChar x _, VChar y _ => ret (VInt (f x y) None)
  | _, _ => fail
  end.
(** 194-213 CompareValues *)
Definition compare_values (f g : Z -> Z -> bool) (a b : tvalue) : act native tvalue :=
  match a, b with
  | VInt x _, VInt y _ | VChar x _, VChar y _ | VPtr _ _ x _, VPtr _ _ y _ => ret (VInt (bit (f x y)) None)
  | VFloat x _, VFloat y _ => ret (VInt (bit (g x y)) None)
  | _, _ => fail
  end.
(** 215-228 BitValues: [f] on int64_t, [g] on int; [None] is undefined *)
Definition bit_values (f g : Z -> Z -> option Z) (a b : tvalue) : act native tvalue :=
  match a, b with
  | VInt x _, VInt y _ => let* z := opt_or dead (f x y) in ret (VInt z None)
  | VChar x _, VChar y _ => let* z := opt_or dead (g x y) in ret (VInt z None)
  | _, _ => fail
  end.
(** % of int64_t: INT64_MIN % -1 is undefined *)
Definition modulus (x y : Z) : option Z := if fits64 (Z.quot x y) then Some (Z.rem x y) else None.
(** << and >> on [n] bits, in the C++20 sense: undefined only for the count *)
Definition shl (n : Z) (wrap : Z -> Z) (x y : Z) : option Z := if (0 <=? y) && (y <? n) then Some (wrap (Z.shiftl x y)) else None.
Definition shr (n : Z) (x y : Z) : option Z := if (0 <=? y) && (y <? n) then Some (Z.shiftr x y) else None.
Definition total (f : Z -> Z -> Z) (x y : Z) : option Z := Some (f x y).

(** 253-268 CheckZero: false if the value is zero *)
Definition not_zero (v : tvalue) : bool :=
  match v with VInt x _ | VChar x _ => negb (x =? 0) | VFloat x _ => negb (f_zero F x) | _ => true end.
Definition both (x y : Z) : bool := negb (x =? 0) && negb (y =? 0).
Definition either (x y : Z) : bool := negb (x =? 0) || negb (y =? 0).
Definition fboth (x y : Z) : bool := negb (f_zero F x) && negb (f_zero F y).
Definition feither (x y : Z) : bool := negb (f_zero F x) || negb (f_zero F y).

(** 270-283 EvaluateUnary *)
Definition unary_value (f : Z -> Z) (v : tvalue) : act native tvalue :=
  match v with
  | VInt x _ => let* z := checked (f x) in ret (VInt z None)
  | VChar x _ => ret (VChar (s8 (f x)) None)
  | _ => fail
  end.

(** 300-309 SetRaw *)
Definition set_raw (l : loc) (v : Z) : act native unit :=
  match l with LReg n => set_register U n (s64 v) | LMem a => set_memory U (u64 a) [s64 v] end.

(** 311-374 Assignment. A double is converted to uint64_t on the way to SetRaw. *)
Fixpoint assign (a b : tvalue) {struct a} : act native tvalue :=
  match value_loc a with
  | None => fail
  | Some l =>
      match a, b with
      | VInt _ _, VInt y _ => set_raw l y;; ret (VInt y (Some l))
      | VFloat _ _, VFloat y _ => let* w := opt_or dead (d_word D y) in set_raw l w;; ret (VFloat y (Some l))
      | VChar _ _, VChar y _ => set_raw l y;; ret (VChar y (Some l))
      | VPtr id size _ _, VPtr id' _ y _ => if id =? id' then set_raw l y;; ret (VPtr id size y (Some l)) else fail
      | VArr id cnt first m _, VArr id' _ _ m' _ =>
          if id =? id' then
            if Nat.eqb (length m) (length m') then
              let* m2 := (fix all (xs ys : list tvalue) : act native (list tvalue) :=
                            match xs, ys with
                            | x :: xs', y :: ys' => let* z := assign x y in let* zs := all xs' ys' in ret (z :: zs)
                            | _, _ => ret []
                            end) m m' in
              ret (VArr id cnt first m2 (Some l))
            else dead
          else fail
      | VStruct n size m _, VStruct n' _ m' _ =>
          if teqb n n' then
            let* m2 := (fix all (xs : list (text * tvalue)) : act native (list (text * tvalue)) :=
                          match xs with
                          | [] => ret []
                          | (x, v) :: xs' =>
                              let* y := opt_or fail (tget m' x) in
                              let* z := assign v y in
                              let* zs := all xs' in ret ((x, z) :: zs)
                          end) m in
            ret (VStruct n size m2 (Some l))
          else fail
      | _, _ => fail
      end
  end.

(** 376-460 BinaryOperator *)
Definition binary (op : binop) (a b : tvalue) : act native tvalue :=
  match op with
  | BAdd => add_values a b
  | BSub => sub_values a b
  | BMul => arithmetic Z.mul (f_mul F) a b
  | BDiv => if not_zero b then arithmetic Z.quot (f_div F) a b else fail
  | BMod => if not_zero b then bit_values modulus modulus a b else fail
  | BEq => compare_values Z.eqb (d_eq D) a b
  | BNeq => compare_values (fun x y => negb (x =? y)) (fun x y => negb (d_eq D x y)) a b
  | BLess => compare_values Z.ltb (d_lt D) a b
  | BGreater => compare_values (fun x y => y <? x) (fun x y => d_lt D y x) a b
  | BLeq => compare_values Z.leb (d_le D) a b
  | BGeq => compare_values (fun x y => y <=? x) (fun x y => d_le D y x) a b
  | BAnd => compare_values both fboth a b
  | BOr => compare_values either feither a b
  | BIAnd => bit_values (total Z.land) (total Z.land) a b
  | BIOr => bit_values (total Z.lor) (total Z.lor) a b
  | BIXor => bit_values (total Z.lxor) (total Z.lxor) a b
  | BLsh => bit_values (shl 64 s64) (shl 32 s32) a b
  | BRsh => bit_values (shr 64) (shr 32) a b
  | BAssign => assign a b
  end.

(** 462-472 AccessMember *)
Definition access_member (v : tvalue) (m : text) : act native tvalue :=
  match v with VStruct _ _ ms _ => opt_or fail (tget ms m) | _ => fail end.

(** 230-251 ArrayAccess, after its operands. An index below 0 is outside the vector. *)
Definition index_value (a i : tvalue) : act native tvalue :=
  match a with
  | VPtr _ _ _ _ => let* p := add_values a i in dereference p
  | VArr _ _ _ m _ =>
      match i with
      | VInt x _ => if Z.of_nat (length m) <=? x then fail else if x <? 0 then dead else opt_or dead (nth_error m (Z.to_nat x))
      | _ => fail
      end
  | _ => fail
  end.

(** 97-104, 106-111, 230-251, 285-298, 376-498: the visitor. [values] are the values of
    earlier expressions. *)
Variable values : list tvalue.
Fixpoint eval (e : expr) : act native tvalue :=
  match e with
  | EValue i => if Z.of_nat (length values) <=? i then fail else opt_or dead (nth_error values (Z.to_nat i))
  | EId n =>
      let* t := variable_type U src n in
      let* l := variable_location U src n in
      match l, t with Some l, Some t => eval_type fuel l t | _, _ => fail end
  | EUn op e1 =>
      let* v := eval e1 in
      match op with
      | UDeref => dereference v
      | UNot => unary_value Z.lnot v
      | ULNot => unary_value (fun x => bit (x =? 0)) v
      | UNegate => unary_value Z.opp v
      end
  | EIndex a i => let* vi := eval i in let* va := eval a in index_value va vi
  | EBin a op b => let* va := eval a in let* vb := eval b in binary op va vb
  | EDot e1 m => let* v := eval e1 in access_member v m
  | EArrow e1 m => let* v := eval e1 in let* w := dereference v in access_member w m
  | EInt v => ret (VInt v None)
  | EFloat v => ret (VFloat v None)
  | EChar v => ret (VChar v None)
  end.

(** Source.cpp:342-358 EvaluateExpression, without keeping the value: the parser is made
    outside the try block, and only ParserError is caught; making the evaluator asks for
    the instruction pointer. *)
Definition evaluate (t : text) : act native tvalue :=
  match new_parser (u_stod U) t with
  | PFail _ => dead
  | POk s =>
      match parse_expression (u_stod U) (S (length t)) s with
      | PFail PSyntax => fail
      | PFail _ => dead
      | POk e => get_ip U;; eval e
      end
  end.
End Eval.

(** 354-357: with cache, the value is kept and can be used as [$i]; the result is the
    value, its index and the values kept *)
Definition evaluate_keep (U : setup) (D : dops) (fuel : nat) (src : source) (values : list tvalue) (t : text) : act native (tvalue * Z * list tvalue) :=
  let* v := evaluate U D fuel src values t in ret (v, Z.of_nat (length values), values ++ [v]).
