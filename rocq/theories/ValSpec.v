(** Specification of the values of debugger expressions: what an object of a type at a
    location is, and the value of an expression without assignment. It speaks about the
    registers and the memory of the debuggee, not about the way they are asked for. *)
From Coq Require Import Ascii String ZArith NArith List Bool Lia.
From Verif Require Import Base Text StdMap Alu AluSpec Exec Src Expr Eval PropLoc.
Import ListNotations.
Open Scope Z_scope.

Section Spec.
(** The debugging information, the address of the current instruction, the registers by
    name, the cells of the memory, and the arithmetic of doubles. *)
Variable src : source.
Variable ip : Z.
Variable reg : text -> option Z.
Variable mem : Z -> option Z.
Variable F : fops.
Variable D : dops.

(** The word at a location. *)
Inductive word_at : loc -> Z -> Prop :=
| word_reg : forall n x, reg n = Some x -> word_at (LReg n) x
| word_mem : forall a x, mem a = Some x -> word_at (LMem a) x.

(** The size of a type: that of an array is the size of its elements times their number. *)
Inductive size_of : Z -> Z -> Prop :=
| size_prim : forall id k n, get_type src id = Some (TyPrim k n) -> size_of id n
| size_ptr : forall id t n, get_type src id = Some (TyPtr t n) -> size_of id n
| size_struct : forall id name n ms, get_type src id = Some (TyStruct name n ms) -> size_of id n
| size_arr : forall id sub cnt n, get_type src id = Some (TyArr sub cnt) -> size_of sub n -> size_of id (n * cnt mod 2 ^ 64).

(** Members by name; of two with the same name it is the first one. *)
Fixpoint by_name (acc : list (text * tvalue)) (ms : list memb) (vs : list tvalue) : list (text * tvalue) :=
  match ms, vs with
  | m :: ms', v :: vs' => by_name (match tget acc (mb_name m) with Some _ => acc | None => tput acc (mb_name m) v end) ms' vs'
  | _, _ => acc
  end.

(** The object of a type at a location. Words are signed numbers of 64 bits; a char is the
    low byte, a pointer the word as an unsigned number. Element [i] of an array is [i]
    sizes behind its beginning; a member is at its offset. *)
Inductive object : ty -> loc -> tvalue -> Prop :=
| obj_int : forall n l x, word_at l x -> object (TyPrim PrSigned n) l (VInt x (Some l))
| obj_float : forall n l x, word_at l x -> object (TyPrim PrFloat n) l (VFloat x (Some l))
| obj_char : forall n l x, word_at l x -> object (TyPrim PrChar n) l (VChar ((x + 128) mod 256 - 128) (Some l))
| obj_ptr : forall id n l x, word_at l x -> object (TyPtr id n) l (VPtr id n (x mod 2 ^ 64) (Some l))
| obj_arr : forall id cnt t a xs, get_type src id = Some t -> length xs = Z.to_nat cnt -> elements id t a 0 xs ->
    object (TyArr id cnt) (LMem a) (VArr id cnt (a mod 2 ^ 64) xs (Some (LMem a)))
| obj_struct : forall name n ms l vs, members l ms vs -> object (TyStruct name n ms) l (VStruct name n (by_name [] ms vs) (Some l))
with elements : Z -> ty -> Z -> Z -> list tvalue -> Prop :=
| elems_nil : forall id t a i, elements id t a i []
| elems_cons : forall id t a i n x xs, size_of id n -> object t (LMem (s64 (a + i * n))) x -> elements id t a (i + 1) xs ->
    elements id t a i (x :: xs)
with members : loc -> list memb -> list tvalue -> Prop :=
| membs_nil : forall l, members l [] []
| membs_cons : forall l m ms b t v vs, means reg l b -> fits (b + mb_off m) -> get_type src (mb_type m) = Some t ->
    object t (LMem (b + mb_off m)) v -> members l ms vs -> members l (m :: ms) (v :: vs).

(** 1 for what is true, 0 for what is not. *)
Definition truth (P : Prop) (z : Z) : Prop := P /\ z = 1 \/ ~ P /\ z = 0.

(** The operators of C on integers of 64 bits; chars are promoted to int, which has
    [w] = 32 bits and where the arithmetic operators cannot overflow. Division truncates. *)
Definition int_op (w : Z) (op : binop) (x y z : Z) : Prop :=
  match op with
  | BAdd => z = x + y
  | BSub => z = x - y
  | BMul => z = x * y
  | BDiv => y <> 0 /\ z = Z.quot x y
  | BMod => y <> 0 /\ fits (Z.quot x y) /\ x = y * Z.quot x y + z
  | BEq => truth (x = y) z
  | BNeq => truth (x <> y) z
  | BLess => truth (x < y) z
  | BGreater => truth (x > y) z
  | BLeq => truth (x <= y) z
  | BGeq => truth (x >= y) z
  | BAnd => truth (x <> 0 /\ y <> 0) z
  | BOr => truth (x <> 0 \/ y <> 0) z
  | BIAnd => forall i, 0 <= i -> Z.testbit z i = Z.testbit x i && Z.testbit y i
  | BIOr => forall i, 0 <= i -> Z.testbit z i = Z.testbit x i || Z.testbit y i
  | BIXor => forall i, 0 <= i -> Z.testbit z i = xorb (Z.testbit x i) (Z.testbit y i)
  | BLsh => 0 <= y < w /\ z = (x * 2 ^ y + 2 ^ (w - 1)) mod 2 ^ w - 2 ^ (w - 1)
  | BRsh => 0 <= y < w /\ z = x / 2 ^ y
  | BAssign => False
  end.
Definition float_op (op : binop) (x y z : Z) : Prop :=
  match op with
  | BAdd => z = f_add F x y | BSub => z = f_sub F x y | BMul => z = f_mul F x y
  | BDiv => f_zero F y = false /\ z = f_div F x y
  | _ => False
  end.
Definition float_cmp (op : binop) (x y z : Z) : Prop :=
  match op with
  | BEq => truth (d_eq D x y = true) z
  | BNeq => truth (d_eq D x y = false) z
  | BLess => truth (d_lt D x y = true) z
  | BGreater => truth (d_lt D y x = true) z
  | BLeq => truth (d_le D x y = true) z
  | BGeq => truth (d_le D y x = true) z
  | BAnd => truth (f_zero F x = false /\ f_zero F y = false) z
  | BOr => truth (f_zero F x = false \/ f_zero F y = false) z
  | _ => False
  end.
Definition compares (op : binop) : Prop :=
  match op with BEq | BNeq | BLess | BGreater | BLeq | BGeq | BAnd | BOr => True | _ => False end.

Definition arith (op : binop) : Prop := match op with BAdd | BSub | BMul | BDiv => True | _ => False end.

(** Binary operators on values: both operands have the same type, or one is a pointer,
    which moves by elements. *)
Inductive bin_value : binop -> tvalue -> tvalue -> tvalue -> Prop :=
| bv_int : forall op x y z l l', int_op 64 op x y z -> (arith op -> fits z) -> bin_value op (VInt x l) (VInt y l') (VInt z None)
| bv_char : forall op x y z l l', op <> BSub -> int_op 32 op x y z -> bin_value op (VChar x l) (VChar y l') (VInt z None)
| bv_float : forall op x y z l l', float_op op x y z -> bin_value op (VFloat x l) (VFloat y l') (VFloat z None)
| bv_fcmp : forall op x y z l l', float_cmp op x y z -> bin_value op (VFloat x l) (VFloat y l') (VInt z None)
| bv_ptr_int : forall id s p x n l l', size_of id n ->
    bin_value BAdd (VPtr id s p l) (VInt x l') (VPtr id s ((p + x * n) mod 2 ^ 64) None)
| bv_int_ptr : forall id s p x n l l', size_of id n ->
    bin_value BAdd (VInt x l') (VPtr id s p l) (VPtr id s ((p + x * n) mod 2 ^ 64) None)
| bv_ptr_minus : forall id s p x n l l', size_of id n ->
    bin_value BSub (VPtr id s p l) (VInt x l') (VPtr id s ((p - x * n) mod 2 ^ 64) None)
| bv_ptr_diff : forall id s s' p q l l', bin_value BSub (VPtr id s p l) (VPtr id s' q l') (VInt (s64 (p - q)) None)
| bv_ptr_cmp : forall op id id' s s' p q l l' z, compares op -> int_op 64 op p q z ->
    bin_value op (VPtr id s p l) (VPtr id' s' q l') (VInt z None).

Inductive un_value : unop -> tvalue -> tvalue -> Prop :=
| uv_neg : forall x l, fits (- x) -> un_value UNegate (VInt x l) (VInt (- x) None)
| uv_lnot : forall x z l, truth (x = 0) z -> un_value ULNot (VInt x l) (VInt z None)
| uv_not : forall x l, fits (- x - 1) -> un_value UNot (VInt x l) (VInt (- x - 1) None)
| uv_cneg : forall x l, un_value UNegate (VChar x l) (VChar ((- x + 128) mod 256 - 128) None)
| uv_clnot : forall x z l, truth (x = 0) z -> un_value ULNot (VChar x l) (VChar z None)
| uv_cnot : forall x l, un_value UNot (VChar x l) (VChar ((- x - 1 + 128) mod 256 - 128) None)
| uv_deref : forall id s p l t v, get_type src id = Some t -> object t (LMem (s64 p)) v -> un_value UDeref (VPtr id s p l) v.

(** The variable a name stands for at the current instruction (C35), where its location
    expression puts it (C36), and the object there. *)
Inductive variable : text -> tvalue -> Prop :=
| var : forall n d id t ops l v, variable_die src ip n = Some d -> at_type d = Some id -> get_type src id = Some t ->
    at_loc d = Some ops -> locates reg mem ops l -> object t l v -> variable n v.

(** [values] are those of earlier expressions, $0, $1, ... *)
Variable values : list tvalue.
Inductive value : expr -> tvalue -> Prop :=
| va_int : forall z, value (EInt z) (VInt z None)
| va_float : forall z, value (EFloat z) (VFloat z None)
| va_char : forall z, value (EChar z) (VChar z None)
| va_kept : forall i v, nth_error values (Z.to_nat i) = Some v -> value (EValue i) v
| va_id : forall n v, variable n v -> value (EId n) v
| va_un : forall op e x v, value e x -> un_value op x v -> value (EUn op e) v
| va_bin : forall op a b x y v, value a x -> value b y -> bin_value op x y v -> value (EBin a op b) v
| va_elem : forall a i id cnt first xs l x l' v, value a (VArr id cnt first xs l) -> value i (VInt x l') ->
    0 <= x -> nth_error xs (Z.to_nat x) = Some v -> value (EIndex a i) v
| va_ptr : forall a i id s p l x l' n t v, value a (VPtr id s p l) -> value i (VInt x l') -> size_of id n ->
    get_type src id = Some t -> object t (LMem (s64 (p + x * n))) v -> value (EIndex a i) v
| va_dot : forall e m name n ms l v, value e (VStruct name n ms l) -> tget ms m = Some v -> value (EDot e m) v
| va_arrow : forall e m id s p l t name n ms l' v, value e (VPtr id s p l) -> get_type src id = Some t ->
    object t (LMem (s64 p)) (VStruct name n ms l') -> tget ms m = Some v -> value (EArrow e m) v.
End Spec.

(** No assignment in it. *)
Fixpoint no_assign (e : expr) : Prop :=
  match e with
  | EUn _ e1 | EDot e1 _ | EArrow e1 _ => no_assign e1
  | EIndex a i => no_assign a /\ no_assign i
  | EBin a op b => op <> BAssign /\ no_assign a /\ no_assign b
  | _ => True
  end.
