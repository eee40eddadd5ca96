(** The grammar of debugger expressions, as in the comment of src/debugger/Source/
    ExpressionParser.h:10-26: an independent specification of the parser in Expr.v.
    [unary] and the suffixes of [postfix] may be repeated, and "$" Number is a primary,
    which the comment leaves out. *)
From Coq Require Import Ascii String ZArith NArith List Bool.
From Verif Require Import Text Lexer LexProofs Expr.
Import ListNotations.
Open Scope Z_scope.

(** The binary operators by level: assign 0, equality 1, logical 2, comparison 3, shifts 4,
    bit_ops 5, term 6, factor 7. With [le] the comparisons "<=" and ">=" are there too. *)
Inductive operator (le : bool) : nat -> kind -> binop -> Prop :=
| op_assign : operator le 0 KAssign BAssign
| op_eq : operator le 1 KEq BEq
| op_neq : operator le 1 KNeq BNeq
| op_land : operator le 2 KLand BAnd
| op_lor : operator le 2 KLor BOr
| op_less : operator le 3 KLess BLess
| op_greater : operator le 3 KGreater BGreater
| op_leq : le = true -> operator le 3 KLeq BLeq
| op_geq : le = true -> operator le 3 KGeq BGeq
| op_lsh : operator le 4 KLshift BLsh
| op_rsh : operator le 4 KRshift BRsh
| op_and : operator le 5 KAnd BIAnd
| op_or : operator le 5 KOr BIOr
| op_xor : operator le 5 KXor BIXor
| op_add : operator le 6 KPlus BAdd
| op_sub : operator le 6 KMinus BSub
| op_mul : operator le 7 KTimes BMul
| op_div : operator le 7 KSlash BDiv
| op_mod : operator le 7 KMod BMod.
Inductive prefix : kind -> unop -> Prop :=
| pre_minus : prefix KMinus UNegate
| pre_bang : prefix KBang ULNot
| pre_star : prefix KTimes UDeref.

(** [derives le l ts e]: the tokens [ts] are an expression of level [l] with the tree [e];
    unary is level 8, postfix 9, primary 10. Binary operators associate to the left. *)
Inductive derives (le : bool) : nat -> list tok -> expr -> Prop :=
| d_up : forall l ts e, (l < 10)%nat -> derives le (S l) ts e -> derives le l ts e
| d_bin : forall l k op ts1 e1 ts2 e2, operator le l k op -> derives le l ts1 e1 -> derives le (S l) ts2 e2 ->
    derives le l (ts1 ++ TOp k :: ts2) (EBin e1 op e2)
| d_un : forall k op ts e, prefix k op -> derives le 8 ts e -> derives le 8 (TOp k :: ts) (EUn op e)
| d_index : forall ts e ts' i, derives le 9 ts e -> derives le 0 ts' i ->
    derives le 9 (ts ++ TOp KLbracket :: ts' ++ [TOp KRbracket]) (EIndex e i)
| d_dot : forall ts e m, derives le 9 ts e -> derives le 9 (ts ++ [TOp KDot; TId m]) (EDot e m)
| d_arrow : forall ts e m, derives le 9 ts e -> derives le 9 (ts ++ [TOp KArrow; TId m]) (EArrow e m)
| d_num : forall z, derives le 10 [TNum z] (EInt z)
| d_float : forall z, derives le 10 [TFloat z] (EFloat z)
| d_id : forall n, derives le 10 [TId n] (EId n)
| d_paren : forall ts e, derives le 0 ts e -> derives le 10 (TOp KLparen :: ts ++ [TOp KRparen]) e
| d_value : forall z, derives le 10 [TOp KDollar; TNum z] (EValue z).

(** The tokens of a text: the lexer of the code, up to the end. *)
Inductive tokens (stod : text -> option Z) : text -> list tok -> Prop :=
| tokens_end : forall s r, token_at stod false s = POk (TOp KEnd, r) -> tokens stod s []
| tokens_cons : forall s t r ts, token_at stod false s = POk (t, r) -> t <> TOp KEnd -> tokens stod r ts -> tokens stod s (t :: ts).
(** [lexes stod s ts r]: the first tokens of [s] are [ts], [r] is left. *)
Inductive lexes (stod : text -> option Z) : text -> list tok -> text -> Prop :=
| lexes_nil : forall s, lexes stod s [] s
| lexes_cons : forall s t r ts r', token_at stod false s = POk (t, r) -> lexes stod r ts r' -> lexes stod s (t :: ts) r'.
(** Tokens an expression cannot be continued with. *)
Definition continues (k : kind) : Prop :=
  (exists l op, operator false l k op) \/ k = KLbracket \/ k = KDot \/ k = KArrow.
