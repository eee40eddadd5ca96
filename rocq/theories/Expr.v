(** Model of the parser of debugger expressions, src/debugger/Source/
    ExpressionParser.{h,cpp}, and of the syntax trees of Expression.h. *)
From Coq Require Import Ascii String ZArith NArith List Bool.
From Verif Require Import Text Lexer.
Import ListNotations.
Open Scope Z_scope.

(** Expression.h:194-214 *)
Inductive binop : Set :=
| BAdd | BSub | BMul | BDiv | BMod | BEq | BNeq | BLeq | BGeq | BGreater | BLess | BAnd | BOr
| BIAnd | BIOr | BIXor | BLsh | BRsh | BAssign.
(** 167-172; Not is never built by the parser *)
Inductive unop : Set := UNegate | ULNot | UDeref | UNot.

(** Expression.h:147-277. A double is its bit pattern. *)
Inductive expr : Type :=
| EValue (idx : Z)                        (* EvaluatedExpr *)
| EId (id : text)
| EUn (op : unop) (e : expr)
| EIndex (arr idx : expr)                 (* ArrayAccess *)
| EBin (a : expr) (op : binop) (b : expr)
| EDot (e : expr) (member : text)         (* MemberAccess *)
| EArrow (e : expr) (member : text)       (* MemberDereferenceAccess *)
| EInt (v : Z)
| EFloat (v : Z)
| EChar (v : Z).                          (* Char, never built by the parser *)

Section Parser.
Variable stod : text -> option Z.

(** ExpressionParser.h:56-57: the lexer and the kind of the current token *)
Definition pstate : Type := kind * lexer.
(** h:53-55 GetNext *)
Definition advance (s : pstate) : pres pstate := get_next stod (snd s).

(** cpp:3-23 operators, 25-29 unary_operators *)
Definition unop_of (k : kind) : option unop :=
  match k with KMinus => Some UNegate | KBang => Some ULNot | KTimes => Some UDeref | _ => None end.

(** The tokens each of the loops goes on for: assign 37, equality 50-51, logical
    64-65, comparison 78-79, shifts 92-93, bit_ops 106-108, term 121-122, factor 135-137.
    Levels are numbered from the outside. *)
Definition ops_of (level : nat) (k : kind) : option binop :=
  match level, k with
  | 0, KAssign => Some BAssign
  | 1, KEq => Some BEq | 1, KNeq => Some BNeq
  | 2, KLand => Some BAnd | 2, KLor => Some BOr
  | 3, KLess => Some BLess | 3, KGreater => Some BGreater
  | 4, KLshift => Some BLsh | 4, KRshift => Some BRsh
  | 5, KAnd => Some BIAnd | 5, KXor => Some BIXor | 5, KOr => Some BIOr
  | 6, KPlus => Some BAdd | 6, KMinus => Some BSub
  | 7, KTimes => Some BMul | 7, KMod => Some BMod | 7, KSlash => Some BDiv
  | _, _ => None
  end%nat.

(** What one of these functions does after its first operand; [n] bounds the rounds *)
Fixpoint op_loop (ops : kind -> option binop) (operand : pstate -> pres (expr * pstate)) (n : nat) (e : expr) (s : pstate)
  : pres (expr * pstate) :=
  match ops (fst s) with
  | None => POk (e, s)
  | Some op =>
      match n with
      | O => PFail PFuel
      | S n' =>
          let? s1 := advance s in
          let? (b, s2) := operand s1 in
          op_loop ops operand n' (EBin e op b) s2
      end
  end.
Definition left_assoc (n : nat) (ops : kind -> option binop) (operand : pstate -> pres (expr * pstate)) (s : pstate) : pres (expr * pstate) :=
  let? (e, s1) := operand s in op_loop ops operand n e s1.

(** 148-156 unary *)
Fixpoint unary_ (n : nat) (postfix : pstate -> pres (expr * pstate)) (s : pstate) : pres (expr * pstate) :=
  match unop_of (fst s) with
  | Some op =>
      match n with
      | O => PFail PFuel
      | S n' => let? s1 := advance s in let? (e, s2) := unary_ n' postfix s1 in POk (EUn op e, s2)
      end
  | None => postfix s
  end.

(** 158-191 postfix, after the primary *)
Fixpoint post_loop (n : nat) (expr_ : pstate -> pres (expr * pstate)) (e : expr) (s : pstate) : pres (expr * pstate) :=
  match fst s with
  | KLbracket =>
      match n with
      | O => PFail PFuel
      | S n' =>
          let? s1 := advance s in
          let? (i, s2) := expr_ s1 in
          match fst s2 with
          | KRbracket => let? s3 := advance s2 in post_loop n' expr_ (EIndex e i) s3
          | _ => PFail PSyntax
          end
      end
  | KDot | KArrow =>
      match n with
      | O => PFail PFuel
      | S n' =>
          let? s1 := advance s in
          match fst s1 with
          | KId =>
              let m := l_id (snd s1) in
              let? s2 := advance s1 in
              post_loop n' expr_ (match fst s with KDot => EDot e m | _ => EArrow e m end) s2
          | _ => PFail PSyntax
          end
      end
  | _ => POk (e, s)
  end.

(** 193-224 primary *)
Definition primary (expr_ : pstate -> pres (expr * pstate)) (s : pstate) : pres (expr * pstate) :=
  match fst s with
  | KNum => let? s1 := advance s in POk (EInt (l_num (snd s)), s1)
  | KFloat => let? s1 := advance s in POk (EFloat (l_float (snd s)), s1)
  | KId => let? s1 := advance s in POk (EId (l_id (snd s)), s1)
  | KLparen =>
      let? s1 := advance s in
      let? (e, s2) := expr_ s1 in
      match fst s2 with
      | KRparen => let? s3 := advance s2 in POk (e, s3)
      | _ => PFail PSyntax
      end
  | KDollar =>
      let? s1 := advance s in
      match fst s1 with
      | KNum => let? s2 := advance s1 in POk (EValue (l_num (snd s1)), s2)
      | _ => PFail PSyntax
      end
  | _ => PFail PSyntax
  end.

(** 31-191: the levels below [expr_], which is used in brackets and parentheses. The
    eight functions from assign to factor differ in their operators only. *)
Definition postfix (n : nat) (expr_ : pstate -> pres (expr * pstate)) (s : pstate) : pres (expr * pstate) :=
  let? (e, s1) := primary expr_ s in post_loop n expr_ e s1.
Definition unary (n : nat) (expr_ : pstate -> pres (expr * pstate)) : pstate -> pres (expr * pstate) := unary_ n (postfix n expr_).
(** [level n expr_ j] has the operators of the levels [8 - j] and up *)
Fixpoint level (n : nat) (expr_ : pstate -> pres (expr * pstate)) (j : nat) : pstate -> pres (expr * pstate) :=
  match j with
  | O => unary n expr_
  | S j' => left_assoc n (ops_of (7 - j')) (level n expr_ j')
  end.

(** 31-46 expr and assign; [d] bounds the depth of brackets and parentheses and [n]
    the rounds of the loops *)
Fixpoint expr_ (n d : nat) (s : pstate) : pres (expr * pstate) :=
  match d with
  | O => PFail PFuel
  | S d' => level n (expr_ n d') 8 s
  end.

(** h:28 the constructor, which reads the first token, and h:29-31 ParseExpression. There
    is no test for the end of the input. *)
Definition new_parser (t : text) : pres pstate := get_next stod (new_lexer t).
Definition parse_expression (n : nat) (s : pstate) : pres expr := let? (e, _) := expr_ n n s in POk e.
(** Both; every token takes at least one character *)
Definition parse (t : text) : pres expr := let? s := new_parser t in parse_expression (S (length t)) s.
End Parser.
