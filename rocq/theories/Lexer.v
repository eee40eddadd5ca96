(** Model of the lexer src/common/parsing.h and parsing.cpp. Rows and columns are
    left out: they only occur in error messages. *)
From Coq Require Import Ascii String ZArith NArith List Bool.
From Verif Require Import Text.
Import ListNotations.
Open Scope Z_scope.

(** parsing.h:22-61 *)
Inductive kind : Set :=
| KId | KDot | KNum | KLbracket | KRbracket | KLbrace | KRbrace | KLparen | KRparen | KEnd | KSemicolon | KBang
| KPlus | KMinus | KTimes | KLess | KDollar | KSlash | KGreater | KComma | KString | KAssign | KEq | KNeq | KGeq
| KLeq | KFloat | KDoubledot | KBacktick | KArrow | KLand | KLor | KAnd | KOr | KXor | KLshift | KRshift | KMod.

Definition kind_eqb (a b : kind) : bool :=
  match a, b with
  | KId, KId | KDot, KDot | KNum, KNum | KLbracket, KLbracket | KRbracket, KRbracket | KLbrace, KLbrace
  | KRbrace, KRbrace | KLparen, KLparen | KRparen, KRparen | KEnd, KEnd | KSemicolon, KSemicolon | KBang, KBang
  | KPlus, KPlus | KMinus, KMinus | KTimes, KTimes | KLess, KLess | KDollar, KDollar | KSlash, KSlash
  | KGreater, KGreater | KComma, KComma | KString, KString | KAssign, KAssign | KEq, KEq | KNeq, KNeq | KGeq, KGeq
  | KLeq, KLeq | KFloat, KFloat | KDoubledot, KDoubledot | KBacktick, KBacktick | KArrow, KArrow | KLand, KLand
  | KLor, KLor | KAnd, KAnd | KOr, KOr | KXor, KXor | KLshift, KLshift | KRshift, KRshift | KMod, KMod => true
  | _, _ => false
  end.

(** How lexing or parsing can fail: ParserError; std::out_of_range from stoi or
    stod (which is not a ParserError); a failed assert; undefined behaviour; the
    model's own fuel. *)
Inductive perr : Set := PSyntax | PRange | PAssert | PUndef | PFuel.
Inductive pres (A : Type) : Type := POk (a : A) | PFail (e : perr).
Arguments POk {A}. Arguments PFail {A}.
Definition pbind {A B} (x : pres A) (f : A -> pres B) : pres B :=
  match x with POk a => f a | PFail e => PFail e end.
Notation "'let?' p := e1 'in' e2" := (pbind e1 (fun p => e2)) (at level 200, p pattern, e1 at level 100, e2 at level 200).

(** The members of Lexer. [l_in] is the input with the lookahead in front; at its
    end the lookahead is EOF, that is the character 0xFF (lookahead is a char, and
    istream::get goes on returning EOF). *)
Record lexer : Type := mkLexer {
  l_in : text;
  l_num : Z;                (* number: int *)
  l_float : Z;              (* float_number: double, its bit pattern *)
  l_id : text;
  l_str : text;
  l_ignore : bool
}.

Definition EOF : ascii := ch 255.
Definition lookahead (l : lexer) : ascii := hd EOF (l_in l).
(** 119-128 GetChar *)
Definition get_char (l : lexer) : lexer :=
  mkLexer (tl (l_in l)) (l_num l) (l_float l) (l_id l) (l_str l) (l_ignore l).
Definition set_in (l : lexer) (s : text) : lexer := mkLexer s (l_num l) (l_float l) (l_id l) (l_str l) (l_ignore l).

(** parsing.h:75 and the member initialisers 141-149; -1.0 by its bit pattern *)
Definition new_lexer (s : text) : lexer := mkLexer s (-1) (-4616189618054758400) [] [] false.
(** 81-83 *)
Definition set_ignore (l : lexer) (b : bool) : lexer := mkLexer (l_in l) (l_num l) (l_float l) (l_id l) (l_str l) b.

(** isdigit, isalpha, isalnum in the "C" locale (the argument is a char; for a
    negative one other than EOF the standard leaves the result open, glibc answers
    false). *)
Definition is_digit (c : ascii) : bool := let n := N_of_ascii c in ((48 <=? n) && (n <=? 57))%N.
Definition is_alpha (c : ascii) : bool :=
  let n := N_of_ascii c in ((65 <=? n) && (n <=? 90) || (97 <=? n) && (n <=? 122))%N.
Definition is_word (c : ascii) : bool := is_digit c || is_alpha c || Ascii.eqb c (ch 95).

Fixpoint span (p : ascii -> bool) (s : text) : text * text :=
  match s with
  | c :: s' => if p c then let (a, b) := span p s' in (c :: a, b) else ([], s)
  | [] => ([], [])
  end.

(** 107-117 ParseIdentifier *)
Definition lex_ident (l : lexer) : lexer :=
  let (w, rest) := span is_word (tl (l_in l)) in
  mkLexer rest (l_num l) (l_float l) (lookahead l :: w) (l_str l) (l_ignore l).

(** std::stoi on a string of digits *)
Definition stoi (s : text) : option Z :=
  let n := fst (digits 0 s) in if n <? 2 ^ 31 then Some n else None.

(** parsing.cpp:3-23 ParseNumber. [stod] is std::stod on a string of digits and
    dots, as a bit pattern; None when it throws. *)
Definition lex_number (stod : text -> option Z) (l : lexer) : pres (kind * lexer) :=
  let (w, rest) := span (fun c => is_digit c || Ascii.eqb c (ch 46)) (tl (l_in l)) in
  let num := lookahead l :: w in
  if existsb (Ascii.eqb (ch 46)) w then
    match stod num with
    | Some v => POk (KFloat, mkLexer rest (l_num l) v (l_id l) (l_str l) (l_ignore l))
    | None => PFail PRange
    end
  else
    match stoi num with
    | Some v => POk (KNum, mkLexer rest v (l_float l) (l_id l) (l_str l) (l_ignore l))
    | None => PFail PRange
    end.

(** 32-42 *)
Definition escape (c : ascii) : option ascii :=
  if Ascii.eqb c (ch 110) then Some (ch 10)
  else if Ascii.eqb c (ch 116) then Some (ch 9)
  else if Ascii.eqb c (ch 92) then Some (ch 92)
  else if Ascii.eqb c (ch 34) then Some (ch 34)
  else None.

(** 25-48 ParseString, behind the opening quote *)
Fixpoint lex_string (s acc : text) : pres (text * text) :=
  match s with
  | [] => PFail PSyntax
  | c :: s' =>
      if Ascii.eqb c (ch 34) then POk (acc, s')
      else if Ascii.eqb c EOF then PFail PSyntax
      else if Ascii.eqb c (ch 92) then
        match s' with
        | [] => PFail PSyntax
        | d :: s'' => match escape d with Some e => lex_string s'' (acc ++ [e]) | None => PFail PSyntax end
        end
      else lex_string s' (acc ++ [c])
  end.

(** 51-58: a comment *)
Fixpoint skip_line (s : text) : text :=
  match s with
  | [] => []
  | c :: s' => if Ascii.eqb c EOF then s else if Ascii.eqb c (ch 10) then s' else skip_line s'
  end.

(** 65-187, the decision by the first character: the end, a token of one character,
    one that a second character can make longer, and the rest. The conditions of the
    chain of ifs exclude one another, so that their order does not matter. *)
Inductive lead : Type :=
| LEnd | LOne (k : kind) | LTwo (k : kind) (more : list (ascii * kind)) | LString | LNumber | LIdent | LNone.

Definition lead_of (c : ascii) : lead :=
  match N_of_ascii c with
  | 255 => LEnd                                         (* 65 *)
  | 59 => LOne KSemicolon | 44 => LOne KComma           (* ; , *)
  | 91 => LOne KLbracket | 93 => LOne KRbracket         (* [ ] *)
  | 123 => LOne KLbrace | 125 => LOne KRbrace           (* { } *)
  | 40 => LOne KLparen | 41 => LOne KRparen             (* ( ) *)
  | 33 => LTwo KBang [(ch 61, KNeq)]                    (* ! != *)
  | 61 => LTwo KAssign [(ch 61, KEq)]                   (* = == *)
  | 37 => LOne KMod | 43 => LOne KPlus                  (* % + *)
  | 45 => LTwo KMinus [(ch 62, KArrow)]                 (* - -> *)
  | 62 => LTwo KGreater [(ch 61, KGeq); (ch 62, KRshift)]
  | 60 => LTwo KLess [(ch 61, KLeq); (ch 60, KLshift)]
  | 58 => LOne KDoubledot | 47 => LOne KSlash           (* : / *)
  | 42 => LOne KTimes | 96 => LOne KBacktick            (* * ` *)
  | 36 => LOne KDollar | 46 => LOne KDot                (* $ . *)
  | 34 => LString
  | 38 => LTwo KAnd [(ch 38, KLand)]
  | 124 => LTwo KOr [(ch 124, KLor)]
  | 94 => LOne KXor
  | _ => if is_digit c then LNumber else if is_alpha c || Ascii.eqb c (ch 95) then LIdent else LNone
  end%N.

Fixpoint second (c : ascii) (m : list (ascii * kind)) : option kind :=
  match m with [] => None | (d, k) :: m' => if Ascii.eqb c d then Some k else second c m' end.

(** 65-187: the token that begins with the lookahead *)
Definition lex_token (stod : text -> option Z) (l : lexer) : pres (kind * lexer) :=
  match lead_of (lookahead l) with
  | LEnd => POk (KEnd, l)
  | LOne k => POk (k, get_char l)
  | LTwo k m =>
      let l' := get_char l in
      match second (lookahead l') m with
      | Some k' => POk (k', get_char l')
      | None => POk (k, l')
      end
  | LString =>
      let? (s, rest) := lex_string (tl (l_in l)) [] in
      POk (KString, mkLexer rest (l_num l) (l_float l) (l_id l) s (l_ignore l))
  | LNumber => lex_number stod l
  | LIdent => POk (KId, lex_ident l)
  | LNone => PFail PSyntax
  end.

(** 50-188 getNext. Every recursive call has a shorter input. *)
Fixpoint next_loop (fuel : nat) (stod : text -> option Z) (l : lexer) : pres (kind * lexer) :=
  match fuel with
  | O => PFail PFuel
  | S n =>
      let c := lookahead l in
      if Ascii.eqb c (ch 35) then next_loop n stod (set_in l (skip_line (l_in l)))
      else if is_space c then next_loop n stod (get_char l)
      else match lead_of c with
           | LNone => if l_ignore l then next_loop n stod (get_char l) else PFail PSyntax
           | _ => lex_token stod l
           end
  end.

Definition get_next (stod : text -> option Z) (l : lexer) : pres (kind * lexer) :=
  next_loop (S (length (l_in l))) stod l.
