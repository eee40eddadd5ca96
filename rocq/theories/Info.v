(** Model of the parser of debugging information, src/debugger/Source/Parser.{h,cpp}. *)
From Coq Require Import Ascii String ZArith NArith List Bool.
From Verif Require Import Base Text StdMap Lexer Src.
Import ListNotations.
Open Scope Z_scope.

(** h:10-14 DebuggingInfo *)
Record info : Type := mkInfo { i_lines : option line_map; i_die : option die; i_code : option (list text) }.

Section Parser.
Variable stod : text -> option Z.
(** h:42-43 the lexer and the current token *)
Definition istate : Type := kind * lexer.
(** cpp:11-14 GetNext *)
Definition next (s : istate) : pres istate := get_next stod (snd s).
(** The macro ERR and similar tests: the next token is of the kind *)
Definition expect (k : kind) (s : istate) : pres istate :=
  let? s1 := next s in if kind_eqb (fst s1) k then POk s1 else PFail PSyntax.
Definition is (k : kind) (s : istate) : bool := kind_eqb (fst s) k.
Definition number_of (s : istate) : Z := l_num (snd s).
Definition id_of (s : istate) : text := l_id (snd s).

(** [n] bounds the rounds of the loops *)

(** 16-45 StructuredMembers *)
Fixpoint members_loop (n : nat) (acc : list memb) (s : istate) : pres (list memb * istate) :=
  if is KRbrace s then let? s1 := next s in POk (acc, s1)
  else
    match n with
    | O => PFail PFuel
    | S n' =>
        if is KNum s then
          let? s1 := expect KDoubledot s in
          let? s2 := expect KLbrace s1 in
          let? s3 := expect KNum s2 in
          let? s4 := expect KDoubledot s3 in
          let? s5 := expect KId s4 in
          let? s6 := expect KRbrace s5 in
          let acc' := acc ++ [mkMemb (id_of s5) (number_of s3) (number_of s)] in
          let? s7 := next s6 in
          if is KComma s7 then let? s8 := next s7 in members_loop n' acc' s8
          else if is KRbrace s7 then members_loop n' acc' s7
          else PFail PSyntax
        else PFail PSyntax
    end.

(** 47-65 DebugLine *)
Fixpoint line_loop (n : nat) (m : line_map) (s : istate) : pres (line_map * istate) :=
  if is KDot s || is KEnd s then POk (m, s)
  else
    match n with
    | O => PFail PFuel
    | S n' =>
        if is KNum s then
          let? s1 := expect KDoubledot s in
          let? s2 := expect KNum s1 in
          let? s3 := next s2 in
          line_loop n' (zput m (number_of s) (number_of s2)) s3
        else PFail PSyntax
    end.

(** 67-87 ParseDIETag *)
Definition tag_of (v : text) : option tag :=
  if teqb v (str "DIE_function") then Some TFunction
  else if teqb v (str "DIE_primitive_type") then Some TPrimitive
  else if teqb v (str "DIE_structured_type") then Some TStructured
  else if teqb v (str "DIE_pointer_type") then Some TPointer
  else if teqb v (str "DIE_array_type") then Some TArray
  else if teqb v (str "DIE_variable") then Some TVariable
  else if teqb v (str "DIE_scope") then Some TScope
  else if teqb v (str "DIE_compilation_unit") then Some TUnit
  else None.

(** 89-102 ParseOffset *)
Definition parse_offset (s : istate) : pres (Z * istate) :=
  let? s1 := if is KMinus s then next s else POk s in
  if is KNum s1 then
    let? s2 := next s1 in POk ((if is KMinus s then - number_of s1 else number_of s1), s2)
  else PFail PSyntax.
(** 104-117 ParseOperand *)
Definition parse_operand (s : istate) : pres (loc * istate) :=
  if is KNum s || is KMinus s then let? (z, s1) := parse_offset s in POk (LMem z, s1)
  else if is KId s then let? s1 := next s in POk (LReg (id_of s), s1)
  else PFail PSyntax.
(** 119-139 ParseOneExprLoc *)
Definition parse_one (s : istate) : pres (locop * istate) :=
  if is KId s then
    let id := id_of s in
    let? s1 := next s in
    if teqb id (str "BASE_REG_OFFSET") then let? (z, s2) := parse_offset s1 in POk (LBase z, s2)
    else if teqb id (str "PUSH") then let? (l, s2) := parse_operand s1 in POk (LPush l, s2)
    else if teqb id (str "ADD") then POk (LAdd, s1)
    else if teqb id (str "DEREFERENCE") then POk (LDeref, s1)
    else PFail PSyntax
  else PFail PSyntax.
(** 141-165 ParseExprLoc *)
Fixpoint loc_loop (n : nat) (acc : list locop) (s : istate) : pres (list locop * istate) :=
  if is KRbracket s then let? s1 := next s in POk (acc, s1)
  else
    match n with
    | O => PFail PFuel
    | S n' =>
        let? (o, s1) := parse_one s in
        if is KSemicolon s1 then let? s2 := next s1 in loc_loop n' (acc ++ [o]) s2
        else if is KRbracket s1 then loc_loop n' (acc ++ [o]) s1
        else PFail PSyntax
    end.
Definition parse_loc (n : nat) (s : istate) : pres (list locop * istate) :=
  if is KBacktick s then
    let? s1 := next s in
    if is KBacktick s1 then let? s2 := next s1 in POk ([], s2)
    else let? (o, s2) := parse_one s1 in let? s3 := next s2 in POk ([o], s3)
  else if is KLbracket s then let? s1 := next s in loc_loop n [] s1
  else PFail PSyntax.

(** 167-231 ParseATTR *)
Definition number_attr (f : Z -> attr) (s : istate) : pres (attr * istate) :=
  if is KNum s then let? s1 := next s in POk (f (number_of s), s1) else PFail PSyntax.
Definition parse_attr (n : nat) (v : text) (s : istate) : pres (attr * istate) :=
  if is KDoubledot s then
    let? s1 := next s in
    if teqb v (str "ATTR_name") then
      if is KId s1 then let? s2 := next s1 in POk (AName (id_of s1), s2)
      else if is KString s1 then let? s2 := next s1 in POk (AName (l_str (snd s1)), s2)
      else PFail PSyntax
    else if teqb v (str "ATTR_type") then number_attr AType s1
    else if teqb v (str "ATTR_id") then number_attr AId s1
    else if teqb v (str "ATTR_begin_addr") then number_attr ABegin s1
    else if teqb v (str "ATTR_end_addr") then number_attr AEnd s1
    else if teqb v (str "ATTR_size") then number_attr ASize s1
    else if teqb v (str "ATTR_members") then
      if is KLbrace s1 then let? s2 := next s1 in let? (m, s3) := members_loop n [] s2 in POk (AMembers m, s3)
      else PFail PSyntax
    else if teqb v (str "ATTR_location") then let? (l, s2) := parse_loc n s1 in POk (ALoc l, s2)
    else PFail PSyntax
  else PFail PSyntax.

(** 233-262 ParseDIE: the identifier is taken from the lexer whatever the token is. [d]
    bounds the depth. The loop 244-259, where [die_] parses a child: *)
Fixpoint die_loop (n : nat) (die_ : text -> istate -> pres (die * istate)) (attrs : list attr) (children : list die) (s : istate)
  : pres (list attr * list die * istate) :=
  if is KRbrace s then let? s1 := next s in POk (attrs, children, s1)
  else
    match n with
    | O => PFail PFuel
    | S n' =>
        let id := id_of s in
        let? s1 := next s in
        let? (attrs', children', s2) :=
          if is_prefix_of (str "ATTR") id then let? (a, s2) := parse_attr n id s1 in POk (attrs ++ [a], children, s2)
          else if is_prefix_of (str "DIE") id then let? (c, s2) := die_ id s1 in POk (attrs, children ++ [c], s2)
          else POk (attrs, children, s1) in
        if is KComma s2 then let? s3 := next s2 in die_loop n' die_ attrs' children' s3
        else if is KRbrace s2 then die_loop n' die_ attrs' children' s2
        else PFail PSyntax
    end.
Fixpoint parse_die (n d : nat) (name : text) (s : istate) : pres (die * istate) :=
  match d with
  | O => PFail PFuel
  | S d' =>
      if is KDoubledot s then
        let? s1 := expect KLbrace s in
        let? s2 := next s1 in
        match tag_of name with
        | None => PFail PSyntax
        | Some t => let? (attrs, children, s3) := die_loop n (parse_die n d') [] [] s2 in POk (Die t attrs children, s3)
        end
      else PFail PSyntax
  end.

(** 264-278 DebugInfo *)
Definition debug_info (n : nat) (s : istate) : pres (die * istate) :=
  if is KDot s || is KEnd s then POk (Die TInvalid [] [], s)
  else if is KId s then let? s1 := next s in parse_die n n (id_of s) s1
  else PFail PSyntax.

(** 308-314: another section is skipped *)
Fixpoint skip_section (n : nat) (s : istate) : pres istate :=
  if is KDot s || is KEnd s then POk s
  else match n with O => PFail PFuel | S n' => let? s1 := next s in skip_section n' s1 end.

(** parsing.h:88-93 RawMode: what follows the lookahead *)
Definition raw_mode (l : lexer) : text := tl (l_in l).

(** 280-317 Parse *)
Fixpoint sections (n k : nat) (i : info) (s : istate) : pres info :=
  if is KEnd s then POk i
  else
    match k with
    | O => PFail PFuel
    | S k' =>
        if is KDot s then
          let? s1 := expect KId s in
          if teqb (id_of s1) (str "debug_source") then POk (mkInfo (i_lines i) (i_die i) (Some (file_lines [] (raw_mode (snd s1)))))
          else
            let? s2 := next s1 in
            if teqb (id_of s1) (str "debug_line") then
              let? (m, s3) := line_loop n [] s2 in sections n k' (mkInfo (Some m) (i_die i) (i_code i)) s3
            else if teqb (id_of s1) (str "debug_info") then
              let? (d, s3) := debug_info n s2 in sections n k' (mkInfo (i_lines i) (Some d) (i_code i)) s3
            else
              let? s3 := skip_section n (fst s2, set_ignore (snd s2) true) in
              sections n k' i (fst s3, set_ignore (snd s3) false)
        else PFail PSyntax
    end.

(** h:19 the constructor is noexcept: an exception ends the debugger, which is written
    PAssert here. *)
Definition parse_info (t : text) : pres info :=
  match get_next stod (new_lexer t) with
  | PFail _ => PFail PAssert
  | POk s => sections (S (length t)) (S (length t)) (mkInfo None None None) s
  end.
End Parser.

(** dbg-cli/CLI.h:1190-1210 ParseDebugInfo: what was found is registered. [None] is undefined
    behaviour. *)
Definition source_of (i : info) : option source :=
  let s1 := match i_lines i with Some m => register_lines no_source m | None => no_source end in
  let s2 := match i_code i with Some f => register_file s1 f | None => s1 end in
  match i_die i with Some d => register_die s2 d | None => Some s2 end.
