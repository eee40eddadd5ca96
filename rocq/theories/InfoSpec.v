(** What an executable file says, read off docs/source-info.md: the sections .text and
    .data (AsmSpec.v), .debug_line, .debug_info and .debug_source. Independent of the two
    parsers that read it; [tok] are the tokens of the source text. *)
From Coq Require Import Ascii String ZArith NArith List Bool.
From Verif Require Import Base Text Isa Lexer LexProofs DbgText AsmSpec Src.
Import ListNotations.
Open Scope Z_scope.

Notation COLON := (TOp KDoubledot).
Notation LBRACE := (TOp KLbrace).
Notation RBRACE := (TOp KRbrace).
Notation SEMI := (TOp KSemicolon).
Notation TICK := (TOp KBacktick).
Notation DOT := (TOp KDot).

(** source-info.md:43-70: "line: address" *)
Definition line_written (ts : list tok) (e : Z * Z) : Prop := ts = [TNum (fst e); COLON; TNum (snd e)].

(** 330-356: the instructions of a location expression *)
Inductive locop_written : list tok -> locop -> Prop :=
| lw_base : forall i v, int_written i v -> locop_written (TId (str "BASE_REG_OFFSET") :: i) (LBase v)
| lw_push : forall i v, int_written i v -> locop_written (TId (str "PUSH") :: i) (LPush (LMem v))
| lw_reg : forall r, locop_written [TId (str "PUSH"); TId r] (LPush (LReg r))
| lw_add : locop_written [TId (str "ADD")] LAdd
| lw_deref : locop_written [TId (str "DEREFERENCE")] LDeref.
(** A list whose elements have a separator between them and possibly behind the last one *)
Inductive listed {A} (sep : tok) (W : list tok -> A -> Prop) : list tok -> list A -> Prop :=
| li_nil : listed sep W [] []
| li_last : forall ts a, W ts a -> listed sep W ts [a]
| li_cons : forall ts a rest l, W ts a -> listed sep W rest l -> listed sep W (ts ++ sep :: rest) (a :: l).
(** 351-356: none or one in backticks, any number in brackets *)
Inductive loc_written : list tok -> list locop -> Prop :=
| cw_none : loc_written [TICK; TICK] []
| cw_one : forall ts o, locop_written ts o -> loc_written (TICK :: ts ++ [TICK]) [o]
| cw_list : forall ts l, listed SEMI locop_written ts l -> loc_written (OPEN :: ts ++ [CLOSE]) l.
(** 313-318: "offset: {type: name}" *)
Definition member_written (ts : list tok) (m : memb) : Prop :=
  ts = [TNum (mb_off m); COLON; LBRACE; TNum (mb_type m); COLON; TId (mb_name m); RBRACE].

(** 234-328: the attributes *)
Inductive attr_written : list tok -> attr -> Prop :=
| aw_name : forall n, attr_written [TId (str "ATTR_name"); COLON; TId n] (AName n)
| aw_string : forall n, attr_written [TId (str "ATTR_name"); COLON; TStr n] (AName n)
| aw_type : forall z, attr_written [TId (str "ATTR_type"); COLON; TNum z] (AType z)
| aw_id : forall z, attr_written [TId (str "ATTR_id"); COLON; TNum z] (AId z)
| aw_begin : forall z, attr_written [TId (str "ATTR_begin_addr"); COLON; TNum z] (ABegin z)
| aw_end : forall z, attr_written [TId (str "ATTR_end_addr"); COLON; TNum z] (AEnd z)
| aw_size : forall z, attr_written [TId (str "ATTR_size"); COLON; TNum z] (ASize z)
| aw_members : forall ts l, listed COMMA member_written ts l ->
    attr_written (TId (str "ATTR_members") :: COLON :: LBRACE :: ts ++ [RBRACE]) (AMembers l)
| aw_loc : forall ts l, loc_written ts l -> attr_written (TId (str "ATTR_location") :: COLON :: ts) (ALoc l).
(** 227-328: the entries *)
Inductive tag_named : text -> tag -> Prop :=
| tn_unit : tag_named (str "DIE_compilation_unit") TUnit
| tn_function : tag_named (str "DIE_function") TFunction
| tn_scope : tag_named (str "DIE_scope") TScope
| tn_variable : tag_named (str "DIE_variable") TVariable
| tn_primitive : tag_named (str "DIE_primitive_type") TPrimitive
| tn_pointer : tag_named (str "DIE_pointer_type") TPointer
| tn_structured : tag_named (str "DIE_structured_type") TStructured
| tn_array : tag_named (str "DIE_array_type") TArray.
(** 220-222: attributes and entries in any order, commas between them *)
Inductive die_written : list tok -> die -> Prop :=
| dw_die : forall n t body attrs children, tag_named n t -> body_written body attrs children ->
    die_written (TId n :: COLON :: LBRACE :: body ++ [RBRACE]) (Die t attrs children)
with body_written : list tok -> list attr -> list die -> Prop :=
| bw_nil : body_written [] [] []
| bw_attr : forall ts a, attr_written ts a -> body_written ts [a] []
| bw_attrs : forall ts a body attrs children, attr_written ts a -> body_written body attrs children ->
    body_written (ts ++ COMMA :: body) (a :: attrs) children
| bw_die : forall ts d, die_written ts d -> body_written ts [] [d]
| bw_dies : forall ts d body attrs children, die_written ts d -> body_written body attrs children ->
    body_written (ts ++ COMMA :: body) attrs (d :: children).

(** One section of the file. *)
Inductive part : Type :=
| PCode (prog : list instr) (data : list Z) | PLines (l : list (Z * Z)) | PDie (d : die).
Inductive part_written : list tok -> part -> Prop :=
| pw_code : forall ts prog data, section_written ts (prog, data) -> part_written ts (PCode prog data)
| pw_lines : forall ls es, Forall2 line_written ls es -> part_written (DOT :: TId (str "debug_line") :: concat ls) (PLines es)
| pw_die : forall ts d, die_written ts d -> part_written (DOT :: TId (str "debug_info") :: ts) (PDie d).

(** 72-89: the text of the source file as lines; the last one may lack its end *)
Inductive text_lines : text -> list text -> Prop :=
| tl_nil : text_lines [] []
| tl_last : forall l, l <> [] -> ~ In NL l -> text_lines l [l]
| tl_cons : forall l s ls, ~ In NL l -> text_lines s ls -> text_lines (l ++ NL :: s) (l :: ls).
(** What follows the sections: the end of the file, or the source, which begins on the line
    behind the name of its section. *)
Inductive ending (stod : text -> option Z) : text -> option (list text) -> Prop :=
| en_none : forall r r', token_at stod false r = POk (TOp KEnd, r') -> ending stod r None
| en_source : forall r src ls, lexes stod r [DOT; TId (str "debug_source")] (NL :: src) -> text_lines src ls -> ending stod r (Some ls).

(** The tokens before the ending, the sections they are, the source. *)
Inductive file_written (stod : text -> option Z) : text -> list tok -> list part -> option (list text) -> Prop :=
| fw_intro : forall s l parts r code, Forall2 part_written l parts -> lexes stod s (concat l) r -> ending stod r code ->
    file_written stod s (concat l) parts code.

(** The program of the file: what its sections .text and .data say, one behind the other. *)
Definition prog_of (l : list part) : list instr := concat (map (fun p => match p with PCode i _ => i | _ => [] end) l).
Definition data_of (l : list part) : list Z := concat (map (fun p => match p with PCode _ d => d | _ => [] end) l).
(** The line table: that of the last section .debug_line, and there the last entry for the
    line. *)
Fixpoint last_lines (l : list part) : option (list (Z * Z)) :=
  match l with [] => None | p :: l' => match last_lines l', p with Some x, _ => Some x | None, PLines x => Some x | None, _ => None end end.
Fixpoint last_entry (l : list (Z * Z)) (line : Z) : option Z :=
  match l with [] => None | (k, a) :: l' => match last_entry l' line with Some x => Some x | None => if k =? line then Some a else None end end.
(** The entries: those of the last section .debug_info *)
Fixpoint last_die (l : list part) : option die :=
  match l with [] => None | p :: l' => match last_die l', p with Some x, _ => Some x | None, PDie x => Some x | None, _ => None end end.
