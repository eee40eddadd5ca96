(** What a line of assembly means, read off docs/t86.md (operands) and
    docs/t86-isa.md (instructions). Independent of the parser; [kind] and [tok] are
    the tokens of the source text. *)
From Coq Require Import Ascii String ZArith NArith List Bool.
From Verif Require Import Base Text PropText Isa Lexer LexProofs Show.
Import ListNotations.
Open Scope Z_scope.

(** t86.md:56-67: a register by its name *)
Inductive reg_name : text -> reg -> Prop :=
| rn_bp : reg_name (str "BP") BP
| rn_sp : reg_name (str "SP") SP
| rn_ip : reg_name (str "IP") PC
| rn_num : forall w n, w <> [] -> denotes w n -> n < 2 ^ 31 -> reg_name (str "R" ++ w) (R (Z.to_N n)).
Inductive freg_name : text -> N -> Prop :=
| fn_num : forall w n, w <> [] -> denotes w n -> n < 2 ^ 31 -> freg_name (str "F" ++ w) (Z.to_N n).

Notation PLUS := (TOp KPlus).
Notation MINUS := (TOp KMinus).
Notation TIMES := (TOp KTimes).
Notation OPEN := (TOp KLbracket).
Notation CLOSE := (TOp KRbracket).
Notation COMMA := (TOp KComma).

(** t86.md:46-49 *)
Inductive int_written : list tok -> Z -> Prop :=
| iw_pos : forall n, int_written [TNum n] n
| iw_neg : forall n, int_written [MINUS; TNum n] (- n).

(** a sum with an integer: r + i, r - i *)
Inductive added : list tok -> Z -> Prop :=
| ad_plus : forall i v, int_written i v -> added (PLUS :: i) v
| ad_minus : forall i v, int_written i v -> added (MINUS :: i) (- v).

(** The operand that is written down. *)
Inductive op_written : list tok -> operand -> Prop :=
| ow_imm : forall i v, int_written i v -> op_written i (OImm v)
| ow_float : forall v, op_written [TFloat v] (OFImm v)
| ow_reg : forall a r, reg_name a r -> op_written [TId a] (OReg r)
| ow_freg : forall a f, freg_name a f -> op_written [TId a] (OFReg f)
| ow_reg_off : forall a r i v, reg_name a r -> added i v -> op_written (TId a :: i) (ORegOff r v)
| ow_mem_imm : forall i v, int_written i v -> op_written (OPEN :: i ++ [CLOSE]) (OMemImm (u64 v))
| ow_mem_reg : forall a r, reg_name a r -> op_written [OPEN; TId a; CLOSE] (OMemReg r)
| ow_mem_off : forall a r i v, reg_name a r -> added i v -> op_written (OPEN :: TId a :: i ++ [CLOSE]) (OMemRegOff r v)
| ow_mem_scaled : forall a r i v, reg_name a r -> int_written i v ->
    op_written (OPEN :: TId a :: TIMES :: i ++ [CLOSE]) (OMemRegScaled r v)
| ow_mem_reg_reg : forall a r b r2, reg_name a r -> reg_name b r2 ->
    op_written [OPEN; TId a; PLUS; TId b; CLOSE] (OMemRegReg r r2)
| ow_mem_reg_scaled : forall a r b r2 i v, reg_name a r -> reg_name b r2 -> int_written i v ->
    op_written (OPEN :: TId a :: PLUS :: TId b :: TIMES :: i ++ [CLOSE]) (OMemRegRegScaled r r2 v)
| ow_mem_off_reg : forall a r i v b r2, reg_name a r -> added i v -> reg_name b r2 ->
    op_written (OPEN :: TId a :: i ++ [PLUS; TId b; CLOSE]) (OMemRegOffReg r v r2)
| ow_mem_off_scaled : forall a r i v b r2 j x, reg_name a r -> added i v -> reg_name b r2 -> int_written j x ->
    op_written (OPEN :: TId a :: i ++ PLUS :: TId b :: TIMES :: j ++ [CLOSE]) (OMemRegOffRegScaled r v r2 x).

(** t86-isa.md: the operands an instruction takes, except that MOV R1, R2 + i
    (line 33) is not accepted, and that the assembler also takes LEA R, [R * i] and
    (line 385 of parser.cpp) a float constant as the destination of a MOV. *)
Definition int_src (o : operand) : bool := match o with OImm _ | OReg _ => true | _ => false end.
Definition simple_mem (o : operand) : bool := match o with OMemImm _ | OMemReg _ | OMemRegOff _ _ => true | _ => false end.
Definition any_mem (o : operand) : bool :=
  match o with
  | OMemImm _ | OMemReg _ | OMemRegOff _ _ | OMemRegReg _ _ | OMemRegScaled _ _ | OMemRegOffReg _ _ _
  | OMemRegRegScaled _ _ _ | OMemRegOffRegScaled _ _ _ _ => true
  | _ => false
  end.
Definition float_src (o : operand) : bool := match o with OFImm _ | OFReg _ => true | _ => false end.

Definition mov_documented (d v : operand) : bool :=
  match d, v with
  | OReg _, (OReg _ | OImm _ | OFReg _) => true
  | OReg _, _ => any_mem v
  | OFReg _, (OFImm _ | OFReg _ | OReg _ | OMemImm _ | OMemReg _) => true
  | _, (OReg _ | OFReg _ | OImm _) => any_mem d
  | _, _ => false
  end.

Definition documented (i : instr) : bool :=
  match i with
  | IBin op d r v risc =>
      (int_src v || simple_mem v || match v with ORegOff _ _ => true | _ => false end)
      && reg_eqb d r && negb risc && match op with BMOD => false | _ => true end
  | ICmp _ v | IJcc _ v => int_src v || simple_mem v
  | ILoop _ v | IJmp v | ICall v | IPush v => int_src v
  | IFBin _ _ v | IFcmp _ v | IFpush v => float_src v
  | IMov d v => mov_documented d v
  | ILea _ m => any_mem m && match m with OMemImm _ | OMemReg _ | OMemRegScaled _ _ => false | _ => true end
  | IClf => false
  | _ => true
  end.

Definition accepted (i : instr) : bool :=
  documented i
  || match i with
     | ILea _ (OMemRegScaled _ _) => true
     | IMov (OFImm _) (OReg _ | OFReg _ | OImm _) => true
     | _ => false
     end.

(** An instruction line: an optional address, the mnemonic, and the operands with
    commas between them. *)
Definition commas (l : list (list tok)) : list tok :=
  match l with [] => [] | a :: l' => a ++ concat (map (cons COMMA) l') end.
Inductive instr_written : list tok -> instr -> Prop :=
| iw_instr : forall addr ops i, addr = [] \/ (exists n, addr = [TNum n]) ->
    Forall2 op_written ops (signature i) ->
    instr_written (addr ++ TId (name_of i) :: commas ops) i.

(** [s] begins with the tokens [ts], [r] is what is left. *)
Inductive lexes (stod : text -> option Z) : text -> list tok -> text -> Prop :=
| lx_nil : forall s, lexes stod s [] s
| lx_cons : forall s t s1 ts r, token_at stod false s = POk (t, s1) -> lexes stod s1 ts r -> lexes stod s (t :: ts) r.

(** t86.md:19-44,75-93: a program is a list of sections. The lines of a .text section
    are instructions; .data lists the values of the memory cells, a string giving one
    cell for each of its characters and one for the terminating zero. *)
Definition cell_of (c : ascii) : Z := let n := Z.of_N (N_of_ascii c) in if n <? 128 then n else n - 256.
Inductive data_written : list tok -> list Z -> Prop :=
| dw_int : forall i v, int_written i v -> data_written i [v]
| dw_str : forall a, data_written [TStr a] (map cell_of a ++ [0]).
Inductive section_written : list tok -> list instr * list Z -> Prop :=
| sw_text : forall lines prog, Forall2 instr_written lines prog ->
    section_written (TOp KDot :: TId (str "text") :: concat lines) (prog, [])
| sw_data : forall items cells, Forall2 data_written items cells ->
    section_written (TOp KDot :: TId (str "data") :: concat items) ([], concat cells).
Inductive program_written : list tok -> list instr * list Z -> Prop :=
| pw_intro : forall l parts, l <> [] -> Forall2 section_written l parts ->
    program_written (concat l) (concat (map fst parts), concat (map snd parts)).

(** Operands without a floating-point constant, and without an absolute address that
    was written as a negative number. *)
Definition no_float (o : operand) : Prop := match o with OFImm _ => False | _ => True end.
Definition small_address (o : operand) : Prop := match o with OMemImm a => a < 2 ^ 31 | _ => True end.

(** The tokens of a text up to its end or to the first error. *)
Inductive stream (stod : text -> option Z) : text -> list tok -> option perr -> Prop :=
| st_end : forall s r, token_at stod false s = POk (TOp KEnd, r) -> stream stod s [] None
| st_err : forall s e, token_at stod false s = PFail e -> stream stod s [] (Some e)
| st_tok : forall s t r ts e, token_at stod false s = POk (t, r) -> t <> TOp KEnd -> stream stod r ts e -> stream stod s (t :: ts) e.
