(** Model of the assembler src/t86-parser/parser.cpp and parser.h. *)
From Coq Require Import Ascii String ZArith NArith List Bool.
From Verif Require Import Base Text Isa Lexer.
Import ListNotations.
Open Scope Z_scope.

(** parser.h:96-97; the members program and data (98-99) are results of the loops
    that fill them. *)
Record parser : Type := mkParser { p_lex : lexer; p_cur : kind }.

Section Asm.
Variable stod : text -> option Z.

(** 4-7 GetNext; also the constructor, parser.h:18 *)
Definition advance (l : lexer) : pres parser :=
  let? (k, l') := get_next stod l in POk (mkParser l' k).
Definition next (p : parser) : pres parser := advance (p_lex p).
Definition open (s : text) : pres parser := advance (new_lexer s).

Definition is (p : parser) (k : kind) : bool := kind_eqb (p_cur p) k.
Definition id (p : parser) : text := l_id (p_lex p).
Definition num (p : parser) : Z := l_num (p_lex p).

(** parser.h:75-77 IsNumber *)
Definition is_number (p : parser) : bool := is p KNum || is p KMinus.

Definition expect (p : parser) (k : kind) : pres parser :=
  if is p k then next p else PFail PSyntax.

(** std::atoi on a string that has no sign and no space in front; a value that does
    not fit an int is undefined behaviour *)
Definition atoi (s : text) : pres Z :=
  let n := fst (digits 0 s) in if n <? 2 ^ 31 then POk n else PFail PUndef.

(** 31-43 getRegister *)
Definition get_register (name : text) : pres reg :=
  if teqb name (str "BP") then POk BP
  else if teqb name (str "SP") then POk SP
  else if teqb name (str "IP") then POk PC
  else match name with
       | c :: rest => if Ascii.eqb c (ch 82) then let? n := atoi rest in POk (R (Z.to_N n)) else PFail PSyntax
       | [] => PFail PSyntax
       end.

(** 45-51 getFloatRegister *)
Definition get_fregister (name : text) : pres N :=
  match name with
  | c :: rest => if Ascii.eqb c (ch 70) then let? n := atoi rest in POk (Z.to_N n) else PFail PSyntax
  | [] => PFail PSyntax
  end.

(** 54-63 Register, 65-74 FloatRegister *)
Definition p_register (p : parser) : pres (reg * parser) :=
  if is p KId then let? r := get_register (id p) in let? p' := next p in POk (r, p') else PFail PSyntax.
Definition p_fregister (p : parser) : pres (N * parser) :=
  if is p KId then let? r := get_fregister (id p) in let? p' := next p in POk (r, p') else PFail PSyntax.

(** 77-90 Imm. Behind a minus the next token is not looked at, getNumber returns
    the number read last. *)
Definition p_imm (p : parser) : pres (Z * parser) :=
  if is_number p then
    if is p KMinus then
      let? p1 := next p in let? p2 := next p1 in POk (- num p1, p2)
    else let? p2 := next p in POk (num p, p2)
  else PFail PSyntax.

(** 92-100 FloatImm *)
Definition p_fimm (p : parser) : pres (operand * parser) :=
  if is p KFloat then let? p' := next p in POk (OFImm (l_float (p_lex p)), p') else PFail PSyntax.

(** 102-110 FloatImmOrRegister *)
Definition p_fimm_or_reg (p : parser) : pres (operand * parser) :=
  if is p KId then let? (f, p') := p_fregister p in POk (OFReg f, p')
  else if is p KFloat then p_fimm p
  else PFail PSyntax.

(** 113-127 ImmOrRegister (118-123 cannot be reached) *)
Definition p_imm_or_reg (p : parser) : pres (operand * parser) :=
  if is p KId then let? (r, p') := p_register p in POk (OReg r, p')
  else if is_number p then let? (v, p') := p_imm p in POk (OImm v, p')
  else PFail PSyntax.

(** 130-148 ImmOrRegisterOrRegisterPlusImm *)
Definition p_imm_or_reg_off (p : parser) : pres (operand * parser) :=
  if is_number p then let? (v, p') := p_imm p in POk (OImm v, p')
  else if is p KId then
    let? (r, p1) := p_register p in
    if is p1 KPlus then let? p2 := next p1 in let? (v, p3) := p_imm p2 in POk (ORegOff r v, p3)
    else if is p1 KMinus then let? p2 := next p1 in let? (v, p3) := p_imm p2 in POk (ORegOff r (- v), p3)
    else POk (OReg r, p1)
  else PFail PSyntax.

(** 151-185 SimpleMemory; Mem(int64_t) converts to uint64_t *)
Definition p_simple_memory (p : parser) : pres (operand * parser) :=
  if is p KLbracket then
    let? p1 := next p in
    if is p1 KId then
      let? (r, p2) := p_register p1 in
      if is p2 KPlus || is p2 KMinus then
        let? p3 := next p2 in
        let? (v, p4) := p_imm p3 in
        let v' := if is p2 KMinus then - v else v in
        let? p5 := expect p4 KRbracket in POk (OMemRegOff r v', p5)
      else let? p3 := expect p2 KRbracket in POk (OMemReg r, p3)
    else
      let? (v, p2) := p_imm p1 in
      let? p3 := expect p2 KRbracket in POk (OMemImm (u64 v), p3)
  else PFail PSyntax.

(** 199-207 ImmOrRegisterOrSimpleMemory *)
Definition p_imm_or_reg_or_mem (p : parser) : pres (operand * parser) :=
  if is p KId || is_number p then p_imm_or_reg p
  else if is p KLbracket then p_simple_memory p
  else PFail PSyntax.

(** 211-219 ImmOrRegisterPlusImmOrSimpleMemory *)
Definition p_value (p : parser) : pres (operand * parser) :=
  if is p KId || is_number p then p_imm_or_reg_off p
  else if is p KLbracket then p_simple_memory p
  else PFail PSyntax.

(** 223-312 Memory; the first part, up to the bracket. [None]: result was not set.
    The minus of [minus] is only used in front of a number. *)
Definition p_memory_inner (p1 : parser) : pres (option operand * parser) :=
  if is_number p1 then let? p2 := next p1 in POk (Some (OMemImm (u64 (num p1))), p2)
  else if is p1 KId then
    let? r1 := get_register (id p1) in
    let? p2 := next p1 in
    if is p2 KPlus || is p2 KMinus then
      let minus := is p2 KMinus in
      let? p3 := next p2 in
      if is_number p3 then
        let? (v, p4) := p_imm p3 in
        let v1 := if minus then - v else v in
        if is p4 KPlus then
          let? p5 := next p4 in
          if is p5 KId then
            let? r2 := get_register (id p5) in
            let? p6 := next p5 in
            if is p6 KTimes then
              let? p7 := next p6 in
              let? (v2, p8) := p_imm p7 in
              POk (Some (OMemRegOffRegScaled r1 v1 r2 v2), p8)
            else POk (Some (OMemRegOffReg r1 v1 r2), p6)
          else PFail PSyntax
        else POk (Some (OMemRegOff r1 v1), p4)
      else if is p3 KId then
        let? r2 := get_register (id p3) in
        let? p4 := next p3 in
        if is p4 KTimes then
          let? p5 := next p4 in
          if is_number p5 then let? (v, p6) := p_imm p5 in POk (Some (OMemRegRegScaled r1 r2 v), p6)
          else POk (None, p5)
        else POk (Some (OMemRegReg r1 r2), p4)
      else PFail PSyntax
    else if is p2 KTimes then
      let? p3 := next p2 in
      if is_number p3 then let? (v, p4) := p_imm p3 in POk (Some (OMemRegScaled r1 v), p4)
      else PFail PSyntax
    else POk (Some (OMemReg r1), p2)
  else PFail PSyntax.

Definition p_memory (p : parser) : pres (operand * parser) :=
  if is p KLbracket then
    let? p1 := next p in
    let? (m, p2) := p_memory_inner p1 in
    let? p3 := expect p2 KRbracket in
    match m with Some o => POk (o, p3) | None => PFail PAssert end
  else PFail PSyntax.

(** 315-332 Operand *)
Definition p_operand (p : parser) : pres (operand * parser) :=
  if is p KLbracket then p_memory p
  else if is p KId then
    if Ascii.eqb (hd EOF (id p)) (ch 70) then let? (f, p') := p_fregister p in POk (OFReg f, p')
    else let? (r, p') := p_register p in POk (OReg r, p')
  else if is_number p then let? (v, p') := p_imm p in POk (OImm v, p')
  else if is p KFloat then p_fimm p
  else PFail PSyntax.

(** operand.h: isValue ... *)
Definition is_value o := match o with OImm _ => true | _ => false end.
Definition is_fvalue o := match o with OFImm _ => true | _ => false end.
Definition is_reg o := match o with OReg _ => true | _ => false end.
Definition is_reg_off o := match o with ORegOff _ _ => true | _ => false end.
Definition is_freg o := match o with OFReg _ => true | _ => false end.
Definition is_mem_imm o := match o with OMemImm _ => true | _ => false end.
Definition is_mem_reg o := match o with OMemReg _ => true | _ => false end.

(** 366-390: the combinations ParseMOV accepts *)
Definition mov_ok (dest from : operand) : bool :=
  if is_value dest || is_reg_off dest then false
  else if is_reg dest then negb (is_reg_off from) && negb (is_fvalue from)
  else if is_freg dest then is_fvalue from || is_freg from || is_reg from || is_mem_imm from || is_mem_reg from
  else is_reg from || is_freg from || is_value from.

(** 357-393 ParseMOV *)
Definition p_mov (p : parser) : pres (instr * parser) :=
  let? (d, p1) := p_operand p in
  let? p2 := expect p1 KComma in
  let? (v, p3) := p_operand p2 in
  if mov_ok d v then POk (IMov d v, p3) else PFail PSyntax.

(** 414-426 LEA *)
Definition p_lea (p : parser) : pres (instr * parser) :=
  let? (r, p1) := p_register p in
  let? p2 := expect p1 KComma in
  let? (m, p3) := p_memory p2 in
  if is_mem_reg m || is_mem_imm m then PFail PSyntax else POk (ILea r m, p3).

(** 334-354 PARSE_BINARY, PARSE_UNARY, PARSE_NULLARY *)
Definition p_binary {A B} (dest : parser -> pres (A * parser)) (from : parser -> pres (B * parser))
    (mk : A -> B -> instr) (p : parser) : pres (instr * parser) :=
  let? (a, p1) := dest p in
  let? p2 := expect p1 KComma in
  let? (b, p3) := from p2 in POk (mk a b, p3).
Definition p_unary {A} (op : parser -> pres (A * parser)) (mk : A -> instr) (p : parser) : pres (instr * parser) :=
  let? (a, p1) := op p in POk (mk a, p1).
Definition p_nullary (i : instr) (p : parser) : pres (instr * parser) := POk (i, p).

Definition bin (op : binop) : parser -> pres (instr * parser) :=
  p_binary p_register p_value (fun r v => IBin op r r v false).
Definition fbin (op : fbinop) : parser -> pres (instr * parser) :=
  p_binary p_fregister p_fimm_or_reg (fun f v => IFBin op f v).
Definition jcc (c : cond) : parser -> pres (instr * parser) := p_unary p_imm_or_reg_or_mem (IJcc c).

(** 407-491: the instructions by name *)
Definition by_name : list (text * (parser -> pres (instr * parser))) :=
  [ (str "MOV", p_mov); (str "LEA", p_lea);
    (str "ADD", bin BADD); (str "SUB", bin BSUB); (str "MUL", bin BMUL); (str "DIV", bin BDIV);
    (str "IMUL", bin BIMUL); (str "IDIV", bin BIDIV); (str "AND", bin BAND); (str "OR", bin BOR);
    (str "XOR", bin BXOR); (str "LSH", bin BLSH); (str "RSH", bin BRSH);
    (str "CMP", p_binary p_register p_imm_or_reg_or_mem ICmp);
    (str "LOOP", p_binary p_register p_imm_or_reg ILoop);
    (str "FADD", fbin FBADD); (str "FSUB", fbin FBSUB); (str "FMUL", fbin FBMUL); (str "FDIV", fbin FBDIV);
    (str "FCMP", p_binary p_fregister p_fimm_or_reg IFcmp);
    (str "EXT", p_binary p_fregister p_register IExt);
    (str "NRW", p_binary p_register p_fregister INrw);
    (str "INC", p_unary p_register (IUn UINC)); (str "DEC", p_unary p_register (IUn UDEC));
    (str "NEG", p_unary p_register (IUn UNEG)); (str "NOT", p_unary p_register (IUn UNOT));
    (str "JMP", p_unary p_imm_or_reg IJmp);
    (str "JZ", jcc CZ); (str "JNZ", jcc CNZ); (str "JE", jcc CE); (str "JNE", jcc CNE);
    (str "JG", jcc CG); (str "JGE", jcc CGE); (str "JL", jcc CL); (str "JLE", jcc CLE);
    (str "JA", jcc CA); (str "JAE", jcc CAE); (str "JB", jcc CB); (str "JBE", jcc CBE);
    (str "JO", jcc CO); (str "JNO", jcc CNO); (str "JS", jcc CS); (str "JNS", jcc CNS);
    (str "CALL", p_unary p_imm_or_reg ICall);
    (str "PUSH", p_unary p_imm_or_reg IPush);
    (str "FPUSH", p_unary p_fimm_or_reg IFpush);
    (str "POP", p_unary p_register IPop); (str "FPOP", p_unary p_fregister IFpop);
    (str "PUTCHAR", p_unary p_register IPutchar); (str "PUTNUM", p_unary p_register IPutnum);
    (str "GETCHAR", p_unary p_register IGetchar);
    (str "HALT", p_nullary IHalt); (str "NOP", p_nullary INop); (str "BKPT", p_nullary IBkpt);
    (str "BREAK", p_nullary IBreak); (str "RET", p_nullary IRet) ].

Fixpoint assoc {A} (n : text) (l : list (text * A)) : option A :=
  match l with [] => None | (k, a) :: l' => if teqb n k then Some a else assoc n l' end.

(** 395-492 Instruction *)
Definition p_instruction (p : parser) : pres (instr * parser) :=
  let? p0 := if is_number p then next p else POk p in
  if is p0 KId then
    let? p1 := next p0 in
    match assoc (id p0) by_name with Some f => f p1 | None => PFail PSyntax end
  else PFail PSyntax.

(** 520-524 CheckEnd *)
Definition check_end (p : parser) : pres unit := if is p KEnd then POk tt else PFail PSyntax.

(** 498-503 Text; the fuel bounds the number of instructions *)
Fixpoint p_text (fuel : nat) (p : parser) : pres (list instr * parser) :=
  match fuel with
  | O => PFail PFuel
  | S n =>
      if is_number p || is p KId then
        let? (i, p1) := p_instruction p in
        let? (l, p2) := p_text n p1 in POk (i :: l, p2)
      else POk ([], p)
  end.

(** a char as an int64_t; char is signed on x86-64 *)
Definition char_value (c : ascii) : Z :=
  let n := Z.of_N (N_of_ascii c) in if n <? 128 then n else n - 256.

(** 505-518 Data *)
Fixpoint p_data (fuel : nat) (p : parser) : pres (list Z * parser) :=
  match fuel with
  | O => PFail PFuel
  | S n =>
      if is p KString then
        let? p1 := next p in
        let? (l, p2) := p_data n p1 in POk (map char_value (l_str (p_lex p)) ++ 0 :: l, p2)
      else if is_number p then
        let? (v, p1) := p_imm p in
        let? (l, p2) := p_data n p1 in POk (v :: l, p2)
      else POk ([], p)
  end.

(** 22-27: an unknown section is skipped *)
Fixpoint p_skip (fuel : nat) (p : parser) : pres parser :=
  match fuel with
  | O => PFail PFuel
  | S n => if is p KDot || is p KEnd then POk p else let? p1 := next p in p_skip n p1
  end.

Definition with_ignore (b : bool) (p : parser) : parser := mkParser (set_ignore (p_lex p) b) (p_cur p).
Definition fuel_of (p : parser) : nat := S (S (length (l_in (p_lex p)))).

(** 9-29 Section; returns what it appends to program and data *)
Definition p_section (p : parser) : pres (list instr * list Z * parser) :=
  if is p KId then
    let name := id p in
    let? p1 := next p in
    if teqb name (str "text") then let? (l, p2) := p_text (fuel_of p1) p1 in POk (l, [], p2)
    else if teqb name (str "data") then let? (d, p2) := p_data (fuel_of p1) p1 in POk ([], d, p2)
    else let? p2 := p_skip (fuel_of p1) (with_ignore true p1) in POk ([], [], with_ignore false p2)
  else PFail PSyntax.

(** 530-539, the loop of Parse *)
Fixpoint p_sections (fuel : nat) (p : parser) : pres (list instr * list Z) :=
  match fuel with
  | O => PFail PFuel
  | S n =>
      if is p KDot then
        let? p1 := next p in
        if is p1 KId && teqb (id p1) (str "debug_source") then POk ([], [])
        else
          let? (l, d, p2) := p_section p1 in
          let? (l', d') := p_sections n p2 in POk (l ++ l', d ++ d')
      else let? _ := check_end p in POk ([], [])
  end.

(** 526-540 Parse *)
Definition p_program (p : parser) : pres (list instr * list Z) :=
  if is p KDot then p_sections (fuel_of p) p else PFail PSyntax.

(** main.cpp:61-62, debug.cpp:64-69, T86Process.cpp:11-15 *)
Definition assemble (s : text) : pres (list instr * list Z) := let? p := open s in p_program p.
Definition assemble_instr (s : text) : pres instr :=
  let? p := open s in let? (i, _) := p_instruction p in POk i.
Definition check_instr (s : text) : pres unit :=
  let? p := open s in let? (_, p') := p_instruction p in check_end p'.

End Asm.
