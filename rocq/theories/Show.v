(** Model of the printed form of instructions: Instruction::toString
    (src/t86/instruction.cpp:151-163), Operand::toString (instructions/operand.cpp:
    386-425) and the toString functions of cpu/register.h and cpu/memory.h. *)
From Coq Require Import Ascii String ZArith NArith List Bool.
From Verif Require Import Base Text Isa.
Import ListNotations.
Open Scope Z_scope.

(** register.h:86-99, 297-299 *)
Definition show_reg (r : reg) : text :=
  match r with
  | PC => str "IP" | SP => str "SP" | BP => str "BP" | Flags => str "FLAGS"
  | R n => str "R" ++ show_nat (Z.of_N n)
  end.
Definition show_freg (n : N) : text := str "F" ++ show_nat (Z.of_N n).

(** register.h:118-120, 147-149, 175-177, 202-204, 225-227, 250-252 *)
Definition show_off (r : reg) (o : Z) : text := show_reg r ++ str " + " ++ show_Z o.
Definition show_scaled (r : reg) (s : Z) : text := show_reg r ++ str " * " ++ show_Z s.
Definition show_reg_reg (a b : reg) : text := show_reg a ++ str " + " ++ show_reg b.
Definition show_off_reg (r : reg) (o : Z) (r2 : reg) : text := show_off r o ++ str " + " ++ show_reg r2.
Definition show_reg_scaled (r r2 : reg) (s : Z) : text := show_reg r ++ str " + " ++ show_scaled r2 s.
Definition show_off_scaled (r : reg) (o : Z) (r2 : reg) (s : Z) : text := show_off r o ++ str " + " ++ show_scaled r2 s.

(** memory.h: the same in brackets *)
Definition bracket (s : text) : text := str "[" ++ s ++ str "]".

(** operand.cpp:386-425. [ftos] is std::to_string(double). *)
Definition show_operand (ftos : Z -> text) (o : operand) : text :=
  match o with
  | OImm v => show_Z v
  | OFImm v => ftos v
  | OReg r => show_reg r
  | OFReg f => show_freg f
  | ORegOff r i => show_off r i
  | ORegReg a b => show_reg_reg a b
  | ORegScaled r s => show_scaled r s
  | ORegOffReg r i b => show_off_reg r i b
  | ORegRegScaled a b s => show_reg_scaled a b s
  | ORegOffRegScaled a i b s => show_off_scaled a i b s
  | OMemImm a => bracket (show_nat a)
  | OMemReg r => bracket (show_reg r)
  | OMemRegOff r i => bracket (show_off r i)
  | OMemRegReg a b => bracket (show_reg_reg a b)
  | OMemRegScaled r s => bracket (show_scaled r s)
  | OMemRegOffReg r i b => bracket (show_off_reg r i b)
  | OMemRegRegScaled a b s => bracket (show_reg_scaled a b s)
  | OMemRegOffRegScaled a i b s => bracket (show_off_scaled a i b s)
  end.

(** instruction.cpp:13-137 typeToString *)
Definition name_of (i : instr) : text :=
  str match i with
  | IBin op _ _ _ _ => match op with
      | BADD => "ADD" | BSUB => "SUB" | BMUL => "MUL" | BDIV => "DIV" | BMOD => "MOD" | BIMUL => "IMUL"
      | BIDIV => "IDIV" | BAND => "AND" | BOR => "OR" | BXOR => "XOR" | BLSH => "LSH" | BRSH => "RSH" end
  | IUn op _ => match op with UINC => "INC" | UDEC => "DEC" | UNEG => "NEG" | UNOT => "NOT" end
  | IFBin op _ _ => match op with FBADD => "FADD" | FBSUB => "FSUB" | FBMUL => "FMUL" | FBDIV => "FDIV" end
  | IMov _ _ => "MOV" | ILea _ _ => "LEA" | INop => "NOP" | IHalt => "HALT" | IBreak => "BREAK" | IBkpt => "BKPT"
  | IClf => "CLF" | ICmp _ _ => "CMP" | IFcmp _ _ => "FCMP" | IJmp _ => "JMP" | ILoop _ _ => "LOOP"
  | IJcc c _ => match c with
      | CZ => "JZ" | CNZ => "JNZ" | CE => "JE" | CNE => "JNE" | CG => "JG" | CGE => "JGE" | CL => "JL" | CLE => "JLE"
      | CA => "JA" | CAE => "JAE" | CB => "JB" | CBE => "JBE" | CO => "JO" | CNO => "JNO" | CS => "JS" | CNS => "JNS" end
  | ICall _ => "CALL" | IRet => "RET" | IPush _ => "PUSH" | IFpush _ => "FPUSH" | IPop _ => "POP" | IFpop _ => "FPOP"
  | IPutchar _ => "PUTCHAR" | IPutnum _ => "PUTNUM" | IGetchar _ => "GETCHAR" | IExt _ _ => "EXT" | INrw _ _ => "NRW"
  end%string.

(** instruction.h: signatureOperands of the classes (operands where it is not
    overridden, 124-126) *)
Definition signature (i : instr) : list operand :=
  match i with
  | IBin _ d r v risc => if risc then [OReg d; OReg r; v] else [OReg r; v]
  | IUn _ r => [OReg r]
  | IFBin _ f v => [OFReg f; v]
  | IMov d v => [d; v]
  | ILea r m => [OReg r; m]
  | INop | IHalt | IBreak | IBkpt | IClf | IRet => []
  | ICmp r v => [OReg r; v]
  | IFcmp f v => [OFReg f; v]
  | IJmp a => [a]
  | ILoop r a => [OReg r; a]
  | IJcc _ a => [a]
  | ICall a => [a]
  | IPush v => [v]
  | IFpush v => [v]
  | IPop r => [OReg r]
  | IFpop f => [OFReg f]
  | IPutchar r | IPutnum r | IGetchar r => [OReg r]
  | IExt f r => [OFReg f; OReg r]
  | INrw r f => [OReg r; OFReg f]
  end.

(** instruction.cpp:151-163 *)
Definition show_instr (ftos : Z -> text) (i : instr) : text :=
  name_of i ++
  match map (show_operand ftos) (signature i) with
  | [] => []
  | o :: l => str " " ++ o ++ concat (map (fun x => str ", " ++ x) l)
  end.
