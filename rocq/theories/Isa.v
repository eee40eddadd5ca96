(** Syntax of T86 registers, operands and instructions
    (src/t86/cpu/register.h, cpu/memory.h, instructions/operand.h, instruction.h). *)
From Coq Require Import ZArith NArith List Bool.
From Verif Require Import Base Alu.
Import ListNotations.
Open Scope Z_scope.

(** cpu/register.h:20-103 class Register. The special registers are the four
    largest size_t indices in the code; here they are separate constructors, so
    [R n] stands for indices below 2^64-4. *)
Inductive reg : Set := R (n : N) | PC | SP | BP | Flags.

Definition reg_eqb (a b : reg) : bool :=
  match a, b with
  | R n, R m => N.eqb n m
  | PC, PC | SP, SP | BP, BP | Flags, Flags => true
  | _, _ => false
  end.

(** The key type of the register allocation table
    (register_allocation_table.h: variant of Register and FloatRegister). *)
Inductive lreg : Set := LR (r : reg) | LF (n : N).

Definition lreg_eqb (a b : lreg) : bool :=
  match a, b with
  | LR r, LR s => reg_eqb r s
  | LF n, LF m => N.eqb n m
  | _, _ => false
  end.

(** instructions/operand.h: the eighteen alternatives of the operand variant.
    [OImm] int64_t, [OFImm] a double given by its bit pattern; offsets and
    scales int64_t; the index of [OMemImm] is an uint64_t. *)
Inductive operand : Set :=
| OImm (v : Z)
| OFImm (v : Z)
| OReg (r : reg)
| ORegOff (r : reg) (o : Z)
| ORegReg (r1 r2 : reg)
| ORegScaled (r : reg) (s : Z)
| ORegOffReg (r : reg) (o : Z) (r2 : reg)                 (* r + o + r2 *)
| ORegRegScaled (r r2 : reg) (s : Z)                      (* r + r2 * s *)
| ORegOffRegScaled (r : reg) (o : Z) (r2 : reg) (s : Z)   (* r + o + r2 * s *)
| OMemImm (a : Z)
| OMemReg (r : reg)
| OMemRegOff (r : reg) (o : Z)
| OMemRegReg (r1 r2 : reg)
| OMemRegScaled (r : reg) (s : Z)
| OMemRegOffReg (r : reg) (o : Z) (r2 : reg)
| OMemRegRegScaled (r r2 : reg) (s : Z)
| OMemRegOffRegScaled (r : reg) (o : Z) (r2 : reg) (s : Z)
| OFReg (n : N).

Inductive binop : Set :=
| BADD | BSUB | BMUL | BDIV | BMOD | BIMUL | BIDIV | BAND | BOR | BXOR | BLSH | BRSH.

Inductive unop : Set := UINC | UDEC | UNEG | UNOT.

Inductive fbinop : Set := FBADD | FBSUB | FBMUL | FBDIV.

Inductive cond : Set :=
| CZ | CNZ | CE | CNE | CG | CGE | CL | CLE | CA | CAE | CB | CBE | CO | CNO | CS | CNS.

(** instruction.h: the instruction classes. DBG (instruction.h:739-752) carries an
    arbitrary C++ callback and is not modelled; BREAK is modelled with no break
    handler connected (cpu.cpp:275-279), as in the t86 executables. *)
Inductive instr : Set :=
| IBin (op : binop) (dest r : reg) (v : operand) (risc : bool)
| IUn (op : unop) (r : reg)
| IFBin (op : fbinop) (f : N) (v : operand)
| IMov (d v : operand)
| ILea (r : reg) (m : operand)
| INop | IHalt | IBreak | IBkpt
| IClf
| ICmp (r : reg) (v : operand)
| IFcmp (f : N) (v : operand)
| IJmp (a : operand)
| ILoop (r : reg) (a : operand)
| IJcc (c : cond) (a : operand)
| ICall (a : operand)
| IRet
| IPush (v : operand)
| IFpush (v : operand)
| IPop (r : reg)
| IFpop (f : N)
| IPutchar (r : reg)
| IPutnum (r : reg)
| IGetchar (r : reg)
| IExt (f : N) (r : reg)
| INrw (r : reg) (f : N).

(** ALU dispatch: instruction.cpp:211-237 (binary), 276-282 (unary: INC adds 1,
    DEC subtracts 1), 254-257 (float). *)
Definition alu_bin (m : mode) (op : binop) (x y : Z) : res unit aresult :=
  match op with
  | BADD => alu_add m x y | BSUB => alu_sub m x y | BMUL => alu_mul x y
  | BDIV => alu_div x y | BMOD => alu_mod x y | BIMUL => alu_imul m x y
  | BIDIV => alu_idiv x y | BAND => alu_and x y | BOR => alu_or x y
  | BXOR => alu_xor x y | BLSH => alu_lsh m x y | BRSH => alu_rsh m x y
  end.

Definition alu_un (m : mode) (op : unop) (x : Z) : res unit aresult :=
  match op with
  | UINC => alu_add m x 1 | UDEC => alu_sub m x 1
  | UNEG => alu_neg m x | UNOT => alu_not x
  end.

Definition alu_fbin (F : fops) (op : fbinop) (x y : Z) : Z :=
  match op with
  | FBADD => f_add F x y | FBSUB => f_sub F x y
  | FBMUL => f_mul F x y | FBDIV => f_div F x y
  end.

(** instruction.cpp:442-472: the conditions of the sixteen conditional jumps *)
Definition cond_holds (c : cond) (f : flags) : bool :=
  match c with
  | CZ => zf f
  | CE => zf f
  | CNZ => negb (zf f)
  | CNE => negb (zf f)
  | CG => negb (zf f) && Bool.eqb (sf f) (vf f)
  | CGE => Bool.eqb (sf f) (vf f)
  | CL => negb (Bool.eqb (sf f) (vf f))
  | CLE => zf f || negb (Bool.eqb (sf f) (vf f))
  | CA => negb (cf f || zf f)
  | CAE => negb (cf f)
  | CB => cf f
  | CBE => cf f || zf f
  | CO => vf f
  | CNO => negb (vf f)
  | CS => sf f
  | CNS => negb (sf f)
  end.
