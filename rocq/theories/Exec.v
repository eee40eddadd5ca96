(** Model of the instruction classes (src/t86/instruction.h, instruction.cpp), of
    operands (instructions/operand.cpp), requirements and products
    (instructions/product.cpp). The bodies of execute() and retire() are
    represented as the sequence of calls they make on the reservation station
    entry; Cpu.v interprets these sequences. *)
From Coq Require Import ZArith NArith List Bool.
From Verif Require Import Base Alu Isa.
From Verif Require Export State.
Import ListNotations.
Open Scope Z_scope.

(** Parameters of an execution: reading of signed overflow, floating point. *)
Record env := mkEnv { e_mode : mode; e_fops : fops }.

(** instructions/requirements.h:10-70 *)
Inductive need : Set := NReg (r : reg) | NFReg (n : N) | NMem (a : Z).

(** operand.cpp:261-263 isFetched and 265-301 requirement: [None] is "fetched". *)
Definition requirement (o : operand) : option need :=
  match o with
  | OImm _ | OFImm _ => None
  | OReg r => Some (NReg r)
  | ORegOff r _ => Some (NReg r)
  | ORegReg r1 _ => Some (NReg r1)
  | ORegScaled r _ => Some (NReg r)
  | ORegOffReg r _ _ => Some (NReg r)
  | ORegRegScaled _ r2 _ => Some (NReg r2)
  | ORegOffRegScaled _ _ r2 _ => Some (NReg r2)
  | OMemImm a => Some (NMem a)
  | OMemReg r => Some (NReg r)
  | OMemRegOff r _ => Some (NReg r)
  | OMemRegReg r1 _ => Some (NReg r1)
  | OMemRegScaled r _ => Some (NReg r)
  | OMemRegOffReg r _ _ => Some (NReg r)
  | OMemRegRegScaled _ r2 _ => Some (NReg r2)
  | OMemRegOffRegScaled _ _ r2 _ => Some (NReg r2)
  | OFReg n => Some (NFReg n)
  end.

(** operand.cpp:65-106 supply and 427-488, the overloads per kind. The index of
    Memory::Immediate is an uint64_t. *)
Definition supply (m : mode) (o : operand) (v : Z) : res unit operand :=
  match o with
  | OImm _ | OFImm _ => Undef UAssert
  | OReg _ => Ok (OImm v)
  | ORegOff _ off => let! x := arith m (v + off) in Ok (OImm x)
  | ORegReg _ r2 => Ok (ORegOff r2 v)
  | ORegScaled _ s => let! x := arith m (v * s) in Ok (OImm x)
  | ORegOffReg _ off r2 => let! x := arith m (off + v) in Ok (ORegOff r2 x)
  | ORegRegScaled r _ s => let! x := arith m (s * v) in Ok (ORegOff r x)
  | ORegOffRegScaled r off _ s =>
      let! x := arith m (s * v) in let! y := arith m (off + x) in Ok (ORegOff r y)
  | OMemImm _ => Ok (OImm v)
  | OMemReg _ => Ok (OMemImm (u64 v))
  | OMemRegOff _ off => let! x := arith m (v + off) in Ok (OMemImm (u64 x))
  | OMemRegReg _ r2 => Ok (OMemRegOff r2 v)
  | OMemRegScaled _ s => let! x := arith m (v * s) in Ok (OMemImm (u64 x))
  | OMemRegOffReg _ off r2 => let! x := arith m (off + v) in Ok (OMemRegOff r2 x)
  | OMemRegRegScaled r _ s => let! x := arith m (s * v) in Ok (OMemRegOff r x)
  | OMemRegOffRegScaled r off _ s =>
      let! x := arith m (s * v) in let! y := arith m (off + x) in Ok (OMemRegOff r y)
  | OFReg _ => Ok (OFImm v)
  end.

(** operand.cpp:45-62 getValue, getFloatValue of a fetched operand (doubles are
    bit patterns, so both return the same word). *)
Definition op_val (o : operand) : option Z :=
  match o with OImm v | OFImm v => Some v | _ => None end.

(** instructions/product.h: what an instruction writes *)
Inductive product : Set := PReg (l : lreg) | PMem (a : Z) | PMemReg.

(** product.cpp:6-30 fromOperand; [None] is std::runtime_error *)
Definition product_of (o : operand) : option product :=
  match o with
  | OReg r => Some (PReg (LR r))
  | OFReg n => Some (PReg (LF n))
  | OMemImm a => Some (PMem a)
  | OMemReg _ | OMemRegOff _ _ | OMemRegReg _ _ | OMemRegScaled _ _
  | OMemRegOffReg _ _ _ | OMemRegRegScaled _ _ _ | OMemRegOffRegScaled _ _ _ _ => Some PMemReg
  | _ => None
  end.

(** The registers a memory operand's address is computed from, in the order in
    which MOV and LEA list them (instruction.cpp:284-314, 638-662). *)
Definition addr_regs (o : operand) : option (list reg) :=
  match o with
  | OMemReg r => Some [r]
  | OMemRegOff r _ => Some [r]
  | OMemRegScaled r _ => Some [r]
  | OMemRegReg r1 r2 => Some [r1; r2]
  | OMemRegOffReg r _ r2 => Some [r; r2]
  | OMemRegRegScaled r r2 _ => Some [r2; r]
  | OMemRegOffRegScaled r _ r2 _ => Some [r2; r]
  | _ => None
  end.

(** operands(): instruction.h and instruction.cpp:284-314 (MOV), 638-662 (LEA,
    which rejects [R] and [i]). [None] is std::runtime_error. *)
Definition operands (i : instr) : option (list operand) :=
  match i with
  | IBin _ _ r v _ => Some [OReg r; v]
  | IUn _ r => Some [OReg r]
  | IFBin _ f v => Some [OFReg f; v]
  | IMov d v =>
      match d with
      | OReg _ | OMemImm _ | OFReg _ => Some [v]
      | _ => match addr_regs d with
             | Some rs => Some (v :: map OReg rs)
             | None => None
             end
      end
  | ILea _ m =>
      match m with
      | OMemReg _ => None
      | _ => match addr_regs m with
             | Some rs => Some (map OReg rs)
             | None => None
             end
      end
  | INop | IHalt | IBreak | IBkpt | IClf | IGetchar _ => Some []
  | ICmp r v => Some [OReg r; v]
  | IFcmp f v => Some [OFReg f; v]
  | IJmp a => Some [a]
  | ILoop r a => Some [OReg r; a]
  | IJcc _ a => Some [a; OReg Flags]
  | ICall a => Some [a; OReg PC; OReg SP]
  | IRet => Some [OMemReg SP; OReg SP]
  | IPush v => Some [v; OReg SP]
  | IFpush v => Some [v; OReg SP]
  | IPop _ => Some [OMemReg SP; OReg SP]
  | IFpop _ => Some [OMemReg SP; OReg SP]
  | IPutchar r => Some [OReg r]
  | IPutnum r => Some [OReg r]
  | IExt _ r => Some [OReg r]
  | INrw _ f => Some [OFReg f]
  end.

(** produces() *)
Definition produces (i : instr) : option (list product) :=
  match i with
  | IBin _ d _ _ _ => Some [PReg (LR d); PReg (LR Flags)]
  | IUn _ r => Some [PReg (LR r); PReg (LR Flags)]
  | IFBin _ f _ => Some [PReg (LF f); PReg (LR Flags)]
  | IMov d _ => match product_of d with Some p => Some [p] | None => None end
  | ILea r _ => Some [PReg (LR r)]
  | INop | IHalt | IBreak | IBkpt => Some []
  | IClf => Some [PReg (LR Flags)]
  | ICmp _ _ => Some [PReg (LR Flags)]
  | IFcmp _ _ => Some [PReg (LR Flags)]
  | IJmp _ => Some [PReg (LR PC)]
  | ILoop r _ => Some [PReg (LR r); PReg (LR PC); PReg (LR Flags)]
  | IJcc _ _ => Some [PReg (LR PC)]
  | ICall _ => Some [PReg (LR PC); PReg (LR SP); PMemReg]
  | IRet => Some [PReg (LR SP); PReg (LR PC)]
  | IPush _ => Some [PMemReg; PReg (LR SP)]
  | IFpush _ => Some [PMemReg; PReg (LR SP)]
  | IPop r => Some [PReg (LR r); PReg (LR SP)]
  | IFpop f => Some [PReg (LF f); PReg (LR SP)]
  | IPutchar _ | IPutnum _ => Some []
  | IGetchar r => Some [PReg (LR r)]
  | IExt f _ => Some [PReg (LF f)]
  | INrw r _ => Some [PReg (LR r)]
  end.

(** needsAlu() *)
Definition needs_alu (i : instr) : bool :=
  match i with
  | IBin _ _ _ _ _ | IUn _ _ | IFBin _ _ _ | ICmp _ _ | IFcmp _ _ | ILoop _ _
  | IExt _ _ | INrw _ _ => true
  | _ => false
  end.

(** cpu.cpp:389-401 getExecutionLength *)
Definition exec_length (i : instr) : nat :=
  match i with IMov (OReg _) (OImm _) => 2 | _ => 3 end.

(** instruction.h JumpInstruction and getDestination(): the predicted-from operand *)
Definition jump_dest (i : instr) : option operand :=
  match i with
  | IJmp a | IJcc _ a | ICall a => Some a
  | ILoop _ a => Some a
  | IRet => Some (OMemReg SP)
  | _ => None
  end.

(** Calls made by execute(): *)
Inductive act : Set :=
| ASet (l : lreg) (v : Z)   (* setRegister / setFloatRegister / setFlags / setProgramCounter / setStackPointer *)
| AAddr (a : Z)             (* specifyWriteAddress(memoryWriteIds[0], a) *)
| AVal (v : Z)              (* setWriteValue(memoryWriteIds[0], v) *)
| AOp (v : Z).              (* operands().emplace_back(v), LOOP only *)

(** The index of a completely supplied memory operand. *)
Definition mem_index (o : operand) : res unit Z :=
  match o with OMemImm a => Ok a | _ => Undef UAssert end.

(** Effective address of a memory destination from its register values
    (instruction.cpp:356-396, 666-703). *)
Definition eff_addr (m : mode) (d : operand) (vs : list Z) : res unit Z :=
  match vs with
  | [x] => let! o := supply m d x in mem_index o
  | [x; y] => let! o := supply m d x in let! o' := supply m o y in mem_index o'
  | _ => Undef UAssert
  end.

(** execute(), on the values of the fetched operands *)
Definition exec_acts (E : env) (i : instr) (vs : list Z) : res unit (list act) :=
  let m := e_mode E in
  let F := e_fops E in
  match i, vs with
  | IBin op d _ _ _, [x; y] =>                                   (* 187-193 *)
      let! r := alu_bin m op x y in
      Ok [ASet (LR d) (rval r); ASet (LR Flags) (flags_to_word (rflags r))]
  | IUn op r, [x] =>                                             (* 265-271 *)
      let! q := alu_un m op x in
      Ok [ASet (LR r) (rval q); ASet (LR Flags) (flags_to_word (rflags q))]
  | IFBin op f _, [x; y] =>                                      (* 239-245 *)
      let r := alu_fbin F op x y in
      Ok [ASet (LF f) r; ASet (LR Flags) (flags_to_word (fflags F r))]
  | IMov d _, v :: rest =>                                       (* 338-402 *)
      match d, rest with
      | OReg r, [] => Ok [ASet (LR r) v]
      | OFReg n, [] => Ok [ASet (LF n) v]
      | OMemImm _, [] => Ok [AVal v]
      | OReg _, _ | OFReg _, _ | OMemImm _, _ => Undef UAssert
      | _, _ => let! a := eff_addr m d rest in Ok [AAddr a; AVal v]
      end
  | ILea r d, vs =>                                              (* 664-707 *)
      match d with
      | OMemRegReg _ _ => Undef UIndex       (* reads operands[2] of two *)
      | _ => let! a := eff_addr m d vs in Ok [ASet (LR r) (s64 a)]
      end
  | INop, [] | IHalt, [] | IBreak, [] | IBkpt, [] | IClf, [] | IGetchar _, [] => Ok []
  | ICmp _ _, [x; y] =>                                          (* 474-479 *)
      let! r := alu_sub m x y in
      Ok [ASet (LR Flags) (flags_to_word (rflags r))]
  | IFcmp _ _, [x; y] =>                                         (* 481-486 *)
      Ok [ASet (LR Flags) (flags_to_word (fflags F (f_sub F x y)))]
  | IJmp _, [a] => Ok [ASet (LR PC) a]                           (* 426-430 *)
  | ILoop r _, [x; a] =>                                         (* 488-498 *)
      let! q := alu_sub m x 1 in
      Ok ([ASet (LR r) (rval q); ASet (LR Flags) (flags_to_word (rflags q)); AOp (rval q)]
          ++ (if rval q =? 0 then [] else [ASet (LR PC) a]))
  | IJcc c _, [a; f] =>                                          (* 412-418 *)
      Ok (if cond_holds c (flags_of_word f) then [ASet (LR PC) a] else [])
  | ICall _, [a; pc; sp] =>                                      (* 577-586 *)
      let! sp' := arith m (sp - 1) in
      Ok [ASet (LR PC) a; AAddr (u64 sp'); AVal pc; ASet (LR SP) sp']
  | IRet, [a; sp] =>                                             (* 594-599 *)
      let! sp' := arith m (sp + 1) in
      Ok [ASet (LR PC) a; ASet (LR SP) sp']
  | IPush _, [v; sp] | IFpush _, [v; sp] =>                      (* 514-533 *)
      let! sp' := arith m (sp - 1) in
      Ok [AAddr (u64 sp'); AVal v; ASet (LR SP) sp']
  | IPop r, [v; sp] =>                                           (* 553-558 *)
      let! sp' := arith m (sp + 1) in
      Ok [ASet (LR r) v; ASet (LR SP) sp']
  | IFpop f, [v; sp] =>                                          (* 560-566 *)
      let! sp' := arith m (sp + 1) in
      Ok [ASet (LF f) v; ASet (LR SP) sp']
  | IPutchar _, [_] | IPutnum _, [_] => Ok []
  | IExt f _, [x] => Ok [ASet (LF f) (f_of_int F x)]             (* 727-731 *)
  | INrw r _, [x] =>                                             (* 733-737 *)
      match f_to_int F x with
      | Some z => Ok [ASet (LR r) z]
      | None => Undef UFloatConv
      end
  | _, _ => Undef UAssert
  end.

(** Calls made by retire(): *)
Inductive ract : Set :=
| RWrite                    (* writeMemory(memoryWriteIds[0]) *)
| RJump                     (* processJump *)
| RSet (l : lreg) (v : Z)
| RGetchar (r : reg)        (* is >> c; setRegister(r, c) *)
| RPutchar (v : Z)
| RPutnum (v : Z)
| RUnroll                   (* unrollSpeculation() *)
| RInterrupt (n : Z)
| RHalt.

Definition is_reg_dest (d : operand) : bool :=
  match d with OReg _ | OFReg _ => true | _ => false end.

(** retire(), on the values of the entry's operands *)
Definition retire_acts (i : instr) (vs : list Z) : res unit (list ract) :=
  match i with
  | IMov d _ => Ok (if is_reg_dest d then [] else [RWrite])          (* 316-327 *)
  | IClf => Ok [RSet (LR Flags) (flags_to_word (mkFlags false false false false))]
  | IJcc _ _ => match vs with [_; _] => Ok [RJump] | _ => Undef UAssert end
  | IJmp _ => match vs with [_] => Ok [RJump] | _ => Undef UAssert end
  | ILoop _ _ => match vs with [_; _; _] => Ok [RJump] | _ => Undef UAssert end
  | IPush _ | IFpush _ => match vs with [_; _] => Ok [RWrite] | _ => Undef UAssert end
  | ICall _ => match vs with [_; _; _] => Ok [RWrite; RJump] | _ => Undef UAssert end
  | IRet => match vs with [_; _] => Ok [RJump] | _ => Undef UAssert end
  | IBkpt => Ok [RUnroll; RInterrupt 3]
  | IBreak => Ok [RUnroll]
  | IHalt => Ok [RUnroll; RHalt]
  | IPutchar _ => match vs with [v] => Ok [RPutchar v] | _ => Undef UAssert end
  | IPutnum _ => match vs with [v] => Ok [RPutnum v] | _ => Undef UAssert end
  | IGetchar r => Ok [RGetchar r]
  | _ => Ok []
  end.

(** What PUTCHAR prints (static_cast<char>) and PUTNUM prints (static_cast<int>),
    instruction.cpp:709-719. *)
Definition char_of (v : Z) : Z := v mod 256.
Definition int_of (v : Z) : Z :=
  let r := v mod 4294967296 in if r <? 2147483648 then r else r - 4294967296.

(** [is >> c] (instruction.cpp:721-725): skips white space of the C locale; the
    result is the signed char's value. At end of input [c] stays uninitialised. *)
Definition is_space (c : Z) : bool := (c =? 32) || ((9 <=? c) && (c <=? 13)).

Fixpoint get_char (input : list Z) : option (Z * list Z) :=
  match input with
  | [] => None
  | c :: rest => if is_space c then get_char rest
                 else Some (if c <? 128 then c else c - 256, rest)
  end.
