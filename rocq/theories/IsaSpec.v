(** The sequential T86 machine, written from docs/t86-isa.md: one instruction at
    a time, no pipeline. This is the specification the out-of-order VM is
    compared with; it shares with the model only the syntax of instructions
    (Isa.v), the visible state (State.v) and the meaning of the integer
    operations (AluSpec.v). *)
From Coq Require Import ZArith NArith List Bool.
From Verif Require Import Base Alu Isa AluSpec State.
Import ListNotations.
Open Scope Z_scope.

(** Memory addresses are unsigned 64-bit numbers. *)
Definition address (z : Z) : Z := z mod 2 ^ 64.

(** Value of a register. An instruction that names the program counter sees the
    address of the next instruction. *)
Inductive reg_val (S : arch) : lreg -> Z -> Prop :=
| rv_pc : forall v, is_word_of (a_pc S + 1) v -> reg_val S (LR PC) v
| rv_reg : forall l, l <> LR PC -> reg_val S l (a_reg S l).

(** The number written inside the brackets of a memory operand. *)
Inductive inside (S : arch) : operand -> Z -> Prop :=
| in_i : forall a, inside S (OMemImm a) a
| in_r : forall r x, reg_val S (LR r) x -> inside S (OMemReg r) x
| in_ri : forall r i x, reg_val S (LR r) x -> inside S (OMemRegOff r i) (x + i)
| in_rs : forall r s x, reg_val S (LR r) x -> inside S (OMemRegScaled r s) (x * s)
| in_rr : forall r r2 x y, reg_val S (LR r) x -> reg_val S (LR r2) y ->
    inside S (OMemRegReg r r2) (x + y)
| in_rir : forall r i r2 x y, reg_val S (LR r) x -> reg_val S (LR r2) y ->
    inside S (OMemRegOffReg r i r2) (x + i + y)
| in_rrs : forall r r2 s x y, reg_val S (LR r) x -> reg_val S (LR r2) y ->
    inside S (OMemRegRegScaled r r2 s) (x + y * s)
| in_rirs : forall r i r2 s x y, reg_val S (LR r) x -> reg_val S (LR r2) y ->
    inside S (OMemRegOffRegScaled r i r2 s) (x + i + y * s).

(** Value of an operand. *)
Inductive opnd (S : arch) : operand -> Z -> Prop :=
| op_imm : forall v, opnd S (OImm v) v
| op_fimm : forall v, opnd S (OFImm v) v
| op_reg : forall r x, reg_val S (LR r) x -> opnd S (OReg r) x
| op_freg : forall n x, reg_val S (LF n) x -> opnd S (OFReg n) x
| op_ri : forall r i x v, reg_val S (LR r) x -> is_word_of (x + i) v -> opnd S (ORegOff r i) v
| op_rs : forall r s x v, reg_val S (LR r) x -> is_word_of (x * s) v -> opnd S (ORegScaled r s) v
| op_rr : forall r r2 x y v, reg_val S (LR r) x -> reg_val S (LR r2) y ->
    is_word_of (x + y) v -> opnd S (ORegReg r r2) v
| op_rir : forall r i r2 x y v, reg_val S (LR r) x -> reg_val S (LR r2) y ->
    is_word_of (x + i + y) v -> opnd S (ORegOffReg r i r2) v
| op_rrs : forall r r2 s x y v, reg_val S (LR r) x -> reg_val S (LR r2) y ->
    is_word_of (x + y * s) v -> opnd S (ORegRegScaled r r2 s) v
| op_rirs : forall r i r2 s x y v, reg_val S (LR r) x -> reg_val S (LR r2) y ->
    is_word_of (x + i + y * s) v -> opnd S (ORegOffRegScaled r i r2 s) v
| op_mem : forall o z v, inside S o z -> a_mem S (address z) = Some v -> opnd S o v.

(** ---- state changes ---- *)

Definition put (S : arch) (l : lreg) (v : Z) : arch :=
  mkArch (a_pc S) (upd (a_reg S) l v) (a_mem S) (a_out S) (a_in S) (a_halted S).

Definition store (S : arch) (a v : Z) : arch :=
  mkArch (a_pc S) (a_reg S) (mupd (a_mem S) a v) (a_out S) (a_in S) (a_halted S).

Definition print (S : arch) (o : outev) : arch :=
  mkArch (a_pc S) (a_reg S) (a_mem S) (a_out S ++ [o]) (a_in S) (a_halted S).

Definition take_input (S : arch) (rest : list Z) : arch :=
  mkArch (a_pc S) (a_reg S) (a_mem S) (a_out S) rest (a_halted S).

Definition halt (S : arch) : arch :=
  mkArch (a_pc S) (a_reg S) (a_mem S) (a_out S) (a_in S) true.

Definition jump (S : arch) (t : Z) : arch := set_pc S (address t).
Definition next (S : arch) : arch := set_pc S (address (a_pc S + 1)).

(** FLAGS holds SF, ZF, CF, OF in bits 0 to 3. *)
Definition flag_bits (f : flags) : Z :=
  (if sf f then 1 else 0) + (if zf f then 2 else 0) + (if cf f then 4 else 0) + (if vf f then 8 else 0).

(** a register result together with its flags *)
Definition result (S : arch) (l : lreg) (q : aresult) : arch :=
  put (put S l (rval q)) (LR Flags) (flag_bits (rflags q)).

(** Two states a user cannot tell apart. *)
Record same (S T : arch) : Prop := mkSame {
  s_pc : a_pc S = a_pc T;
  s_reg : forall l, l <> LR PC -> a_reg S l = a_reg T l;
  s_mem : forall a, a_mem S a = a_mem T a;
  s_out : a_out S = a_out T;
  s_in : a_in S = a_in T;
  s_halted : a_halted S = a_halted T
}.

(** The "detailed condition" column of the jump table; JLE is "less or equal"
    (the table's [ZF == 1 && SF != OF] is a misprint for [||]). *)
Definition taken (c : cond) (flags_reg : Z) : bool :=
  let SF := Z.testbit flags_reg 0 in
  let ZF := Z.testbit flags_reg 1 in
  let CF := Z.testbit flags_reg 2 in
  let OF := Z.testbit flags_reg 3 in
  match c with
  | CZ | CE => ZF
  | CNZ | CNE => negb ZF
  | CG => negb ZF && Bool.eqb SF OF
  | CGE => Bool.eqb SF OF
  | CL => negb (Bool.eqb SF OF)
  | CLE => ZF || negb (Bool.eqb SF OF)
  | CA => negb CF && negb ZF
  | CAE => negb CF
  | CB => CF
  | CBE => CF || ZF
  | CO => OF
  | CNO => negb OF
  | CS => SF
  | CNS => negb SF
  end.

(** The next character that is not white space, as a signed char. *)
Inductive read_char : list Z -> Z -> list Z -> Prop :=
| rc_blank : forall b s c rest, In b [32; 9; 10; 11; 12; 13] ->
    read_char s c rest -> read_char (b :: s) c rest
| rc_low : forall b rest, ~ In b [32; 9; 10; 11; 12; 13] -> b < 128 -> read_char (b :: rest) b rest
| rc_high : forall b rest, 128 <= b -> read_char (b :: rest) (b - 256) rest.

Definition float_result (F : fops) (S : arch) (f : N) (r : Z) : arch :=
  put (put S (LF f) r) (LR Flags) (flag_bits (mkFlags (f_neg F r) (f_zero F r) false (f_inf F r))).

Definition float_op (F : fops) (op : fbinop) (x y : Z) : Z :=
  match op with
  | FBADD => f_add F x y | FBSUB => f_sub F x y | FBMUL => f_mul F x y | FBDIV => f_div F x y
  end.

(** Effect of one instruction at the program counter. LOOP decrements first and
    jumps if the result is not zero; the manual does not say which. Where no successor
    exists the instruction faults (an address outside the memory, a division by
    zero, no input left). *)
Definition effect (F : fops) (i : instr) (S S' : arch) : Prop :=
  match i with
  | IBin op d r v _ => exists x y q, reg_val S (LR r) x /\ opnd S v y /\ bin_spec op x y q /\
      same S' (next (result S (LR d) q))
  | IUn op r => exists x q, reg_val S (LR r) x /\ un_spec op x q /\
      same S' (next (result S (LR r) q))
  | IFBin op f v => exists x y, reg_val S (LF f) x /\ opnd S v y /\
      same S' (next (float_result F S f (float_op F op x y)))
  | IMov (OReg r) v => exists y, opnd S v y /\ same S' (next (put S (LR r) y))
  | IMov (OFReg f) v => exists y, opnd S v y /\ same S' (next (put S (LF f) y))
  | IMov d v => exists z y, inside S d z /\ opnd S v y /\ a_mem S (address z) <> None /\
      same S' (next (store S (address z) y))
  | ILea r m => exists z v, inside S m z /\ is_word_of z v /\ same S' (next (put S (LR r) v))
  | INop | IBreak | IBkpt => same S' (next S)
  | IHalt => same S' (halt (next S))
  | IClf => same S' (next (put S (LR Flags) 0))
  | ICmp r v => exists x y q, reg_val S (LR r) x /\ opnd S v y /\ bin_spec BSUB x y q /\
      same S' (next (put S (LR Flags) (flag_bits (rflags q))))
  | IFcmp f v => exists x y, reg_val S (LF f) x /\ opnd S v y /\
      let d := f_sub F x y in
      same S' (next (put S (LR Flags) (flag_bits (mkFlags (f_neg F d) (f_zero F d) false (f_inf F d)))))
  | IJmp a => exists t, opnd S a t /\ same S' (jump S t)
  | ILoop r a => exists x t q, reg_val S (LR r) x /\ opnd S a t /\ un_spec UDEC x q /\
      same S' (if rval q =? 0
               then (match r with
                     | PC => jump (result S (LR r) q) 0      (* the counter is the program counter *)
                     | _ => next (result S (LR r) q)
                     end)
               else jump (result S (LR r) q) t)
  | IJcc c a => exists t, opnd S a t /\
      same S' (if taken c (a_reg S (LR Flags)) then jump S t else next S)
  | ICall a => exists t sp ret, opnd S a t /\ is_word_of (a_reg S (LR SP) - 1) sp /\
      is_word_of (a_pc S + 1) ret /\ a_mem S (address sp) <> None /\
      same S' (jump (put (store S (address sp) ret) (LR SP) sp) t)
  | IRet => exists t sp, a_mem S (address (a_reg S (LR SP))) = Some t /\
      is_word_of (a_reg S (LR SP) + 1) sp /\ same S' (jump (put S (LR SP) sp) t)
  | IPush v | IFpush v => exists y sp, opnd S v y /\ is_word_of (a_reg S (LR SP) - 1) sp /\
      a_mem S (address sp) <> None /\ same S' (next (put (store S (address sp) y) (LR SP) sp))
  | IPop r => exists y sp, a_mem S (address (a_reg S (LR SP))) = Some y /\
      is_word_of (a_reg S (LR SP) + 1) sp /\ same S' (next (put (put S (LR r) y) (LR SP) sp))
  | IFpop f => exists y sp, a_mem S (address (a_reg S (LR SP))) = Some y /\
      is_word_of (a_reg S (LR SP) + 1) sp /\ same S' (next (put (put S (LF f) y) (LR SP) sp))
  | IPutchar r => exists x, reg_val S (LR r) x /\ same S' (next (print S (OutChar (x mod 2 ^ 8))))
  | IPutnum r => exists x n, reg_val S (LR r) x /\ - 2 ^ 31 <= n < 2 ^ 31 /\ (n - x) mod 2 ^ 32 = 0 /\
      same S' (next (print S (OutNum n)))
  | IGetchar r => exists c rest, read_char (a_in S) c rest /\
      same S' (next (take_input (put S (LR r) c) rest))
  | IExt f r => exists x, reg_val S (LR r) x /\ same S' (next (put S (LF f) (f_of_int F x)))
  | INrw r f => exists x z, reg_val S (LF f) x /\ f_to_int F x = Some z /\ same S' (next (put S (LR r) z))
  end.

(** Behind the end of the program there are NOPs. *)
Definition instr_at (p : list instr) (pc : Z) : instr := nth (Z.to_nat pc) p INop.

Inductive isa_step (F : fops) (p : list instr) (S S' : arch) : Prop :=
| isa_intro : a_halted S = false -> effect F (instr_at p (a_pc S)) S S' -> isa_step F p S S'.

(** [n] instructions *)
Inductive isa_run (F : fops) (p : list instr) : nat -> arch -> arch -> Prop :=
| isa_done : forall S, isa_run F p 0 S S
| isa_more : forall n S T U, isa_step F p S T -> isa_run F p n T U -> isa_run F p (Datatypes.S n) S U.

(** State in which a program starts: registers zero, SP and BP at the end of the
    memory, the .data section at address 0 and zeros behind it. *)
Definition isa_boot (ram_size : nat) (data input : list Z) : arch :=
  mkArch 0
    (fun l => match l with LR SP | LR BP => Z.of_nat ram_size | _ => 0 end)
    (fun a => if (0 <=? a) && (a <? Z.of_nat ram_size) then Some (nth (Z.to_nat a) data 0) else None)
    [] input false.

(** ---- the values the C++ types allow ---- *)

Definition u64_range (z : Z) : Prop := 0 <= z < 2 ^ 64.

(** Immediates and offsets are int64_t, absolute addresses uint64_t, doubles are
    64-bit patterns. *)
Definition typed_operand (o : operand) : Prop :=
  match o with
  | OImm v | OFImm v => fits v
  | OMemImm a => u64_range a
  | _ => True
  end.

Definition typed_instr (i : instr) : Prop :=
  match i with
  | IBin _ _ _ v _ | IFBin _ _ v | ICmp _ v | IFcmp _ v | IJmp v | ILoop _ v | IJcc _ v
  | ICall v | IPush v | IFpush v => typed_operand v
  | IMov d v => typed_operand d /\ typed_operand v
  | ILea _ m => typed_operand m
  | _ => True
  end.

(** Floating point operations deliver 64-bit patterns. *)
Record typed_fops (F : fops) : Prop := mkTypedFops {
  tf_add : forall x y, fits (f_add F x y); tf_sub : forall x y, fits (f_sub F x y);
  tf_mul : forall x y, fits (f_mul F x y); tf_div : forall x y, fits (f_div F x y);
  tf_of : forall x, fits (f_of_int F x); tf_to : forall x z, f_to_int F x = Some z -> fits z
}.

(** A program, its data and its input as the C++ types allow them; memory sizes
    are below 2^63. *)
Record typed (F : fops) (p : list instr) (ram_size : nat) (data input : list Z) : Prop := mkTyped {
  ty_fops : typed_fops F;
  ty_prog : Forall typed_instr p;
  ty_ram : Z.of_nat ram_size < 2 ^ 63;
  ty_data : Forall fits data;
  ty_in : Forall (fun b => 0 <= b < 256) input
}.

(** Instructions other than jumps that do not have the program counter as their
    destination. Instruction::validate (instruction.cpp) rejects the others, but is
    called only by the program builder; the assembler accepts "MOV IP, 5". *)
Definition keeps_ip (i : instr) : Prop :=
  match i with
  | IBin _ r _ _ _ | IUn _ r | IMov (OReg r) _ | ILea r _ | IPop r | IGetchar r | INrw r _ => r <> PC
  | _ => True
  end.

(** ---- memory accesses ---- *)

(** Operands an instruction reads (besides the implicit ones). *)
Definition sources (i : instr) : list operand :=
  match i with
  | IBin _ _ _ v _ | IFBin _ _ v | IMov _ v | ICmp _ v | IFcmp _ v | IJmp v | ILoop _ v | IJcc _ v
  | ICall v | IPush v | IFpush v => [v]
  | _ => []
  end.

(** The memory cells an instruction reads or writes. *)
Inductive accesses (S : arch) : instr -> Z -> Prop :=
| ac_source : forall i o z, In o (sources i) -> inside S o z -> accesses S i (address z)
| ac_mov : forall d v z, inside S d z -> accesses S (IMov d v) (address z)
| ac_pop : forall i, i = IRet \/ (exists r, i = IPop r) \/ (exists f, i = IFpop f) ->
    accesses S i (address (a_reg S (LR SP)))
| ac_push : forall i, (exists a, i = ICall a) \/ (exists v, i = IPush v) \/ (exists v, i = IFpush v) ->
    accesses S i (address (a_reg S (LR SP) - 1)).
