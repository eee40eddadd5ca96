(** Programs that cannot make the VM stumble: what is asked of their instructions. Written
    for the theorems of PropSafe.v; models no code. *)
From Coq Require Import ZArith NArith List Bool.
From Verif Require Import Base Alu Isa.
Import ListNotations.
Open Scope Z_scope.

(** The registers of a machine with [nr] registers and [nf] float registers. *)
Definition has_reg (nr : nat) (r : reg) : bool :=
  match r with R n => (n <? N.of_nat nr)%N | _ => true end.
Definition has_freg (nf : nat) (n : N) : bool := (n <? N.of_nat nf)%N.

Definition has_operand (nr nf : nat) (o : operand) : bool :=
  match o with
  | OImm _ | OFImm _ | OMemImm _ => true
  | OReg r | ORegOff r _ | ORegScaled r _ | OMemReg r | OMemRegOff r _ | OMemRegScaled r _ => has_reg nr r
  | ORegReg r s | ORegOffReg r _ s | ORegRegScaled r s _ | ORegOffRegScaled r _ s _
  | OMemRegReg r s | OMemRegOffReg r _ s | OMemRegRegScaled r s _ | OMemRegOffRegScaled r _ s _ => has_reg nr r && has_reg nr s
  | OFReg n => has_freg nf n
  end.

(** Operations that trap on the host for some operands (C45): their second operand must be
    a constant for which they do not. *)
Definition divides (op : binop) (v : operand) : bool :=
  match op, v with
  | BDIV, OImm k => negb (u64 k =? 0)
  | (BMOD | BIDIV), OImm k => negb (k =? 0) && negb (k =? -1)
  | BIMUL, OImm k => negb (k =? -1)
  | (BDIV | BMOD | BIDIV | BIMUL), _ => false
  | _, _ => true
  end.

Definition is_flags (r : reg) : bool := match r with Flags => true | _ => false end.
Definition is_sp (r : reg) : bool := match r with SP => true | _ => false end.

(** What MOV can write and what LEA can compute (not the sum of two registers, C46). *)
Definition can_move_to (d : operand) : bool :=
  match d with
  | OReg _ | OFReg _ | OMemImm _ | OMemReg _ | OMemRegOff _ _ | OMemRegReg _ _ | OMemRegScaled _ _
  | OMemRegOffReg _ _ _ | OMemRegRegScaled _ _ _ | OMemRegOffRegScaled _ _ _ _ => true
  | _ => false
  end.
Definition can_lea (m : operand) : bool :=
  match m with
  | OMemRegOff _ _ | OMemRegScaled _ _ | OMemRegOffReg _ _ _ | OMemRegRegScaled _ _ _ | OMemRegOffRegScaled _ _ _ _ => true
  | _ => false
  end.

(** The registers exist; divisors are constants; no instruction is asked to write a register
    that it writes anyway (the flags, or SP by POP); no conversion of floats to integers. *)
Definition harmless (nr nf : nat) (i : instr) : bool :=
  match i with
  | IBin op d r v _ => has_reg nr d && has_reg nr r && has_operand nr nf v && negb (is_flags d) && divides op v
  | IUn _ r => has_reg nr r && negb (is_flags r)
  | IFBin _ f v => has_freg nf f && has_operand nr nf v
  | IMov d v => has_operand nr nf d && has_operand nr nf v && can_move_to d
  | ILea r m => has_reg nr r && has_operand nr nf m && can_lea m
  | INop | IHalt | IBreak | IBkpt | IClf | IRet => true
  | ICmp r v => has_reg nr r && has_operand nr nf v
  | IFcmp f v => has_freg nf f && has_operand nr nf v
  | IJmp a | IJcc _ a | ICall a | IPush a | IFpush a => has_operand nr nf a
  | ILoop r a => has_reg nr r && has_operand nr nf a && negb (is_flags r)
  | IPop r => has_reg nr r && negb (is_sp r)
  | IFpop f => has_freg nf f
  | IPutchar r | IPutnum r | IGetchar r => has_reg nr r
  | IExt f r => has_freg nf f && has_reg nr r
  | INrw _ _ => false
  end.

(** ---- stores ---- *)

(** Two stores in flight at the same address bring the VM down (C47). What follows tells
    from the program's text that this cannot happen. *)

Definition memory_operand (o : operand) : bool :=
  match o with
  | OMemImm _ | OMemReg _ | OMemRegOff _ _ | OMemRegReg _ _ | OMemRegScaled _ _
  | OMemRegOffReg _ _ _ | OMemRegRegScaled _ _ _ | OMemRegOffRegScaled _ _ _ _ => true
  | _ => false
  end.
Definition stores (i : instr) : bool :=
  match i with IMov d _ => memory_operand d | IPush _ | IFpush _ | ICall _ => true | _ => false end.

(** Where an instruction stores, if its text tells: a number of cells from the address in a
    register, or an address. *)
Inductive place := Absolute (a : Z) | Relative (r : reg) (o : Z).
Definition place_of (i : instr) : option place :=
  match i with
  | IPush _ | IFpush _ | ICall _ => Some (Relative SP (-1))
  | IMov (OMemImm a) _ => Some (Absolute a)
  | IMov (OMemReg r) _ => Some (Relative r 0)
  | IMov (OMemRegOff r o) _ => Some (Relative r o)
  | _ => None
  end.

(** By how much an instruction moves a register, if its text tells. *)
Definition moves (i : instr) (r : reg) : option Z :=
  match i, r with
  | _, PC => None
  | (IPush _ | IFpush _ | ICall _), SP => Some (-1)
  | (IPop _ | IFpop _ | IRet), SP => Some 1
  | (IPush _ | IFpush _ | ICall _ | IFpop _ | IRet), _ => Some 0
  | IPop d, _ => if reg_eqb d r then None else Some 0
  | IMov d _, _ => match d with OReg d => if reg_eqb d r then None else Some 0 | _ => Some 0 end
  | (ILea d _ | IGetchar d | INrw d _), _ => if reg_eqb d r then None else Some 0
  | IBin _ d _ _ _, _ => if reg_eqb d r || is_flags r then None else Some 0
  | (IUn _ d | ILoop d _), _ => if reg_eqb d r || is_flags r then None else Some 0
  | (IFBin _ _ _ | ICmp _ _ | IFcmp _ _ | IClf), _ => if is_flags r then None else Some 0
  | (INop | IHalt | IBreak | IBkpt | IJmp _ | IJcc _ _ | IPutchar _ | IPutnum _ | IExt _ _), _ => Some 0
  end.

(** Where the VM goes on fetching: at a jump whose destination is a constant, there. *)
Definition fetched_next (i : instr) (pc : Z) : Z :=
  match i with
  | IJmp (OImm a) | IJcc _ (OImm a) | ICall (OImm a) | ILoop _ (OImm a)
  | IJmp (OFImm a) | IJcc _ (OFImm a) | ICall (OFImm a) | ILoop _ (OFImm a) => u64 a
  | _ => u64 (pc + 1)
  end.
Definition fetched (p : list instr) (pc : Z) : instr := nth (Z.to_nat pc) p INop.

(** The places in which the [n] instructions fetched from [pc] store, relative to what the
    registers hold at the first of them; [d r] is by how much [r] has moved since. *)
Definition moved (d : reg -> option Z) (x : place) : option place :=
  match x with
  | Absolute a => Some (Absolute a)
  | Relative r o => match d r with Some k => Some (Relative r (o + k)) | None => None end
  end.
Definition plus (d e : reg -> option Z) (r : reg) : option Z :=
  match d r, e r with Some x, Some y => Some (x + y) | _, _ => None end.
Fixpoint places (p : list instr) (n : nat) (pc : Z) (d : reg -> option Z) : list (option place) :=
  match n with
  | O => []
  | S n' =>
      let i := fetched p pc in
      (if stores i then [match place_of i with Some x => moved d x | None => None end] else [])
      ++ places p n' (fetched_next i pc) (plus d (moves i))
  end.

(** Surely two addresses. *)
Definition differ (x y : option place) : bool :=
  match x, y with
  | Some (Absolute a), Some (Absolute b) => negb (a =? b)
  | Some (Relative r o), Some (Relative s o') => reg_eqb r s && negb (u64 (o - o') =? 0)
  | _, _ => false
  end.
Fixpoint all_differ (l : list (option place)) : bool :=
  match l with [] => true | x :: l' => forallb (differ x) l' && all_differ l' end.

Definition unmoved (r : reg) : option Z := match r with PC => None | _ => Some 0 end.

(** No [n] instructions that the VM may hold at a time store twice in one cell. In
    particular a program all whose stores are [n] instructions apart is spread. *)
Definition spread (p : list instr) (n : nat) : bool :=
  forallb (fun k => all_differ (places p n (Z.of_nat k) unmoved)) (seq 0 (length p)).

(** ---- shifts ---- *)

(** The manual leaves open what a shift by 64 or more gives, and the carry of a shift by 0.
    Here shifts are by constants for which it does not. *)
Definition settled (i : instr) : bool :=
  match i with
  | IBin (BLSH | BRSH) _ _ (OImm k) _ => (1 <=? k) && (k <? 64)
  | IBin (BLSH | BRSH) _ _ _ _ => false
  | _ => true
  end.
