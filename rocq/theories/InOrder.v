(** The in-order reading of the instruction bodies of Exec.v: one instruction at
    a time on an architectural state. This is the intermediate machine between
    the out-of-order model (Cpu.v) and the independent specification (IsaSpec.v).
    It models no code of its own. *)
From Coq Require Import ZArith NArith List Bool.
From Verif Require Import Base Alu Isa Exec Ram Cpu.
Import ListNotations.
Open Scope Z_scope.

(** Reading a register: the program counter reads as the next address. *)
Definition rd (S : arch) (l : lreg) : Z :=
  match l with LR PC => s64 (u64 (a_pc S + 1)) | _ => a_reg S l end.

(** Value of an operand; the flag says that a load was out of range (the
    machine then goes on with -1 and raises the fault when it retires). *)
Fixpoint ev (n : nat) (E : env) (S : arch) (o : operand) : option (Z * bool) :=
  match n with
  | O => None
  | S n' =>
      match requirement o with
      | None => match op_val o with Some v => Some (v, false) | None => None end
      | Some (NReg r) =>
          match supply (e_mode E) o (rd S (LR r)) with Ok o' => ev n' E S o' | _ => None end
      | Some (NFReg k) =>
          match supply (e_mode E) o (rd S (LF k)) with Ok o' => ev n' E S o' | _ => None end
      | Some (NMem a) =>
          match a_mem S a with
          | Some v => match supply (e_mode E) o v with Ok o' => ev n' E S o' | _ => None end
          | None => match supply (e_mode E) o (-1) with
                    | Ok o' => match ev n' E S o' with Some (v, _) => Some (v, true) | None => None end
                    | _ => None
                    end
          end
      end
  end.

Fixpoint evs (E : env) (S : arch) (os : list operand) : option (list Z * bool) :=
  match os with
  | [] => Some ([], false)
  | o :: os' =>
      match ev 4 E S o, evs E S os' with
      | Some (v, b), Some (vs, b') => Some (v :: vs, b || b')
      | _, _ => None
      end
  end.

(** Last value the actions give to a register. *)
Fixpoint last_set (l : lreg) (acts : list act) : option Z :=
  match acts with
  | [] => None
  | ASet k v :: acts' =>
      match last_set l acts' with
      | Some w => Some w
      | None => if lreg_eqb l k then Some v else None
      end
  | _ :: acts' => last_set l acts'
  end.

Fixpoint act_val (acts : list act) : option Z :=
  match acts with
  | [] => None
  | AVal v :: _ => Some v
  | _ :: acts' => act_val acts'
  end.

Fixpoint act_addr (acts : list act) : option Z :=
  match acts with
  | [] => None
  | AAddr v :: _ => Some v
  | _ :: acts' => act_addr acts'
  end.

Fixpoint act_ops (acts : list act) : list operand :=
  match acts with
  | [] => []
  | AOp v :: acts' => OImm v :: act_ops acts'
  | _ :: acts' => act_ops acts'
  end.

(** The memory cell an instruction writes, if any. *)
Definition store_of (i : instr) (acts : list act) : option (Z * Z) :=
  match act_val acts with
  | None => None
  | Some v =>
      match act_addr acts with
      | Some a => Some (a, v)
      | None => match i with IMov (OMemImm a) _ => Some (a, v) | _ => None end
      end
  end.

(** Effect of the actions and of retirement. *)
Definition late_reg (i : instr) (S : arch) (l : lreg) : option Z :=
  match i with
  | IClf => if lreg_eqb l (LR Flags) then Some (flags_to_word (mkFlags false false false false)) else None
  | IGetchar r =>
      if lreg_eqb l (LR r) then option_map fst (get_char (a_in S)) else None
  | _ => None
  end.

Definition out_of (i : instr) (vs : list Z) : list outev :=
  match i, vs with
  | IPutchar _, v :: _ => [OutChar (char_of v)]
  | IPutnum _, v :: _ => [OutNum (int_of v)]
  | _, _ => []
  end.

Definition in_after (i : instr) (inp : list Z) : list Z :=
  match i with
  | IGetchar _ => match get_char inp with Some (_, rest) => rest | None => inp end
  | _ => inp
  end.

Definition is_halt (i : instr) : bool := match i with IHalt => true | _ => false end.

Definition commit (i : instr) (vs : list Z) (acts : list act) (S : arch) : arch :=
  mkArch
    (match last_set (LR PC) acts with Some v => u64 v | None => u64 (a_pc S + 1) end)
    (fun l => match late_reg i S l with
              | Some v => v
              | None => match last_set l acts with Some v => v | None => a_reg S l end
              end)
    (match store_of i acts with Some (a, v) => mupd (a_mem S) a v | None => a_mem S end)
    (a_out S ++ out_of i vs)
    (in_after i (a_in S))
    (a_halted S || is_halt i).

(** Total version of one instruction: when the instruction has no meaning (an
    undefined operation) only the program counter moves. *)
Definition eff (E : env) (i : instr) (S : arch) : arch :=
  match operands i with
  | Some os =>
      match evs E S os with
      | Some (vs, _) =>
          match exec_acts E i vs with
          | Ok acts => commit i vs acts S
          | _ => set_pc S (u64 (a_pc S + 1))
          end
      | None => set_pc S (u64 (a_pc S + 1))
      end
  | None => set_pc S (u64 (a_pc S + 1))
  end.

(** One step of the in-order machine: operands evaluate without fault, the
    operation is defined, and the written cell exists. *)
Inductive io_step (E : env) (p : list instr) (S : arch) : arch -> Prop :=
| io_intro : forall os vs acts,
    a_halted S = false ->
    operands (prog_at p (a_pc S)) = Some os ->
    evs E S os = Some (vs, false) ->
    exec_acts E (prog_at p (a_pc S)) vs = Ok acts ->
    (forall a v, store_of (prog_at p (a_pc S)) acts = Some (a, v) -> a_mem S a <> None) ->
    (forall r, prog_at p (a_pc S) = IGetchar r -> get_char (a_in S) <> None) ->
    io_step E p S (commit (prog_at p (a_pc S)) vs acts S).

Inductive io_steps (E : env) (p : list instr) : nat -> arch -> arch -> Prop :=
| ios_refl : forall S, io_steps E p 0 S S
| ios_step : forall n S S' S'', io_step E p S S' -> io_steps E p n S' S'' -> io_steps E p (Datatypes.S n) S S''.

(** Branch prediction (naive_branch_predictor.cpp:3-12, cpu.cpp:74-85): where
    the machine goes on fetching after the instruction [i] at [pc]. *)
Definition guess (i : instr) (pc : Z) : Z :=
  match jump_dest i with Some d => next_guess pc d | None => u64 (pc + 1) end.

(** Speculative state: the effect, but continuing at the predicted address. *)
Definition spec_step (E : env) (i : instr) (S : arch) : arch :=
  set_pc (eff E i S) (guess i (a_pc S)).

(** Programs whose only writers of the program counter are jumps
    (the check of Instruction::validate, instruction.cpp:181-185, 257-261, 329-336, 541-545). *)
Definition pc_ok (i : instr) : Prop :=
  jump_dest i = None ->
  match produces i with Some ps => ~ In (PReg (LR PC)) ps | None => True end.

Definition valid_prog (p : list instr) : Prop := Forall pc_ok p.
