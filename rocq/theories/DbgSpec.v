(** What a debugging session does to the sequential machine of IsaSpec.v: the
    independent specification of the debugging interface. Models no code. *)
From Coq Require Import ZArith NArith List Bool.
From Verif Require Import Base Alu Isa AluSpec State IsaSpec Exec Ram Writes Rat Cpu Os.
Import ListNotations.
Open Scope Z_scope.

(** A program and the state of the machine that runs it. *)
Definition dstate : Type := list instr * arch.

Definition replace (p : list instr) (i : nat) (ins : instr) : list instr :=
  firstn i p ++ ins :: skipn (S i) p.

(** Commands that change neither the program nor the machine's state. *)
Definition looks (k : cmd) : Prop :=
  match k with
  | CReason | CPeekText _ _ | CPeekData _ _ | CPeekRegs | CPeekFloatRegs | CPeekDebugRegs
  | CPokeDebugRegs _ _ | CRegCount | CTextSize | CDataSize | CUnknown => True
  | _ => False
  end.

(** The others, except those that make the machine run. *)
Inductive pokes : cmd -> dstate -> dstate -> Prop :=
| pk_text : forall p S i ins, 0 <= i < Z.of_nat (length p) ->
    pokes (CPokeText i ins) (p, S) (replace p (Z.to_nat i) ins, S)
| pk_data : forall p S a v, a_mem S a <> None -> pokes (CPokeData a v) (p, S) (p, store S a v)
| pk_pc : forall p S v, pokes (CPokeRegs PC v) (p, S) (p, jump S v)
| pk_reg : forall p S r v, r <> PC -> pokes (CPokeRegs r v) (p, S) (p, put S (LR r) v)
| pk_freg : forall p S n v, pokes (CPokeFloatRegs n v) (p, S) (p, put S (LF n) v).

(** A session: the commands given, the number of instructions executed. SINGLESTEP
    executes one instruction, CONTINUE (and TERMINATE, which lets the machine go on
    when it is given before the first instruction) any number. *)
Inductive debug_run (F : fops) : list cmd -> nat -> dstate -> dstate -> Prop :=
| dr_nil : forall s, debug_run F [] 0 s s
| dr_look : forall k ks n s s', looks k -> debug_run F ks n s s' -> debug_run F (k :: ks) n s s'
| dr_poke : forall k ks n s s1 s', pokes k s s1 -> debug_run F ks n s1 s' -> debug_run F (k :: ks) n s s'
| dr_step : forall ks n p S S1 s', isa_run F p 1 S S1 -> debug_run F ks n (p, S1) s' ->
    debug_run F (CSingleStep :: ks) (1 + n) (p, S) s'
| dr_cont : forall k ks m n p S S1 s', k = CContinue \/ k = CTerminate -> isa_run F p m S S1 ->
    debug_run F ks n (p, S1) s' -> debug_run F (k :: ks) (m + n) (p, S) s'.

(** The machine shows the state [S]: every register that exists, the program
    counter, every memory cell, what was printed and how much input is left. *)
Record shows (c : cpu) (S : arch) : Prop := mkShows {
  sh_reg : forall l, lreg_ok (c_cfg c) l = true -> l <> LR PC -> get_lreg c l = Some (a_reg S l);
  sh_pc : exists v, get_lreg c (LR PC) = Some v /\ address v = a_pc S;
  sh_mem : forall a, ram_get (c_ram c) a = a_mem S a;
  sh_out : c_out c = a_out S;
  sh_in : c_in c = a_in S;
  sh_halted : c_halted c = a_halted S
}.

(** Two machines that show the same; they may have different numbers of
    registers, then those are compared that exist in both. *)
Record look_alike (c1 c2 : cpu) : Prop := mkLookAlike {
  la_reg : forall l, lreg_ok (c_cfg c1) l = true -> lreg_ok (c_cfg c2) l = true -> l <> LR PC ->
             get_lreg c1 l = get_lreg c2 l /\ get_lreg c1 l <> None;
  la_pc : exists v1 v2, get_lreg c1 (LR PC) = Some v1 /\ get_lreg c2 (LR PC) = Some v2 /\ address v1 = address v2;
  la_mem : forall a, ram_get (c_ram c1) a = ram_get (c_ram c2) a;
  la_out : c_out c1 = c_out c2;
  la_in : c_in c1 = c_in c2;
  la_halted : c_halted c1 = c_halted c2
}.

(** Values a command can carry in C++: int64_t data, 64-bit patterns of doubles,
    and instructions with such immediates. *)
Definition typed_cmd (k : cmd) : Prop :=
  match k with
  | CPokeText _ ins => typed_instr ins
  | CPokeData _ v | CPokeFloatRegs _ v | CPokeRegs _ v => fits v
  | _ => True
  end.

(** No store to the cell [a] and no load of it is still on its way to memory. *)
Definition quiet (c : cpu) (a : Z) : Prop :=
  mws_vec (wm_get (c_wm c) a) = [] /\ aget (ram_reads (c_ram c)) a = None.

(** What a command must respect for the VM to stay a T86 machine: an ordinary
    instruction with IP as destination must not be written into the program, and
    memory may be changed only where no access is on its way. *)
Definition polite (k : cmd) (c : cpu) : Prop :=
  match k with
  | CPokeText _ ins => keeps_ip ins
  | CPokeData a _ => quiet c a
  | _ => True
  end.

Definition polite_event (x : event) (h : host) : Prop :=
  match x, h with ECmd k, At _ c => polite k c | _, _ => True end.

(** A session of polite commands: [xs] leads from [h] to [h']. *)
Inductive psession (E : env) (G : cfg) (dbg : bool) : list event -> host -> host -> Prop :=
| ps_nil : forall h, psession E G dbg [] h h
| ps_cons : forall x xs h h1 h2, polite_event x h -> os_event E G dbg x h = Some (Ok h1) ->
    psession E G dbg xs h1 h2 -> psession E G dbg (x :: xs) h h2.

(** The commands of a session. *)
Fixpoint cmds (xs : list event) : list cmd :=
  match xs with [] => [] | ECmd k :: xs' => k :: cmds xs' | ETick :: xs' => cmds xs' end.

(** Commands that only look or make the machine run. *)
Definition runs_only (k : cmd) : Prop := looks k \/ k = CSingleStep \/ k = CContinue.
Definition steps_only (k : cmd) : Prop := looks k \/ k = CSingleStep.

Fixpoint single_steps (ks : list cmd) : nat :=
  match ks with [] => 0 | CSingleStep :: ks' => S (single_steps ks') | _ :: ks' => single_steps ks' end.

(** The VM [c0] has just been started on the program [p] with the given .data
    section and standard input; only jumps of [p] write the program counter. *)
Record started (E : env) (g : cfg) (p : list instr) (data input : list Z) (c0 : cpu) : Prop := mkStarted {
  st_ip : Forall keeps_ip p;
  st_typed : typed (e_fops E) p (g_ram g) data input;
  st_boot : boot g p data input = Ok c0
}.

(** ---- stops ---- *)

(** The cell an instruction writes in state [S]. *)
Inductive writes_cell (S : arch) : instr -> Z -> Prop :=
| wc_mov : forall d v z, inside S d z -> writes_cell S (IMov d v) (address z)
| wc_call : forall a, writes_cell S (ICall a) (address (a_reg S (LR SP) - 1))
| wc_push : forall v, writes_cell S (IPush v) (address (a_reg S (LR SP) - 1))
| wc_fpush : forall v, writes_cell S (IFpush v) (address (a_reg S (LR SP) - 1)).

(** Debug register [i] (0 to 3) is enabled by bit [i] of the control register, which
    is debug register 4, and holds the address [a]. *)
Definition watches (d : list Z) (i : nat) (a : Z) : Prop :=
  (i < 4)%nat /\ Z.testbit (nth 4 d 0) (Z.of_nat i) = true /\ nth i d 0 = a.

(** What the instruction at the program counter gives cause to stop for. *)
Inductive noticed (d : list Z) (p : list instr) (S : arch) : reason -> Prop :=
| nt_halt : instr_at p (a_pc S) = IHalt -> noticed d p S RHalted
| nt_bkpt : instr_at p (a_pc S) = IBkpt -> noticed d p S RSwBkpt
| nt_watch : forall i a, writes_cell S (instr_at p (a_pc S)) a -> watches d i a -> noticed d p S RHwBkpt.

(** [n] instructions none of which gives cause to stop. *)
Inductive calm_run (F : fops) (d : list Z) (p : list instr) : nat -> arch -> arch -> Prop :=
| calm_done : forall S, calm_run F d p 0 S S
| calm_more : forall n S T U, (forall r, ~ noticed d p S r) -> isa_step F p S T ->
    calm_run F d p n T U -> calm_run F d p (Datatypes.S n) S U.

(** The debug registers after a watchpoint was hit by a write to [a]: bits 8 to 15
    of the control register name a register that watches [a], all else is kept. *)
Definition recorded (d d' : list Z) (a : Z) : Prop :=
  exists i, watches d i a /\ (forall j, (j < 4)%nat -> nth j d' 0 = nth j d 0) /\ length d' = length d /\
    forall k, 0 <= k -> Z.testbit (nth 4 d' 0) k =
      if (8 <=? k) && (k <? 16) then (k - 8 =? Z.of_nat i) else Z.testbit (nth 4 d 0) k.

(** What it means that the machine, running from [S], stops in [S'] and reports [r]:
    the last instruction executed gave cause for [r] or was the only one to be
    executed ([t]), and no earlier one gave cause to stop. [d] and [d'] are the
    debug registers before and after. *)
Record stop_means (F : fops) (d d' : list Z) (p : list instr) (t : bool) (S S' : arch) (r : reason) : Prop := mkStopMeans {
  sm_last : exists n S1, calm_run F d p n S S1 /\ isa_step F p S1 S' /\ (t = true -> n = 0%nat) /\
    (noticed d p S1 r \/ (r = RSingle /\ t = true /\ forall q, ~ noticed d p S1 q)) /\
    (r = RHwBkpt -> exists a, writes_cell S1 (instr_at p (a_pc S1)) a /\ recorded d d' a);
  sm_dbg : r <> RHwBkpt -> d' = d
}.
