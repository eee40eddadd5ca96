(** Model of the VM's run loop (src/t86/os.cpp) and of the debugging interface
    (src/t86/debug.cpp), with commands and replies as data. The text of the
    messages is modelled in DbgText.v. *)
From Coq Require Import ZArith NArith List Bool.
From Verif Require Import Base Alu Isa Exec Ram Writes Rat Cpu.
Import ListNotations.
Open Scope Z_scope.

(** debug.h:21-28 BreakReason *)
Inductive reason : Set := RBegin | RSwBkpt | RHwBkpt | RSingle | RHalted | RCpuError.

(** The commands of debug.cpp:124-209. Numbers are as delivered by svtoidx,
    svtoi64, svtonum. *)
Inductive cmd : Type :=
| CReason | CContinue
| CPeekText (i : Z) (n : nat) | CPokeText (i : Z) (ins : instr)
| CPeekData (i : Z) (n : nat) | CPokeData (i v : Z)
| CPeekRegs | CPeekFloatRegs | CPeekDebugRegs
| CPokeDebugRegs (i v : Z) | CPokeFloatRegs (n : N) (v : Z) | CPokeRegs (r : reg) (v : Z)
| CSingleStep | CRegCount | CTextSize | CDataSize | CTerminate | CUnknown.

Inductive reply : Type :=
| AReason (r : reason) | AOk
| AText (l : list instr) | AData (l : list Z)
| ARegs (l : list (lreg * Z)) | ADebugRegs (l : list Z)
| ARegCount (n : nat) | ATextSize (n : nat) | ADataSize (n : nat)
| AUnknown.

(** What the loop in Work does after a command: wait for the next one, resume the
    machine, or end it (return false). *)
Inductive after : Set := Stay | Resume | Quit.

Definition range (i : Z) (n : nat) : list Z := map (fun k => i + Z.of_nat k) (seq 0 n).

Fixpoint collect {A B} (f : A -> option B) (l : list A) : option (list B) :=
  match l with
  | [] => Some []
  | a :: l' => match f a, collect f l' with Some b, Some bs => Some (b :: bs) | _, _ => None end
  end.

(** 81-91 RegistersToString: IP, BP, SP and the general registers; FLAGS is not
    among them. 71-79 FloatRegistersToString. *)
Definition reg_list (g : cfg) : list lreg :=
  [LR PC; LR BP; LR SP] ++ map (fun k => LR (R (N.of_nat k))) (seq 0 (g_reg g)).
Definition freg_list (g : cfg) : list lreg := map (fun k => LF (N.of_nat k)) (seq 0 (g_freg g)).

Definition show_regs (c : cpu) (l : list lreg) : option (list (lreg * Z)) :=
  collect (fun r => option_map (pair r) (get_lreg c r)) l.

(** cpu.cpp:144-150 setRegisterDebug *)
Definition poke_reg (c : cpu) (r : reg) (v : Z) : res cpu cpu :=
  let! c' := set_lreg c (LR r) v in
  Ok (match r with PC => set_spec c' (u64 v) | _ => c' end).

(** cpu.cpp:230-232 setText *)
Definition poke_text (c : cpu) (i : Z) (ins : instr) : res cpu cpu :=
  if (0 <=? i) && (i <? Z.of_nat (length (c_prog c)))
  then Ok (set_prog c (set_nth (c_prog c) (Z.to_nat i) ins))
  else Throw ETextRange c.

(** cpu.cpp:222-224 setMemory *)
Definition poke_data (c : cpu) (i v : Z) : res cpu cpu :=
  match ram_set (c_ram c) i v with
  | None => Throw EMemRange c
  | Some r => Ok (set_mem c r (c_wm c))
  end.

(** cpu.h:227-229 setDebugRegister *)
Definition poke_dbg (c : cpu) (i v : Z) : res cpu cpu :=
  if (0 <=? i) && (i <? Z.of_nat (length (c_dbg c)))
  then Ok (set_dbg c (set_nth (c_dbg c) (Z.to_nat i) v) (c_int c))
  else Throw ECommand c.

(** debug.cpp:124-209, one round of the loop. [regcount] and [datasize] are
    answered from Cpu::Config, not from the machine itself; [G] is that
    configuration. *)
Definition do_cmd (G : cfg) (r : reason) (k : cmd) (c : cpu) : res cpu (reply * cpu * after) :=
  match k with
  | CReason => Ok (AReason r, c, Stay)
  | CContinue => Ok (AOk, c, Resume)
  | CPeekText i n => Ok (AText (map (prog_at (c_prog c)) (range i n)), c, Stay)
  | CPokeText i ins => let! c' := poke_text c i ins in Ok (AOk, c', Stay)
  | CPeekData i n =>
      match collect (ram_get (c_ram c)) (range i n) with
      | Some l => Ok (AData l, c, Stay)
      | None => Throw EMemRange c
      end
  | CPokeData i v => let! c' := poke_data c i v in Ok (AOk, c', Stay)
  | CPeekRegs =>
      match show_regs c (reg_list (c_cfg c)) with
      | Some l => Ok (ARegs l, c, Stay)
      | None => Throw ERegRange c
      end
  | CPeekFloatRegs =>
      match show_regs c (freg_list (c_cfg c)) with
      | Some l => Ok (ARegs l, c, Stay)
      | None => Throw ERegRange c
      end
  | CPeekDebugRegs => Ok (ADebugRegs (c_dbg c), c, Stay)
  | CPokeDebugRegs i v => let! c' := poke_dbg c i v in Ok (AOk, c', Stay)
  | CPokeFloatRegs n v => let! c' := set_lreg c (LF n) v in Ok (AOk, c', Stay)
  | CPokeRegs rg v => let! c' := poke_reg c rg v in Ok (AOk, c', Stay)
  | CSingleStep => Ok (AOk, set_trap c true, Resume)
  | CRegCount => Ok (ARegCount (g_reg G), c, Stay)
  | CTextSize => Ok (ATextSize (length (c_prog c)), c, Stay)
  | CDataSize => Ok (ADataSize (g_ram G), c, Stay)
  | CTerminate => Ok (AOk, c, Quit)
  | CUnknown => Ok (AUnknown, c, Stay)
  end.

(** os.cpp:28-56 as a state machine. [At r c]: inside Work, waiting for a command;
    [Going stop c]: about to tick, with the value of the member [stop];
    [Ended ok c]: Run returned [ok]. An exception that leaves Run (a command that
    cannot be carried out, 125-206) is a [Throw]. *)
Inductive host : Type := At (r : reason) (c : cpu) | Going (stop : bool) (c : cpu) | Ended (ok : bool) (c : cpu).

(** debug.cpp:105-111 beginning of Work *)
Definition enter (r : reason) (c : cpu) : host :=
  At r (match r with RSingle => set_trap c false | _ => c end).

(** os.cpp:10-26 DispatchInterrupt *)
Definition reason_of (n : Z) : option reason :=
  if n =? 3 then Some RSwBkpt else if n =? 2 then Some RHwBkpt else if n =? 1 then Some RSingle else None.

(** os.cpp:28-30. [dbg]: a debugger is attached (debug_interface has a value). *)
Definition os_start (dbg : bool) (c : cpu) : host := if dbg then enter RBegin c else Going false c.

(** os.cpp:33-54, one round of the loop up to the point where the debugger is asked *)
Definition os_tick (E : env) (dbg stop : bool) (c : cpu) : res cpu host :=
  match tick E c with
  | Undef w => Undef w
  | Throw e c' => Ok (if dbg then enter RCpuError c' else Ended false c')
  | Ok c' =>
      if c_halted c' then Ok (if dbg then enter RHalted c' else Ended true c')
      else if 0 <? c_int c' then
        match reason_of (c_int c') with
        | None => Throw ECommand c'
        | Some r => Ok (if dbg then enter r c' else if stop then Ended true c' else Going false c')
        end
      else Ok (if stop then Ended true c' else Going false c')
  end.

(** What follows when Work returns: os.cpp:30 (Begin), 37-38, 42-43, 48-54 *)
Definition leave (r : reason) (quit : bool) (c : cpu) : host :=
  match r with
  | RBegin => Going quit c
  | RHalted => Ended true c
  | RCpuError => Ended false c
  | _ => if quit then Ended true c else Going false c
  end.

Definition os_cmd (G : cfg) (k : cmd) (r : reason) (c : cpu) : res cpu (reply * host) :=
  let! (a, c', n) := do_cmd G r k c in
  Ok (a, match n with Stay => At r c' | Resume => leave r false c' | Quit => leave r true c' end).

(** debug.cpp:105-213: Work as a whole on the commands [ks] that arrive. Returns
    what it sent after "STOPPED", the commands it did not read, and whether it
    returned true; [None] in the last place means it is still waiting. *)
Fixpoint work (G : cfg) (r : reason) (ks : list cmd) (c : cpu)
  : res cpu (list reply * list cmd * cpu * option bool) :=
  match ks with
  | [] => Ok ([], [], c, None)
  | k :: ks' =>
      let! (a, c', n) := do_cmd G r k c in
      match n with
      | Resume => Ok ([a], ks', c', Some true)
      | Quit => Ok ([a], ks', c', Some false)
      | Stay => let! (l, rest, c2, b) := work G r ks' c' in Ok (a :: l, rest, c2, b)
      end
  end.

(** An event of a session: the machine ticks, or a command is served. *)
Inductive event : Type := ETick | ECmd (k : cmd).

Definition os_event (E : env) (G : cfg) (dbg : bool) (x : event) (h : host) : option (res cpu host) :=
  match x, h with
  | ETick, Going stop c => Some (os_tick E dbg stop c)
  | ECmd k, At r c => Some (match os_cmd G k r c with
                            | Ok (_, h') => Ok h' | Throw e s => Throw e s | Undef w => Undef w end)
  | _, _ => None
  end.

Inductive session (E : env) (G : cfg) (dbg : bool) : list event -> host -> host -> Prop :=
| se_nil : forall h, session E G dbg [] h h
| se_cons : forall x xs h h1 h2, os_event E G dbg x h = Some (Ok h1) ->
    session E G dbg xs h1 h2 -> session E G dbg (x :: xs) h h2.

(** The same as a function: [None] when an event does not fit the state. *)
Fixpoint play (E : env) (G : cfg) (dbg : bool) (xs : list event) (h : host) : option (res cpu host) :=
  match xs with
  | [] => Some (Ok h)
  | x :: xs' =>
      match os_event E G dbg x h with
      | Some (Ok h1) => play E G dbg xs' h1
      | r => r
      end
  end.
