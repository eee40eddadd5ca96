(** Model of the out-of-order machine: src/t86/cpu.cpp, cpu.h and
    src/t86/cpu/reservation_station.{h,cpp}, clock tick by clock tick.
    Left out: log output and the StatsLogger calls (for these see Stats.v). *)
From Coq Require Import ZArith NArith List Bool.
From Verif Require Import Base Alu Isa Exec Ram Writes Rat.
Import ListNotations.
Open Scope Z_scope.

(** reservation_station.h:66-68 *)
Inductive estate : Set := Preparing | Ready | Executing | Retiring.

(** reservation_station.h:53-176 class Entry. The only exception readMemory can
    catch is std::out_of_range from mem_.at, so [memoryAccessException_] is a flag. *)
Record entry : Type := mkEntry {
  e_ins : instr;
  e_ops : list operand;
  e_rrat : rat;           (* readRat_ *)
  e_wrat : rat;           (* writeRat_ *)
  e_wids : list Z;        (* memWriteIds_ *)
  e_maxid : Z;            (* maxWriteId_ *)
  e_state : estate;
  e_time : nat;           (* remainingExecutionTime_ *)
  e_exn : bool
}.

(** Constructor parameters of Cpu, cpu.cpp:115-116 *)
Record cfg : Type := mkCfg {
  g_reg : nat; g_freg : nat; g_alus : nat; g_rs : nat; g_ram : nat; g_gates : nat
}.

(** cpu.h:251-311. An instruction in flight is held by value instead of by pointer
    into the program: the program text changes only while the pipeline is empty. *)
Record cpu : Type := mkCpu {
  c_cfg : cfg;
  c_prog : list instr;
  c_spec : Z;                        (* speculativeProgramCounter_ *)
  c_fetch : option (instr * Z);      (* instructionFetch_: instruction, pc *)
  c_decode : option (instr * Z);     (* instructionDecode_ *)
  c_regs : pfile;                    (* registers_ *)
  c_rs : list entry;                 (* reservationStation_.entries_ *)
  c_alus : nat;                      (* reservationStation_.freeAlus_ *)
  c_rat : rat;
  c_ram : ram;
  c_wm : wman;
  c_pred : list Z;                   (* predictions_ *)
  c_halted : bool;
  c_single : bool;                   (* single_stepped_ *)
  c_int : Z;                         (* interrupted_ *)
  c_trap : bool;                     (* trapFlag_ *)
  c_dbg : list Z;                    (* debug_registers_ *)
  c_out : list outev;
  c_in : list Z
}.

Definition set_regs (c : cpu) x := mkCpu (c_cfg c) (c_prog c) (c_spec c) (c_fetch c) (c_decode c) x
  (c_rs c) (c_alus c) (c_rat c) (c_ram c) (c_wm c) (c_pred c) (c_halted c) (c_single c) (c_int c)
  (c_trap c) (c_dbg c) (c_out c) (c_in c).
Definition set_rat (c : cpu) f x := mkCpu (c_cfg c) (c_prog c) (c_spec c) (c_fetch c) (c_decode c) f
  (c_rs c) (c_alus c) x (c_ram c) (c_wm c) (c_pred c) (c_halted c) (c_single c) (c_int c)
  (c_trap c) (c_dbg c) (c_out c) (c_in c).
Definition set_wm (c : cpu) x := mkCpu (c_cfg c) (c_prog c) (c_spec c) (c_fetch c) (c_decode c) (c_regs c)
  (c_rs c) (c_alus c) (c_rat c) (c_ram c) x (c_pred c) (c_halted c) (c_single c) (c_int c)
  (c_trap c) (c_dbg c) (c_out c) (c_in c).
Definition set_mem (c : cpu) r x := mkCpu (c_cfg c) (c_prog c) (c_spec c) (c_fetch c) (c_decode c) (c_regs c)
  (c_rs c) (c_alus c) (c_rat c) r x (c_pred c) (c_halted c) (c_single c) (c_int c)
  (c_trap c) (c_dbg c) (c_out c) (c_in c).
Definition set_rs (c : cpu) x := mkCpu (c_cfg c) (c_prog c) (c_spec c) (c_fetch c) (c_decode c) (c_regs c)
  x (c_alus c) (c_rat c) (c_ram c) (c_wm c) (c_pred c) (c_halted c) (c_single c) (c_int c)
  (c_trap c) (c_dbg c) (c_out c) (c_in c).
Definition set_pred (c : cpu) x := mkCpu (c_cfg c) (c_prog c) (c_spec c) (c_fetch c) (c_decode c) (c_regs c)
  (c_rs c) (c_alus c) (c_rat c) (c_ram c) (c_wm c) x (c_halted c) (c_single c) (c_int c)
  (c_trap c) (c_dbg c) (c_out c) (c_in c).
Definition set_halted (c : cpu) x := mkCpu (c_cfg c) (c_prog c) (c_spec c) (c_fetch c) (c_decode c) (c_regs c)
  (c_rs c) (c_alus c) (c_rat c) (c_ram c) (c_wm c) (c_pred c) x (c_single c) (c_int c)
  (c_trap c) (c_dbg c) (c_out c) (c_in c).
Definition set_stop (c : cpu) single int := mkCpu (c_cfg c) (c_prog c) (c_spec c) (c_fetch c) (c_decode c)
  (c_regs c) (c_rs c) (c_alus c) (c_rat c) (c_ram c) (c_wm c) (c_pred c) (c_halted c) single int
  (c_trap c) (c_dbg c) (c_out c) (c_in c).
Definition set_trap (c : cpu) x := mkCpu (c_cfg c) (c_prog c) (c_spec c) (c_fetch c) (c_decode c) (c_regs c)
  (c_rs c) (c_alus c) (c_rat c) (c_ram c) (c_wm c) (c_pred c) (c_halted c) (c_single c) (c_int c)
  x (c_dbg c) (c_out c) (c_in c).
Definition set_dbg (c : cpu) x int := mkCpu (c_cfg c) (c_prog c) (c_spec c) (c_fetch c) (c_decode c) (c_regs c)
  (c_rs c) (c_alus c) (c_rat c) (c_ram c) (c_wm c) (c_pred c) (c_halted c) (c_single c) int
  (c_trap c) x (c_out c) (c_in c).
Definition set_out (c : cpu) x := mkCpu (c_cfg c) (c_prog c) (c_spec c) (c_fetch c) (c_decode c) (c_regs c)
  (c_rs c) (c_alus c) (c_rat c) (c_ram c) (c_wm c) (c_pred c) (c_halted c) (c_single c) (c_int c)
  (c_trap c) (c_dbg c) x (c_in c).
Definition set_in (c : cpu) f x := mkCpu (c_cfg c) (c_prog c) (c_spec c) (c_fetch c) (c_decode c) f
  (c_rs c) (c_alus c) (c_rat c) (c_ram c) (c_wm c) (c_pred c) (c_halted c) (c_single c) (c_int c)
  (c_trap c) (c_dbg c) (c_out c) x.
Definition set_front (c : cpu) spec fe de pr := mkCpu (c_cfg c) (c_prog c) spec fe de (c_regs c)
  (c_rs c) (c_alus c) (c_rat c) (c_ram c) (c_wm c) pr (c_halted c) (c_single c) (c_int c)
  (c_trap c) (c_dbg c) (c_out c) (c_in c).
Definition set_spec (c : cpu) spec := mkCpu (c_cfg c) (c_prog c) spec (c_fetch c) (c_decode c) (c_regs c)
  (c_rs c) (c_alus c) (c_rat c) (c_ram c) (c_wm c) (c_pred c) (c_halted c) (c_single c) (c_int c)
  (c_trap c) (c_dbg c) (c_out c) (c_in c).
Definition set_prog (c : cpu) p := mkCpu (c_cfg c) p (c_spec c) (c_fetch c) (c_decode c) (c_regs c)
  (c_rs c) (c_alus c) (c_rat c) (c_ram c) (c_wm c) (c_pred c) (c_halted c) (c_single c) (c_int c)
  (c_trap c) (c_dbg c) (c_out c) (c_in c).

(** State reached by the parts of tick that only touch the given components. *)
Definition set_exec (c : cpu) f w es alus := mkCpu (c_cfg c) (c_prog c) (c_spec c) (c_fetch c) (c_decode c) f
  es alus (c_rat c) (c_ram c) w (c_pred c) (c_halted c) (c_single c) (c_int c)
  (c_trap c) (c_dbg c) (c_out c) (c_in c).
Definition set_polled (c : cpu) r es alus := mkCpu (c_cfg c) (c_prog c) (c_spec c) (c_fetch c) (c_decode c) (c_regs c)
  es alus (c_rat c) r (c_wm c) (c_pred c) (c_halted c) (c_single c) (c_int c)
  (c_trap c) (c_dbg c) (c_out c) (c_in c).

(** Lifts the outcome of an operation that does not change the visible state. *)
Definition lift {S A} (c : S) (r : res unit A) : res S A :=
  match r with Ok a => Ok a | Throw e _ => Throw e c | Undef w => Undef w end.

Definition opt {S A} (w : ub) (o : option A) : res S A :=
  match o with Some a => Ok a | None => Undef w end.

(** ---- Executing (reservation_station.cpp:11-22, 270-284) ---- *)

Fixpoint op_vals (os : list operand) : option (list Z) :=
  match os with
  | [] => Some []
  | o :: os' => match op_val o, op_vals os' with
                | Some v, Some vs => Some (v :: vs)
                | _, _ => None
                end
  end.

Definition is_pc (l : lreg) : bool := match l with LR PC => true | _ => false end.
Definition is_lr (l : lreg) : bool := match l with LR _ => true | LF _ => false end.

(** 215-222 Entry::setRegister (with its assert), Entry::setFloatRegister *)
Definition entry_set (f : pfile) (t : rat) (l : lreg) (v : Z) : res unit pfile :=
  match rget t l with
  | None => Throw ERegRange tt
  | Some p =>
      match nth_error f p with
      | None => Throw ERegRange tt
      | Some r =>
          if is_lr l && negb (is_pc l) && p_ready r then Undef UAssert
          else Ok (set_nth f p (mkPreg v true (p_subs r)))
      end
  end.

Definition set_ops (e : entry) ops st time exn :=
  mkEntry (e_ins e) ops (e_rrat e) (e_wrat e) (e_wids e) (e_maxid e) st time exn.

(** One call made by Instruction::execute. 357-363 specifyWriteAddress, setWriteValue. *)
Definition do_act (e : entry) (a : act) (s : pfile * wman * list operand)
  : res unit (pfile * wman * list operand) :=
  let '(f, w, ops) := s in
  match a with
  | ASet l v => let! f' := entry_set f (e_wrat e) l v in Ok (f', w, ops)
  | AAddr a =>
      match e_wids e with
      | [id] => let! w' := wm_specify w id a in Ok (f, w', ops)
      | _ => Undef UAssert
      end
  | AVal v =>
      match e_wids e with
      | [id] => let! w' := wm_set_value w id v in Ok (f, w', ops)
      | _ => Undef UAssert
      end
  | AOp v => Ok (f, w, ops ++ [OImm v])
  end.

Fixpoint do_acts (e : entry) (l : list act) (s : pfile * wman * list operand) :=
  match l with
  | [] => Ok s
  | a :: l' => let! s' := do_act e a s in do_acts e l' s'
  end.

(** 270-284 Entry::executionTick and the loop body 14-21. *)
Definition exec_entry (E : env) (f : pfile) (w : wman) (alus : nat) (e : entry)
  : res unit (pfile * wman * nat * entry) :=
  match e_state e with
  | Executing =>
      let t := Nat.pred (e_time e) in
      match t with
      | S _ => Ok (f, w, alus, set_ops e (e_ops e) Executing t (e_exn e))
      | O =>
          let! vs := opt UAssert (op_vals (e_ops e)) in
          let! acts := exec_acts E (e_ins e) vs in
          let! (f', w', ops') := do_acts e acts (f, w, e_ops e) in
          Ok (f', w', (if needs_alu (e_ins e) then S alus else alus),
              set_ops e ops' Retiring O (e_exn e))
      end
  | _ => Ok (f, w, alus, e)
  end.

Fixpoint exec_loop (E : env) (f : pfile) (w : wman) (alus : nat) (es : list entry)
  : res unit (pfile * wman * nat * list entry) :=
  match es with
  | [] => Ok (f, w, alus, [])
  | e :: es' =>
      let! (f1, w1, a1, e1) := exec_entry E f w alus e in
      let! (f2, w2, a2, es2) := exec_loop E f1 w1 a1 es' in
      Ok (f2, w2, a2, e1 :: es2)
  end.

(** ---- Retiring (reservation_station.cpp:24-40, 305-320) ---- *)

(** cpu.cpp:86-88 *)
Definition get_preg (c : cpu) (p : nat) : option Z := option_map p_val (nth_error (c_regs c) p).

(** cpu.cpp:87-93 getRegister(Register) *)
Definition get_lreg (c : cpu) (l : lreg) : option Z :=
  match rget (c_rat c) l with None => None | Some p => get_preg c p end.

Fixpoint unsub_entries (f : pfile) (es : list entry) : option pfile :=
  match es with
  | [] => Some f
  | e :: es' => match punsub_all f (e_rrat e) with
                | None => None
                | Some f' => match punsub_all f' (e_wrat e) with
                             | None => None
                             | Some f'' => unsub_entries f'' es'
                             end
                end
  end.

Definition executing_alu (e : entry) : bool :=
  match e_state e with Executing => needs_alu (e_ins e) | _ => false end.

Definition count_alus (es : list entry) : nat := length (filter executing_alu es).

(** cpu.cpp:315-339 flushPipeline, unrollSpeculation; reservation_station.cpp:187-195
    clear; register_allocation_table.cpp:53-68 operator= *)
Definition unroll (c : cpu) (t : rat) : res cpu cpu :=
  let! f1 := opt UAssert (unsub_entries (c_regs c) (c_rs c)) in
  let! f2 := opt UAssert (punsub_all f1 (c_rat c)) in
  let! f3 := opt UAssert (psub_all f2 t) in
  let c' := mkCpu (c_cfg c) (c_prog c) (c_spec c) None None f3 [] (c_alus c + count_alus (c_rs c))%nat
              t (c_ram c) (c_wm c) [] (c_halted c) (c_single c) (c_int c)
              (c_trap c) (c_dbg c) (c_out c) (c_in c) in
  match get_lreg c' (LR PC) with
  | None => Throw ERegRange c'
  | Some pc => Ok (set_wm (set_spec c' (u64 pc)) (wm_remove_pending (c_wm c)))
  end.

(** cpu.cpp:448-461 checkWrite, one round of the loop: debug register [i] of four *)
Definition byte1_set (ctl : Z) (b : Z) : Z :=
  Z.lor (Z.ldiff ctl 65280) (Z.shiftl b 8).

Definition check_write1 (addr : Z) (i : nat) (s : list Z * Z) : list Z * Z :=
  let '(d, int) := s in
  let ctl := nth 4 d 0 in
  if Z.testbit ctl (Z.of_nat i) && (nth i d 0 =? addr)
  then (set_nth d 4 (byte1_set ctl (Z.shiftl 1 (Z.of_nat i))), 2)
  else (d, int).

Definition check_write (addr : Z) (s : list Z * Z) : list Z * Z :=
  check_write1 addr 3 (check_write1 addr 2 (check_write1 addr 1 (check_write1 addr 0 s))).

(** cpu.cpp:212-216 writeMemory *)
Definition write_memory (c : cpu) (id : Z) : res cpu cpu :=
  let! w := lift c (wm_get_write (c_wm c) id) in
  let! r := lift c (wm_start (c_wm c) (c_ram c) id) in
  match r with
  | None => Throw EMemRange c
  | Some (wm', ram') =>
      let c' := set_mem c ram' wm' in
      let '(d, int) := check_write (mw_addr w) (c_dbg c', c_int c') in
      Ok (set_dbg c' d int)
  end.

(** cpu.cpp:235-260 jump, checkBranchPrediction (the naive predictor ignores
    registerBranchTaken/NotTaken) *)
Definition do_jump (c : cpu) (e : entry) : res cpu cpu :=
  match rget (e_wrat e) (LR PC), rget (e_rrat e) (LR PC) with
  | Some p, Some q =>
      match get_preg c p, nth_error (c_regs c) q with
      | Some v, Some r =>
          if negb (p_ready r) then Undef UAssert else
          match c_pred c with
          | [] => Undef UAssert
          | predicted :: rest =>
              let c' := set_pred c rest in
              if predicted =? u64 v then Ok c' else unroll c' (e_wrat e)
          end
      | _, _ => Throw ERegRange c
      end
  | _, _ => Throw ERegRange c
  end.

Definition do_ract (e : entry) (a : ract) (c : cpu) : res cpu cpu :=
  match a with
  | RWrite => match e_wids e with [id] => write_memory c id | _ => Undef UAssert end
  | RJump => do_jump c e
  | RSet l v => let! f := lift c (entry_set (c_regs c) (e_wrat e) l v) in Ok (set_regs c f)
  | RGetchar r =>
      match get_char (c_in c) with
      | None => Undef UUninit
      | Some (ch, rest) =>
          let! f := lift c (entry_set (c_regs c) (e_wrat e) (LR r) ch) in Ok (set_in c f rest)
      end
  | RPutchar v => Ok (set_out c (c_out c ++ [OutChar (char_of v)]))
  | RPutnum v => Ok (set_out c (c_out c ++ [OutNum (int_of v)]))
  | RUnroll => unroll c (e_wrat e)
  | RInterrupt n => Ok (set_stop c (c_single c) n)
  | RHalt => Ok (set_halted c true)
  end.

Fixpoint do_racts (e : entry) (l : list ract) (c : cpu) : res cpu cpu :=
  match l with
  | [] => Ok c
  | a :: l' => let! c' := do_ract e a c in do_racts e l' c'
  end.

(** 305-320 Entry::retire, followed by the destruction of the entry (which
    unsubscribes its two tables) at the end of the loop body 30-36. *)
Definition retire_entry (c : cpu) (e : entry) : res cpu cpu :=
  let! vs := opt UAssert (op_vals (e_ops e)) in
  let! acts := lift c (retire_acts (e_ins e) vs) in
  let! c1 := do_racts e acts c in
  if e_exn e then Throw EMemRange c1 else
  let! c2 := (if c_trap c1 then
                let! c' := unroll c1 (e_wrat e) in Ok (set_stop c' true (c_int c'))
              else if negb (c_int c1 =? 0) then unroll c1 (e_wrat e)
              else Ok c1) in
  let! f := opt UAssert (unsub_entries (c_regs c2) [e]) in
  Ok (set_regs c2 f).

(** 29-40: fuel is the number of entries, which only shrinks *)
Fixpoint retire_loop (fuel : nat) (c : cpu) : res cpu cpu :=
  match fuel with
  | O => Ok c
  | S n =>
      match c_rs c with
      | [] => Ok c
      | e :: es =>
          match e_state e with
          | Retiring => let! c' := retire_entry (set_rs c es) e in retire_loop n c'
          | _ => Ok c
          end
      end
  end.

(** ---- Fetching operands and starting (reservation_station.cpp:43-142) ---- *)

(** cpu.cpp:194-210 readMemory and reservation_station.cpp:340-355 *)
Definition read_memory (gates : nat) (r : ram) (w : wman) (a maxid : Z) : res unit (ram * rread) :=
  if wm_has_unspec w maxid then Ok (r, RWait)
  else
    let! o := wm_previous w a maxid in
    match o with
    | Some mw => match mw_value mw with
                 | Some v => Ok (r, RVal v)
                 | None => Ok (r, RWait)
                 end
    | None => ram_read gates r a
    end.

(** registerAvailable + getRegister through the read table *)
Definition read_reg (f : pfile) (t : rat) (l : lreg) : res unit (option Z) :=
  match rget t l with
  | None => Throw ERegRange tt
  | Some p => match nth_error f p with
              | None => Throw ERegRange tt
              | Some r => Ok (if p_ready r then Some (p_val r) else None)
              end
  end.

(** 60-81: on a stall the code supplies 0 to a copy and looks whether the next
    register it would need is available, for logging; that look-up can throw. *)
Definition stall_peek (m : mode) (f : pfile) (t : rat) (o : operand) : res unit unit :=
  let! o' := supply m o 0 in
  match requirement o' with
  | Some (NReg r) => let! _ := read_reg f t (LR r) in Ok tt
  | _ => Ok tt
  end.

(** 51-110: the while loop on one operand. An operand is complete after at most
    three supplies, so the fuel (4) never runs out. *)
Fixpoint fetch_op (fuel : nat) (E : env) (gates : nat) (f : pfile) (w : wman) (t : rat) (maxid : Z)
  (r : ram) (exn : bool) (o : operand) : res unit (ram * bool * operand) :=
  match fuel with
  | O => Undef UAssert
  | S n =>
      match requirement o with
      | None => Ok (r, exn, o)
      | Some (NReg rg) =>
          let! v := read_reg f t (LR rg) in
          match v with
          | Some v => let! o' := supply (e_mode E) o v in fetch_op n E gates f w t maxid r exn o'
          | None => let! _ := stall_peek (e_mode E) f t o in Ok (r, exn, o)
          end
      | Some (NFReg k) =>
          let! v := read_reg f t (LF k) in
          match v with
          | Some v => let! o' := supply (e_mode E) o v in fetch_op n E gates f w t maxid r exn o'
          | None => Ok (r, exn, o)
          end
      | Some (NMem a) =>
          let! (r', v) := read_memory gates r w a maxid in
          match v with
          | RVal v => let! o' := supply (e_mode E) o v in fetch_op n E gates f w t maxid r' exn o'
          | RFault => let! o' := supply (e_mode E) o (-1) in fetch_op n E gates f w t maxid r' true o'
          | RWait => Ok (r', exn, o)
          end
      end
  end.

Fixpoint fetch_ops (E : env) (gates : nat) (f : pfile) (w : wman) (t : rat) (maxid : Z)
  (r : ram) (exn : bool) (os : list operand) : res unit (ram * bool * list operand) :=
  match os with
  | [] => Ok (r, exn, [])
  | o :: os' =>
      let! (r1, x1, o1) := fetch_op 4 E gates f w t maxid r exn o in
      let! (r2, x2, os2) := fetch_ops E gates f w t maxid r1 x1 os' in
      Ok (r2, x2, o1 :: os2)
  end.

Definition all_fetched (os : list operand) : bool :=
  match op_vals os with Some _ => true | None => false end.

(** 45-140 the loop body *)
Definition poll_entry (E : env) (gates : nat) (f : pfile) (w : wman) (r : ram) (alus : nat) (e : entry)
  : res unit (ram * nat * entry) :=
  match e_state e with
  | Preparing =>
      let! (r', x, os) := fetch_ops E gates f w (e_rrat e) (e_maxid e) r (e_exn e) (e_ops e) in
      Ok (r', alus, set_ops e os (if all_fetched os then Ready else Preparing) (e_time e) x)
  | Ready =>
      if needs_alu (e_ins e) then
        match alus with
        | O => Ok (r, alus, e)
        | S n => Ok (r, n, set_ops e (e_ops e) Executing (e_time e) (e_exn e))
        end
      else Ok (r, alus, set_ops e (e_ops e) Executing (e_time e) (e_exn e))
  | _ => Ok (r, alus, e)
  end.

Fixpoint poll_loop (E : env) (gates : nat) (f : pfile) (w : wman) (r : ram) (alus : nat) (es : list entry)
  : res unit (ram * nat * list entry) :=
  match es with
  | [] => Ok (r, alus, [])
  | e :: es' =>
      let! (r1, a1, e1) := poll_entry E gates f w r alus e in
      let! (r2, a2, es2) := poll_loop E gates f w r1 a1 es' in
      Ok (r2, a2, e1 :: es2)
  end.

(** ---- Adding a decoded instruction (reservation_station.cpp:151-185) ---- *)

(** cpu.cpp:306-313 nextFreeRegister *)
Fixpoint next_free_from (f : pfile) (t : rat) (i : nat) : option nat :=
  match f with
  | [] => None
  | r :: f' => if rat_unmapped t i && Nat.eqb (p_subs r) 0 then Some i else next_free_from f' t (S i)
  end.

Definition lreg_ok (g : cfg) (l : lreg) : bool :=
  match l with
  | LR (R n) => (n <? N.of_nat (g_reg g))%N
  | LR _ => true
  | LF n => (n <? N.of_nat (g_freg g))%N
  end.

(** cpu.cpp:294-304 renameRegister, register_allocation_table.cpp:70-96 rename *)
Definition rename (c : cpu) (l : lreg) : res cpu cpu :=
  match next_free_from (c_regs c) (c_rat c) 0 with
  | None => Throw ENoFreeReg c
  | Some p =>
      if negb (lreg_ok (c_cfg c) l) then Throw ERegRange c else
      let! f1 := (match rget (c_rat c) l with
                  | Some old => opt UAssert (punsub (c_regs c) old)
                  | None => Ok (c_regs c)
                  end) in
      let! f2 := opt UAssert (psub f1 p) in
      let! f3 := opt UAssert (pset f2 p (fun r => mkPreg (p_val r) false (p_subs r))) in
      Ok (set_rat c f3 (rset (c_rat c) l p))
  end.

(** 156-177 the loop over produces() *)
Fixpoint add_products (c : cpu) (ids : list Z) (ps : list product) : res cpu (cpu * list Z) :=
  match ps with
  | [] => Ok (c, ids)
  | PReg l :: ps' =>
      if is_pc l then add_products c ids ps'
      else let! c' := rename c l in add_products c' ids ps'
  | PMem a :: ps' =>
      let '(w, id) := wm_register_at (c_wm c) a in add_products (set_wm c w) (ids ++ [id]) ps'
  | PMemReg :: ps' =>
      let '(w, id) := wm_register (c_wm c) in add_products (set_wm c w) (ids ++ [id]) ps'
  end.

(** cpu.cpp:140-142, 159-162 setRegister(Register, int64_t) through [rat_] *)
Definition set_lreg (c : cpu) (l : lreg) (v : Z) : res cpu cpu :=
  match rget (c_rat c) l with
  | None => Throw ERegRange c
  | Some p =>
      match pset (c_regs c) p (fun r => mkPreg v true (p_subs r)) with
      | None => Throw ERegRange c
      | Some f => Ok (set_regs c f)
      end
  end.

(** 151-185 ReservationStation::add. After an exception the local copy of the
    table would be destroyed; nothing can observe the subscription counts then
    (os.cpp:35-39 ends the run), so that is left out. *)
Definition add (c : cpu) (i : instr) (pc : Z) : res cpu cpu :=
  if negb (Nat.ltb (length (c_rs c)) (g_rs (c_cfg c))) then Undef UAssert else
  let! c1 := rename c (LR PC) in
  let! c2 := set_lreg c1 (LR PC) (s64 pc) in
  let rr := c_rat c2 in
  let! f2 := opt UAssert (psub_all (c_regs c2) rr) in
  let c3 := set_regs c2 f2 in
  match produces i with
  | None => Throw EOperand c3
  | Some ps =>
      let! (c4, ids) := add_products c3 [] ps in
      let wr := c_rat c4 in
      let! f4 := opt UAssert (psub_all (c_regs c4) wr) in
      let c5 := set_regs c4 f4 in
      match operands i with
      | None => Throw EOperand c5
      | Some ops =>
          let st := if all_fetched ops then Ready else Preparing in
          Ok (set_rs c5 (c_rs c5 ++
                [mkEntry i ops rr wr ids (wm_cur (c_wm c5)) st (exec_length i) false]))
      end
  end.

(** ---- Fetch (cpu.cpp:74-85) ---- *)

(** program.cpp:59-65 Program::at: outside the program there are NOPs *)
Definition prog_at (p : list instr) (pc : Z) : instr :=
  if (0 <=? pc) && (pc <? Z.of_nat (length p)) then nth (Z.to_nat pc) p INop else INop.

(** naive_branch_predictor.cpp:3-12 *)
Definition next_guess (pc : Z) (dest : operand) : Z :=
  match op_val dest with Some v => u64 v | None => u64 (pc + 1) end.

Definition fetch (c : cpu) : cpu :=
  let pc := c_spec c in
  let i := prog_at (c_prog c) pc in
  let entry := Some (i, u64 (pc + 1)) in
  match jump_dest i with
  | Some d => let g := next_guess pc d in set_front c g entry (c_decode c) (c_pred c ++ [g])
  | None => set_front c (u64 (pc + 1)) entry (c_decode c) (c_pred c)
  end.

(** ---- cpu.cpp:13-72 Cpu::tick ---- *)

(** lines 17-25: up to and including reservationStation_.executeAndRetire() *)
Definition tick_retire (E : env) (c : cpu) : res cpu cpu :=
  let r := ram_tick (c_ram c) in
  let c1 := set_stop (set_mem c r (wm_remove_finished (c_wm c) r)) (c_single c) 0 in
  let! (f, w, a, es) := lift c1 (exec_loop E (c_regs c1) (c_wm c1) (c_alus c1) (c_rs c1)) in
  let c2 := set_exec c1 f w es a in
  retire_loop (length es) c2.

(** lines 44-61: the part that runs when nothing stopped the machine *)
Definition tick_decode (c : cpu) : res cpu cpu :=
  match c_decode c with
  | Some (i, pc) =>
      if Nat.ltb (length (c_rs c)) (g_rs (c_cfg c))
      then let! c' := add c i pc in Ok (set_front c' (c_spec c') (c_fetch c') None (c_pred c'))
      else Ok c
  | None => Ok c
  end.

Definition tick_front (c : cpu) : cpu :=
  let c1 := match c_decode c with
            | None => set_front c (c_spec c) None (c_fetch c) (c_pred c)
            | Some _ => c
            end in
  match c_fetch c1 with
  | None => fetch c1
  | Some _ => c1
  end.

Definition tick (E : env) (c : cpu) : res cpu cpu :=
  let! c2 := tick_retire E c in
  if c_halted c2 then Ok c2 else
  let c3 := if c_single c2
            then set_stop c2 false (if c_int c2 =? 0 then 1 else c_int c2)
            else c2 in
  if negb (c_int c3 =? 0) then Ok c3 else
  let! (r, a, es) := lift c3 (poll_loop E (g_gates (c_cfg c3)) (c_regs c3) (c_wm c3) (c_ram c3)
                                (c_alus c3) (c_rs c3)) in
  let! c5 := tick_decode (set_polled c3 r es a) in
  Ok (tick_front c5).

(** ---- cpu.cpp:112-138 constructor, 170-176 start ---- *)

Fixpoint set_lregs (c : cpu) (l : list (lreg * Z)) : res cpu cpu :=
  match l with
  | [] => Ok c
  | (r, v) :: l' => let! c' := set_lreg c r v in set_lregs c' l'
  end.

Fixpoint zero_regs (f : N -> lreg) (from : N) (n : nat) : list (lreg * Z) :=
  match n with
  | O => []
  | S n' => (f from, 0) :: zero_regs f (from + 1)%N n'
  end.

Definition cpu_init (g : cfg) (p : list instr) (input : list Z) : res cpu cpu :=
  let nphys := (4 + g_reg g + g_freg g + 7 * g_rs g)%nat in
  let t := rat_init (g_reg g) (g_freg g) in
  let f0 := repeat (mkPreg 0 false 0) nphys in
  let c0 f := mkCpu g p 0 None None f [] (g_alus g) t (ram_init (g_ram g)) wm_init [] false false 0
                false [0; 0; 0; 0; 0] [] input in
  match psub_all f0 t with
  | None => Throw ERegRange (c0 f0)
  | Some f =>
      set_lregs (c0 f)
        (zero_regs (fun n => LR (R n)) 0 (g_reg g) ++ zero_regs LF 0 (g_freg g)
         ++ [(LR PC, 0); (LR Flags, 0); (LR SP, Z.of_nat (g_ram g)); (LR BP, Z.of_nat (g_ram g))])
  end.

(** cpu.cpp:170-176: copies the .data section to memory *)
Fixpoint load_data (c : cpu) (a : Z) (data : list Z) : res cpu cpu :=
  match data with
  | [] => Ok c
  | v :: data' =>
      match ram_set (c_ram c) a v with
      | None => Throw EMemRange c
      | Some r => load_data (set_mem c r (c_wm c)) (a + 1) data'
      end
  end.

Definition boot (g : cfg) (p : list instr) (data : list Z) (input : list Z) : res cpu cpu :=
  let! c := cpu_init g p input in load_data c 0 data.

(** [n] ticks in a row *)
Fixpoint ticks (E : env) (n : nat) (c : cpu) : res cpu cpu :=
  match n with
  | O => Ok c
  | S n' => let! c' := tick E c in ticks E n' c'
  end.
