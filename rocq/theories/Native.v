(** Model of the debugger library proper: src/debugger/Native.{h,cpp}, Arch.h,
    Breakpoint.h, Watchpoint.h, DebugEvent.h. Built on the process of Client.v. The
    only machine is T86, so the tests for support of single-stepping and watchpoints
    are left out. *)
From Coq Require Import Ascii String ZArith NArith List Bool.
From Verif Require Import Base Text StdMap Isa Lexer Asm Show Exec Ram Writes Rat Cpu Os DbgText Client.
Import ListNotations.
Open Scope Z_scope.

(** ---- Arch.h ---- *)

(** 42-50 DebugRegistersCount; 125-141 the texts CALL and RET begin with *)
Definition watch_count : nat := 4.
Definition is_call_text (t : text) : bool := is_prefix_of (str "CALL") t.
Definition is_ret_text (t : text) : bool := is_prefix_of (str "RET") t.

(** Names of debug registers (fmt::format("D{}", idx)). *)
Definition dname (i : nat) : text := str "D" ++ show_Z (Z.of_nat i).

(** The functions below change a map of registers in place; [None] is an exception:
    71-84 DebuggerError for an index that is too large, out_of_range of map::at. *)
Definition at_put (regs : list (text * Z)) (name : text) (f : Z -> Z) : option (list (text * Z)) :=
  match tget regs name with Some v => Some (tput regs name (f v)) | None => None end.
(** 71-84 SetDebugRegister, with idx in range *)
Definition set_debug_register (i : nat) (a : Z) (regs : list (text * Z)) : option (list (text * Z)) :=
  at_put regs (dname i) (fun _ => a).
(** 86-97 ActivateDebugRegister: control_reg |= 1 << idx *)
Definition activate (i : nat) (regs : list (text * Z)) : option (list (text * Z)) :=
  at_put regs (dname 4) (fun v => Z.lor v (Z.shiftl 1 (Z.of_nat i))).
(** 99-110 DeactivateDebugRegister: control_reg &= ~(1 << idx), an int that is
    converted to uint64_t *)
Definition deactivate (i : nat) (regs : list (text * Z)) : option (list (text * Z)) :=
  at_put regs (dname 4) (fun v => Z.land v (u64 (Z.lnot (Z.shiftl 1 (Z.of_nat i))))).
(** 113-123 GetResponsibleRegister: int(log2(x)), undefined for x = 0 *)
Definition responsible (regs : list (text * Z)) : option nat :=
  match tget regs (dname 4) with
  | Some v =>
      let x := Z.shiftr (Z.land v 65280) 8 in
      if x =? 0 then None else Some (Z.to_nat (Z.log2 x))
  | None => None
  end.

(** ---- Breakpoint.h, DebugEvent.h, Native.h:182-185 ---- *)

Record bpoint : Type := mkBp { bp_data : text; bp_on : bool }.
Inductive devent : Type := EvBreakpoint (a : Z) | EvWatchpoint (a : Z) | EvSinglestep | EvBegin | EvEnd | EvCpuError (a : Z).

(** The library: breakpoints and watchpoints by address (uint64_t), the latter with
    their debug register, the cached event and the process. *)
Record native : Type := mkNative {
  n_bps : list (Z * bpoint); n_wps : list (Z * nat); n_cache : option devent; n_link : link }.

Definition set_bps (N : native) b : native := mkNative b (n_wps N) (n_cache N) (n_link N).
Definition set_wps (N : native) w : native := mkNative (n_bps N) w (n_cache N) (n_link N).
Definition set_cache (N : native) e : native := mkNative (n_bps N) (n_wps N) e (n_link N).
Definition set_link (N : native) l : native := mkNative (n_bps N) (n_wps N) (n_cache N) l.

Definition get : act native native := fun N => Done N N.
Definition update (f : native -> native) : act native unit := fun N => Done tt (f N).
Definition proc {A} (m : act link A) : act native A := fun N =>
  match m (n_link N) with
  | Done a l => Done a (set_link N l)
  | Failed l => Failed (set_link N l)
  | Dead => Dead
  | Blocked => Blocked
  end.

Section Native.
Variable U : setup.
(** Bound on the ticks of one wait and on the rounds of the loops below. *)
Variable fuel : nat.

(** 433-438 *)
Definition BKPT : text := str "BKPT".

(** ReadText(address, 1).at(0) *)
Definition read_one (a : Z) : act native text :=
  let* l := proc (read_text U a 1) in
  match l with t :: _ => ret t | [] => dead end.

(** 440-455 CreateSoftwareBreakpoint *)
Definition create_breakpoint (a : Z) : act native bpoint :=
  let* backup := read_one a in
  proc (write_text U a [BKPT]);;
  let* now := read_one a in
  if teqb now BKPT then ret (mkBp backup true) else fail.

Definition the_bp (a : Z) : act native bpoint :=
  let* N := get in opt_or fail (zget (n_bps N) a).
Definition put_bp (a : Z) (b : bpoint) : act native unit := update (fun N => set_bps N (zput (n_bps N) a b)).

(** 39-51 DisableSoftwareBreakpoint *)
Definition disable (a : Z) : act native unit :=
  let* b := the_bp a in
  if bp_on b then proc (write_text U a [bp_data b]);; put_bp a (mkBp (bp_data b) false) else ret tt.
(** 27-37 EnableSoftwareBreakpoint *)
Definition enable (a : Z) : act native unit :=
  let* b := the_bp a in
  if bp_on b then ret tt else let* b' := create_breakpoint a in put_bp a b'.
(** 13-20 SetBreakpoint *)
Definition set_breakpoint (a : Z) : act native unit :=
  let* N := get in
  match zget (n_bps N) a with
  | Some _ => fail
  | None => let* b := create_breakpoint a in put_bp a b
  end.
(** 22-25 UnsetBreakpoint *)
Definition unset_breakpoint (a : Z) : act native unit :=
  disable a;; update (fun N => set_bps N (zerase (n_bps N) a)).

(** 53-72 ReadText; the sum of uint64_t wraps *)
Fixpoint covered (bps : list (Z * bpoint)) (a : Z) (l : list text) : list text :=
  match l with
  | [] => []
  | t :: l' => (match zget bps a with Some b => bp_data b | None => t end) :: covered bps (u64 (a + 1)) l'
  end.
Definition nread_text (a n : Z) : act native (list text) :=
  let* size := proc (text_size U) in
  if size <? u64 (a + n) then fail
  else let* l := proc (read_text U a n) in let* N := get in ret (covered (n_bps N) a l).

(** 74-94 WriteText *)
Fixpoint uncover (bps : list (Z * bpoint)) (a : Z) (l : list text) : list (Z * bpoint) * list text :=
  match l with
  | [] => (bps, [])
  | t :: l' =>
      match zget bps a with
      | Some b => let (m, l2) := uncover (zput bps a (mkBp t (bp_on b))) (u64 (a + 1)) l' in (m, BKPT :: l2)
      | None => let (m, l2) := uncover bps (u64 (a + 1)) l' in (m, t :: l2)
      end
  end.
Definition nwrite_text (a : Z) (l : list text) : act native unit :=
  let* size := proc (text_size U) in
  if size <? u64 (a + Z.of_nat (length l)) then fail
  else
    let* N := get in
    let (m, l') := uncover (n_bps N) a l in
    update (fun N => set_bps N m);; proc (write_text U a l').

(** 231-257, 205-229 registers *)
Definition get_register (name : text) : act native Z :=
  let* regs := proc (fetch_registers U) in opt_or fail (tget regs name).
Definition set_register (name : text) (v : Z) : act native unit :=
  let* regs := proc (fetch_registers U) in
  match tget regs name with None => fail | Some _ => proc (set_registers U (tput regs name v)) end.
Definition get_float_register (name : text) : act native Z :=
  let* regs := proc (fetch_float_registers U) in opt_or fail (tget regs name).
Definition set_float_register (name : text) (v : Z) : act native unit :=
  let* regs := proc (fetch_float_registers U) in
  match tget regs name with None => fail | Some _ => proc (set_float_registers U (tput regs name v)) end.
(** 285-288 GetIP: the int64_t is converted to uint64_t *)
Definition get_ip : act native Z := let* v := get_register (str "IP") in ret (u64 v).

(** 290-296 *)
Definition set_memory (a : Z) (l : list Z) : act native unit := proc (write_memory U a l).
Definition get_memory (a n : Z) : act native (list Z) := proc (read_memory U a n).

(** 298-317 MapReasonToEvent; the assert fails if no watchpoint has the register *)
Definition find_wp (wps : list (Z * nat)) (i : nat) : option (Z * nat) := find (fun w => Nat.eqb (snd w) i) wps.
Definition event_of (r : reason) : act native devent :=
  match r with
  | RSwBkpt => let* ip := get_ip in ret (EvBreakpoint (u64 (ip - 1)))
  | RHwBkpt =>
      let* regs := proc (fetch_debug_registers U) in
      let* i := opt_or dead (responsible regs) in
      let* N := get in
      match find_wp (n_wps N) i with Some (a, _) => ret (EvWatchpoint a) | None => dead end
  | RSingle => ret EvSinglestep
  | RHalted => ret EvEnd
  | RBegin => ret EvBegin
  | RCpuError => let* ip := get_ip in ret (EvCpuError ip)
  end.

(** 319-337 WaitForDebugEvent; signed overflow in the subtraction is undefined *)
Definition step_back : act native unit :=
  let* regs := proc (fetch_registers U) in
  match tget regs (str "IP") with
  | None => dead
  | Some v => if v =? - 2 ^ 63 then dead else proc (set_registers U (tput regs (str "IP") (v - 1)))
  end.
Definition wait_event : act native devent :=
  let* N := get in
  let* e := match n_cache N with
            | Some e => update (fun N => set_cache N None);; ret e
            | None => proc (wait U fuel);; let* r := proc (get_reason U) in event_of r
            end in
  match e with EvBreakpoint _ => step_back | _ => ret tt end;;
  ret e.

(** 404-408 DoRawSingleStep *)
Definition raw_step : act native devent := proc (singlestep U);; wait_event.

Definition enabled_at (N : native) (a : Z) : bool :=
  match zget (n_bps N) a with Some b => bp_on b | None => false end.

(** 96-110 PerformSingleStep and 457-465 StepOverBreakpoint call each other; [d]
    bounds the depth *)
Fixpoint single_step_d (d : nat) : act native devent :=
  let* ip := get_ip in
  let* N := get in
  if enabled_at N ip then
    match d with
    | O => fun _ => Blocked
    | S d' => disable ip;; let* e := single_step_d d' in enable ip;; ret e
    end
  else raw_step.
Definition single_step : act native devent := single_step_d fuel.
Definition over_breakpoint (ip : Z) : act native devent :=
  disable ip;; let* e := single_step_d fuel in enable ip;; ret e.

(** 339-356 ContinueExecution *)
Definition continue_ : act native unit :=
  let* ip := get_ip in
  let* N := get in
  if enabled_at N ip then
    let* e := over_breakpoint ip in
    match e with
    | EvSinglestep => proc (resume U)
    | _ => update (fun N => set_cache N (Some e))
    end
  else proc (resume U).

(** 112-174 PerformStepOver *)
Definition is_bp_event (e : devent) : bool := match e with EvBreakpoint _ => true | _ => false end.
Fixpoint run_to (k : nat) (ip bp : Z) : act native devent :=
  match k with
  | O => fun _ => Blocked
  | S k' =>
      continue_;;
      let* e := wait_event in
      let* bp' := get_register (str "BP") in
      let* ip' := get_ip in
      if (bp =? bp') && (ip' =? u64 (ip + 1)) && is_bp_event e then ret e
      else if is_bp_event e && negb (ip' =? u64 (ip + 1)) then ret e
      else if negb (is_bp_event e) then ret e
      else run_to k' ip bp
  end.
Definition step_over (skip_bp : bool) : act native devent :=
  let* ip := get_ip in
  let* l := nread_text ip 1 in
  match l with
  | [] => dead
  | t :: _ =>
      if is_call_text t then
        let* N := get in
        let own := match zget (n_bps N) (u64 (ip + 1)) with Some _ => false | None => true end in
        (if own then set_breakpoint (u64 (ip + 1)) else ret tt);;
        (if skip_bp then single_step;; ret tt else ret tt);;
        let* bp := get_register (str "BP") in
        let* e := run_to fuel ip bp in
        (if own then unset_breakpoint (u64 (ip + 1)) else ret tt);;
        let* ip' := get_ip in
        if ip' =? u64 (ip + 1) then ret EvSinglestep else ret e
      else if skip_bp then single_step else raw_step
  end.

(** 176-198 PerformStepOut *)
Fixpoint step_out_loop (k : nat) (skip_bp : bool) : act native devent :=
  match k with
  | O => fun _ => Blocked
  | S k' =>
      let* ip := get_ip in
      let* l := nread_text ip 1 in
      match l with
      | [] => dead
      | t :: _ =>
          let* e := step_over skip_bp in
          if is_ret_text t then ret e
          else match e with EvSinglestep => step_out_loop k' false | _ => ret e end
      end
  end.
Definition step_out : act native devent := step_out_loop fuel true.

(** 419-431 GetFreeDebugRegister *)
Definition free_register (wps : list (Z * nat)) : option nat :=
  find (fun i => match find_wp wps i with None => true | Some _ => false end) (seq 0 watch_count).

(** 358-375 SetWatchpointWrite *)
Definition set_watchpoint (a : Z) : act native unit :=
  let* N := get in
  match zget (n_wps N) a with
  | Some _ => fail
  | None =>
      let* i := opt_or fail (free_register (n_wps N)) in
      let* regs := proc (fetch_debug_registers U) in
      let* regs1 := opt_or dead (set_debug_register i a regs) in
      let* regs2 := opt_or dead (activate i regs1) in
      proc (set_debug_registers U regs2);;
      update (fun N => set_wps N (zput (n_wps N) a i))
  end.

(** 377-386 RemoveWatchpoint: the changed copy of the registers is not sent *)
Definition remove_watchpoint (a : Z) : act native unit :=
  let* N := get in
  match zget (n_wps N) a with
  | None => fail
  | Some i =>
      let* regs := proc (fetch_debug_registers U) in
      let* _ := opt_or dead (deactivate i regs) in
      update (fun N => set_wps N (zerase (n_wps N) a))
  end.

(** 259-273 SetAllBreakpoints *)
Definition set_all_breakpoints (bps : list (Z * bpoint)) : act native unit :=
  let* N := get in
  each (fun x => disable (fst x)) (n_bps N);;
  each (fun x => if bp_on (snd x) then set_breakpoint (fst x) else put_bp (fst x) (mkBp [] false)) bps.

(** 275-283 SetAllWatchpoints: the loop erases the element its iterator points to, and
    going on from there is undefined *)
Definition set_all_watchpoints (wps : list (Z * nat)) : act native unit :=
  let* N := get in
  match n_wps N with
  | [] => each (fun x => set_watchpoint (fst x)) wps
  | (a, _) :: _ => remove_watchpoint a;; dead
  end.

(** 396-398 *)
Definition nterminate : act native unit := proc (terminate U).

End Native.
