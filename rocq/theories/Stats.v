(** The statistics logger and the processor that feeds it. The logger does not influence
    the processor, so the functions of Cpu.v are taken again with the identification
    numbers the instructions carry for the logger and with the calls that log. *)
From Coq Require Import String ZArith NArith List Bool.
From Verif Require Import Base Alu Isa Exec Ram Writes Rat Cpu.
Import ListNotations.
Open Scope Z_scope.

(** ---- t86/utils/stats_logger.h:58-74 TickStats ----
    Simplified: which registers and memory cells an instruction waits for (lines 65-67) is
    left out; it only adds lines of detail to the report. *)
Record tickst := mkTickst {
  t_fetch : option nat;        (* 59 instructionFetchPc *)
  t_decode : option nat;       (* 60 instructionDecodePc *)
  t_prep : list nat;           (* 63 operandFetchingRSEntries *)
  t_stall : list nat;          (* 64 operandFetchingStallRSEntries *)
  t_noalu : list nat;          (* 69 stallNoAluRSEntries *)
  t_exec : list nat;           (* 71 executingRSEntries *)
  t_wait : list nat;           (* 73 stallRetirementRSEntries *)
  t_done : list nat            (* 74 retiredRSEntries *)
}.
Definition no_tick : tickst := mkTickst None None [] [] [] [] [] [].

(** stats_logger.h:126-132: the ticks (here the newest first), the next number, and the
    instructions by their number. Simplified: the numbers do not wrap at 2^64, and the
    hash table is a list in the order of the numbers. *)
Record slog := mkLog {
  s_ticks : list tickst;
  s_next : nat;
  s_ins : list (nat * (Z * instr))
}.

(** stats_logger.cpp:94-98 reset *)
Definition log_reset : slog := mkLog [] 0 [].

(** stats_logger.cpp:32-34 newTick *)
Definition log_new_tick (l : slog) : slog := mkLog (no_tick :: s_ticks l) (s_next l) (s_ins l).

(** stats_logger.cpp:100-102 currentTick: the last one. There is one: every tick of the
    processor begins with newTick. *)
Definition on_tick (f : tickst -> tickst) (l : slog) : slog :=
  mkLog (match s_ticks l with t :: ts => f t :: ts | [] => [] end) (s_next l) (s_ins l).

(** stats_logger.cpp:10-12, 14-16 *)
Definition log_fetch (id : nat) : slog -> slog :=
  on_tick (fun t => mkTickst (Some id) (t_decode t) (t_prep t) (t_stall t) (t_noalu t) (t_exec t) (t_wait t) (t_done t)).
Definition log_decode (id : nat) : slog -> slog :=
  on_tick (fun t => mkTickst (t_fetch t) (Some id) (t_prep t) (t_stall t) (t_noalu t) (t_exec t) (t_wait t) (t_done t)).
(** 104-106 logOperandFetching, 108-110 logStallFetch *)
Definition log_prep (id : nat) : slog -> slog :=
  on_tick (fun t => mkTickst (t_fetch t) (t_decode t) (t_prep t ++ [id]) (t_stall t) (t_noalu t) (t_exec t) (t_wait t) (t_done t)).
Definition log_stall (id : nat) : slog -> slog :=
  on_tick (fun t => mkTickst (t_fetch t) (t_decode t) (t_prep t) (t_stall t ++ [id]) (t_noalu t) (t_exec t) (t_wait t) (t_done t)).
(** 28-30 logNoAluAvailable, 124-126 logExecuting *)
Definition log_noalu (id : nat) : slog -> slog :=
  on_tick (fun t => mkTickst (t_fetch t) (t_decode t) (t_prep t) (t_stall t) (t_noalu t ++ [id]) (t_exec t) (t_wait t) (t_done t)).
Definition log_exec (id : nat) : slog -> slog :=
  on_tick (fun t => mkTickst (t_fetch t) (t_decode t) (t_prep t) (t_stall t) (t_noalu t) (t_exec t ++ [id]) (t_wait t) (t_done t)).
(** 18-20 logStallRetirement, 128-130 logRetirement *)
Definition log_wait (id : nat) : slog -> slog :=
  on_tick (fun t => mkTickst (t_fetch t) (t_decode t) (t_prep t) (t_stall t) (t_noalu t) (t_exec t) (t_wait t ++ [id]) (t_done t)).
Definition log_done (id : nat) : slog -> slog :=
  on_tick (fun t => mkTickst (t_fetch t) (t_decode t) (t_prep t) (t_stall t) (t_noalu t) (t_exec t) (t_wait t) (t_done t ++ [id])).

(** 173-176 registerNewInstruction *)
Definition log_register (pc : Z) (i : instr) (l : slog) : slog :=
  mkLog (s_ticks l) (S (s_next l)) (s_ins l ++ [(s_next l, (pc, i))]).
(** 178-180 logClearSpeculation *)
Definition log_clear (id : nat) (l : slog) : slog :=
  mkLog (s_ticks l) (s_next l) (filter (fun x => negb (Nat.eqb (fst x) id)) (s_ins l)).
Definition log_clears (ids : list nat) (l : slog) : slog := fold_left (fun l id => log_clear id l) ids l.

(** ---- the processor with the numbers of its instructions ---- *)

(** [l_fid], [l_did]: loggingId of instructionFetch_ and instructionDecode_ (cpu.h:257-267
    InstructionEntry); [l_ids]: loggingId_ of the reservation station's entries, in order
    (reservation_station.h) *)
Record lcpu := mkL {
  l_cpu : cpu;
  l_fid : option nat;
  l_did : option nat;
  l_ids : list nat;
  l_log : slog
}.
Definition on_cpu (x : lcpu) (c : cpu) : lcpu := mkL c (l_fid x) (l_did x) (l_ids x) (l_log x).
Definition on_log (x : lcpu) (f : slog -> slog) : lcpu := mkL (l_cpu x) (l_fid x) (l_did x) (l_ids x) (f (l_log x)).
Definition olist {A} (o : option A) : list A := match o with Some a => [a] | None => [] end.

(** cpu.cpp:315-327 flushPipeline, reservation_station.cpp:187-195 clear: the calls that log *)
Definition lflush (x : lcpu) : lcpu :=
  mkL (l_cpu x) None None [] (log_clears (l_ids x ++ olist (l_fid x) ++ olist (l_did x)) (l_log x)).
(** cpu.cpp:329-339 unrollSpeculation *)
Definition lunroll (x : lcpu) (t : rat) : res cpu lcpu :=
  let! c := unroll (l_cpu x) t in Ok (lflush (on_cpu x c)).

(** cpu.cpp:235-260 jump, as [do_jump] *)
Definition ldo_jump (x : lcpu) (e : entry) : res cpu lcpu :=
  let c := l_cpu x in
  match rget (e_wrat e) (LR PC), rget (e_rrat e) (LR PC) with
  | Some p, Some q =>
      match get_preg c p, nth_error (c_regs c) q with
      | Some v, Some r =>
          if negb (p_ready r) then Undef UAssert else
          match c_pred c with
          | [] => Undef UAssert
          | predicted :: rest =>
              let c' := set_pred c rest in
              if predicted =? u64 v then Ok (on_cpu x c') else lunroll (on_cpu x c') (e_wrat e)
          end
      | _, _ => Throw ERegRange c
      end
  | _, _ => Throw ERegRange c
  end.

(** as [do_ract], [do_racts] *)
Definition ldo_ract (e : entry) (a : ract) (x : lcpu) : res cpu lcpu :=
  match a with
  | RJump => ldo_jump x e
  | RUnroll => lunroll x (e_wrat e)
  | _ => let! c := do_ract e a (l_cpu x) in Ok (on_cpu x c)
  end.
Fixpoint ldo_racts (e : entry) (l : list ract) (x : lcpu) : res cpu lcpu :=
  match l with
  | [] => Ok x
  | a :: l' => let! x' := ldo_ract e a x in ldo_racts e l' x'
  end.

(** reservation_station.cpp:305-320 retire, as [retire_entry] *)
Definition lretire_entry (x : lcpu) (e : entry) : res cpu lcpu :=
  let! vs := opt UAssert (op_vals (e_ops e)) in
  let! acts := lift (l_cpu x) (retire_acts (e_ins e) vs) in
  let! x1 := ldo_racts e acts x in
  let c1 := l_cpu x1 in
  if e_exn e then Throw EMemRange c1 else
  let! x2 := (if c_trap c1 then
                let! x' := lunroll x1 (e_wrat e) in Ok (on_cpu x' (set_stop (l_cpu x') true (c_int (l_cpu x'))))
              else if negb (c_int c1 =? 0) then lunroll x1 (e_wrat e)
              else Ok x1) in
  let! f := opt UAssert (unsub_entries (c_regs (l_cpu x2)) [e]) in
  Ok (on_cpu x2 (set_regs (l_cpu x2) f)).

(** reservation_station.cpp:29-40, as [retire_loop]: logRetirement (34) comes before retire *)
Fixpoint lretire_loop (fuel : nat) (x : lcpu) : res cpu lcpu :=
  match fuel with
  | O => Ok x
  | S n =>
      match c_rs (l_cpu x), l_ids x with
      | e :: es, id :: ids =>
          match e_state e with
          | Retiring =>
              let! x' := lretire_entry (mkL (set_rs (l_cpu x) es) (l_fid x) (l_did x) ids (log_done id (l_log x))) e in
              lretire_loop n x'
          | _ => Ok x
          end
      | _, _ => Ok x
      end
  end.

(** reservation_station.cpp:43-142: what one round of the loop logs, given the entry before
    and after it. Line 49 logPreparing; an operand is left incomplete exactly when fetchStall
    (50) was set; 120 logStallALU; 132 logExecuting; 137 logStallRetirement. *)
Definition log_poll1 (id : nat) (e e' : entry) (l : slog) : slog :=
  match e_state e with
  | Preparing =>
      let l1 := log_prep id l in
      if all_fetched (e_ops e') then l1 else log_stall id l1
  | Ready => match e_state e' with Executing => log_exec id l | _ => log_noalu id l end
  | Executing => log_exec id l
  | Retiring => log_wait id l
  end.
Fixpoint log_poll (ids : list nat) (es es' : list entry) (l : slog) : slog :=
  match ids, es, es' with
  | id :: ids', e :: es1, e' :: es1' => log_poll ids' es1 es1' (log_poll1 id e e' l)
  | _, _, _ => l
  end.

(** cpu.cpp:46-51, reservation_station.cpp:182 logPreparing; as [tick_decode] *)
Definition ltick_decode (x : lcpu) : res cpu lcpu :=
  let c := l_cpu x in
  match c_decode c, l_did x with
  | Some (i, pc), Some id =>
      if Nat.ltb (length (c_rs c)) (g_rs (c_cfg c))
      then let! c' := add c i pc in
           Ok (mkL (set_front c' (c_spec c') (c_fetch c') None (c_pred c')) (l_fid x) None (l_ids x ++ [id]) (log_prep id (l_log x)))
      else Ok x
  | _, _ => Ok x
  end.

(** cpu.cpp:53-69, 74-85 fetchInstruction; as [tick_front] and [fetch] *)
Definition ltick_front (x : lcpu) : lcpu :=
  let c := l_cpu x in
  let x1 := match c_decode c with
            | None => mkL (set_front c (c_spec c) None (c_fetch c) (c_pred c)) None (l_fid x) (l_ids x) (l_log x)
            | Some _ => x
            end in
  let c1 := l_cpu x1 in
  let x2 := match c_fetch c1 with
            | None => mkL (fetch c1) (Some (s_next (l_log x1))) (l_did x1) (l_ids x1)
                        (log_register (c_spec c1) (prog_at (c_prog c1) (c_spec c1)) (l_log x1))
            | Some _ => x1
            end in
  let l3 := match l_fid x2 with Some id => log_fetch id (l_log x2) | None => l_log x2 end in
  let l4 := match l_did x2 with Some id => log_decode id l3 | None => l3 end in
  mkL (l_cpu x2) (l_fid x2) (l_did x2) (l_ids x2) l4.

(** cpu.cpp:13-72 tick, as [tick] and [tick_retire]; 19 newTick *)
Definition ltick (E : env) (x : lcpu) : res cpu lcpu :=
  let c := l_cpu x in
  let x0 := on_log x log_new_tick in
  let r := ram_tick (c_ram c) in
  let c1 := set_stop (set_mem c r (wm_remove_finished (c_wm c) r)) (c_single c) 0 in
  let! (f, w, a, es) := lift c1 (exec_loop E (c_regs c1) (c_wm c1) (c_alus c1) (c_rs c1)) in
  let! x2 := lretire_loop (length es) (on_cpu x0 (set_exec c1 f w es a)) in
  let c2 := l_cpu x2 in
  if c_halted c2 then Ok x2 else
  let c3 := if c_single c2
            then set_stop c2 false (if c_int c2 =? 0 then 1 else c_int c2)
            else c2 in
  if negb (c_int c3 =? 0) then Ok (on_cpu x2 c3) else
  let! (r, a, es) := lift c3 (poll_loop E (g_gates (c_cfg c3)) (c_regs c3) (c_wm c3) (c_ram c3)
                                (c_alus c3) (c_rs c3)) in
  let x4 := mkL (set_polled c3 r es a) (l_fid x2) (l_did x2) (l_ids x2) (log_poll (l_ids x2) (c_rs c3) es (l_log x2)) in
  let! x5 := ltick_decode x4 in
  Ok (ltick_front x5).

(** [n] ticks of a machine whose logger has been reset (docs/t86.md:141-149) *)
Definition fresh (c : cpu) : lcpu := mkL c None None [] log_reset.
Fixpoint lticks (E : env) (n : nat) (x : lcpu) : res cpu lcpu :=
  match n with
  | O => Ok x
  | S n' => let! x' := ltick E x in lticks E n' x'
  end.

(** ---- the report ---- *)

(** stats_logger.h:79-92 InstructionLifeTime *)
Record lifetime := mkLife {
  lt_fetch : nat;
  lt_decode : nat;
  lt_prep : nat;
  lt_stalls : nat;
  lt_alu : nat;
  lt_exec : nat;
  lt_wait : nat;
  lt_retire : nat
}.
Definition no_life : lifetime := mkLife 0 0 0 0 0 0 0 0.
(** 94-96 totalTime *)
Definition total_time (t : lifetime) : nat :=
  (lt_fetch t + lt_decode t + lt_prep t + lt_alu t + lt_exec t + lt_wait t + lt_retire t)%nat.
(** 98-117 operator+= *)
Definition life_add (s t : lifetime) : lifetime :=
  mkLife (lt_fetch s + lt_fetch t) (lt_decode s + lt_decode t) (lt_prep s + lt_prep t) (lt_stalls s + lt_stalls t)
    (lt_alu s + lt_alu t) (lt_exec s + lt_exec t) (lt_wait s + lt_wait t) (lt_retire s + lt_retire t).

(** how many of the first ticks satisfy [f], and the rest: the loops of 182-227 *)
Fixpoint span (f : tickst -> bool) (l : list tickst) : nat * list tickst :=
  match l with
  | [] => (0%nat, [])
  | t :: l' => if f t then let '(n, r) := span f l' in (S n, r) else (0%nat, l)
  end.
Definition oid (o : option nat) (id : nat) : bool := match o with Some n => Nat.eqb n id | None => false end.
Definition found (id : nat) (l : list nat) : bool := existsb (Nat.eqb id) l.
Definition count_stalls (id : nat) (l : list tickst) : nat := length (filter (fun t => found id (t_stall t)) l).

(** stats_logger.cpp:182-227 getInstructionLifeTime; [l]: the ticks, the oldest first *)
Definition life_time (id : nat) (l : list tickst) : res unit lifetime :=
  let '(_, l0) := span (fun t => negb (oid (t_fetch t) id)) l in
  match l0 with
  | [] => Undef UAssert                                                      (* 189 *)
  | _ =>
      let '(nf, l1) := span (fun t => oid (t_fetch t) id) l0 in
      let '(nd, l2) := span (fun t => oid (t_decode t) id) l1 in
      let '(np, l3) := span (fun t => found id (t_prep t)) l2 in
      let '(na, l4) := span (fun t => found id (t_noalu t)) l3 in
      let '(nx, l5) := span (fun t => found id (t_exec t)) l4 in
      let '(nw, l6) := span (fun t => found id (t_wait t)) l5 in
      match l6 with
      | [] => Undef UAssert                                                  (* 223 *)
      | t :: _ =>
          if found id (t_done t)                                             (* 224 *)
          then Ok (mkLife nf nd np (count_stalls id (firstn np l2)) na nx nw 1)
          else Undef UAssert
      end
  end.

(** 47-56, 73-82: the lifetimes of the instructions that satisfy [pick] are added up and the
    instructions counted *)
Fixpoint life_sum (pick : instr -> bool) (l : list tickst) (is : list (nat * (Z * instr))) : res unit (lifetime * nat) :=
  match is with
  | [] => Ok (no_life, 0%nat)
  | (id, (_, i)) :: is' =>
      let! t := life_time id l in
      let! (s, n) := life_sum pick l is' in
      Ok (if pick i then (life_add t s, S n) else (s, n))
  end.

(** A number printed: a count, or a quotient of doubles given by what is divided. *)
Inductive figure := Count (n : Z) | Quot (a b : Z).

(** 132-171 processAverageLifetime (lines 139-161, which only print something about the
    registers and cells waited for, are left out). [u64]: size_t arithmetic. *)
Definition averages (t : lifetime) (n : nat) : list (string * figure) :=
  let q a := Quot (u64 a) (Z.of_nat n) in
  [("Times executed", Count (Z.of_nat n));
   ("Average instruction lifetime", q (Z.of_nat (total_time t)));
   ("Average fetch stalls", q (Z.of_nat (lt_fetch t) - 1));
   ("Average decode stalls", q (Z.of_nat (lt_decode t) - 1));
   ("Average operand fetching stalls", q (Z.of_nat (lt_stalls t)));
   ("Average waiting for ALU", q (Z.of_nat (lt_alu t)));
   ("Average executing", q (Z.of_nat (lt_exec t)));
   ("Average waiting for retirement", q (Z.of_nat (lt_wait t)));
   ("Average retirement", q (Z.of_nat (lt_retire t)))]%string.

(** 40-65 processBasicStats (the latency is printed as 1 divided by the throughput) *)
Definition basic_stats (l : slog) : res unit (list (string * figure)) :=
  let! (t, n) := life_sum (fun _ => true) (rev (s_ticks l)) (s_ins l) in
  let nt := Z.of_nat (length (s_ticks l)) in
  let ni := Z.of_nat (length (s_ins l)) in
  Ok ([("Total ticks", Count nt); ("Total instructions executed", Count ni); ("Throughput", Quot ni nt);
       ("Average instruction latency", Quot nt ni)]%string
      ++ averages t (length (s_ins l))).

(** 67-92 processDetailedStats: the part about one kind of instructions (an
    Instruction::Signature, given by [pick]); the code prints one for each kind there is *)
Definition detailed_stats (pick : instr -> bool) (l : slog) : res unit (list (string * figure)) :=
  let! (t, n) := life_sum pick (rev (s_ticks l)) (s_ins l) in Ok (averages t n).
