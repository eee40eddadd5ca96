(** Model of the debugger's side of the connection, src/debugger/T86Process.{h,cpp}:
    a stopped VM is asked by text messages; running it is ticking the machine of
    Os.v. The channel itself (lossless, in order) is Tcp.v and Queue.v. *)
From Coq Require Import Ascii String ZArith NArith List Bool.
From Verif Require Import Base Text StdMap Isa Lexer Asm Show Exec Ram Writes Rat Cpu Os DbgText.
Import ListNotations.
Open Scope Z_scope.

(** The VM as the debugger sees it. [k_host] is [None] once the VM has ended by an
    uncaught exception or by undefined behaviour. [k_told]: the "STOPPED" message
    that Work sends first has been received. *)
Record link : Type := mkLink { k_host : option host; k_told : bool }.

(** A call of the debugger library returns, throws DebuggerError, or ends the
    debugger by another exception, a failed assert or undefined behaviour. [Blocked]:
    it does not return (within the given number of ticks of the VM). [S] is the state
    of the library and the VM. *)
Inductive out (S A : Type) : Type :=
| Done (a : A) (s : S)
| Failed (s : S)
| Dead
| Blocked.
Arguments Done {S A}. Arguments Failed {S A}. Arguments Dead {S A}. Arguments Blocked {S A}.

Definition act (S A : Type) : Type := S -> out S A.
Definition ret {S A} (a : A) : act S A := fun s => Done a s.
Definition fail {S A} : act S A := fun s => Failed s.
Definition dead {S A} : act S A := fun s => Dead.
Definition then_ {S A B} (m : act S A) (f : A -> act S B) : act S B :=
  fun s => match m s with Done a s' => f a s' | Failed s' => Failed s' | Dead => Dead | Blocked => Blocked end.
Notation "'let*' x ':=' a 'in' b" := (then_ a (fun x => b)) (at level 200, x pattern, a at level 100, b at level 200).
Notation "a ;; b" := (then_ a (fun _ => b)) (at level 100, right associativity).
Definition opt_or {S A} (e : act S A) (o : option A) : act S A := match o with Some a => ret a | None => e end.

Fixpoint each {S A} (f : A -> act S unit) (l : list A) : act S unit :=
  match l with [] => ret tt | a :: l' => f a;; each f l' end.
Fixpoint each_map {S A B} (f : A -> act S B) (l : list A) : act S (list B) :=
  match l with [] => ret [] | a :: l' => let* b := f a in let* bs := each_map f l' in ret (b :: bs) end.

(** The texts std::stod etc. of DbgText.v, the debugger's idea of the machine
    (T86Process.h:20-26), the machine's environment and its Config. [u_local]: the VM is
    a thread of the debugger, connected by threads_messenger.h, as `run` starts it
    (dbg-cli/CLI.h:1078-1090); otherwise another program, connected by TCP (`attach`). *)
Record setup : Type := mkSetup {
  u_stod : text -> option Z; u_ftos : Z -> text; u_gtos : Z -> text; u_stof : text -> option Z;
  u_regs : Z; u_fregs : Z; u_data : Z;
  u_env : env; u_cfg : cfg; u_local : bool }.

Section Client.
Variable U : setup.

(** Send and Receive on a stopped VM. Asking a VM that is running, or whose "STOPPED"
    has not been received yet, gets the debugger out of step; this is excluded by the
    interface (T86Process.h:79-86) and modelled as [Dead]. When the VM ends, TCP reports
    the end of the connection, but Receive of threads_messenger.h:26-32 waits for ever;
    an exception that leaves the VM's thread ends the debugger, too. *)
Definition ask (m : text) : act link (option text) := fun s =>
  match k_host s with
  | None => Done None s
  | Some (Ended _ _) => if u_local U then Blocked else Done None s
  | Some (Going _ _) => Dead
  | Some (At r c) =>
      if k_told s then
        match serve (u_stod U) (u_ftos U) (u_gtos U) (u_stof U) (u_cfg U) r m c with
        | Ok (t, c', Stay) => Done (Some t) (mkLink (Some (At r c')) true)
        | Ok (t, c', Resume) => Done (Some t) (mkLink (Some (leave r false c')) false)
        | Ok (t, c', Quit) => Done (Some t) (mkLink (Some (leave r true c')) false)
        | Throw _ _ | Undef _ => if u_local U then Dead else Done None (mkLink None true)
        end
      else Dead
  end.

(** 217-229 CheckResponse *)
Definition command (m : text) : act link unit :=
  let* r := ask m in
  match r with Some t => if teqb t (str "OK") then ret tt else fail | None => fail end.

(** 8-22 WriteText. ParserError is turned into DebuggerError; std::out_of_range and a
    failed assert are not. *)
Definition write_text_1 (x : Z * text) : act link unit :=
  let (a, t) := x in
  match check_instr (u_stod U) t with
  | POk _ => command (str "POKETEXT " ++ show_Z a ++ [SPACE] ++ t)
  | PFail PSyntax => fail
  | PFail _ => dead
  end.
Definition addresses (a : Z) (n : nat) : list Z := map (fun k => u64 (a + Z.of_nat k)) (seq 0 n).
Definition write_text (a : Z) (l : list text) : act link unit :=
  each write_text_1 (combine (addresses a (length l)) l).

(** 27-35 ReadText *)
Definition read_text (a n : Z) : act link (list text) :=
  let* r := ask (str "PEEKTEXT " ++ show_Z a ++ [SPACE] ++ show_Z n) in
  match r with Some t => ret (split_v t NL) | None => fail end.

(** 37-46 WriteMemory; the sum of uint64_t wraps *)
Definition write_memory (a : Z) (l : list Z) : act link unit :=
  if u_data U <? u64 (a + Z.of_nat (length l)) then fail
  else each (fun x => command (str "POKEDATA " ++ show_Z (fst x) ++ [SPACE] ++ show_Z (snd x))) (combine (addresses a (length l)) l).

(** std::stoll: like from_chars for int64_t, but skips white space and takes a plus
    sign; throws where svtoi64 has no value. The VM sends neither. *)
Definition stoll (s : text) : option Z := svtoi64 s.

(** 48-64 ReadMemory *)
Definition read_memory (a n : Z) : act link (list Z) :=
  if u_data U <? u64 (a + n) then fail
  else
    let* r := ask (str "PEEKDATA " ++ show_Z a ++ [SPACE] ++ show_Z n) in
    match r with Some t => each_map (fun s => opt_or dead (stoll s)) (split_v t NL) | None => fail end.

(** 66-88 GetReason *)
Definition get_reason : act link reason :=
  let* r := ask (str "REASON") in
  match r with
  | None => fail
  | Some t =>
      if teqb t (str "START") then ret RBegin
      else if teqb t (str "SW_BKPT") then ret RSwBkpt
      else if teqb t (str "HW_BKPT") then ret RHwBkpt
      else if teqb t (str "SINGLESTEP") then ret RSingle
      else if teqb t (str "HALT") then ret RHalted
      else if teqb t (str "CPU_ERROR") then ret RCpuError
      else dead
  end.

(** 90-93 Singlestep, 153-156 ResumeExecution, 165-168 Terminate *)
Definition singlestep : act link unit := command (str "SINGLESTEP").
Definition resume : act link unit := command (str "CONTINUE").
Definition terminate : act link unit := command (str "TERMINATE").

(** T86Process.h:91-101 FetchRegistersOfType. No reply, a line without a value or
    without a number is undefined behaviour or an uncaught out_of_range. *)
Definition fetch_line (num : text -> option Z) (m : list (text * Z)) (l : text) : option (list (text * Z)) :=
  match split_v l COLON with
  | name :: v :: _ => match num v with Some z => Some (tput m name z) | None => None end
  | _ => None
  end.
Fixpoint fetch_lines (num : text -> option Z) (m : list (text * Z)) (l : list text) : option (list (text * Z)) :=
  match l with
  | [] => Some m
  | x :: l' => match fetch_line num m x with Some m' => fetch_lines num m' l' | None => None end
  end.
Definition fetch (num : text -> option Z) (m : text) : act link (list (text * Z)) :=
  let* r := ask m in
  match r with
  | None => dead
  | Some t => opt_or dead (fetch_lines num [] (split_v t NL))
  end.

(** 95-98, 111-114, 127-130 *)
Definition fetch_registers : act link (list (text * Z)) := fetch svtoi64 (str "PEEKREGS").
Definition fetch_float_registers : act link (list (text * Z)) := fetch (u_stof U) (str "PEEKFLOATREGS").
Definition fetch_debug_registers : act link (list (text * Z)) := fetch svtou64 (str "PEEKDEBUGREGS").

(** 182-215: names of registers *)
Definition indexed (letter : ascii) (count : Z) (name : text) : bool :=
  match name with
  | c :: rest => Ascii.eqb c letter && negb (teqb rest []) && match svtou64 rest with Some i => i <? count | None => false end
  | [] => false
  end.
Definition valid_reg (name : text) : bool :=
  teqb name (str "IP") || teqb name (str "BP") || teqb name (str "SP") || teqb name (str "FLAGS") || indexed (ch 82) (u_regs U) name.
Definition valid_freg (name : text) : bool := indexed (ch 70) (u_fregs U) name.
Definition valid_dreg (name : text) : bool := indexed (ch 68) 5 name.

(** 100-109, 116-125, 132-141 *)
Definition set_with (valid : text -> bool) (cmd : text) (show : Z -> text) (regs : list (text * Z)) : act link unit :=
  each (fun x => if valid (fst x) then command (cmd ++ [SPACE] ++ fst x ++ [SPACE] ++ show (snd x)) else fail) regs.
Definition set_registers : list (text * Z) -> act link unit := set_with valid_reg (str "POKEREGS") show_Z.
Definition set_float_registers : list (text * Z) -> act link unit := set_with valid_freg (str "POKEFLOATREGS") (u_gtos U).
Definition set_debug_registers : list (text * Z) -> act link unit := set_with valid_dreg (str "POKEDEBUGREGS") show_Z.

(** 143-151 TextSize: the text after "TEXTSIZE:", by std::stoull, which throws where
    there is no number *)
Definition text_size : act link Z :=
  let* r := ask (str "TEXTSIZE") in
  match r with
  | None => fail
  | Some t => opt_or dead (svtou64 (skipn 9 t))
  end.

(** 158-163 Wait: the VM runs until it stops; [n] bounds the number of ticks. A VM that
    has ended closes a TCP connection. *)
Fixpoint wait (n : nat) : act link unit := fun s =>
  match k_host s with
  | None => Failed s
  | Some (Ended _ _) => if u_local U then Blocked else Failed s
  | Some (At r c) => if k_told s then Blocked else Done tt (mkLink (k_host s) true)
  | Some (Going stop c) =>
      match n with
      | O => Blocked
      | S n' =>
          match os_tick (u_env U) true stop c with
          | Ok h => wait n' (mkLink (Some h) false)
          | Throw _ _ | Undef _ => if u_local U then Dead else Failed (mkLink None false)
          end
      end
  end.

End Client.
