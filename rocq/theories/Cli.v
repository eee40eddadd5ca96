(** Model of the debugger's command line, src/dbg-cli/CLI.h: what a session of command
    lines does to the debuggee, and what it prints. *)
From Coq Require Import Ascii String ZArith NArith List Bool.
From Verif Require Import Base Text StdMap Isa Lexer Asm Show Exec Ram Writes Rat Cpu Os DbgText Client Native Src Expr Eval Info.
Import ListNotations.
Open Scope Z_scope.

(** Styles of fmt/color.h that the front end uses; they carry information: an enabled
    breakpoint is a red '@', a disabled one a gray '@'. *)
Inductive style : Set := Plain | Red | Gray | DarkBlue | DarkGreen | DarkRed | BoldRed.
(** 40-204: the help texts, by name *)
Inductive usage : Set :=
  UMain | URun | UBp | UIstep | UInext | UStep | UNext | UDisassemble | URegister | UAssemble | UMemory
| UWatchpoint | USource | UExpression | UFinish | UFrame | UContinue.
(** What is printed. [Err]: "Error: " and the message of a DebuggerError; the wording of
    these messages is not modelled. The prompt of linenoise is not part of it. *)
Inductive shown : Type := Say (s : style) (t : text) | Usage (u : usage) | Err.

(** 1225-1233: members of Cli, and what is outside it. [cl_active]: the unique_ptr in
    [process] is not null; without a process the other parts of [cl_native] are empty.
    [cl_setup]: the debugger's idea of the machine and how it is connected. [cl_in]: the
    lines of input still to come. *)
Record cli : Type := mkCli {
  cl_setup : setup; cl_native : native; cl_active : bool; cl_source : source; cl_values : list tvalue;
  cl_running : bool; cl_in : list text; cl_out : list shown }.
Definition cset_native (s : cli) n : cli := mkCli (cl_setup s) n (cl_active s) (cl_source s) (cl_values s) (cl_running s) (cl_in s) (cl_out s).
Definition cset_running (s : cli) b : cli := mkCli (cl_setup s) (cl_native s) (cl_active s) (cl_source s) (cl_values s) b (cl_in s) (cl_out s).
Definition cset_in (s : cli) l : cli := mkCli (cl_setup s) (cl_native s) (cl_active s) (cl_source s) (cl_values s) (cl_running s) l (cl_out s).
Definition cset_values (s : cli) v : cli := mkCli (cl_setup s) (cl_native s) (cl_active s) (cl_source s) v (cl_running s) (cl_in s) (cl_out s).
Definition cset_out (s : cli) o : cli := mkCli (cl_setup s) (cl_native s) (cl_active s) (cl_source s) (cl_values s) (cl_running s) (cl_in s) o.

(** The surroundings: fmt's "{}" of a double and svtonum<double>, as in [setup] on bit
    patterns; the file named on the command line: no name, a name that cannot be opened,
    or the contents; the VMs that can be attached to, by port; the input of a VM started
    by `run`; the bound on loops. *)
Record front : Type := mkFront {
  fr_ops : dops; fr_short : Z -> text; fr_double : text -> option Z;
  fr_name : option text; fr_file : option text; fr_remote : Z -> option link; fr_input : list Z; fr_fuel : nat }.

Section Cli.
Variable P : front.
Let fuel : nat := fr_fuel P.

Definition here : act cli cli := fun s => Done s s.
Definition change (f : cli -> cli) : act cli unit := fun s => Done tt (f s).
(** A call of the debugger library *)
Definition lib {A} (m : setup -> act native A) : act cli A := fun s =>
  match m (cl_setup s) (cl_native s) with
  | Done a n => Done a (cset_native s n) | Failed n => Failed (cset_native s n) | Dead => Dead | Blocked => Blocked
  end.
Definition put (x : shown) : act cli unit := change (fun s => cset_out s (cl_out s ++ [x])).
Definition say (t : text) : act cli unit := put (Say Plain t).
Definition usage_of (u : usage) : act cli unit := put (Usage u).
(** try { m } catch (const DebuggerError&) { h } *)
Definition catching {A} (m : act cli A) (h : act cli A) : act cli A := fun s =>
  match m s with Failed s' => h s' | r => r end.
Definition when (b : bool) (m : act cli unit) : act cli unit := if b then m else ret tt.

Definition num (z : Z) : text := show_Z z.
(** "{:>4}" *)
Definition pad4 (t : text) : text := repeat SPACE (4 - length t) ++ t.

(** 25-32 check_command *)
Definition check_command (subs : list text) (of : string) (n : nat) : bool :=
  match subs with
  | [] => false
  | x :: _ => (Nat.leb n (length subs)) && is_prefix_of x (str of)
  end.

(** 213-241 ParseString: the part between the quotes; [prev] is the character before. The
    last character is the closing quote, so that an escape is never the last one. *)
Definition QUOTE : ascii := ch 34.
Definition BACKSLASH : ascii := ch 92.
Fixpoint unescape (prev : ascii) (s : text) : option text :=
  match s with
  | [] => Some []
  | c :: s' =>
      if Ascii.eqb prev BACKSLASH then
        match (if Ascii.eqb c (ch 110) then Some (ch 10) else if Ascii.eqb c (ch 116) then Some (ch 9)
               else if Ascii.eqb c (ch 48) then Some (ch 0) else None) with
        | None => None
        | Some x =>
            match s' with
            | [] => Some [x]
            | d :: s'' => option_map (cons x) (unescape d s'')
            end
        end
      else option_map (cons prev) (unescape c s')
  end.
Definition parse_string (s : text) : option text :=
  match s with
  | q :: (p :: rest) =>
      if Ascii.eqb q QUOTE && Ascii.eqb (last (p :: rest) q) QUOTE then unescape p rest else None
  | _ => None
  end.

(** ---- Source/Source.cpp: printing of types and values ---- *)

(** 394-416 TypeToString. [k] bounds the depth: a type that refers to itself exhausts the
    stack. *)
Fixpoint type_name (k : nat) (src : source) (t : ty) : option text :=
  match t with
  | TyPrim p _ => Some (of_prim p)
  | TyStruct n _ _ => Some n
  | TyPtr id _ | TyArr id _ =>
      match get_type src id with
      | None => Some (str "<unknown>*")
      | Some t' =>
          match k with
          | O => None
          | S k' => option_map (fun x => x ++ match t with TyArr _ _ => str "[]" | _ => str "*" end) (type_name k' src t')
          end
      end
  end.
(** Without a cycle, no chain of types is longer than the number of types. *)
Definition type_text (src : source) (t : ty) : act cli text := opt_or dead (type_name (length (so_types src)) src t).
(** 370-392 TypedValueTypeToString *)
Definition value_type_text (src : source) (v : tvalue) : act cli text :=
  match v with
  | VPtr id n _ _ => type_text src (TyPtr id n)
  | VArr id cnt _ _ _ => type_text src (TyArr id cnt)
  | VChar _ _ => ret (str "char")
  | VInt _ _ => ret (str "int")
  | VFloat _ _ => ret (str "float")
  | VStruct n _ _ _ => ret n
  end.

(** 418-435 ReadMemoryAsString *)
Definition as_char (z : Z) : ascii := ascii_of_N (Z.to_N (z mod 256)).
Fixpoint memory_string (k : nat) (a : Z) : act cli text :=
  match k with
  | O => fun _ => Blocked
  | S k' =>
      let* l := lib (fun U => get_memory U a 1) in
      match l with
      | [] => dead
      | v :: _ =>
          let c := as_char v in
          if Ascii.eqb c (ch 0) then ret []
          else
            let* rest := memory_string k' (u64 (a + 1)) in
            ret ((if Ascii.eqb c NL then str "\n" else if Ascii.eqb c (ch 9) then str "\t" else [c]) ++ rest)
      end
  end.
Definition quoted (t : text) : text := [QUOTE] ++ t ++ [QUOTE].
(** 437-482 TypedValueToString *)
Definition comma : text := str ", ".
Fixpoint value_text (src : source) (v : tvalue) : act cli text :=
  match v with
  | VPtr id _ a _ =>
      match get_type src id with
      | Some (TyPrim PrChar _) => let* s := memory_string fuel a in ret (num a ++ [SPACE] ++ quoted s)
      | _ => ret (num a)
      end
  | VArr _ _ a members _ =>
      match last members (VInt 0 None) with
      | VChar _ _ => let* s := memory_string fuel a in ret (num a ++ [SPACE] ++ quoted s)
      | _ =>
          let* l := (fix all (l : list tvalue) : act cli (list text) :=
            match l with [] => ret [] | x :: l' => let* t := value_text src x in let* ts := all l' in ret (t :: ts) end) members in
          ret (str "[" ++ join l comma ++ str "]")
      end
  | VInt z _ => ret (num z)
  | VFloat z _ => ret (d_show (fr_ops P) z)
  | VChar z _ => ret (str "'" ++ [as_char z] ++ str "'")
  | VStruct _ _ members _ =>
      let* l := (fix all (l : list (text * tvalue)) : act cli (list text) :=
        match l with [] => ret [] | (n, x) :: l' => let* t := value_text src x in let* ts := all l' in ret ((n ++ str " = " ++ t) :: ts) end) members in
      ret (str "{ " ++ join l comma ++ str " }")
  end.

(** ---- CLI.h ---- *)

(** 246-288 PrintFunctionInfo *)
Definition print_variable (src : source) (n : text) : act cli unit :=
  catching (
    let* s := here in
    let* v := lib (fun U => evaluate U (fr_ops P) fuel src (cl_values s) n) in
    let* t := value_text src v in
    let* ty := lib (fun U => variable_type U src n) in
    match ty with
    | None => ret tt
    | Some ty => let* tn := type_text src ty in say (str "(" ++ tn ++ str ") " ++ n ++ str " = " ++ t ++ [NL])
    end) (ret tt).
Definition print_function (a : Z) (detailed : bool) : act cli unit :=
  let* s := here in
  let src := cl_source s in
  match function_name src a with
  | None => ret tt
  | Some f =>
      match function_addr src f with
      | None => ret tt
      | Some (b, e) =>
          let vars := map fst (active_variables src a) in
          let list_ := match vars with [] => [] | _ => str "; active variables: " ++ join vars comma end in
          say (str "function ");;
          put (Say DarkGreen f);;
          say (str " at " ++ num b ++ str "-" ++ num e ++ (if detailed then [] else list_) ++ [NL]);;
          when detailed (each (print_variable src) vars)
      end
  end.

(** 314-326 GetPrettyBp *)
Definition mark_of (bps : list (Z * bpoint)) (a : Z) : shown :=
  match zget bps a with
  | None => Say Plain [SPACE]
  | Some b => Say (if bp_on b then Red else Gray) (str "@")
  end.
(** 328-344 GetPrettyBpForLine *)
Definition mark_of_line (src : source) (bps : list (Z * bpoint)) (line : Z) : shown :=
  match line_to_addr src line with
  | None => Say Plain [SPACE]
  | Some a =>
      match addr_to_line src a with
      | Some l => if line =? l then mark_of bps a else Say Plain [SPACE]
      | None => Say Plain [SPACE]
      end
  end.
(** 346-361 PrintCode; the sum of size_t may have wrapped, then nothing is printed *)
Definition code_line (src : source) (bps : list (Z * bpoint)) (curr : option Z) (i : Z) : act cli unit :=
  match source_line src i with
  | None => ret tt
  | Some t =>
      put (mark_of_line src bps i);;
      match curr with
      | Some c => if i =? c then put (Say DarkBlue (str "->" ++ pad4 (num (i + 1)) ++ str ":" ++ t ++ [NL]))
                  else say (str "  " ++ pad4 (num (i + 1)) ++ str ":" ++ t ++ [NL])
      | None => say (str "  " ++ pad4 (num (i + 1)) ++ str ":" ++ t ++ [NL])
      end
  end.
Definition print_code (from to : Z) : act cli unit :=
  let* ip := lib get_ip in
  let* s := here in
  each (fun k => code_line (cl_source s) (n_bps (cl_native s)) (addr_to_line (cl_source s) ip) (from + Z.of_nat k)) (seq 0 (Z.to_nat (to - from))).
(** 363-380 PrintText *)
Definition text_line (bps : list (Z * bpoint)) (ip a : Z) (t : text) : act cli unit :=
  put (mark_of bps a);;
  if a =? ip then put (Say DarkBlue (str "->" ++ pad4 (num a) ++ str ":  " ++ t ++ [NL]))
  else say (str "  " ++ pad4 (num a) ++ str ":  " ++ t ++ [NL]).
Definition print_text (a : Z) (ins : list text) : act cli unit :=
  let* ip := lib get_ip in
  let* s := here in
  each (fun x => text_line (n_bps (cl_native s)) ip (fst x) (snd x)) (combine (addresses a (length ins)) ins).

(** 293-303 PrettyPrintText, with the default range of 2 *)
Definition pretty_text (a : Z) : act cli unit :=
  let* n := lib (fun U => proc (text_size U)) in
  if n <=? a then ret tt
  else
    let b := if 2 >? a then 0 else a - 2 in
    let e := Z.min n (u64 (a + 3)) in
    let* ins := lib (fun U => nread_text U b (u64 (e - b))) in
    print_function a false;;
    print_text b ins.
(** 307-312 PrettyPrintCode, with the default range of 2 *)
Definition pretty_code (line : Z) : act cli unit :=
  let* ip := lib get_ip in
  print_function ip false;;
  print_code (Z.max (line - 2) 0) (line + 3).

(** 382-388 ParseAddress *)
Definition parse_address (t : text) : act cli Z :=
  match svtoi64 t with Some z => if 0 <=? z then ret z else fail | None => fail end.

(** 390-417 DebugEventToString *)
Definition event_text (src : source) (e : devent) : text :=
  match e with
  | EvBreakpoint a =>
      match addr_to_line src a with
      | Some l => str "Software breakpoint hit at line " ++ num (l + 1)
      | None => str "Software breakpoint hit at address " ++ num a
      end
  | EvWatchpoint a => str "Watchpoint triggered at memory address " ++ num a
  | EvSinglestep => str "Singlestep done"
  | EvBegin => str "Execution started"
  | EvEnd => str "The program finished execution"
  | EvCpuError _ => str "Inner CPU error occured."
  end.
(** 419-437 ReportDebugEvent; the explanation that goes with a CPU error is left out *)
Definition report_event (e : devent) : act cli unit :=
  let* s := here in
  say (str "Process stopped, reason: ");;
  put (Say DarkRed (event_text (cl_source s) e));;
  say [NL];;
  match e with
  | EvCpuError _ =>
      let* ip := lib get_ip in
      say (str "The error probably happened on address '" ++ num ip ++ str "'" ++ [NL]);;
      change (fun s => cset_running s false)
  | _ => ret tt
  end.
(** 440-454 ReportBreak *)
Definition is_end (e : devent) : bool := match e with EvEnd => true | _ => false end.
Definition is_single (e : devent) : bool := match e with EvSinglestep => true | _ => false end.
Definition show_place (else_ : Z -> act cli unit) : act cli unit :=
  let* ip := lib get_ip in
  let* s := here in
  match addr_to_line (cl_source s) ip with
  | Some l => pretty_code l
  | None => else_ ip
  end.
Definition report_break (e : devent) : act cli unit := if is_end e then ret tt else show_place pretty_text.

(** 456-544 HandleBreakpoint. In the commands by source location, the line of the address
    is used without a check, or after an assert: an address that belongs to no line ends
    the debugger. *)
Definition by_location (what : string) (f : setup -> Z -> act native unit) (t : text) : act cli unit :=
  let* s := here in
  match address_of_string (cl_source s) t true with
  | None => fail
  | Some a =>
      lib (fun U => f U a);;
      match addr_to_line (cl_source s) a with
      | None => dead
      | Some l =>
          say (str "Breakpoint " ++ str what ++ str " line " ++ num (l + 1) ++ str " (addr " ++ num a ++ str ")");;
          say (match source_line (cl_source s) l with Some t => str ": " ++ t ++ [NL] | None => [NL] end)
      end
  end.
Definition by_address (what : string) (f : setup -> Z -> act native unit) (t : text) : act cli unit :=
  let* a := parse_address t in
  lib (fun U => f U a);;
  say (str "Breakpoint " ++ str what ++ str " address " ++ num a ++ [NL]).
Definition list_breakpoint (src : source) (x : Z * bpoint) : act cli unit :=
  let (a, b) := x in
  say (str "addr: " ++ num a ++ match addr_to_line src a with Some l => str ", line: " ++ num l | None => [] end
       ++ str "; " ++ (if bp_on b then str "enabled" else str "disabled"));;
  match function_name src a with Some f => say (str "; function: " ++ f) | None => ret tt end;;
  say [NL].
Definition handle_breakpoint (command : text) : act cli unit :=
  let subs := split_v command SPACE in
  let arg := nth 1 subs [] in
  if check_command subs "iset" 2 then
    let* a := parse_address arg in
    let* l := lib (fun U => nread_text U a 1) in
    lib (fun U => set_breakpoint U a);;
    match l with
    | [] => dead
    | t :: _ => say (str "Breakpoint set on address " ++ num a ++ str ": '" ++ t ++ str "'" ++ [NL])
    end
  else if check_command subs "set" 2 then by_location "set on" set_breakpoint arg
  else if check_command subs "remove" 2 then by_location "removed from" unset_breakpoint arg
  else if check_command subs "enable" 2 then by_location "enabled on" enable arg
  else if check_command subs "disable" 2 then by_location "disabled on" disable arg
  else if check_command subs "idisable" 2 then by_address "disabled at" disable arg
  else if check_command subs "ienable" 2 then by_address "enabled at" enable arg
  else if check_command subs "iremove" 2 then by_address "removed from" unset_breakpoint arg
  else if check_command subs "list" 1 then
    let* s := here in each (list_breakpoint (cl_source s)) (n_bps (cl_native s))
  else usage_of UBp.

(** 546-569 HandleWatchpoint *)
Definition handle_watchpoint (command : text) : act cli unit :=
  let subs := split_v command SPACE in
  let arg := nth 1 subs [] in
  if check_command subs "iset" 2 then let* a := parse_address arg in lib (fun U => set_watchpoint U a)
  else if check_command subs "irem" 2 then let* a := parse_address arg in lib (fun U => remove_watchpoint U a)
  else if check_command subs "list" 1 then
    let* s := here in
    match n_wps (cl_native s) with
    | [] => say (str "No active watchpoints" ++ [NL])
    | l => say (str "Active watchpoints:" ++ [NL]);; each (fun x => say (str " - address " ++ num (fst x) ++ [NL])) l
    end
  else usage_of UWatchpoint.

(** What follows a move of the debuggee: 578-593, 633-646, 659-670 *)
Definition after_move (e : devent) (place : act cli unit) : act cli unit :=
  when (negb (is_single e)) (report_event e);;
  if is_end e then change (fun s => cset_running s false) else place.
(** 600-602 and the like *)
Definition running : act cli unit := let* s := here in if cl_running s then ret tt else fail.
Definition moving (command : text) (u : usage) (m : act cli unit) : act cli unit :=
  running;; match command with [] => m | _ => usage_of u end.
(** 571-622 SourceLevelStep, HandleStep, HandleNext *)
Definition source_step (over : bool) : act cli unit :=
  let* s := here in
  let* e := lib (fun U => if over then source_step_over U fuel (cl_source s) else source_step_in U fuel (cl_source s)) in
  after_move e (show_place (fun _ => ret tt)).
Definition handle_step (command : text) : act cli unit := moving command UStep (source_step false).
Definition handle_next (command : text) : act cli unit := moving command UNext (source_step true).
(** 624-650 HandleFinish *)
Definition handle_finish (command : text) : act cli unit :=
  moving command UFinish (let* e := lib (fun U => step_out U fuel) in after_move e (show_place pretty_text)).
(** 652-700 NativeLevelStep, HandleStepi, HandleINext *)
Definition native_step (over : bool) : act cli unit :=
  let* e := lib (fun U => if over then step_over U fuel true else single_step U fuel) in
  after_move e (let* ip := lib get_ip in pretty_text ip).
Definition handle_istep (command : text) : act cli unit := moving command UIstep (native_step false).
Definition handle_inext (command : text) : act cli unit := moving command UInext (native_step true).

(** 702-740 HandleDisassemble; the difference of uint64_t wraps *)
Definition handle_disassemble (command : text) : act cli unit :=
  let subs := split_v command SPACE in
  match subs with
  | [] => let* ip := lib get_ip in pretty_text ip
  | _ =>
      if check_command subs "range" 3 then
        let* b := parse_address (nth 1 subs []) in
        let* e := parse_address (nth 2 subs []) in
        let* l := lib (fun U => nread_text U b (u64 (e - b))) in
        print_text b l
      else if check_command subs "from" 2 then
        let* b := parse_address (nth 1 subs []) in
        let* n := lib (fun U => proc (text_size U)) in
        if n <=? b then fail
        else
          let* k := match nth_error subs 2 with Some t => parse_address t | None => ret (n - b) end in
          let* l := lib (fun U => nread_text U b k) in
          print_text b l
      else if check_command subs "function" 2 then
        let* s := here in
        match function_addr (cl_source s) (nth 1 subs []) with
        | None => fail
        | Some (b, e) => let* l := lib (fun U => nread_text U b (u64 (e - b))) in print_text b l
        end
      else usage_of UDisassemble
  end.

(** 742-769 HandleSource *)
Definition handle_source (command : text) : act cli unit :=
  let subs := split_v command SPACE in
  let* s := here in
  match subs with
  | [] =>
      let* ip := lib get_ip in
      match addr_to_line (cl_source s) ip with
      | None => fail
      | Some l => print_code (Z.max (l - 2) 0) (l + 3)
      end
  | _ =>
      if check_command subs "from" 2 then
        let* l := parse_address (nth 1 subs []) in
        if l =? 0 then fail
        else
          let* n := match nth_error subs 2 with
                    | Some t => parse_address t
                    | None => match so_file (cl_source s) with Some f => ret (u64 (Z.of_nat (length f) - (l - 1))) | None => fail end
                    end in
          print_code (l - 1) (u64 (l - 1 + n))
      else usage_of USource
  end.

(** 771-791 InteractiveAssemble: lines up to an empty one *)
Fixpoint interactive (k : nat) (acc : list text) : act cli (list text) :=
  match k with
  | O => fail
  | S k' =>
      let* s := here in
      match cl_in s with
      | [] => fail
      | l :: rest =>
          change (fun s => cset_in s rest);;
          match l with [] => ret acc | _ => interactive k' (acc ++ [l]) end
      end
  end.
(** 793-807 HandleAssemble: the message of the error takes a third word, which need not
    exist *)
Definition handle_assemble (command : text) : act cli unit :=
  let subs := split_v command SPACE in
  if check_command subs "interactive" 2 then
    match svtou64 (nth 1 subs []) with
    | None => match nth_error subs 2 with Some _ => fail | None => dead end
    | Some a =>
        let* s := here in
        let* l := interactive (S (length (cl_in s))) [] in
        lib (fun U => nwrite_text U a l)
    end
  else usage_of UAssemble.

(** 809-844 HandleRegister *)
Definition handle_register (command : text) : act cli unit :=
  let subs := split_v command SPACE in
  let arg := nth 1 subs [] in
  match subs with
  | [] => let* l := lib (fun U => proc (fetch_registers U)) in each (fun x => say (fst x ++ str ":" ++ num (snd x) ++ [NL])) l
  | _ =>
      if check_command subs "set" 3 then
        match svtoi64 (nth 2 subs []) with None => fail | Some v => lib (fun U => set_register U arg v) end
      else if check_command subs "get" 2 then let* v := lib (fun U => get_register U arg) in say (num v ++ [NL])
      else if check_command subs "fget" 2 then let* v := lib (fun U => get_float_register U arg) in say (fr_short P v ++ [NL])
      else if check_command subs "fset" 3 then
        match fr_double P (nth 2 subs []) with None => fail | Some v => lib (fun U => set_float_register U arg v) end
      else usage_of URegister
  end.

(** 846-901 HandleMemory. For "set" the address is used without a check. *)
Fixpoint numbers (l : list text) : option (list Z) :=
  match l with
  | [] => Some []
  | t :: l' => match svtoi64 t, numbers l' with Some z, Some zs => Some (z :: zs) | _, _ => None end
  end.
(** char is signed *)
Definition char_cell (c : ascii) : Z := s8 (Z.of_N (N_of_ascii c)).
Fixpoint print_chars (l : list Z) : act cli unit :=
  match l with
  | [] => ret tt
  | [v] => say [as_char v];; when (negb (v =? 10)) (say (str "\%" ++ [NL]))
  | v :: l' => say [as_char v];; print_chars l'
  end.
Definition handle_memory (command : text) : act cli unit :=
  let subs := split_v command SPACE in
  let arg := nth 1 subs [] in
  if check_command subs "set" 3 then
    match numbers (skipn 2 subs) with
    | None => fail
    | Some l => match svtou64 arg with None => dead | Some a => lib (fun U => set_memory U a l) end
    end
  else if check_command subs "setstr" 3 then
    match svtou64 arg with
    | None => fail
    | Some a =>
        match parse_string (join (skipn 2 subs) [SPACE]) with
        | None => fail
        | Some t => lib (fun U => set_memory U a (map char_cell t ++ [0]))
        end
    end
  else if check_command subs "get" 3 || check_command subs "getstr" 3 then
    match svtou64 arg, svtou64 (nth 2 subs []) with
    | Some a, Some n =>
        let* l := lib (fun U => get_memory U a n) in
        if is_prefix_of (str "gets") (nth 0 subs []) then print_chars l
        else each (fun x => say (num (fst x) ++ str ":" ++ num (snd x) ++ [NL])) (combine (addresses a (length l)) l)
    | _, _ => fail
    end
  else usage_of UMemory.

(** 903-911 HandleFrame *)
Definition handle_frame (command : text) : act cli unit :=
  running;; let* ip := lib get_ip in print_function ip true.
(** 913-927 HandleContinue *)
Definition handle_continue (command : text) : act cli unit :=
  running;;
  lib (fun U => continue_ U fuel);;
  let* e := lib (fun U => wait_event U fuel) in
  when (is_end e) (change (fun s => cset_running s false));;
  report_event e;;
  report_break e.
(** 929-940 HandleExpression *)
Definition handle_expression (command : text) : act cli unit :=
  match command with
  | [] => usage_of UExpression
  | _ =>
      let* s := here in
      let* (v, i, vs) := lib (fun U => evaluate_keep U (fr_ops P) fuel (cl_source s) (cl_values s) command) in
      change (fun s => cset_values s vs);;
      let* tn := value_type_text (cl_source s) v in
      let* t := value_text (cl_source s) v in
      say (str "(" ++ tn ++ str ") $" ++ num i ++ str " = " ++ t ++ [NL])
  end.

(** 942-980 HandleHelp *)
Definition help_topics : list (string * usage) :=
  [("breakpoint", UBp); ("istep", UIstep); ("inext", UInext); ("run", URun); ("disassemble", UDisassemble);
   ("assemble", UAssemble); ("continue", UContinue); ("register", URegister); ("memory", UMemory);
   ("watchpoint", UWatchpoint); ("next", UNext); ("step", UStep); ("finish", UFinish); ("frame", UFrame);
   ("source", USource); ("expression", UExpression)]%string.
Definition handle_help (command : text) : act cli unit :=
  match command with
  | [] => usage_of UMain
  | _ => match find (fun x => is_prefix_of command (str (fst x))) help_topics with
         | Some (_, u) => usage_of u
         | None => usage_of UMain
         end
  end.

(** The thread of a VM that was told to end: it goes on until Run returns, and waits for
    ever if Run enters the debugger again. *)
Fixpoint vm_end (n : nat) (E : env) (l : link) : out link unit :=
  match k_host l with
  | Some (Ended _ _) => Done tt l
  | Some (Going stop c) =>
      match n with
      | O => Blocked
      | S n' => match os_tick E true stop c with Ok h => vm_end n' E (mkLink (Some h) false) | _ => Dead end
      end
  | _ => Blocked
  end.
(** 1109-1116 ExitProcess *)
Definition exit_process : act cli unit :=
  let* s := here in
  if cl_active s then
    lib nterminate;;
    lib (fun U => if u_local U then proc (vm_end fuel (u_env U)) else ret tt)
  else ret tt.

(** 1148-1161 ParseOptionalCommand *)
Definition option_value (subs : list text) (name : string) : option Z :=
  match find (is_prefix_of (str name)) subs with
  | Some t => svtou64 (skipn (length (str name)) t)
  | None => None
  end.
Definition or_else (o : option Z) (d : Z) : Z := match o with Some z => z | None => d end.

(** 1190-1209 ParseDebugInfo, 1211-1223 ParseProgram: only DebuggerError is caught *)
Definition read_info (U : setup) (t : text) : option source :=
  match parse_info (u_stod U) t with POk i => source_of i | PFail _ => None end.

(** T86Process.h:20-26 and os.h:11, cpu.cpp:112-113: the machine for these sizes. The
    number of float registers passes through a double, which changes numbers above 2^53
    only. *)
Definition sized (U : setup) (regs fregs data : Z) (loc : bool) : setup :=
  mkSetup (u_stod U) (u_ftos U) (u_gtos U) (u_stof U) regs fregs data (u_env U) (u_cfg U) loc.
Definition machine (U : setup) (regs fregs data : Z) : cfg :=
  mkCfg (Z.to_nat regs) (Z.to_nat fregs) (g_alus (u_cfg U)) (2 * g_alus (u_cfg U)) (Z.to_nat data) (g_gates (u_cfg U)).

(** 1052-1105 HandleRun *)
Definition handle_run (command : text) : act cli unit :=
  let subs := split_v command SPACE in
  match fr_name P with
  | None => ret tt
  | Some name =>
      match fr_file P with
      | None => fail
      | Some t =>
          let* s := here in
          let U := cl_setup s in
          match assemble (u_stod U) t, read_info U t with
          | POk (prog, data), Some src =>
              let regs := or_else (option_value subs "--reg-count=") 8 in
              let fregs := or_else (option_value subs "--float-reg-count=") 4 in
              let size := or_else (option_value subs "--data-size=") 1024 in
              match boot (machine U regs fregs size) prog data (fr_input P) with
              | Ok c =>
                  let bps := n_bps (cl_native s) in
                  let wps := n_wps (cl_native s) in
                  change (fun s => mkCli (sized U regs fregs size true)
                    (mkNative [] [] None (mkLink (Some (os_start true c)) false)) true src [] true (cl_in s) (cl_out s));;
                  lib (fun U => wait_event U fuel);;
                  lib (fun U => set_all_breakpoints U bps);;
                  lib (fun U => set_all_watchpoints U wps);;
                  say (str "Started process '" ++ name ++ str "'" ++ [NL])
              | _ => dead
              end
          | _, _ => dead
          end
      end
  end.

(** 1169-1188 Attach; svtonum<int>. The error message for a bad port, and the code behind
    it, use the port that is not there. A connection that fails throws another exception. *)
Definition svtoint (t : text) : option Z :=
  match svtoi64 t with Some z => if (- 2 ^ 31 <=? z) && (z <? 2 ^ 31) then Some z else None | None => None end.
Definition attach_to (command : text) : act cli unit :=
  match split_v command SPACE with
  | [] => say (str "A port is needed, use `attach <port>`")
  | t :: _ =>
      match svtoint t with
      | None => dead
      | Some port =>
          match fr_remote P port with
          | None => dead
          | Some l =>
              change (fun s => mkCli (sized (cl_setup s) 10 4 1024 false) (mkNative [] [] None l) true
                (cl_source s) (cl_values s) (cl_running s) (cl_in s) (cl_out s));;
              match fr_name P with
              | None => ret tt
              | Some _ =>
                  match fr_file P with
                  | None => fail
                  | Some f =>
                      let* s := here in
                      match read_info (cl_setup s) f with
                      | None => dead
                      | Some src => change (fun s => mkCli (cl_setup s) (cl_native s) (cl_active s) src [] (cl_running s) (cl_in s) (cl_out s))
                      end
                  end
              end
          end
      end
  end.
(** 998-1003; without a process, the null pointer is used *)
Definition handle_attach (command : text) : act cli unit :=
  attach_to command;;
  change (fun s => cset_running s true);;
  let* s := here in
  if cl_active s then lib (fun U => wait_event U fuel);; ret tt else dead.

(** 982-991: the first word and the rest *)
Definition cut_command (command : text) : text * text :=
  match find_char SPACE command with
  | None => (command, [])
  | Some k => (firstn k command, skipn (k + 1) command)
  end.
(** 1016-1049: the commands that need a process, in the order in which they are tried *)
Definition commands : list (string * (text -> act cli unit)) :=
  [("breakpoint", handle_breakpoint); ("istep", handle_istep); ("inext", handle_inext); ("disassemble", handle_disassemble);
   ("assemble", handle_assemble); ("continue", handle_continue); ("register", handle_register); ("memory", handle_memory);
   ("watchpoint", handle_watchpoint); ("next", handle_next); ("step", handle_step); ("finish", handle_finish);
   ("frame", handle_frame); ("source", handle_source); ("expression", handle_expression); ("print", handle_expression)]%string.
Definition with_process (main command : text) : act cli unit :=
  let* s := here in
  if cl_active s then
    match find (fun x => is_prefix_of main (str (fst x))) commands with
    | Some (_, f) => f command
    | None => usage_of UMain
    end
  else
    usage_of UMain;;
    put (Say BoldRed (str "Use the `run` or `attach` command to run a process first."));;
    say [NL].
(** 982-1050 HandleCommand *)
Definition handle_command (line : text) : act cli unit :=
  let (main, command) := cut_command line in
  match main with
  | [] => usage_of UMain;; with_process main command
  | _ =>
      if is_prefix_of main (str "run") then exit_process;; handle_run command
      else if is_prefix_of main (str "attach") then exit_process;; handle_attach command
      else if is_prefix_of main (str "help") then handle_help command
      else with_process main command
  end.

(** 1127-1140: one line of input *)
Definition command_line (line : text) : act cli unit :=
  match squash_strip_whitespace line with
  | [] => ret tt
  | l => catching (handle_command l) (put Err)
  end.
(** 1118-1143 Run. The end of the process is outside the try block. [n] bounds the number
    of lines. *)
Fixpoint run_loop (n : nat) : act cli unit :=
  let* s := here in
  match cl_in s with
  | [] => catching exit_process dead
  | l :: rest =>
      match n with
      | O => fun _ => Blocked
      | S n' => change (fun s => cset_in s rest);; command_line l;; run_loop n'
      end
  end.
Definition run_cli : act cli unit := let* s := here in run_loop (length (cl_in s)).
End Cli.

(** 207-210: a new front end *)
Definition new_cli (U : setup) (input : list text) : cli :=
  mkCli U (mkNative [] [] None (mkLink None true)) false no_source [] true input [].
