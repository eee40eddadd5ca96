(** Model of the text protocol of the VM's debugging interface, src/t86/debug.cpp:
    decoding of a message into a command of Os.v, and the text of a reply.
    [stod] is std::stod (assembler), [ftos] std::to_string(double) (printing of
    instructions), [gtos] fmt's "{}" for a double and [stof] svtonum<double>; doubles
    are their bit patterns. *)
From Coq Require Import Ascii String ZArith NArith List Bool.
From Verif Require Import Base Text Isa Lexer Asm Show Exec Ram Writes Rat Cpu Os.
Import ListNotations.
Open Scope Z_scope.

Definition NL : ascii := ch 10.
Definition SPACE : ascii := ch 32.
Definition COLON : ascii := ch 58.

(** What becomes of a message: a command, or an exception that nothing catches, or
    undefined behaviour. *)
Inductive decoded : Type := DCmd (k : cmd) | DThrow | DUndef (w : ub).

(** 16-22 svtoidx *)
Definition svtoidx (s : text) : option Z :=
  match svtoi64 s with Some v => if v <? 0 then None else Some v | None => None end.

(** cpu/register.h:24-40: four indices stand for the special registers *)
Definition reg_of_index (n : Z) : reg :=
  if n =? two64 - 1 then PC else if n =? two64 - 2 then SP else if n =? two64 - 3 then BP
  else if n =? two64 - 4 then Flags else R (Z.to_N n).

(** 24-42 TranslateToRegister; [s] is never empty *)
Definition translate_reg (s : text) : option reg :=
  if teqb s (str "IP") then Some PC
  else if teqb s (str "BP") then Some BP
  else if teqb s (str "SP") then Some SP
  else if teqb s (str "FLAGS") then Some Flags
  else option_map reg_of_index (svtou64 (skipn 1 s)).

(** 44-53 TranslateToFloatRegister, 55-62 TranslateToDebugRegister *)
Definition translate_freg (s : text) : option N := option_map Z.to_N (svtou64 (skipn 1 s)).
Definition translate_dreg (s : text) : option Z := svtou64 (skipn 1 s).

Section Protocol.
Variable stod : text -> option Z.
Variable ftos : Z -> text.
Variable gtos : Z -> text.
Variable stof : text -> option Z.

Definition decode_range (mk : Z -> nat -> cmd) (args : list text) : decoded :=
  match args with
  | a :: b :: _ => match svtoidx a, svtoidx b with Some i, Some n => DCmd (mk i (Z.to_nat n)) | _, _ => DThrow end
  | _ => DThrow                        (* commands.at(1) or commands.at(2) *)
  end.

(** 134-150, with ParseInstruction 64-69: what follows the first instruction of the
    text is not looked at. With only one argument, std::next goes beyond the end. *)
Definition decode_poketext (args : list text) : decoded :=
  match args with
  | [] => DThrow
  | a :: rest =>
      match svtoidx a with
      | None => DThrow
      | Some i =>
          match rest with
          | [] => DUndef UIndex
          | name :: ops =>
              match assemble_instr stod (name ++ [SPACE] ++ join ops [SPACE]) with
              | POk ins => DCmd (CPokeText i ins)
              | PFail (PSyntax | PRange) => DThrow
              | PFail _ => DUndef UAssert
              end
          end
      end
  end.

(** 159-167 *)
Definition decode_pokedata (args : list text) : decoded :=
  match args with
  | a :: b :: _ => match svtoidx a, svtoi64 b with Some i, Some v => DCmd (CPokeData i v) | _, _ => DThrow end
  | _ => DThrow
  end.

(** 177-192: a register name, and a number; dereferencing an empty optional is
    undefined *)
Definition decode_pokereg {R} (reg : text -> option R) (num : text -> option Z) (mk : R -> Z -> cmd) (args : list text) : decoded :=
  match args with
  | a :: b :: _ =>
      match reg a with
      | None => DThrow
      | Some r => match num b with Some v => DCmd (mk r v) | None => DUndef UUninit end
      end
  | [a] => DThrow
  | [] => DThrow
  end.

(** 121-209: the tests in the order of the code *)
Definition decode (m : text) : decoded :=
  match split_v m SPACE with
  | [] => DUndef UIndex                (* commands[0] of an empty vector *)
  | command :: args =>
      if teqb command (str "REASON") then DCmd CReason
      else if teqb m (str "CONTINUE") then DCmd CContinue
      else if is_prefix_of (str "PEEKTEXT") command then decode_range CPeekText args
      else if is_prefix_of (str "POKETEXT") command then decode_poketext args
      else if is_prefix_of (str "PEEKDATA") command then decode_range CPeekData args
      else if is_prefix_of (str "POKEDATA") command then decode_pokedata args
      else if teqb command (str "PEEKREGS") then DCmd CPeekRegs
      else if teqb command (str "PEEKFLOATREGS") then DCmd CPeekFloatRegs
      else if teqb command (str "PEEKDEBUGREGS") then DCmd CPeekDebugRegs
      else if teqb command (str "POKEDEBUGREGS") then decode_pokereg translate_dreg svtou64 CPokeDebugRegs args
      else if is_prefix_of (str "POKEFLOATREGS") command then decode_pokereg translate_freg stof CPokeFloatRegs args
      else if is_prefix_of (str "POKEREGS") command then decode_pokereg translate_reg svtoi64 CPokeRegs args
      else if teqb command (str "SINGLESTEP") then DCmd CSingleStep
      else if teqb command (str "REGCOUNT") then DCmd CRegCount
      else if teqb command (str "TEXTSIZE") then DCmd CTextSize
      else if teqb command (str "DATASIZE") then DCmd CDataSize
      else if teqb command (str "TERMINATE") then DCmd CTerminate
      else DCmd CUnknown
  end.

(** 4-14 ReasonToString *)
Definition reason_text (r : reason) : text :=
  match r with
  | RBegin => str "START" | RSwBkpt => str "SW_BKPT" | RHwBkpt => str "HW_BKPT"
  | RSingle => str "SINGLESTEP" | RHalted => str "HALT" | RCpuError => str "CPU_ERROR"
  end.

Definition line (s : text) : text := s ++ [NL].

(** 71-103: a register and its value *)
Definition reg_line (x : lreg * Z) : text :=
  match x with
  | (LR r, v) => line (show_reg r ++ [COLON] ++ show_Z v)
  | (LF n, v) => line (show_freg n ++ [COLON] ++ gtos v)
  end.
Definition dbg_line (i : nat) (v : Z) : text := line (str "D" ++ show_Z (Z.of_nat i) ++ [COLON] ++ show_Z v).
Fixpoint dbg_lines (i : nat) (l : list Z) : text :=
  match l with [] => [] | v :: l' => dbg_line i v ++ dbg_lines (S i) l' end.

(** The text sent for a reply, 124-209 *)
Definition reply_text (a : reply) : text :=
  match a with
  | AReason r => reason_text r
  | AOk => str "OK"
  | AText l => concat (map (fun i => line (show_instr ftos i)) l)
  | AData l => concat (map (fun v => line (show_Z v)) l)
  | ARegs l => concat (map reg_line l)
  | ADebugRegs l => dbg_lines 0 l
  | ARegCount n => str "REGCOUNT:" ++ show_Z (Z.of_nat n)
  | ATextSize n => str "TEXTSIZE:" ++ show_Z (Z.of_nat n)
  | ADataSize n => str "DATASIZE:" ++ show_Z (Z.of_nat n)
  | AUnknown => str "UNKNOWN COMMAND"
  end.

(** 113-210: one round of the loop of Work on the message [m] *)
Definition serve (G : cfg) (r : reason) (m : text) (c : cpu) : res cpu (text * cpu * after) :=
  match decode m with
  | DCmd k => let! (a, c', n) := do_cmd G r k c in Ok (reply_text a, c', n)
  | DThrow => Throw ECommand c
  | DUndef w => Undef w
  end.

(** What passes through the messenger. *)
Inductive io : Type := Send (t : text) | Recv (m : text).

(** 112-213 the loop; [ms] are the messages that arrive. Returns what passed, the state,
    and what Work returns ([None]: it is still waiting). *)
Fixpoint talk_loop (G : cfg) (r : reason) (ms : list text) (c : cpu) : res cpu (list io * cpu * option bool) :=
  match ms with
  | [] => Ok ([], c, None)
  | m :: ms' =>
      let! (t, c', n) := serve G r m c in
      match n with
      | Resume => Ok ([Recv m; Send t], c', Some true)
      | Quit => Ok ([Recv m; Send t], c', Some false)
      | Stay => let! (l, c2, b) := talk_loop G r ms' c' in Ok (Recv m :: Send t :: l, c2, b)
      end
  end.

(** 105-213 Work *)
Definition talk (G : cfg) (r : reason) (ms : list text) (c : cpu) : res cpu (list io * cpu * option bool) :=
  let! (l, c', b) := talk_loop G r ms (match r with RSingle => set_trap c false | _ => c end) in
  Ok (Send (str "STOPPED") :: l, c', b).

End Protocol.
