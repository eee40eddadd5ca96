(** Model of the VM's program t86-cli (src/t86-cli/main.cpp), from the parsed arguments
    on. *)
From Coq Require Import Ascii String ZArith NArith List Bool.
From Verif Require Import Base Text Isa Lexer Asm Exec Cpu Os.
Import ListNotations.
Open Scope Z_scope.

(** main.cpp:24-44: the arguments. The file is given by its contents; [None]: it cannot be
    opened. argparse itself is not modelled. *)
Record options : Type := mkOptions {
  o_file : option text; o_debug : bool; o_regs : nat; o_fregs : nat; o_memory : nat }.
(** 30, 35, 40, 45: what holds when nothing else is given *)
Definition plain_options (f : option text) : options := mkOptions f false 8 4 1024.

(** What becomes of the process: it ends with an exit status, having printed something
    (what the program printed with PUTCHAR and PUTNUM) and having written an error message
    or not; it dies of an exception that nobody catches, or of undefined behaviour; it
    waits for a debugger; it is still running. *)
Inductive outcome : Type :=
| Exits (status : Z) (printed : list outev) (complaint : bool)
| Dies
| Serves (h : host)
| Runs (c : cpu).

(** os.h:11, cpu.cpp:112-113 with the values of cpu.h:43, 47, 55 (there is nothing to set
    them with in t86-cli): one ALU, two entries in the reservation station, four gates to
    the memory *)
Definition o_machine (O : options) : cfg := mkCfg (o_regs O) (o_fregs O) 1 2 (o_memory O) 4.

(** os.cpp:28-56 without a debugger, [k] times around the loop at most. CpuError is
    written to the standard error (36; LOG_LEVEL is 2 or 4, src/CMakeLists.txt:11-13). *)
Fixpoint os_run (E : env) (k : nat) (h : host) : outcome :=
  match h with
  | Ended ok c => Exits 0 (c_out c) (negb ok)
  | At _ _ => Serves h
  | Going stop c =>
      match k with
      | O => Runs c
      | S k' => match os_tick E false stop c with Ok h' => os_run E k' h' | _ => Dies end
      end
  end.

(** main.cpp:53-84. The parser is constructed, and reads its first token, in line 60:
    outside the try block. Nothing catches what cpu.start throws (os.cpp:29), and the result of
    Run is not used (84): the status is 0. *)
Definition t86_main (stod : text -> option Z) (E : env) (O : options) (input : list Z) (k : nat) : outcome :=
  match o_file O with
  | None => Exits 3 [] true
  | Some s =>
      match Asm.open stod s with
      | PFail _ => Dies
      | POk q =>
          match p_program stod q with
          | PFail PSyntax => Exits 2 [] true
          | PFail _ => Dies
          | POk (p, data) =>
              match boot (o_machine O) p data input with
              | Ok c => if o_debug O then Serves (os_start true c) else os_run E k (os_start false c)
              | _ => Dies
              end
          end
      end
  end.
