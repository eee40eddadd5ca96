(** Model of the command line configuration src/common/config.h. *)
From Coq Require Import Ascii String ZArith NArith List Bool.
From Verif Require Import Base Text.
Import ListNotations.
Open Scope Z_scope.

(** args_: an unordered_map from strings to strings; keys are unique because
    insertion is only done after a failed find. *)
Definition args : Type := list (text * text).

Fixpoint find_arg (a : args) (k : text) : option text :=
  match a with [] => None | (k', v) :: a' => if teqb k' k then Some v else find_arg a' k end.

(** 15-17 *)
Definition VERBOSE : text := str " verbose".
Definition MODE : text := str " mode".
Definition INPUT : text := str " input".

(** 89-93 setOption; [None]: the exception "already defined" *)
Definition set_option (a : args) (k v : text) : option args :=
  match find_arg a k with Some _ => None | None => Some ((k, v) :: a) end.

(** 78-85 setDefaultIfMissing *)
Definition set_default (a : args) (k v : text) : args * bool :=
  match find_arg a k with None => ((k, v) :: a, true) | Some _ => (a, false) end.

(** 71-76 get; [None]: the exception "not provided" *)
Definition get (a : args) (k : text) : option text := find_arg a k.

(** 21-42, one argument: the option it sets and the value *)
Definition option_of (arg : text) : text * text :=
  if teqb arg (str "--verbose") || teqb arg (str "-v") then (VERBOSE, str "true")
  else if teqb arg (str "--interactive") || teqb arg (str "-i") || teqb arg (str "--repl") then (MODE, str "interactive")
  else if teqb arg (str "--compile") || teqb arg (str "-c") then (MODE, str "compile")
  else match arg with
       | c :: _ =>
           if Ascii.eqb c (ch 45) then
             match find_char (ch 61) arg with
             | Some k => (firstn k arg, skipn (k + 1) arg)
             | None => (arg, [])
             end
           else (INPUT, arg)
       | [] => (INPUT, arg)       (* arg[0] of an empty string is the terminating zero *)
       end.

Fixpoint parse_args (a : args) (argv : list text) : option args :=
  match argv with
  | [] => Some a
  | x :: argv' =>
      let (k, v) := option_of x in
      match set_option a k v with Some a' => parse_args a' argv' | None => None end
  end.

(** 19-47 parse; the first element of argv is skipped. NDEBUG is not defined in any
    of the project's build types (CMakeLists.txt), so that the default for VERBOSE
    is compiled in. *)
Definition parse (argv : list text) : option args :=
  match parse_args [] (tl argv) with
  | Some a => Some (fst (set_default a VERBOSE (str "true")))
  | None => None
  end.
