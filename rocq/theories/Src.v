(** Model of source-level debugging, first part: src/debugger/Source/Die.h, LocExpr.h,
    Type.h, LineMapping.{h,cpp}, SourceFile.{h,cpp}, ExpressionInterpreter.{h,cpp} and
    the queries and steps of Source.{h,cpp}. Log messages are left out. *)
From Coq Require Import Ascii String ZArith NArith List Bool.
From Verif Require Import Base Text StdMap DbgText Client Native.
Import ListNotations.
Open Scope Z_scope.

(** ---- LocExpr.h ---- *)

(** 11-19: a register by its name or an address (int64_t) *)
Inductive loc : Type := LReg (name : text) | LMem (v : Z).
(** 32-49; the member of Dereference is not used *)
Inductive locop : Type := LPush (l : loc) | LAdd | LBase (off : Z) | LDeref.

(** ---- Die.h ---- *)

(** 61-72 *)
Inductive tag : Set :=
| TFunction | TScope | TVariable | TPrimitive | TStructured | TPointer | TArray | TName | TInvalid | TUnit.
(** 35-39 ATTR_member: name, type_id, offset *)
Record memb : Type := mkMemb { mb_name : text; mb_type : Z; mb_off : Z }.
(** 46-53 *)
Inductive attr : Type :=
| AName (n : text) | ABegin (a : Z) | AEnd (a : Z) | AType (id : Z) | ALoc (l : list locop)
| ASize (n : Z) | AMembers (m : list memb) | AId (id : Z).
(** 59-117 *)
Inductive die : Type := Die (t : tag) (attrs : list attr) (children : list die).
Definition die_tag (d : die) : tag := match d with Die t _ _ => t end.
Definition die_attrs (d : die) : list attr := match d with Die _ a _ => a end.
Definition die_children (d : die) : list die := match d with Die _ _ c => c end.

(** Source.h:11-29 FindDieAttribute: the first attribute of the kind *)
Fixpoint first_of {A} (f : attr -> option A) (l : list attr) : option A :=
  match l with [] => None | a :: l' => match f a with Some x => Some x | None => first_of f l' end end.
Definition at_name (d : die) : option text := first_of (fun a => match a with AName n => Some n | _ => None end) (die_attrs d).
Definition at_begin (d : die) : option Z := first_of (fun a => match a with ABegin n => Some n | _ => None end) (die_attrs d).
Definition at_end (d : die) : option Z := first_of (fun a => match a with AEnd n => Some n | _ => None end) (die_attrs d).
Definition at_type (d : die) : option Z := first_of (fun a => match a with AType n => Some n | _ => None end) (die_attrs d).
Definition at_loc (d : die) : option (list locop) := first_of (fun a => match a with ALoc l => Some l | _ => None end) (die_attrs d).
Definition at_size (d : die) : option Z := first_of (fun a => match a with ASize n => Some n | _ => None end) (die_attrs d).
Definition at_members (d : die) : option (list memb) := first_of (fun a => match a with AMembers m => Some m | _ => None end) (die_attrs d).
Definition at_id (d : die) : option Z := first_of (fun a => match a with AId n => Some n | _ => None end) (die_attrs d).

(** ---- Type.h ---- *)

(** 17-26 *)
Inductive prim : Set := PrFloat | PrSigned | PrUnsigned | PrChar.
(** 15, 55-79 *)
Inductive ty : Type :=
| TyPrim (k : prim) (size : Z)
| TyPtr (id size : Z)
| TyArr (id cnt : Z)
| TyStruct (name : text) (size : Z) (members : list memb).
(** 28-39 ToPrimitiveType *)
Definition to_prim (n : text) : option prim :=
  if teqb n (str "float") then Some PrFloat
  else if teqb n (str "int") then Some PrSigned
  else if teqb n (str "unsigned") then Some PrUnsigned
  else if teqb n (str "char") then Some PrChar
  else None.
(** 41-53 FromPrimitiveType *)
Definition of_prim (k : prim) : text :=
  match k with PrFloat => str "float" | PrSigned => str "int" | PrUnsigned => str "unsigned" | PrChar => str "char" end.

(** ---- LineMapping.{h,cpp}: a map from lines (size_t) to addresses (uint64_t) ---- *)

Definition line_map : Type := list (Z * Z).
(** cpp:8-14 GetAddress *)
Definition get_address (m : line_map) (line : Z) : option Z := zget m line.
(** cpp:16-24 GetLines *)
Definition get_lines (m : line_map) (a : Z) : list Z := map fst (filter (fun x => snd x =? a) m).

(** ---- SourceFile.{h,cpp} ---- *)

(** h:7-21 the constructor; [cur] is the beginning of the current line, in reverse *)
Fixpoint file_lines (cur s : text) : list text :=
  match s with
  | [] => match cur with [] => [] | _ => [rev cur] end
  | c :: s' => if Ascii.eqb c NL then rev cur :: file_lines [] s' else file_lines (c :: cur) s'
  end.
(** cpp:3-8 GetLine *)
Definition file_line (f : list text) (i : Z) : option text :=
  if (0 <=? i) && (i <? Z.of_nat (length f)) then nth_error f (Z.to_nat i) else None.

(** ---- Source.{h,cpp} ---- *)

(** h:157-160: what the debugger knows about the source, and the types made of it *)
Record source : Type := mkSource {
  so_lines : option line_map; so_file : option (list text); so_die : option die; so_types : list (Z * ty) }.

(** std::max_element: the first of the largest ones *)
Fixpoint max_line (l : list Z) : option Z :=
  match l with
  | [] => None
  | x :: l' => match max_line l' with Some y => Some (if x <? y then y else x) | None => Some x end
  end.
(** cpp:48-58 AddrToLine *)
Definition addr_to_line (s : source) (a : Z) : option Z :=
  match so_lines s with None => None | Some m => max_line (get_lines m a) end.
(** 60-65 LineToAddr *)
Definition line_to_addr (s : source) (line : Z) : option Z :=
  match so_lines s with None => None | Some m => get_address m line end.
(** 82-88 GetLine *)
Definition source_line (s : source) (i : Z) : option text :=
  match so_file s with None => None | Some f => file_line f i end.
(** 67-80 GetLinesRange; the sum of size_t wraps. [k] counts the lines left. *)
Fixpoint lines_range (f : list text) (i : Z) (k : nat) : list text :=
  match k with
  | O => []
  | S k' => match file_line f (u64 i) with Some t => t :: lines_range f (i + 1) k' | None => [] end
  end.
Definition get_lines_range (s : source) (i : Z) (amount : nat) : list text :=
  match so_file s with None => [] | Some f => lines_range f i amount end.

Definition is_function (d : die) : bool := match die_tag d with TFunction => true | _ => false end.
(** 115-119, 322-325: the address is between begin_addr and end_addr; both must be there *)
Definition covers (d : die) (a : Z) : bool :=
  match at_begin d, at_end d with Some b, Some e => (b <=? a) && (a <? e) | _, _ => false end.

(** 107-128 GetFunctionNameByAddress *)
Fixpoint function_at (l : list die) (a : Z) : option text :=
  match l with
  | [] => None
  | d :: l' =>
      if is_function d && covers d a then match at_name d with Some n => Some n | None => function_at l' a end
      else function_at l' a
  end.
Definition function_name (s : source) (a : Z) : option text :=
  match so_die s with None => None | Some d => function_at (die_children d) a end.

(** 130-155 GetFunctionAddrByName *)
Fixpoint function_named (l : list die) (n : text) : option (Z * Z) :=
  match l with
  | [] => None
  | d :: l' =>
      if is_function d && match at_name d with Some m => teqb m n | None => false end then
        match at_begin d, at_end d with Some b, Some e => Some (b, e) | _, _ => None end
      else function_named l' n
  end.
Definition function_addr (s : source) (n : text) : option (Z * Z) :=
  match so_die s with None => None | Some d => function_named (die_children d) n end.

(** 187-266 ReconstructTypeInformation. [None] is undefined behaviour: a structured
    type without a name, a size or members is dereferenced through a null pointer. *)
Definition type_of_die (d : die) : option (option ty) :=
  match die_tag d with
  | TPrimitive =>
      match at_name d with
      | Some n => match to_prim n, at_size d with Some k, Some sz => Some (Some (TyPrim k sz)) | _, _ => Some None end
      | None => Some None
      end
  | TStructured =>
      match at_name d, at_size d, at_members d with
      | Some n, Some sz, Some m => Some (Some (TyStruct n sz m))
      | _, _, _ => None
      end
  | TPointer => match at_type d, at_size d with Some i, Some sz => Some (Some (TyPtr i sz)) | _, _ => Some None end
  | TArray => match at_type d, at_size d with Some i, Some sz => Some (Some (TyArr i sz)) | _, _ => Some None end
  | _ => Some None
  end.
Fixpoint add_types (l : list die) (types : list (Z * ty)) : option (list (Z * ty)) :=
  match l with
  | [] => Some types
  | d :: l' =>
      match at_id d with
      | None => add_types l' types
      | Some id =>
          match zget types id with
          | Some _ => add_types l' types
          | None =>
              match type_of_die d with
              | None => None
              | Some None => add_types l' types
              | Some (Some t) => add_types l' (zput types id t)
              end
          end
      end
  end.
(** h:34-45 RegisterSourceFile, RegisterLineMapping, RegisterDebuggingInformation *)
Definition no_source : source := mkSource None None None [].
Definition register_file (s : source) (f : list text) : source := mkSource (so_lines s) (Some f) (so_die s) (so_types s).
Definition register_lines (s : source) (m : line_map) : source := mkSource (Some m) (so_file s) (so_die s) (so_types s).
Definition register_die (s : source) (d : die) : option source :=
  match add_types (die_children d) (so_types s) with
  | Some t => Some (mkSource (so_lines s) (so_file s) (Some d) t)
  | None => None
  end.

(** 312-332 FindVariables *)
Definition pruned (d : die) (a : Z) : bool :=
  match die_tag d with TScope | TFunction => negb (covers d a) | _ => false end.
Fixpoint find_variables (a : Z) (d : die) (m : list (text * die)) {struct d} : list (text * die) :=
  match d with
  | Die t attrs children =>
      let rest :=
        if pruned d a then m
        else (fix all (l : list die) (m : list (text * die)) : list (text * die) :=
                match l with [] => m | x :: l' => all l' (find_variables a x m) end) children m in
      match t, at_name d with
      | TVariable, Some n => tput m n d
      | _, _ => rest
      end
  end.
(** 334-340 GetActiveVariables; 361-368 GetScopedVariables are its keys *)
Definition active_variables (s : source) (a : Z) : list (text * die) :=
  match so_die s with None => [] | Some d => find_variables a d [] end.
(** 157-165 GetVariableDie *)
Definition variable_die (s : source) (a : Z) (n : text) : option die := tget (active_variables s a) n.

(** h:121-127 GetType *)
Definition get_type (s : source) (id : Z) : option ty := zget (so_types s) id.

Section Source.
Variable U : setup.
(** Bound on the ticks of one wait, on the rounds of the loops and on the depth of
    recursions that need not end. *)
Variable fuel : nat.

(** int64_t addition; overflow is undefined *)
Definition fits64 (z : Z) : bool := (- 2 ^ 63 <=? z) && (z <? 2 ^ 63).
Definition checked (z : Z) : act native Z := if fits64 z then ret z else dead.
(** native.ReadMemory(address, 1)[0], the int64_t address converted to uint64_t *)
Definition read_cell (v : Z) : act native Z :=
  let* l := get_memory U (u64 v) 1 in
  match l with x :: _ => ret x | [] => dead end.

(** ---- ExpressionInterpreter.cpp ---- *)

(** 21-48 AddOperands *)
Definition operand_value (l : loc) : act native Z :=
  match l with LMem v => ret v | LReg n => get_register U n end.
Definition add_operands (a b : loc) : act native loc :=
  let* x := operand_value a in
  let* y := operand_value b in
  let* z := checked (x + y) in
  ret (LMem z).
(** 50-85 one instruction; the top of an empty stack is undefined *)
Definition loc_step (o : locop) (s : list loc) : act native (list loc) :=
  match o with
  | LPush l => ret (l :: s)
  | LAdd => match s with v1 :: v2 :: s' => let* r := add_operands v1 v2 in ret (r :: s') | _ => dead end
  | LBase off => let* bp := get_register U (str "BP") in let* z := checked (bp + off) in ret (LMem z :: s)
  | LDeref =>
      match s with
      | LReg n :: _ => let* i := get_register U n in let* v := read_cell i in ret (LMem v :: s)
      | LMem o :: _ => let* i := read_cell o in let* v := read_cell i in ret (LMem v :: s)
      | [] => dead
      end
  end.
Fixpoint loc_run (l : list locop) (s : list loc) : act native (list loc) :=
  match l with [] => ret s | o :: l' => let* s' := loc_step o s in loc_run l' s' end.
(** 10-19 Interpret *)
Definition interpret (l : list locop) : act native loc :=
  let* s := loc_run l [] in match s with x :: _ => ret x | [] => fail end.

(** ---- Source.cpp ---- *)

(** 167-185 GetVariableLocation *)
Definition variable_location (s : source) (n : text) : act native (option loc) :=
  match so_die s with
  | None => ret None
  | Some _ =>
      let* ip := get_ip U in
      match variable_die s ip n with
      | None => ret None
      | Some d =>
          match at_loc d with
          | None | Some [] => ret None
          | Some l => let* x := interpret l in ret (Some x)
          end
      end
  end.
(** 268-286 GetVariableTypeInformation *)
Definition variable_type (s : source) (n : text) : act native (option ty) :=
  match so_die s with
  | None => ret None
  | Some _ =>
      let* ip := get_ip U in
      match variable_die s ip n with
      | None => ret None
      | Some d => ret (match at_type d with Some id => get_type s id | None => None end)
      end
  end.

(** 288-299 StepIn *)
Definition has_line (s : source) (a : Z) : bool := match addr_to_line s a with Some _ => true | None => false end.
Fixpoint step_in_loop (k : nat) (s : source) (e : devent) : act native devent :=
  match e with
  | EvSinglestep =>
      let* ip := get_ip U in
      if has_line s ip then ret e
      else match k with
           | O => fun _ => Blocked
           | S k' => let* e' := raw_step U fuel in step_in_loop k' s e'
           end
  | _ => ret e
  end.
Definition source_step_in (s : source) : act native devent :=
  let* e := single_step U fuel in step_in_loop fuel s e.
(** 301-310 StepOver *)
Fixpoint step_over_loop (k : nat) (s : source) (e : devent) : act native devent :=
  match e with
  | EvSinglestep =>
      let* ip := get_ip U in
      if has_line s ip then ret e
      else match k with
           | O => fun _ => Blocked
           | S k' => let* e' := step_over U fuel false in step_over_loop k' s e'
           end
  | _ => ret e
  end.
Definition source_step_over (s : source) : act native devent :=
  let* e := step_over U fuel true in step_over_loop fuel s e.

(** 484-504 GetAddressFromString *)
Definition address_of_string (s : source) (t : text) (from_one : bool) : option Z :=
  match svtou64 t with
  | None => match function_addr s t with Some (b, _) => Some b | None => None end
  | Some line =>
      if (line =? 0) && from_one then None
      else line_to_addr s (if from_one then line - 1 else line)
  end.

(** 5-39 breakpoints by line (the functions not used by the command line) *)
Definition at_line {A} (s : source) (line : Z) (f : Z -> act native A) : act native Z :=
  match line_to_addr s line with Some a => f a;; ret a | None => fail end.
Definition set_source_breakpoint (s : source) (line : Z) : act native Z := at_line s line (set_breakpoint U).
Definition unset_source_breakpoint (s : source) (line : Z) : act native Z := at_line s line (unset_breakpoint U).
Definition enable_source_breakpoint (s : source) (line : Z) : act native Z := at_line s line (enable U).
Definition disable_source_breakpoint (s : source) (line : Z) : act native Z := at_line s line (disable U).
End Source.

(** h:129-144 GetTypeSize; the product of uint64_t wraps. [k] bounds the depth: an
    array type that contains itself recurses for ever. *)
Fixpoint type_size {S} (k : nat) (s : source) (id : Z) : act S Z :=
  match get_type s id with
  | None => fail
  | Some (TyPrim _ n) | Some (TyPtr _ n) | Some (TyStruct _ n _) => ret n
  | Some (TyArr sub cnt) =>
      match k with
      | O => fun _ => Blocked
      | Datatypes.S k' => let* n := type_size k' s sub in ret (u64 (n * cnt))
      end
  end.
