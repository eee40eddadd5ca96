(** The program builder: src/t86/program/programbuilder.h, label.h, and the parts of
    instruction.{h,cpp} it uses (validate, setDestination). *)
From Coq Require Import ZArith List Bool.
From Verif Require Import Base Isa.
Import ListNotations.
Open Scope Z_scope.

(** An element of instructions_ (programbuilder.h:85). DBG carries a C++ callback
    (instruction.h:739-752), which is not modelled: [BDbg] is any DBG. *)
Inductive bitem : Set := BI (i : instr) | BDbg.

(** programbuilder.h:85-89 *)
Record builder : Set := mkBuilder { b_items : list bitem; b_data : list Z; b_release : bool }.

(** label.h:14-16 Label::empty *)
Definition no_label : Z := two64 - 1.

(** cpu/register.h:48-56 Register::isSpecial *)
Definition is_special (r : reg) : bool := match r with PC | Flags => true | _ => false end.

(** Instruction::validate: instruction.h:110 (nothing), instruction.cpp:186-190 (binary
    arithmetic: reg_, which is the first source), 259-263 (unary), 329-336 (MOV), 543-547 (POP),
    632-636 (LEA). [false]: InvalidOperand is thrown. *)
Definition validate (i : instr) : bool :=
  match i with
  | IBin _ _ r _ _ => negb (is_special r)
  | IUn _ r => negb (is_special r)
  | IMov (OReg r) _ => negb (is_special r)
  | IPop r => match r with PC => false | _ => true end
  | ILea r _ => match r with PC | Flags | SP | BP => false | _ => true end
  | _ => true
  end.

(** The operand address_ of a PatchableJumpInstruction (instruction.h:771-798): JMP, the
    conditional jumps, LOOP and CALL; None: some other instruction (the dynamic_cast of
    programbuilder.h:75 gives null). *)
Definition jump_operand (i : instr) : option operand :=
  match i with IJmp a | IJcc _ a | ILoop _ a | ICall a => Some a | _ => None end.
Definition with_operand (i : instr) (a : operand) : instr :=
  match i with IJmp _ => IJmp a | IJcc c _ => IJcc c a | ILoop r _ => ILoop r a | ICall _ => ICall a | _ => i end.

(** The operations of the builder. *)
Inductive bop : Type :=
| BAdd (i : instr)                 (* add(instruction), lines 20-31 *)
| BAddDbg                          (* add(DBG), lines 33-42 *)
| BCurrent                         (* currentLabel(), 45-47 *)
| BData (v : Z)                    (* addData(int64_t), 49-52 *)
| BDataMany (v : Z) (n : nat)      (* addData(value, size), 55-62 *)
| BDataStr (s : list Z)            (* addData(string), 64-71: the chars as signed numbers *)
| BPatch (l d : Z)                 (* patch(instruction, destination), 73-78 *)
| BProgram.                        (* program(), 80-82 *)

Inductive bres : Type :=
| RLabel (l : Z)
| RThrew                           (* InvalidOperand or std::out_of_range *)
| RDone
| RProgram (p : list bitem) (data : list Z).

(** programbuilder.h:13 *)
Definition new_builder (release : bool) : builder := mkBuilder [] [] release.
(** programbuilder.h:15-18 *)
Definition builder_of (p : list bitem) (data : list Z) (release : bool) : builder := mkBuilder p data release.

Definition size {A} (l : list A) : Z := Z.of_nat (length l).

(** instruction.cpp:626-630 setDestination: the assert wants an immediate that is
    Label::empty(), which is -1 as int64_t. *)
Definition set_destination (i : instr) (d : Z) : res builder instr :=
  match jump_operand i with
  | Some (OImm v) => if u64 v =? no_label then Ok (with_operand i (OImm (s64 d))) else Undef UAssert
  | _ => Undef UAssert
  end.

Definition brun (o : bop) (b : builder) : res builder (bres * builder) :=
  match o with
  | BAdd i =>
      if validate i then
        let items := b_items b ++ [BI i] in
        Ok (RLabel (size items - 1), mkBuilder items (b_data b) (b_release b))
      else Ok (RThrew, b)
  | BAddDbg =>
      if b_release b then Ok (RLabel (size (b_items b)), b)
      else
        let items := b_items b ++ [BDbg] in
        Ok (RLabel (size items - 1), mkBuilder items (b_data b) (b_release b))
  | BCurrent => Ok (RLabel (size (b_items b)), b)
  | BData v =>
      let data := b_data b ++ [v] in
      Ok (RLabel (size data - 1), mkBuilder (b_items b) data (b_release b))
  | BDataMany v n => Ok (RLabel (size (b_data b)), mkBuilder (b_items b) (b_data b ++ repeat v n) (b_release b))
  | BDataStr s => Ok (RLabel (size (b_data b)), mkBuilder (b_items b) (b_data b ++ s ++ [0]) (b_release b))
  | BPatch l d =>
      if (0 <=? l) && (l <? size (b_items b)) then
        match nth (Z.to_nat l) (b_items b) BDbg with
        | BI i =>
            let! i' := set_destination i d in
            Ok (RDone, mkBuilder (set_nth (b_items b) (Z.to_nat l) (BI i')) (b_data b) (b_release b))
        | BDbg => Undef UAssert
        end
      else Ok (RThrew, b)
  | BProgram => Ok (RProgram (b_items b) (b_data b), mkBuilder [] [] (b_release b))
  end.

(** A sequence of operations; exceptions are caught by the caller and leave the builder as
    it was. *)
Fixpoint bruns (os : list bop) (b : builder) : res builder (list bres * builder) :=
  match os with
  | [] => Ok ([], b)
  | o :: os => let! x := brun o b in let! y := bruns os (snd x) in Ok (fst x :: fst y, snd y)
  end.
