(** What the statistics are about: the instructions the sequential machine executes, and
    the ticks during which an instruction is in the pipeline. *)
From Coq Require Import ZArith NArith List Bool.
From Verif Require Import Base Alu Isa Exec Ram Writes Rat Cpu InOrder IsaSpec Stats.
Import ListNotations.

(** the instructions executed on the way from one state to another *)
Inductive isa_trace (F : fops) (p : list instr) : list instr -> arch -> arch -> Prop :=
| itr_nil : forall S, isa_trace F p [] S S
| itr_cons : forall l S T U, isa_step F p S T -> isa_trace F p l T U -> isa_trace F p (instr_at p (a_pc S) :: l) S U.

(** the states of the processor after the first, second, ... tick *)
Fixpoint states (E : env) (n : nat) (x : lcpu) : list lcpu :=
  match n with
  | O => []
  | S n' => match ltick E x with Ok x' => x' :: states E n' x' | _ => [] end
  end.

(** where the instruction with number [id] is *)
Definition in_fetch (id : nat) (x : lcpu) : bool := match l_fid x with Some n => Nat.eqb n id | None => false end.
Definition in_decode (id : nat) (x : lcpu) : bool := match l_did x with Some n => Nat.eqb n id | None => false end.
Definition in_station (id : nat) (x : lcpu) : bool := existsb (Nat.eqb id) (l_ids x).
Definition in_pipe (id : nat) (x : lcpu) : bool := in_fetch id x || in_decode id x || in_station id x.

(** after how many ticks it is there *)
Definition times (f : lcpu -> bool) (xs : list lcpu) : nat := length (filter f xs).

(** sum over the instructions of a kind *)
Definition of_kind (pick : instr -> bool) (l : slog) : list nat :=
  map fst (filter (fun y => pick (snd (snd y))) (s_ins l)).
Definition all : instr -> bool := fun _ => true.
Definition total (f : nat -> Z) (ids : list nat) : Z := fold_right (fun id s => f id + s)%Z 0%Z ids.
