(** Model of the text utilities of src/common/helpers.h. Bytes are [ascii], a
    std::string or std::string_view is a [text]. *)
From Coq Require Import Ascii String ZArith NArith List Bool.
Import ListNotations.
Open Scope Z_scope.

Definition text : Type := list ascii.

(** a string literal *)
Definition str (s : string) : text := list_ascii_of_string s.

Definition ch (n : nat) : ascii := ascii_of_nat n.

(** operator== *)
Fixpoint teqb (a b : text) : bool :=
  match a, b with
  | [], [] => true
  | x :: a', y :: b' => Ascii.eqb x y && teqb a' b'
  | _, _ => false
  end.

(** string_view::find *)
Fixpoint find_char (d : ascii) (s : text) : option nat :=
  match s with
  | [] => None
  | c :: s' => if Ascii.eqb c d then Some 0%nat else option_map S (find_char d s')
  end.

(** 35-49 split_v. Every round removes at least one character, so that [length s]
    rounds suffice; [None] when they do not. *)
Fixpoint split_loop (fuel : nat) (s : text) (d : ascii) : option (list text) :=
  match s with
  | [] => Some []
  | _ =>
      match fuel with
      | O => None
      | S n =>
          match find_char d s with
          | None => Some [s]
          | Some k =>
              let rest := split_loop n (skipn (k + 1) s) d in
              match k with
              | O => rest
              | _ => option_map (cons (firstn k s)) rest
              end
          end
      end
  end.

Definition split_v (s : text) (d : ascii) : list text :=
  match split_loop (length s) s d with Some l => l | None => [] end.

(** 59-69 join *)
Fixpoint join (l : list text) (j : text) : text :=
  match l with
  | [] => []
  | x :: l' => x ++ match l' with [] => [] | _ => j ++ join l' j end
  end.

(** ---- numbers ---- *)

Definition digit (c : ascii) : option Z :=
  let n := Z.of_N (N_of_ascii c) in
  if (48 <=? n) && (n <=? 57) then Some (n - 48) else None.

(** The longest prefix of digits, read in base 10; [None] if there is no digit.
    Part of std::from_chars. *)
Fixpoint digits (acc : Z) (s : text) : Z * text :=
  match s with
  | c :: s' => match digit c with Some k => digits (10 * acc + k) s' | None => (acc, s) end
  | [] => (acc, s)
  end.

Definition number (s : text) : option (Z * text) :=
  match s with
  | c :: s' => match digit c with Some k => Some (digits k s') | None => None end
  | [] => None
  end.

(** 71-78 svtoi64: std::from_chars for int64_t takes an optional minus sign and the
    longest prefix of digits; what follows is ignored, as the returned pointer is
    not looked at. A value that does not fit is an error. *)
Definition svtoi64 (s : text) : option Z :=
  match s with
  | [] => None
  | c :: s' =>
      let neg := Ascii.eqb c (ch 45) in
      match number (if neg then s' else s) with
      | None => None
      | Some (n, _) =>
          let v := if neg then - n else n in
          if (- 2 ^ 63 <=? v) && (v <? 2 ^ 63) then Some v else None
      end
  end.

(** 82-102 svtonum<uint64_t> (and size_t): no minus sign is taken for an unsigned
    type. *)
Definition svtou64 (s : text) : option Z :=
  match number s with
  | None => None
  | Some (n, _) => if n <? 2 ^ 64 then Some n else None
  end.

(** std::to_string, operator<< and fmt for integers. [fuel] bounds the number of
    digits. *)
Fixpoint put_digits (fuel : nat) (n : Z) (acc : text) : text :=
  match fuel with
  | O => acc
  | S k =>
      let acc' := ascii_of_N (Z.to_N (48 + n mod 10)) :: acc in
      if n <? 10 then acc' else put_digits k (n / 10) acc'
  end.

Definition show_nat (n : Z) : text := put_digits (S (Z.to_nat (Z.log2 n))) n [].
Definition show_Z (n : Z) : text := if n <? 0 then ch 45 :: show_nat (- n) else show_nat n.

(** ---- 104-114 is_prefix_of ---- *)

(** The loop compares position by position after the length test. *)
Fixpoint same_upto (n : nat) (p s : text) : bool :=
  match n with
  | O => true
  | S k =>
      match p, s with
      | x :: p', y :: s' => Ascii.eqb x y && same_upto k p' s'
      | _, _ => false      (* reading behind the end; excluded by the length test *)
      end
  end.

Definition is_prefix_of (p s : text) : bool :=
  if (length s <? length p)%nat then false else same_upto (length p) p s.

(** ---- 116-135 squash_strip_whitespace ---- *)

(** std::isspace in the "C" locale. For a negative char the standard leaves it
    undefined; glibc answers false. *)
Definition is_space (c : ascii) : bool :=
  let n := N_of_ascii c in ((9 <=? n) && (n <=? 13) || (n =? 32))%N.

Fixpoint strip_front (s : text) : text :=
  match s with c :: s' => if is_space c then strip_front s' else s | [] => [] end.

Definition strip_back (s : text) : text := rev (strip_front (rev s)).

Fixpoint squash_loop (last_space : bool) (s : text) : text :=
  match s with
  | [] => []
  | c :: s' =>
      if negb (is_space c) then c :: squash_loop false s'
      else if negb last_space then c :: squash_loop true s'
      else squash_loop last_space s'
  end.

Definition squash_strip_whitespace (s : text) : text := squash_loop true (strip_front (strip_back s)).
