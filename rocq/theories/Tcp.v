(** Model of the message framing of src/common/TCP.h. A connection is a stream of
    bytes; what a single send or read call moves is decided by the network. *)
From Coq Require Import Ascii String ZArith NArith List Bool.
From Verif Require Import Text.
Import ListNotations.
Open Scope Z_scope.

(** 60-64: the union of a size_t and eight bytes, on a little-endian machine. *)
Fixpoint le_bytes (k : nat) (n : Z) : text :=
  match k with
  | O => []
  | S k' => ascii_of_N (Z.to_N (n mod 256)) :: le_bytes k' (n / 256)
  end.

Fixpoint le_value (s : text) : Z :=
  match s with [] => 0 | c :: s' => Z.of_N (N_of_ascii c) + 256 * le_value s' end.

(** 52-57 SendRaw. [net t n] is what the [t]-th call of send, asked to send [n]
    bytes, returns: the number of bytes taken, or -1 for an error. [sent] is a
    size_t, so adding -1 wraps. Returns the bytes put on the wire; [None] when the
    calls allowed by [fuel] do not suffice. *)
Fixpoint send_raw (fuel : nat) (net : nat -> Z -> Z) (t : nat) (data : text) (sent : Z) (wire : text) : option (text * nat) :=
  if sent <? Z.of_nat (length data) then
    match fuel with
    | O => None
    | S k =>
        let r := net t (Z.of_nat (length data) - sent) in
        let got := if 0 <? r then firstn (Z.to_nat r) (skipn (Z.to_nat sent) data) else [] in
        send_raw k net (S t) data ((sent + r) mod 2 ^ 64) (wire ++ got)
    end
  else Some (wire, t).

(** 59-67 Send *)
Definition send (fuel : nat) (net : nat -> Z -> Z) (t : nat) (m : text) (wire : text) : option (text * nat) :=
  match send_raw fuel net t (le_bytes 8 (Z.of_nat (length m) mod 2 ^ 64)) 0 wire with
  | Some (w, t') => send_raw fuel net t' m 0 w
  | None => None
  end.

Fixpoint send_all (fuel : nat) (net : nat -> Z -> Z) (t : nat) (ms : list text) (wire : text) : option (text * nat) :=
  match ms with
  | [] => Some (wire, t)
  | m :: ms' =>
      match send fuel net t m wire with
      | Some (w, t') => send_all fuel net t' ms' w
      | None => None
      end
  end.

(** One call of read, asked for [want] bytes: the network delivers at least one and
    at most [want] of the bytes that are still to come, [d] being its choice. No
    byte is left only when the peer has closed the connection. The call blocks until
    there is something to deliver, so that what the sender has not sent yet need not
    be told apart. Errors of read (an exception) are not modelled. *)
Definition read (want d : nat) (s : text) : text * text :=
  let k := Nat.min (Nat.max 1 d) (Nat.min want (length s)) in (firstn k s, skipn k s).

(** 79-89. [None]: the connection was closed (nullopt). The number of calls is at
    most the number of bytes wanted. *)
Fixpoint read_loop (fuel : nat) (net : nat -> nat) (t : nat) (want : nat) (s acc : text) : option (text * text) :=
  match want with
  | O => Some (acc, s)
  | _ =>
      match fuel with
      | O => None
      | S k =>
          let (got, s') := read want (net t) s in
          match got with
          | [] => None
          | _ => read_loop k net (S t) (want - length got) s' (acc ++ got)
          end
      end
  end.

(** 69-94 Receive. [hd] is the number of bytes the network delivers to the single
    read of the length (72), [net] its choices for the reads of the data. *)
Definition receive (hd : nat) (net : nat -> nat) (s : text) : option (text * text) :=
  let (h, s') := read 8 hd s in
  match h with
  | [] => None
  | _ => let n := Z.to_nat (le_value h) in read_loop n net 0 n s' []
  end.

(** Receiving [n] messages one after the other; [hd i], [net i] are the choices of
    the network for the [i]-th. *)
Fixpoint receive_all (n : nat) (hd : nat -> nat) (net : nat -> nat -> nat) (i : nat) (s : text) : option (list text * text) :=
  match n with
  | O => Some ([], s)
  | S k =>
      match receive (hd i) (net i) s with
      | None => None
      | Some (m, s') =>
          match receive_all k hd net (S i) s' with
          | Some (ms, r) => Some (m :: ms, r)
          | None => None
          end
      end
  end.
