(** Model of src/t86/ram.h and src/t86/ram.cpp. *)
From Coq Require Import ZArith List Bool.
From Verif Require Import Base.
Import ListNotations.
Open Scope Z_scope.

(** ram.h:50-59 ReadEntry, WriteEntry. The [value] field of WriteEntry is never
    read and is left out. *)
Record rentry : Set := mkRe { re_rem : nat; re_val : Z }.
Record wentry : Set := mkWe { we_id : Z; we_rem : nat }.

(** ram.h:40-67. The index [writesById_] always holds exactly the ids of the
    entries of [writes_]: it is updated together with it (ram.cpp:15-17, 65-68);
    it is therefore represented by [ram_writes] alone. *)
Record ram : Type := mkRam {
  ram_mem : list Z;
  ram_reads : amap rentry;
  ram_writes : amap wentry;
  ram_next : Z              (* writeIdCounter *)
}.

(** std::vector::at on the memory cells: [None] is std::out_of_range. *)
Definition mem_at (m : list Z) (a : Z) : option Z :=
  if (0 <=? a) && (a <? Z.of_nat (length m)) then nth_error m (Z.to_nat a) else None.

Definition mem_set (m : list Z) (a : Z) (v : Z) : list Z :=
  if (0 <=? a) && (a <? Z.of_nat (length m)) then set_nth m (Z.to_nat a) v else m.

(** config.cpp:7-13 *)
Definition read_latency : nat := 5.
Definition write_latency : nat := 5.

(** ram.cpp:7 *)
Definition ram_init (size : nat) : ram := mkRam (repeat 0 size) [] [] 0.

(** ram.cpp:9-33 RAM::tick: an entry whose counter is zero goes, others count down. *)
Fixpoint tick_reads (m : amap rentry) : amap rentry :=
  match m with
  | [] => []
  | (a, e) :: m' =>
      match re_rem e with
      | O => tick_reads m'
      | S n => (a, mkRe n (re_val e)) :: tick_reads m'
      end
  end.

Fixpoint tick_writes (m : amap wentry) : amap wentry :=
  match m with
  | [] => []
  | (a, e) :: m' =>
      match we_rem e with
      | O => tick_writes m'
      | S n => (a, mkWe (we_id e) n) :: tick_writes m'
      end
  end.

Definition ram_tick (r : ram) : ram :=
  mkRam (ram_mem r) (tick_reads (ram_reads r)) (tick_writes (ram_writes r)) (ram_next r).

(** Result of RAM::read: a value, "not yet", or std::out_of_range. *)
Inductive rread : Set := RVal (v : Z) | RWait | RFault.

(** ram.cpp:35-56 RAM::read (and 58-60 isBusy). *)
Definition ram_read (gates : nat) (r : ram) (a : Z) : res unit (ram * rread) :=
  match aget (ram_reads r) a with
  | Some e => match re_rem e with
              | O => Ok (r, RVal (re_val e))
              | S _ => Ok (r, RWait)
              end
  | None =>
      if Nat.eqb (length (ram_reads r)) gates then Ok (r, RWait)
      else match aget (ram_writes r) a with
           | Some _ => Undef UAssert
           | None =>
               match mem_at (ram_mem r) a with
               | None => Ok (r, RFault)
               | Some v => Ok (mkRam (ram_mem r) (aset (ram_reads r) a (mkRe read_latency v))
                                     (ram_writes r) (ram_next r), RWait)
               end
           end
  end.

(** ram.cpp:62-70 RAM::write: [None] is std::out_of_range from mem_.at. *)
Definition ram_write (r : ram) (a v : Z) : option (ram * Z) :=
  match mem_at (ram_mem r) a with
  | None => None
  | Some _ =>
      let id := ram_next r in
      Some (mkRam (mem_set (ram_mem r) a v) (ram_reads r)
                  (aset (ram_writes r) a (mkWe id write_latency)) (id + 1), id)
  end.

(** ram.cpp:84-86 RAM::pending *)
Definition ram_pending (r : ram) (id : Z) : bool :=
  existsb (fun p => we_id (snd p) =? id) (ram_writes r).

(** ram.cpp:72-78 get, set *)
Definition ram_get (r : ram) (a : Z) : option Z := mem_at (ram_mem r) a.
Definition ram_set (r : ram) (a v : Z) : option ram :=
  match mem_at (ram_mem r) a with
  | None => None
  | Some _ => Some (mkRam (mem_set (ram_mem r) a v) (ram_reads r) (ram_writes r) (ram_next r))
  end.
