(** Model of the memory-write queue: src/t86/cpu/memory_writes_manager.{h,cpp},
    memory_writes_manager/memory_write.{h,cpp} and memory_writes.{h,cpp}. *)
From Coq Require Import ZArith List Bool.
From Verif Require Import Base Ram.
Import ListNotations.
Open Scope Z_scope.

(** memory_write.h:8-60 class MemoryWrite *)
Record mwrite : Set := mkMw {
  mw_id : Z; mw_addr : Z;
  mw_value : option Z;      (* value_ *)
  mw_ram : option Z         (* ramWriteId_; None: pending, Some: outgoing *)
}.

(** memory_writes.h:11-55 class MemoryWrites: a vector sorted by descending id,
    with its capacity. *)
Record mwrites : Type := mkMws { mws_vec : list mwrite; mws_cap : nat }.

(** memory_writes_manager.h:12-64. [wm_byid] models writesById, whose values are
    references into the vectors: the flag says whether the reference is still
    valid, i.e. no later vector operation invalidated it. *)
Record wman : Type := mkWm {
  wm_cur : Z;                       (* currentId *)
  wm_map : amap mwrites;            (* writesMap_: by address *)
  wm_byid : amap bool;              (* writesById *)
  wm_unspec : list Z                (* unspecifiedWrites_ *)
}.

Definition wm_init : wman := mkWm 0 [] [] [].

(** memory_writes.cpp:4-10 find: std::lower_bound for "id > maxId". *)
Fixpoint split_gt (id : Z) (l : list mwrite) : list mwrite * list mwrite :=
  match l with
  | [] => ([], [])
  | w :: l' => if mw_id w >? id then let (a, b) := split_gt id l' in (w :: a, b) else ([], l)
  end.

(** memory_writes.cpp:12-18 latest *)
Definition mws_latest (l : list mwrite) (maxid : Z) : option mwrite :=
  match snd (split_gt maxid l) with
  | [] => None
  | w :: _ => Some w
  end.

(** Marks references to the given writes as invalid. *)
Definition invalidate (ids : list Z) (m : amap bool) : amap bool :=
  map (fun p => (fst p, if existsb (Z.eqb (fst p)) ids then false else snd p)) m.

Definition akeys_remove {V} (ids : list Z) (m : amap V) : amap V :=
  filter (fun p => negb (existsb (Z.eqb (fst p)) ids)) m.

(** memory_writes.cpp:20-23 add, on the vector of one address: std::vector::emplace.
    A reallocation (libstdc++ doubles the capacity) invalidates every reference,
    otherwise those from the insertion point on. Returns the invalidated ids. *)
Definition mws_add (ws : mwrites) (id addr : Z) : mwrites * list Z :=
  let (before, after) := split_gt id (mws_vec ws) in
  let vec := before ++ mkMw id addr None None :: after in
  if Nat.ltb (length (mws_vec ws)) (mws_cap ws)
  then (mkMws vec (mws_cap ws), map mw_id after)
  else (mkMws vec (Nat.max 1 (2 * length (mws_vec ws))), map mw_id (mws_vec ws)).

Definition wm_get (m : wman) (a : Z) : mwrites :=
  match aget (wm_map m) a with Some ws => ws | None => mkMws [] 0 end.

(** Common part of registerPendingWrite(address) and specifyAddress: add the
    write to its vector and emplace the reference into writesById. *)
Definition wm_insert (m : wman) (id addr : Z) (unspec : list Z) (cur : Z) : wman :=
  let (ws, inv) := mws_add (wm_get m addr) id addr in
  mkWm cur (aset (wm_map m) addr ws)
       (match aget (wm_byid m) id with
        | Some _ => invalidate inv (wm_byid m)
        | None => aset (invalidate inv (wm_byid m)) id true
        end) unspec.

(** memory_writes_manager.cpp:7-11 *)
Definition wm_register (m : wman) : wman * Z :=
  let id := wm_cur m + 1 in
  (mkWm id (wm_map m) (wm_byid m) (id :: wm_unspec m), id).

(** memory_writes_manager.cpp:13-17 *)
Definition wm_register_at (m : wman) (addr : Z) : wman * Z :=
  let id := wm_cur m + 1 in
  (wm_insert m id addr (wm_unspec m) id, id).

(** memory_writes_manager.cpp:19-24 specifyAddress *)
Definition wm_specify (m : wman) (id addr : Z) : res unit wman :=
  if existsb (Z.eqb id) (wm_unspec m)
  then Ok (wm_insert m id addr (filter (fun i => negb (i =? id)) (wm_unspec m)) (wm_cur m))
  else Undef UAssert.

(** memory_writes_manager.h:41-44 hasUnspecifiedWrites *)
Definition wm_has_unspec (m : wman) (maxid : Z) : bool :=
  existsb (fun i => i <=? maxid) (wm_unspec m).

(** memory_writes_manager.cpp:31-39 previousWrite *)
Definition wm_previous (m : wman) (addr maxid : Z) : res unit (option mwrite) :=
  if wm_has_unspec m maxid then Undef UAssert
  else Ok (mws_latest (mws_vec (wm_get m addr)) maxid).

(** memory_writes_manager.cpp:60-64 getWrite. The reference designates the write
    with that id as long as it is valid; which vector it lives in is found by
    search in the model. *)
Fixpoint find_id (id : Z) (l : list mwrite) : option mwrite :=
  match l with
  | [] => None
  | w :: l' => if mw_id w =? id then Some w else find_id id l'
  end.

Fixpoint wm_find (id : Z) (m : amap mwrites) : option mwrite :=
  match m with
  | [] => None
  | (_, ws) :: m' => match find_id id (mws_vec ws) with
                     | Some w => Some w
                     | None => wm_find id m'
                     end
  end.

Definition wm_get_write (m : wman) (id : Z) : res unit mwrite :=
  match aget (wm_byid m) id with
  | None => Undef UAssert
  | Some false => Undef UDangling
  | Some true => match wm_find id (wm_map m) with
                 | Some w => Ok w
                 | None => Undef UDangling
                 end
  end.

(** Modification of a write through such a reference. *)
Definition upd_id (id : Z) (f : mwrite -> mwrite) (l : list mwrite) : list mwrite :=
  map (fun w => if mw_id w =? id then f w else w) l.

Definition wm_update (m : wman) (id : Z) (f : mwrite -> mwrite) : wman :=
  mkWm (wm_cur m)
       (map (fun p => (fst p, mkMws (upd_id id f (mws_vec (snd p))) (mws_cap (snd p)))) (wm_map m))
       (wm_byid m) (wm_unspec m).

(** memory_write.cpp:11-14 setValue, reached through cpu.cpp getWrite *)
Definition wm_set_value (m : wman) (id v : Z) : res unit wman :=
  let! w := wm_get_write m id in
  match mw_value w, mw_ram w with
  | None, None => Ok (wm_update m id (fun w => mkMw (mw_id w) (mw_addr w) (Some v) (mw_ram w)))
  | _, _ => Undef UAssert
  end.

(** memory_writes_manager.cpp:66-70 startWriting; [inr] is std::out_of_range from
    ram.write, thrown before the write is marked outgoing. *)
Definition wm_start (m : wman) (r : ram) (id : Z) : res unit (option (wman * ram)) :=
  let! w := wm_get_write m id in
  match mw_value w, mw_ram w with
  | Some v, None =>
      match ram_write r (mw_addr w) v with
      | None => Ok None
      | Some (r', rid) =>
          Ok (Some (wm_update m id (fun w => mkMw (mw_id w) (mw_addr w) (mw_value w) (Some rid)), r'))
      end
  | _, _ => Undef UAssert
  end.

(** Removal of writes from one vector (memory_writes.cpp:25-53): the removed ids,
    what is left, and the ids whose references are invalidated, namely the kept
    writes behind the first erased one. *)
Fixpoint mws_remove (drop : mwrite -> bool) (l : list mwrite) (erased : bool)
  : list mwrite * list Z * list Z :=
  match l with
  | [] => ([], [], [])
  | w :: l' =>
      if drop w
      then let '(kept, rem, inv) := mws_remove drop l' true in (kept, mw_id w :: rem, inv)
      else let '(kept, rem, inv) := mws_remove drop l' erased in
           (w :: kept, rem, if erased then mw_id w :: inv else inv)
  end.

Fixpoint wm_remove_map (drop : mwrite -> bool) (m : amap mwrites)
  : amap mwrites * list Z * list Z :=
  match m with
  | [] => ([], [], [])
  | (a, ws) :: m' =>
      let '(kept, rem, inv) := mws_remove drop (mws_vec ws) false in
      let '(m2, rem2, inv2) := wm_remove_map drop m' in
      ((a, mkMws kept (mws_cap ws)) :: m2, rem ++ rem2, inv ++ inv2)
  end.

Definition wm_remove (drop : mwrite -> bool) (m : wman) (unspec : list Z) : wman :=
  let '(mp, rem, inv) := wm_remove_map drop (wm_map m) in
  mkWm (wm_cur m) mp (invalidate inv (akeys_remove rem (wm_byid m))) unspec.

(** memory_writes_manager.cpp:41-48 removeFinished *)
Definition wm_remove_finished (m : wman) (r : ram) : wman :=
  wm_remove (fun w => match mw_ram w with
                      | Some rid => negb (ram_pending r rid)
                      | None => false
                      end) m (wm_unspec m).

(** memory_writes_manager.cpp:50-58 removePending *)
Definition wm_remove_pending (m : wman) : wman :=
  wm_remove (fun w => match mw_ram w with None => true | Some _ => false end) m [].
