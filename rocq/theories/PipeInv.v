(** The invariant that relates the out-of-order machine to the in-order one.
    Specification file for the refinement proof; models no code. *)
From Coq Require Import ZArith NArith List Bool Sorted.
From Verif Require Import Base Alu Isa Exec Ram Writes Rat Cpu InOrder.
Import ListNotations.
Open Scope Z_scope.

Definition ready_at (f : pfile) (p : nat) : Prop :=
  exists r, nth_error f p = Some r /\ p_ready r = true.

(** Speculative architectural state in front of an entry, given the entries
    before it. *)
Definition sfold (E : env) (S : arch) (es : list entry) : arch :=
  fold_left (fun S e => spec_step E (e_ins e) S) es S.

(** Instructions that write their register only when they retire. *)
Definition late (i : instr) : bool := match i with IClf | IGetchar _ => true | _ => false end.

Definition unfinished (e : entry) : Prop := e_state e <> Retiring \/ late (e_ins e) = true.

Definition reg_prod (i : instr) (l : lreg) : Prop :=
  exists ps, produces i = Some ps /\ In (PReg l) ps.

(** [p] is the destination of one of the unfinished entries *)
Definition pendp (es : list entry) (p : nat) : Prop :=
  exists e l, In e es /\ unfinished e /\ reg_prod (e_ins e) l /\ l <> LR PC /\
              rget (e_wrat e) l = Some p.

Fixpoint prod_mem (ps : list product) : option (option Z) :=
  match ps with
  | [] => None
  | PMem a :: _ => Some (Some a)
  | PMemReg :: _ => Some None
  | PReg _ :: ps' => prod_mem ps'
  end.

Definition mem_prod (i : instr) : option (option Z) :=
  match produces i with Some ps => prod_mem ps | None => None end.

Definition addx (x : bool) (r : option (list Z * bool)) : option (list Z * bool) :=
  match r with Some (vs, b) => Some (vs, x || b) | None => None end.

(** What an entry knows about its operands, in each of its states. *)
Definition entry_ok (E : env) (p : list instr) (S : arch) (e : entry) : Prop :=
  e_ins e = prog_at p (a_pc S) /\
  exists os, operands (e_ins e) = Some os /\ produces (e_ins e) <> None /\
    match e_state e with
    | Preparing => evs E S os = addx (e_exn e) (evs E S (e_ops e))
    | Ready | Executing =>
        exists vs, op_vals (e_ops e) = Some vs /\ evs E S os = Some (vs, e_exn e)
    | Retiring =>
        exists vs ws acts, evs E S os = Some (vs, e_exn e) /\ exec_acts E (e_ins e) vs = Ok acts /\
          op_vals (act_ops acts) = Some ws /\ op_vals (e_ops e) = Some (vs ++ ws)
    end.

Definition entries_ok (E : env) (p : list instr) (S0 : arch) (rs : list entry) : Prop :=
  forall pre e post, rs = pre ++ e :: post -> entry_ok E p (sfold E S0 pre) e.

(** ---- the fetch path and the predictions ---- *)

Fixpoint gpc (pc : Z) (is : list instr) : Z :=
  match is with [] => pc | i :: is' => gpc (guess i pc) is' end.

Fixpoint gpreds (pc : Z) (is : list instr) : list Z :=
  match is with
  | [] => []
  | i :: is' =>
      (match jump_dest i with Some _ => [guess i pc] | None => [] end) ++ gpreds (guess i pc) is'
  end.

Definition optl {A} (o : option A) : list A := match o with Some a => [a] | None => [] end.

Definition front (c : cpu) : list (instr * Z) := optl (c_decode c) ++ optl (c_fetch c).

(** front entries continue the path at [pc] and end at [spec] *)
Fixpoint fpath (p : list instr) (pc : Z) (l : list (instr * Z)) (spec : Z) : Prop :=
  match l with
  | [] => pc = spec
  | (i, npc) :: l' => i = prog_at p pc /\ npc = u64 (pc + 1) /\ fpath p (guess i pc) l' spec
  end.

Record path_inv (pp : list Z) (S0 : arch) (c : cpu) : Prop := mkPath {
  pi_path : fpath (c_prog c) (gpc (a_pc S0) (map e_ins (c_rs c))) (front c) (c_spec c);
  pi_pred : c_pred c = pp ++ gpreds (a_pc S0) (map e_ins (c_rs c) ++ map fst (front c));
  pi_valid : valid_prog (c_prog c);
  pi_pc : in_u64 (a_pc S0)
}.

(** ---- registers ---- *)

Definition tables (X : list rat) (t : rat) (rs : list entry) : list rat :=
  X ++ t :: flat_map (fun e => [e_rrat e; e_wrat e]) rs.

Definition occ (p : nat) (ts : list rat) : nat :=
  count_occ Nat.eq_dec (flat_map (map snd) ts) p.

Definition table_ok (den : nat -> Z) (role : nat -> lreg) (t : rat) (S : arch) : Prop :=
  forall l p, rget t l = Some p -> role p = l /\ (l <> LR PC -> den p = a_reg S l).

Definition rdy_table (f : pfile) (t : rat) (es : list entry) : Prop :=
  forall l p, l <> LR PC -> rget t l = Some p -> ready_at f p \/ pendp es p.

Definition pc_reg (E : env) (f : pfile) (S : arch) (e : entry) : Prop :=
  exists p r, rget (e_rrat e) (LR PC) = Some p /\ rget (e_wrat e) (LR PC) = Some p /\
    nth_error f p = Some r /\ p_ready r = true /\
    match e_state e with
    | Retiring => u64 (p_val r) = a_pc (eff E (e_ins e) S)
    | _ => p_val r = s64 (u64 (a_pc S + 1))
    end.

Record regs_inv (E : env) (den : nat -> Z) (role : nat -> lreg) (X : list rat) (S0 : arch)
  (f : pfile) (t : rat) (rs : list entry) : Prop := mkRegsInv {
  ri_rtab : forall pre e post, rs = pre ++ e :: post -> table_ok den role (e_rrat e) (sfold E S0 pre);
  ri_wtab : forall pre e post, rs = pre ++ e :: post ->
              table_ok den role (e_wrat e) (eff E (e_ins e) (sfold E S0 pre));
  ri_tab : table_ok den role t (sfold E S0 rs);
  ri_pc : forall pre e post, rs = pre ++ e :: post -> pc_reg E f (sfold E S0 pre) e;
  ri_pcnd : forall pre e post x, rs = pre ++ e :: post -> In x (pre ++ post) ->
              rget (e_rrat x) (LR PC) <> rget (e_rrat e) (LR PC);
  ri_val : forall p r, nth_error f p = Some r -> p_ready r = true -> role p <> LR PC -> p_val r = den p;
  ri_rrdy : forall pre e post, rs = pre ++ e :: post -> rdy_table f (e_rrat e) pre;
  ri_wrdy : forall pre e post, rs = pre ++ e :: post -> rdy_table f (e_wrat e) (pre ++ [e]);
  ri_rdy : rdy_table f t rs;
  ri_subs : forall p r, nth_error f p = Some r -> p_subs r = occ p (tables X t rs)
}.

(** ---- memory writes ---- *)

Definition vec (w : wman) (a : Z) : list mwrite := mws_vec (wm_get w a).

Definition gt_id (x y : mwrite) : Prop := mw_id y < mw_id x.

(** the store of an instruction in a given state *)
Definition eff_store (E : env) (i : instr) (S : arch) : option (Z * Z) :=
  match operands i with
  | Some os =>
      match evs E S os with
      | Some (vs, _) => match exec_acts E i vs with Ok acts => store_of i acts | _ => None end
      | None => None
      end
  | None => None
  end.

(** where the write of an entry is recorded *)
Definition entry_write (E : env) (S : arch) (w : wman) (e : entry) (id : Z) : Prop :=
  match e_state e with
  | Retiring =>
      exists a v, eff_store E (e_ins e) S = Some (a, v) /\ In (mkMw id a (Some v) None) (vec w a) /\
        forall a' m, In m (vec w a') -> mw_id m = id -> a' = a /\ m = mkMw id a (Some v) None
  | _ =>
      match mem_prod (e_ins e) with
      | Some (Some a) => In (mkMw id a None None) (vec w a) /\
          forall a' m, In m (vec w a') -> mw_id m = id -> a' = a /\ m = mkMw id a None None
      | _ => In id (wm_unspec w) /\ forall a m, In m (vec w a) -> mw_id m <> id
      end
  end.

Record wm_inv (E : env) (S0 : arch) (w : wman) (rs : list entry) : Prop := mkWmInv {
  wi_keys : NoDup (map fst (wm_map w));
  wi_sorted : forall a, StronglySorted gt_id (vec w a);
  wi_addr : forall a m, In m (vec w a) -> mw_addr m = a;
  wi_src : forall a m, In m (vec w a) ->
      match mw_ram m with
      | Some _ => mw_value m <> None /\
                  forall e id, In e rs -> In id (e_wids e) -> mw_id m < id
      | None => exists e, In e rs /\ In (mw_id m) (e_wids e)
      end;
  wi_cur : forall a m, In m (vec w a) -> mw_id m <= wm_cur w;
  wi_outmax : forall a m e, In m (vec w a) -> mw_ram m <> None -> In e rs -> mw_id m <= e_maxid e;
  wi_shape : forall e, In e rs ->
      match mem_prod (e_ins e) with Some _ => exists id, e_wids e = [id] | None => e_wids e = [] end;
  wi_ent : forall pre e post id, rs = pre ++ e :: post -> In id (e_wids e) ->
      entry_write E (sfold E S0 pre) w e id;
  wi_max : forall pre e post, rs = pre ++ e :: post ->
      e_maxid e <= wm_cur w /\
      (forall id, In id (e_wids e) -> id <= e_maxid e) /\
      forall x, In x post -> e_maxid e <= e_maxid x /\ forall id, In id (e_wids x) -> e_maxid e < id
}.

(** ---- memory ---- *)

Definition newest_out (w : wman) (a : Z) (m : mwrite) : Prop :=
  forall m', In m' (vec w a) -> mw_ram m' <> None -> mw_id m' <= mw_id m.

Record ram_inv (S0 : arch) (w : wman) (r : ram) : Prop := mkRamInv {
  ra_mem : forall a, a_mem S0 a = mem_at (ram_mem r) a;
  ra_out : forall a m, In m (vec w a) -> mw_ram m <> None -> newest_out w a m ->
             mw_value m = mem_at (ram_mem r) a;
  ra_pend : forall a m rid, In m (vec w a) -> mw_ram m = Some rid -> ram_pending r rid = true ->
             newest_out w a m;
  ra_wr : forall a we, In (a, we) (ram_writes r) ->
             exists m, In m (vec w a) /\ mw_ram m = Some (we_id we);
  ra_rd : forall a re, In (a, re) (ram_reads r) ->
             mem_at (ram_mem r) a = Some (re_val re) \/
             exists we, In (a, we) (ram_writes r) /\ (re_rem re <= we_rem we)%nat;
  ra_next : forall a we, In (a, we) (ram_writes r) -> we_id we < ram_next r;
  ra_rids : forall a m rid, In m (vec w a) -> mw_ram m = Some rid -> rid < ram_next r;
  ra_loc : forall a m rid b we, In m (vec w a) -> mw_ram m = Some rid ->
             In (b, we) (ram_writes r) -> we_id we = rid -> b = a;
  ra_lat : forall a re, In (a, re) (ram_reads r) -> (re_rem re <= write_latency)%nat;
  ra_wkeys : NoDup (map fst (ram_writes r));
  ra_rkeys : NoDup (map fst (ram_reads r))
}.

(** ---- everything together ---- *)

Record J (E : env) (den : nat -> Z) (role : nat -> lreg) (X : list rat) (pp : list Z)
  (S0 : arch) (c : cpu) : Prop := mkJ {
  j_path : path_inv pp S0 c;
  j_ent : entries_ok E (c_prog c) S0 (c_rs c);
  j_regs : regs_inv E den role X S0 (c_regs c) (c_rat c) (c_rs c);
  j_wm : wm_inv E S0 (c_wm c) (c_rs c);
  j_ram : ram_inv S0 (c_wm c) (c_ram c);
  j_alus : (c_alus c + count_alus (c_rs c))%nat = g_alus (c_cfg c);
  j_len : (length (c_rs c) <= g_rs (c_cfg c))%nat;
  j_out : a_out S0 = c_out c;
  j_in : a_in S0 = c_in c
}.

(** The machine is at rest in architectural state [A]: nothing is in flight and
    the visible registers, program counter and memory are those of [A]. *)
Definition at_rest (A : arch) (c : cpu) : Prop :=
  c_rs c = [] /\ c_decode c = None /\ c_fetch c = None /\ c_pred c = [] /\ c_spec c = a_pc A /\
  (forall l v, l <> LR PC -> get_lreg c l = Some v -> v = a_reg A l) /\
  (exists v, get_lreg c (LR PC) = Some v /\ u64 v = a_pc A) /\
  (forall a, mem_at (ram_mem (c_ram c)) a = a_mem A a) /\
  c_out c = a_out A /\ c_in c = a_in A.

(** The machine is running in front of architectural state [A]. *)
Definition Inv (E : env) (A : arch) (c : cpu) : Prop :=
  a_halted A = c_halted c /\ (c_halted c = true -> at_rest A c) /\
  (c_halted c = false -> c_single c = false) /\
  exists den role, J E den role [] [] A c.
