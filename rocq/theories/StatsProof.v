(** Proofs about the statistics logger: the history of every instruction. *)
From Coq Require Import String ZArith NArith List Bool Lia.
From Verif Require Import Base Alu Isa Exec Ram Writes Rat Cpu PipeBasics Stats.
From Verif Require PipeLive.
Import ListNotations.
Open Scope nat_scope.

(** ---- the logged processor is the processor ---- *)

Definition flight (x : lcpu) : list nat := l_ids x ++ olist (l_did x) ++ olist (l_fid x).

(** what a retirement does to the numbers: nothing, or all are dropped *)
Inductive rmoved (x x' : lcpu) : Prop :=
| rm_keep : c_rs (l_cpu x') = c_rs (l_cpu x) -> c_fetch (l_cpu x') = c_fetch (l_cpu x) -> c_decode (l_cpu x') = c_decode (l_cpu x) ->
    l_fid x' = l_fid x -> l_did x' = l_did x -> l_ids x' = l_ids x -> l_log x' = l_log x -> rmoved x x'
| rm_flush : c_rs (l_cpu x') = [] -> c_fetch (l_cpu x') = None -> c_decode (l_cpu x') = None ->
    l_fid x' = None -> l_did x' = None -> l_ids x' = [] -> l_log x' = log_clears (l_ids x ++ olist (l_fid x) ++ olist (l_did x)) (l_log x) -> rmoved x x'.

Lemma rm_refl : forall x, rmoved x x.
Proof. intros. now apply rm_keep. Qed.
Lemma rm_trans : forall x y z, rmoved x y -> rmoved y z -> rmoved x z.
Proof.
  intros x y z [A1 A2 A3 A4 A5 A6 A7|A1 A2 A3 A4 A5 A6 A7] [B1 B2 B3 B4 B5 B6 B7|B1 B2 B3 B4 B5 B6 B7].
  - apply rm_keep; congruence.
  - apply rm_flush; congruence.
  - apply rm_flush; congruence.
  - apply rm_flush; try congruence. rewrite B7, A4, A5, A6, A7. reflexivity.
Qed.

Lemma unroll_empty : forall c t c', unroll c t = Ok c' -> c_rs c' = [] /\ c_fetch c' = None /\ c_decode c' = None.
Proof.
  intros c t c' H. unfold unroll in H. apply bind_ok in H. destruct H as (f1 & _ & H). apply bind_ok in H. destruct H as (f2 & _ & H).
  apply bind_ok in H. destruct H as (f3 & _ & H). cbv zeta in H. match type of H with match ?e with _ => _ end = _ => destruct e end; [|discriminate].
  apply Ok_eq in H. subst c'. auto.
Qed.
Lemma lunroll_ok : forall x t x', lunroll x t = Ok x' -> unroll (l_cpu x) t = Ok (l_cpu x') /\ rmoved x x'.
Proof.
  intros x t x' H. unfold lunroll in H. apply bind_ok in H. destruct H as (c & H & G). apply Ok_eq in G. subst x'. split; [exact H|].
  destruct (unroll_empty _ _ _ H) as (A & B & C). apply rm_flush; auto.
Qed.
Lemma ldo_jump_ok : forall x e x', ldo_jump x e = Ok x' -> do_jump (l_cpu x) e = Ok (l_cpu x') /\ rmoved x x'.
Proof.
  intros x e x' H. unfold ldo_jump in H. unfold do_jump. destruct (rget (e_wrat e) (LR PC)); [|discriminate]. destruct (rget (e_rrat e) (LR PC)); [|discriminate].
  destruct (get_preg (l_cpu x) n); [|discriminate]. destruct (nth_error (c_regs (l_cpu x)) n0); [|discriminate]. destruct (negb (p_ready p)); [discriminate|].
  destruct (c_pred (l_cpu x)); [discriminate|]. cbv zeta in *. destruct (z0 =? u64 z)%Z.
  - apply Ok_eq in H. subst x'. split; [reflexivity|now apply rm_keep].
  - apply lunroll_ok in H. destruct H as [H G]. split; [exact H|]. eapply rm_trans; [|exact G]. now apply rm_keep.
Qed.
Lemma do_ract_pipe : forall e a c c', a <> RJump -> a <> RUnroll -> do_ract e a c = Ok c' -> c_rs c' = c_rs c /\ c_fetch c' = c_fetch c /\ c_decode c' = c_decode c.
Proof.
  intros e a c c' N1 N2 H. destruct a; try congruence; cbn [do_ract] in H.
  - destruct (e_wids e) as [|id [|? ?]]; try discriminate. unfold write_memory in H. apply bind_ok in H. destruct H as (m & _ & H). apply bind_ok in H. destruct H as ([[w r]|] & _ & H); [|discriminate].
    cbv zeta in H. match type of H with (let '(_, _) := ?e in _) = _ => destruct e end. apply Ok_eq in H. subst c'. auto.
  - apply bind_ok in H. destruct H as (f & _ & H). apply Ok_eq in H. subst c'. auto.
  - destruct (get_char (c_in c)) as [[ch rest]|]; [|discriminate]. apply bind_ok in H. destruct H as (f & _ & H). apply Ok_eq in H. subst c'. auto.
  - apply Ok_eq in H. subst c'. auto.
  - apply Ok_eq in H. subst c'. auto.
  - apply Ok_eq in H. subst c'. auto.
  - apply Ok_eq in H. subst c'. auto.
Qed.
Lemma ldo_ract_ok : forall e a x x', ldo_ract e a x = Ok x' -> do_ract e a (l_cpu x) = Ok (l_cpu x') /\ rmoved x x'.
Proof.
  intros e a x x' H.
  assert (G : a <> RJump -> a <> RUnroll -> (let! c := do_ract e a (l_cpu x) in Ok (on_cpu x c)) = Ok x' -> do_ract e a (l_cpu x) = Ok (l_cpu x') /\ rmoved x x').
  { intros N1 N2 G. apply bind_ok in G. destruct G as (c & G & K). apply Ok_eq in K. subst x'. split; [exact G|]. destruct (do_ract_pipe _ _ _ _ N1 N2 G) as (A & B & C). now apply rm_keep. }
  destruct a; try (apply G; [discriminate|discriminate|exact H]).
  - cbn [ldo_ract do_ract] in *. now apply ldo_jump_ok.
  - cbn [ldo_ract do_ract] in *. now apply lunroll_ok.
Qed.
Lemma ldo_racts_ok : forall e l x x', ldo_racts e l x = Ok x' -> do_racts e l (l_cpu x) = Ok (l_cpu x') /\ rmoved x x'.
Proof.
  induction l as [|a l IH]; intros x x' H; cbn [ldo_racts do_racts] in *.
  - apply Ok_eq in H. subst x'. split; [reflexivity|apply rm_refl].
  - apply bind_ok in H. destruct H as (y & H & G). apply ldo_ract_ok in H. destruct H as [H M1]. apply IH in G. destruct G as [G M2]. rewrite H. cbn [bind]. split; [exact G|eapply rm_trans; eauto].
Qed.
Lemma lretire_entry_ok : forall x e x', lretire_entry x e = Ok x' -> retire_entry (l_cpu x) e = Ok (l_cpu x') /\ rmoved x x'.
Proof.
  intros x e x' H. unfold lretire_entry in H. unfold retire_entry. apply bind_ok in H. destruct H as (vs & H1 & H). rewrite H1. cbn [bind].
  apply bind_ok in H. destruct H as (acts & H2 & H). rewrite H2. cbn [bind]. apply bind_ok in H. destruct H as (x1 & H3 & H). apply ldo_racts_ok in H3. destruct H3 as [H3 M1]. rewrite H3. cbn [bind]. cbv zeta in H.
  destruct (e_exn e); [discriminate|]. apply bind_ok in H. destruct H as (x2 & H4 & H). apply bind_ok in H. destruct H as (f & H5 & H). apply Ok_eq in H. subst x'. cbn [on_cpu l_cpu].
  assert (G : (if c_trap (l_cpu x1) then let! c' := unroll (l_cpu x1) (e_wrat e) in Ok (set_stop c' true (c_int c')) else if negb (c_int (l_cpu x1) =? 0)%Z then unroll (l_cpu x1) (e_wrat e) else Ok (l_cpu x1)) = Ok (l_cpu x2) /\ rmoved x1 x2).
  { destruct (c_trap (l_cpu x1)).
    - apply bind_ok in H4. destruct H4 as (y & H4 & H6). apply Ok_eq in H6. subst x2. apply lunroll_ok in H4. destruct H4 as [H4 M]. rewrite H4. split; [reflexivity|]. eapply rm_trans; [exact M|]. now apply rm_keep.
    - destruct (negb (c_int (l_cpu x1) =? 0)%Z); [now apply lunroll_ok in H4|]. apply Ok_eq in H4. subst x2. split; [reflexivity|apply rm_refl]. }
  destruct G as [G M2]. rewrite G. cbn [bind]. rewrite H5. cbn [bind]. split; [reflexivity|]. eapply rm_trans; [exact M1|]. eapply rm_trans; [exact M2|]. now apply rm_keep.
Qed.

(** ---- the stages of an instruction ---- *)

Inductive stage := SFetch | SDecode | SPrep | SAlu | SExec | SWait | SDone.
Definition when {A} (b : bool) (a : A) : list A := if b then [a] else [].
Definition stages (t : tickst) (id : nat) : list stage :=
  when (oid (t_fetch t) id) SFetch ++ when (oid (t_decode t) id) SDecode ++ when (found id (t_prep t)) SPrep ++ when (found id (t_noalu t)) SAlu ++
  when (found id (t_exec t)) SExec ++ when (found id (t_wait t)) SWait ++ when (found id (t_done t)) SDone.
Definition hist (ts : list tickst) (id : nat) : list (list stage) := map (fun t => stages t id) ts.
Definition rank (s : stage) : nat := match s with SFetch => 0 | SDecode => 1 | SPrep => 2 | SAlu => 3 | SExec => 4 | SWait => 5 | SDone => 6 end.

(** the newest first *)
Inductive lived : stage -> list (list stage) -> Prop :=
| lv_first : forall h, Forall (eq []) h -> lived SFetch ([SFetch] :: h)
| lv_next : forall s s' h, lived s h -> rank s <= rank s' -> rank s' < 6 -> lived s' ([s'] :: h).
Definition finished (h : list (list stage)) : Prop := exists b s h0, h = repeat [] b ++ [SDone] :: h0 /\ lived s h0.

Definition at_state (st : estate) (s : stage) : Prop :=
  match st with
  | Preparing => s = SPrep
  | Ready => s = SPrep \/ s = SAlu
  | Executing => s = SExec
  | Retiring => s = SExec \/ s = SWait
  end.

Lemma found_app : forall id l m, found id (l ++ m) = found id l || found id m.
Proof. intros. unfold found. apply existsb_app. Qed.
Lemma found_one : forall id n, found id [n] = Nat.eqb id n.
Proof. intros. cbn. apply orb_false_r. Qed.
Lemma found_in : forall id l, found id l = true <-> In id l.
Proof. intros. unfold found. rewrite existsb_exists. split; [intros (y & I & H); apply Nat.eqb_eq in H; now subst|intros I; exists id; split; [exact I|apply Nat.eqb_refl]]. Qed.
Lemma found_not : forall id l, ~ In id l -> found id l = false.
Proof. intros id l N. destruct (found id l) eqn:E; [|reflexivity]. now apply found_in in E. Qed.

Lemma when_nil : forall A b (a : A), when b a = [] -> b = false.
Proof. now intros A [] a. Qed.
Lemma stages_nil : forall t id, stages t id = [] -> oid (t_fetch t) id = false /\ oid (t_decode t) id = false /\ found id (t_prep t) = false /\ found id (t_noalu t) = false /\
  found id (t_exec t) = false /\ found id (t_wait t) = false /\ found id (t_done t) = false.
Proof.
  intros t id H. unfold stages in H. apply app_eq_nil in H. destruct H as [H1 H]. apply app_eq_nil in H. destruct H as [H2 H]. apply app_eq_nil in H. destruct H as [H3 H]. apply app_eq_nil in H. destruct H as [H4 H].
  apply app_eq_nil in H. destruct H as [H5 H]. apply app_eq_nil in H. destruct H as [H6 H]. repeat split; eapply when_nil; eassumption.
Qed.

(** one more number in the list of a stage *)
Definition put (s : stage) (id : nat) (t : tickst) : tickst :=
  match s with
  | SFetch => mkTickst (Some id) (t_decode t) (t_prep t) (t_stall t) (t_noalu t) (t_exec t) (t_wait t) (t_done t)
  | SDecode => mkTickst (t_fetch t) (Some id) (t_prep t) (t_stall t) (t_noalu t) (t_exec t) (t_wait t) (t_done t)
  | SPrep => mkTickst (t_fetch t) (t_decode t) (t_prep t ++ [id]) (t_stall t) (t_noalu t) (t_exec t) (t_wait t) (t_done t)
  | SAlu => mkTickst (t_fetch t) (t_decode t) (t_prep t) (t_stall t) (t_noalu t ++ [id]) (t_exec t) (t_wait t) (t_done t)
  | SExec => mkTickst (t_fetch t) (t_decode t) (t_prep t) (t_stall t) (t_noalu t) (t_exec t ++ [id]) (t_wait t) (t_done t)
  | SWait => mkTickst (t_fetch t) (t_decode t) (t_prep t) (t_stall t) (t_noalu t) (t_exec t) (t_wait t ++ [id]) (t_done t)
  | SDone => mkTickst (t_fetch t) (t_decode t) (t_prep t) (t_stall t) (t_noalu t) (t_exec t) (t_wait t) (t_done t ++ [id])
  end.
Lemma put_here : forall s id t, stages t id = [] -> stages (put s id t) id = [s].
Proof.
  intros s id t H. destruct (stages_nil _ _ H) as (H1 & H2 & H3 & H4 & H5 & H6 & H7).
  destruct s; unfold stages, put; cbn [t_fetch t_decode t_prep t_stall t_noalu t_exec t_wait t_done oid]; rewrite ?found_app, ?found_one, ?Nat.eqb_refl, ?H1, ?H2, ?H3, ?H4, ?H5, ?H6, ?H7; reflexivity.
Qed.
Lemma put_other : forall s id t id', (s = SFetch -> t_fetch t = None) -> (s = SDecode -> t_decode t = None) -> id' <> id -> stages (put s id t) id' = stages t id'.
Proof.
  intros s id t id' Hf Hd N. pose proof N as N'. apply Nat.eqb_neq in N. assert (M : Nat.eqb id id' = false) by (apply Nat.eqb_neq; congruence).
  destruct s; unfold stages, put; cbn [t_fetch t_decode t_prep t_stall t_noalu t_exec t_wait t_done oid]; rewrite ?found_app, ?found_one, ?N, ?M, ?orb_false_r; try reflexivity.
  - rewrite (Hf eq_refl). reflexivity.
  - rewrite (Hd eq_refl). reflexivity.
Qed.
Definition quiet (t : tickst) : Prop := t_fetch t = None /\ t_decode t = None.

(** ---- the invariant ---- *)

(** [ts]: the ticks the histories are about; [rt]: the instructions retired. *)
Record LInv (ts : list tickst) (x : lcpu) (rt : list (nat * (Z * instr))) : Prop := mkLInv {
  li_rs : Forall2 (fun id e => exists s, lived s (hist ts id) /\ at_state (e_state e) s) (l_ids x) (c_rs (l_cpu x));
  li_de : match l_did x, c_decode (l_cpu x) with Some id, Some _ => lived SDecode (hist ts id) | None, None => True | _, _ => False end;
  li_fe : match l_fid x, c_fetch (l_cpu x) with Some id, Some _ => lived SFetch (hist ts id) | None, None => True | _, _ => False end;
  li_ins : exists fl, s_ins (l_log x) = rt ++ fl /\ map fst fl = flight x /\
    map (fun y => snd (snd y)) fl = map e_ins (c_rs (l_cpu x)) ++ map fst (olist (c_decode (l_cpu x)) ++ olist (c_fetch (l_cpu x)));
  li_nodup : NoDup (map fst (s_ins (l_log x)));
  li_lt : forall id, In id (map fst (s_ins (l_log x))) -> id < s_next (l_log x);
  li_new : forall id, s_next (l_log x) <= id -> Forall (eq []) (hist ts id)
}.

Lemma clears_ins : forall ids l, s_ins (log_clears ids l) = filter (fun y => negb (found (fst y) ids)) (s_ins l) /\ s_ticks (log_clears ids l) = s_ticks l /\ s_next (log_clears ids l) = s_next l.
Proof.
  unfold log_clears. induction ids as [|id ids IH]; intros l; cbn [fold_left].
  - split; [|auto]. cbn. symmetry. generalize (s_ins l). intros s. induction s as [|y s IHs]; [reflexivity|]. cbn. now rewrite IHs.
  - destruct (IH (log_clear id l)) as (H1 & H2 & H3). rewrite H1, H2, H3. split; [|auto]. cbn [log_clear s_ins]. generalize (s_ins l). intros s. induction s as [|y s IHs]; [reflexivity|].
    cbn [filter]. unfold found at 2. cbn [existsb]. fold (found (fst y) ids). destruct (Nat.eqb (fst y) id); cbn [negb orb filter]; [exact IHs|]. destruct (found (fst y) ids); cbn [negb]; [exact IHs|]. now rewrite IHs.
Qed.

Lemma filter_none : forall (A : Type) (f : A -> bool) l, (forall y, In y l -> f y = false) -> filter f l = [].
Proof. induction l as [|a l IH]; intros H; [reflexivity|]. cbn. rewrite H by now left. apply IH. intros. apply H. now right. Qed.
Lemma filter_all : forall (A : Type) (f : A -> bool) l, (forall y, In y l -> f y = true) -> filter f l = l.
Proof. induction l as [|a l IH]; intros H; [reflexivity|]. cbn. rewrite H by now left. f_equal. apply IH. intros. apply H. now right. Qed.
Lemma nodup_app : forall (A : Type) (l m : list A), NoDup (l ++ m) -> forall a, In a l -> ~ In a m.
Proof. induction l as [|b l IH]; intros m H a I J; [destruct I|]. cbn in H. inversion H as [|? ? N K]; subst. destruct I as [->|I]; [apply N, in_or_app; now right|eapply IH; eauto]. Qed.

Lemma nodup_left : forall (A : Type) (l m : list A), NoDup (l ++ m) -> NoDup l.
Proof. induction l as [|b l IH]; intros m H; [constructor|]. cbn in H. inversion H as [|? ? N K]; subst. constructor; [intros I; apply N, in_or_app; now left|eauto]. Qed.

(** a retirement keeps or drops what is in flight *)
Lemma moved_LInv : forall ts x x' rt, rmoved x x' -> LInv ts x rt -> LInv ts x' rt /\ s_ticks (l_log x') = s_ticks (l_log x) /\ s_next (l_log x') = s_next (l_log x).
Proof.
  intros ts x x' rt [A1 A2 A3 A4 A5 A6 A7|A1 A2 A3 A4 A5 A6 A7] [L1 L2 L3 L4 L5 L6 L7].
  - split; [|rewrite A7; auto]. constructor; unfold flight; rewrite ?A1, ?A2, ?A3, ?A4, ?A5, ?A6, ?A7; auto.
  - destruct (clears_ins (l_ids x ++ olist (l_fid x) ++ olist (l_did x)) (l_log x)) as (C1 & C2 & C3). rewrite <- A7 in C1, C2, C3. destruct L4 as (fl & I1 & I2 & _).
    assert (E : s_ins (l_log x') = rt).
    { assert (Hfl : forall y, In y fl -> In (fst y) (l_ids x ++ olist (l_fid x) ++ olist (l_did x))).
      { intros y I. apply (in_map fst) in I. rewrite I2 in I. unfold flight in I. rewrite !in_app_iff in *. tauto. }
      rewrite C1, I1, filter_app, (filter_all _ _ rt), (filter_none _ _ fl); [apply app_nil_r| |].
      - intros y I. rewrite negb_false_iff. apply found_in. now apply Hfl.
      - intros y I. rewrite negb_true_iff. apply found_not. intros J. rewrite I1, map_app in L5. apply (nodup_app _ _ _ L5 (fst y)); [now apply in_map|]. rewrite I2. unfold flight. rewrite !in_app_iff in *. tauto. }
    split; [|split; assumption]. constructor; rewrite ?A1, ?A2, ?A3, ?A4, ?A5, ?A6, ?C3; auto.
    + exists []. unfold flight. rewrite E, A4, A5, A6. rewrite app_nil_r. auto.
    + rewrite E. rewrite I1, map_app in L5. now apply nodup_left in L5.
    + intros id I. apply L6. rewrite I1, map_app, in_app_iff. rewrite E in I. now left.
Qed.

(** ---- retiring ---- *)

Fixpoint retire_trace (fuel : nat) (c : cpu) : list instr :=
  match fuel with
  | O => []
  | S n =>
      match c_rs c with
      | [] => []
      | e :: es =>
          match e_state e with
          | Retiring => match retire_entry (set_rs c es) e with Ok c' => e_ins e :: retire_trace n c' | _ => [] end
          | _ => []
          end
      end
  end.

Lemma lretire_loop_ok : forall n ts t rids x x' rt, LInv ts x rt -> s_ticks (l_log x) = t :: ts -> quiet t -> (forall id, stages t id = when (found id rids) SDone) ->
  (forall id, In id rids -> In id (map fst rt)) -> lretire_loop n x = Ok x' ->
  retire_loop n (l_cpu x) = Ok (l_cpu x') /\
  exists rn t', LInv ts x' (rt ++ rn) /\ s_ticks (l_log x') = t' :: ts /\ quiet t' /\ (forall id, stages t' id = when (found id (rids ++ map fst rn)) SDone) /\
    s_next (l_log x') = s_next (l_log x) /\ (forall id, In id (map fst rn) -> exists s, lived s (hist ts id)) /\ map (fun y => snd (snd y)) rn = retire_trace n (l_cpu x).
Proof.
  induction n as [|n IH]; intros ts t rids x x' rt L Ht Q St Hr H; cbn [lretire_loop retire_loop retire_trace] in *.
  - apply Ok_eq in H. subst x'. split; [reflexivity|]. exists [], t. rewrite !app_nil_r. split; [exact L|]. split; [exact Ht|]. split; [exact Q|]. split; [exact St|]. split; [reflexivity|]. split; [intros id []|reflexivity].
  - assert (Z : Ok x = (Ok x' : res cpu lcpu) -> exists rn t', LInv ts x' (rt ++ rn) /\ s_ticks (l_log x') = t' :: ts /\ quiet t' /\ (forall id, stages t' id = when (found id (rids ++ map fst rn)) SDone) /\
        s_next (l_log x') = s_next (l_log x) /\ (forall id, In id (map fst rn) -> exists s, lived s (hist ts id)) /\ map (fun y => snd (snd y)) rn = []).
    { intros E. apply Ok_eq in E. subst x'. exists [], t. rewrite !app_nil_r. split; [exact L|]. split; [exact Ht|]. split; [exact Q|]. split; [exact St|]. split; [reflexivity|]. split; [intros id []|reflexivity]. }
    pose proof L as [L1 L2 L3 L4 L5 L6 L7]. destruct (c_rs (l_cpu x)) as [|e es] eqn:Ers.
    { split; [apply Ok_eq in H; now subst|now apply Z]. }
    inversion L1 as [|id e' ids es' Hl L1' Ei Ee]; subst e' es'. symmetry in Ei. rewrite Ei in H.
    destruct (e_state e) eqn:Est; try (split; [apply Ok_eq in H; now subst|now apply Z]).
    clear Z. apply bind_ok in H. destruct H as (x1 & H1 & H). apply lretire_entry_ok in H1. cbn [l_cpu] in H1. destruct H1 as [H1 M]. rewrite H1. cbn [bind].
    destruct L4 as (fl & I1 & I2 & I3). destruct fl as [|[id0 [pc i]] fl]; [unfold flight in I2; rewrite Ei in I2; discriminate|]. cbn [map fst snd] in I2, I3.
    unfold flight in I2. rewrite Ei in I2. cbn [app] in I2. injection I2 as -> I2. cbn [map app] in I3. injection I3 as -> I3.
    set (y := mkL (set_rs (l_cpu x) es) (l_fid x) (l_did x) ids (log_done id (l_log x))) in *.
    assert (Ly : LInv ts y (rt ++ [(id, (pc, e_ins e))])).
    { constructor; cbn [y l_ids l_did l_fid l_cpu l_log set_rs c_rs c_decode c_fetch log_done on_tick s_ins s_next]; auto. exists fl. unfold flight. cbn [y l_ids l_did l_fid]. rewrite <- app_assoc. cbn [app]. auto. }
    destruct (moved_LInv _ _ _ _ M Ly) as (Lx & T1 & T2). cbn [y l_log log_done on_tick s_ticks s_next] in T1, T2. rewrite Ht in T1.
    change (mkTickst (t_fetch t) (t_decode t) (t_prep t) (t_stall t) (t_noalu t) (t_exec t) (t_wait t) (t_done t ++ [id])) with (put SDone id t) in T1.
    assert (Nid : ~ In id rids).
    { intros J. apply Hr in J. rewrite I1, map_app in L5. apply (nodup_app _ _ _ L5 id J). now left. }
    assert (S0 : stages t id = []) by (rewrite St, (found_not _ _ Nid); reflexivity).
    destruct (IH ts (put SDone id t) (rids ++ [id]) x1 x' (rt ++ [(id, (pc, e_ins e))]) Lx T1) as (R1 & rn & t' & R2 & R3 & R4 & R5 & R6 & R7 & R8); auto.
    + intros id'. rewrite found_app, found_one. destruct (Nat.eqb_spec id' id) as [->|N]; [rewrite orb_true_r; now apply put_here|]. rewrite orb_false_r, <- St. apply put_other; [discriminate|discriminate|exact N].
    + intros id' J. rewrite map_app, in_app_iff in *. destruct J as [J|[<-|[]]]; [left; auto|right; now left].
    + split; [exact R1|]. exists ((id, (pc, e_ins e)) :: rn), t'. split; [now rewrite <- app_assoc in R2|]. split; [exact R3|]. split; [exact R4|]. split; [intros id'; rewrite R5, <- app_assoc; reflexivity|].
      split; [congruence|]. split; [|cbn [map snd]; now rewrite R8]. intros id' [<-|J]; [|now apply R7]. destruct Hl as (s & Hl & _). now exists s.
Qed.

(** ---- executing ---- *)

Lemma exec_entry_state : forall E f w a e f' w' a' e', exec_entry E f w a e = Ok (f', w', a', e') ->
  e_ins e' = e_ins e /\ (e_state e' = e_state e \/ e_state e = Executing /\ e_state e' = Retiring).
Proof.
  intros E f w a e f' w' a' e' H. unfold exec_entry in H. destruct (e_state e) eqn:S; try (apply Ok_eq in H; inversion H; subst; auto; fail).
  cbv zeta in H. destruct (Nat.pred (e_time e)).
  - apply bind_ok in H. destruct H as (vs & _ & H). apply bind_ok in H. destruct H as (acts & _ & H). apply bind_ok in H. destruct H as ([[f1 w1] o1] & _ & H). apply Ok_eq in H. inversion H; subst. cbn. auto.
  - apply Ok_eq in H. inversion H; subst. cbn. auto.
Qed.
Lemma exec_loop_states : forall E es f w a f' w' a' es', exec_loop E f w a es = Ok (f', w', a', es') ->
  map e_ins es' = map e_ins es /\ forall (Q : nat -> stage -> Prop) ids, Forall2 (fun id e => exists s, Q id s /\ at_state (e_state e) s) ids es -> Forall2 (fun id e => exists s, Q id s /\ at_state (e_state e) s) ids es'.
Proof.
  induction es as [|e es IH]; intros f w a f' w' a' es' H; cbn [exec_loop] in H.
  - apply Ok_eq in H. inversion H; subst. auto.
  - apply bind_ok in H. destruct H as ([[[f1 w1] a1] e1] & H1 & H). apply bind_ok in H. destruct H as ([[[f2 w2] a2] es2] & H2 & H). apply Ok_eq in H. inversion H; subst.
    apply exec_entry_state in H1. destruct H1 as [Hi Hs]. apply IH in H2. destruct H2 as [H2 H3]. split; [cbn; congruence|]. intros Q ids HF. inversion HF as [|id e0 ids' es0 (s & Hq & Ha) HF']; subst. constructor; [|now apply H3].
    exists s. split; [exact Hq|]. destruct Hs as [->|[S1 S2]]; [exact Ha|]. rewrite S1 in Ha. rewrite S2. cbn in *. now left.
Qed.

(** ---- polling ---- *)

Lemma poll_entry_state : forall E g f w r a e r' a' e', poll_entry E g f w r a e = Ok (r', a', e') -> e_ins e' = e_ins e /\
  match e_state e with Preparing => e_state e' = Preparing \/ e_state e' = Ready | Ready => e_state e' = Ready \/ e_state e' = Executing | st => e_state e' = st end.
Proof.
  intros E g f w r a e r' a' e' H. unfold poll_entry in H. destruct (e_state e) eqn:S.
  - apply bind_ok in H. destruct H as ([[r1 b] os] & _ & H). apply Ok_eq in H. inversion H; subst. cbn. destruct (all_fetched os); auto.
  - destruct (needs_alu (e_ins e)); [destruct a|]; apply Ok_eq in H; inversion H; subst; auto.
  - apply Ok_eq in H. inversion H; subst. auto.
  - apply Ok_eq in H. inversion H; subst. auto.
Qed.

Definition polled_stage (e e' : entry) : stage :=
  match e_state e with Preparing => SPrep | Ready => match e_state e' with Executing => SExec | _ => SAlu end | Executing => SExec | Retiring => SWait end.
Lemma log_poll1_tick : forall id e e' l t ts, s_ticks l = t :: ts -> exists t', s_ticks (log_poll1 id e e' l) = t' :: ts /\ (quiet t -> quiet t') /\ (forall n, stages t' n = stages (put (polled_stage e e') id t) n) /\
  s_ins (log_poll1 id e e' l) = s_ins l /\ s_next (log_poll1 id e e' l) = s_next l.
Proof.
  intros id e e' l t ts H. unfold log_poll1, polled_stage. destruct (e_state e).
  - destruct (all_fetched (e_ops e')); cbn [log_prep log_stall on_tick s_ticks s_ins s_next]; rewrite H; eexists; (split; [reflexivity|]); auto.
  - destruct (e_state e'); cbn [log_exec log_noalu on_tick s_ticks s_ins s_next]; rewrite H; eexists; (split; [reflexivity|]); auto.
  - cbn [log_exec on_tick s_ticks s_ins s_next]; rewrite H; eexists; (split; [reflexivity|]); auto.
  - cbn [log_wait on_tick s_ticks s_ins s_next]; rewrite H; eexists; (split; [reflexivity|]); auto.
Qed.
Lemma stages_put_same : forall s id t t', (forall n, stages t' n = stages t n) -> forall n, (s <> SFetch -> s <> SDecode -> stages t id = [] -> stages (put s id t') n = stages (put s id t) n).
Proof.
  intros s id t t' H n N1 N2 H0. destruct (Nat.eq_dec n id) as [->|N].
  - rewrite !put_here; auto. now rewrite H.
  - rewrite !put_other; auto; congruence.
Qed.

(** where the number [id] is after a tick *)
Definition now (ts : list tickst) (t : tickst) (id : nat) (s : stage) : Prop := stages t id = [s] /\ lived s ([s] :: hist ts id).

Lemma log_poll_ok : forall E g f w ids es r a r' a' es' l t ts, poll_loop E g f w r a es = Ok (r', a', es') -> s_ticks l = t :: ts -> quiet t -> NoDup ids ->
  (forall id, In id ids -> stages t id = []) -> Forall2 (fun id e => exists s, lived s (hist ts id) /\ at_state (e_state e) s) ids es ->
  map e_ins es' = map e_ins es /\ exists t', s_ticks (log_poll ids es es' l) = t' :: ts /\ quiet t' /\ s_ins (log_poll ids es es' l) = s_ins l /\ s_next (log_poll ids es es' l) = s_next l /\
    (forall id, ~ In id ids -> stages t' id = stages t id) /\ Forall2 (fun id e => exists s, now ts t' id s /\ at_state (e_state e) s) ids es'.
Proof.
  intros E g f w. induction ids as [|id ids IH]; intros es r a r' a' es' l t ts H Ht Q N S0 HF; inversion HF as [|id0 e ids0 es0 (s & Hl & Ha) HF']; subst.
  - cbn [poll_loop] in H. apply Ok_eq in H. inversion H; subst. split; [reflexivity|]. exists t. cbn. auto 10.
  - cbn [poll_loop] in H. apply bind_ok in H. destruct H as ([[r1 a1] e1] & H1 & H). apply bind_ok in H. destruct H as ([[r2 a2] es2] & H2 & H). apply Ok_eq in H. inversion H; subst. clear H.
    apply poll_entry_state in H1. destruct H1 as [Hi Hs]. inversion N as [|? ? N1 N2]; subst. cbn [log_poll].
    destruct (log_poll1_tick id e e1 l t ts Ht) as (t1 & T1 & T2 & T3 & T4 & T5).
    assert (Hps : polled_stage e e1 <> SFetch /\ polled_stage e e1 <> SDecode) by (unfold polled_stage; destruct (e_state e), (e_state e1); split; discriminate).
    assert (Ho : forall n, n <> id -> stages t1 n = stages t n) by (intros n Nn; rewrite T3; apply put_other; [intros X; now destruct Hps|intros X; now destruct Hps|exact Nn]).
    destruct (IH es0 r1 a1 r' a' es2 (log_poll1 id e e1 l) t1 ts H2 T1 (T2 Q) N2) as (I1 & t' & I2 & I3 & I4 & I5 & I6 & I7); auto.
    { intros n I. rewrite Ho; [apply S0; now right|intros ->; contradiction]. }
    split; [cbn; congruence|]. exists t'. split; [exact I2|]. split; [exact I3|]. split; [congruence|]. split; [congruence|]. split.
    { intros n Nn. rewrite I6; [apply Ho|]; intros X; apply Nn; [left; congruence|now right]. }
    constructor; [|exact I7]. exists (polled_stage e e1). split.
    + split; [rewrite (I6 _ N1), T3; apply put_here, S0; now left|]. eapply lv_next; [exact Hl| |]; unfold polled_stage; destruct (e_state e); cbn in Ha; try (destruct Ha as [-> | ->]); subst; try (destruct (e_state e1)); cbn; lia.
    + unfold polled_stage. destruct (e_state e).
      * destruct Hs as [-> | ->]; cbn; auto.
      * destruct Hs as [-> | ->]; cbn; auto.
      * rewrite Hs. reflexivity.
      * rewrite Hs. cbn. auto.
Qed.

(** ---- decoding and fetching ---- *)

Lemma rename_front : forall c l c', rename c l = Ok c' -> c_fetch c' = c_fetch c /\ c_decode c' = c_decode c.
Proof.
  intros c l c' H. unfold rename in H. destruct (next_free_from _ _ _); [|discriminate]. destruct (negb _); [discriminate|].
  apply bind_ok in H. destruct H as [f1 [_ H]]. apply bind_ok in H. destruct H as [f2 [_ H]]. apply bind_ok in H. destruct H as [f3 [_ H]]. apply Ok_eq in H. subst. auto.
Qed.
Lemma add_products_front : forall ps c ids c' ids', add_products c ids ps = Ok (c', ids') -> c_fetch c' = c_fetch c /\ c_decode c' = c_decode c.
Proof.
  induction ps as [|[l|a|] ps IH]; intros c ids c' ids' H; cbn [add_products] in *.
  - apply Ok_eq in H. inversion H; subst. auto.
  - destruct (is_pc l); [eauto|]. apply bind_ok in H. destruct H as [c1 [H1 H]]. apply rename_front in H1. apply IH in H. destruct H1 as [A B]. now rewrite A, B in H.
  - destruct (wm_register_at (c_wm c) a) as [w id]. apply IH in H. exact H.
  - destruct (wm_register (c_wm c)) as [w id]. apply IH in H. exact H.
Qed.
Lemma add_front : forall c i pc c', add c i pc = Ok c' -> c_fetch c' = c_fetch c /\ c_decode c' = c_decode c.
Proof.
  intros c i pc c' H. unfold add in H. destruct (negb _); [discriminate|]. apply bind_ok in H. destruct H as [c1 [H1 H]]. apply bind_ok in H. destruct H as [c2 [H2 H]]. apply rename_front in H1. destruct H1 as [A1 B1].
  assert (F2 : c_fetch c2 = c_fetch c1 /\ c_decode c2 = c_decode c1).
  { unfold set_lreg in H2. destruct (rget (c_rat c1) (LR PC)); [|discriminate]. destruct (pset _ _ _); [|discriminate]. apply Ok_eq in H2. subst. auto. }
  destruct F2 as [A2 B2]. cbv zeta in H. apply bind_ok in H. destruct H as [f2 [_ H]]. destruct (produces i) as [ps|]; [|discriminate]. apply bind_ok in H. destruct H as [[c4 ids] [H4 H]].
  apply bind_ok in H. destruct H as [f4 [_ H]]. destruct (operands i) as [ops|]; [|discriminate]. apply Ok_eq in H. subst c'. apply add_products_front in H4. cbn [set_regs c_fetch c_decode] in H4. destruct H4 as [A4 B4].
  cbn [set_rs set_regs c_fetch c_decode]. split; congruence.
Qed.

Lemma add_state : forall c i pc c', add c i pc = Ok c' -> exists e, c_rs c' = c_rs c ++ [e] /\ e_ins e = i /\ at_state (e_state e) SPrep.
Proof.
  intros c i pc c' H. destruct (PipeLive.add_frame _ _ _ _ H) as (e & [A1 _ _ _ A5 _ A7 _]). exists e. split; [exact A1|]. split; [exact A5|]. destruct A7 as [-> | ->]; cbn; auto.
Qed.

(** The middle of a tick: [t] is the current tick. Entries of the reservation station have
    been looked at; the instruction being decoded and the one being fetched have not. *)
Record MInv (ts : list tickst) (t : tickst) (x : lcpu) (rt : list (nat * (Z * instr))) : Prop := mkMInv {
  mi_ticks : s_ticks (l_log x) = t :: ts;
  mi_quiet : quiet t;
  mi_rs : Forall2 (fun id e => exists s, now ts t id s /\ at_state (e_state e) s) (l_ids x) (c_rs (l_cpu x));
  mi_de : match l_did x, c_decode (l_cpu x) with Some id, Some _ => lived SDecode (hist ts id) /\ stages t id = [] | None, None => True | _, _ => False end;
  mi_fe : match l_fid x, c_fetch (l_cpu x) with Some id, Some _ => lived SFetch (hist ts id) /\ stages t id = [] | None, None => True | _, _ => False end;
  mi_ins : exists fl, s_ins (l_log x) = rt ++ fl /\ map fst fl = flight x /\
    map (fun y => snd (snd y)) fl = map e_ins (c_rs (l_cpu x)) ++ map fst (olist (c_decode (l_cpu x)) ++ olist (c_fetch (l_cpu x)));
  mi_nodup : NoDup (map fst (s_ins (l_log x)));
  mi_lt : forall id, In id (map fst (s_ins (l_log x))) -> id < s_next (l_log x);
  mi_new : forall id, s_next (l_log x) <= id -> Forall (eq []) (hist ts id) /\ stages t id = [];
  mi_out : forall id, ~ In id (l_ids x) -> stages t id = [] \/ stages t id = [SDone]
}.

Lemma forall2_impl : forall (A B : Type) (P Q : A -> B -> Prop) l m, (forall a b, In a l -> P a b -> Q a b) -> Forall2 P l m -> Forall2 Q l m.
Proof. induction 2; constructor; [apply H; [now left|assumption]|apply IHForall2; intros; apply H; [now right|assumption]]. Qed.
Lemma nodup_flight : forall x (rt fl ins : list (nat * (Z * instr))), ins = rt ++ fl -> map fst fl = flight x -> NoDup (map fst ins) -> NoDup (flight x).
Proof. intros x rt fl ins -> <- H. rewrite map_app in H. clear -H. induction rt as [|y rt IH]; [exact H|]. cbn in H. inversion H; auto. Qed.

Lemma ltick_decode_ok : forall ts t x x' rt, MInv ts t x rt -> ltick_decode x = Ok x' ->
  tick_decode (l_cpu x) = Ok (l_cpu x') /\ s_next (l_log x') = s_next (l_log x) /\ exists t', MInv ts t' x' rt /\ (forall id, In id (map fst rt) -> stages t' id = stages t id).
Proof.
  intros ts t x x' rt M H. pose proof M as [T Q M1 M2 M3 M4 M5 M6 M7 M8]. unfold ltick_decode in H. cbv zeta in H. unfold tick_decode. destruct (c_decode (l_cpu x)) as [[i pc]|] eqn:Ed.
  - destruct (l_did x) as [id|] eqn:Ei; [|contradiction]. destruct M2 as [M2 M2s]. destruct (Nat.ltb (length (c_rs (l_cpu x))) (g_rs (c_cfg (l_cpu x)))).
    + apply bind_ok in H. destruct H as (c' & H1 & H). apply Ok_eq in H. subst x'. rewrite H1. cbn [bind l_cpu]. split; [reflexivity|]. split; [reflexivity|].
      destruct (add_front _ _ _ _ H1) as [F1 F2]. destruct (add_state _ _ _ _ H1) as (e & R1 & R2 & R3). destruct M4 as (fl & J1 & J2 & J3). pose proof (nodup_flight _ _ _ _ J1 J2 M5) as ND.
      assert (Nid : forall n, In n (l_ids x ++ olist (l_fid x)) -> n <> id).
      { intros n I ->. unfold flight in ND. rewrite Ei in ND. cbn [olist] in ND. apply NoDup_remove_2 in ND. contradiction. }
      assert (Op : forall n, n <> id -> stages (put SPrep id t) n = stages t n) by (intros n Nn; apply put_other; [discriminate|discriminate|exact Nn]).
      assert (Il : id < s_next (l_log x)) by (apply M6; rewrite J1, map_app, J2, in_app_iff; right; unfold flight; rewrite Ei, !in_app_iff; right; left; now left).
      exists (put SPrep id t). split.
      * constructor; cbn [l_log l_cpu l_ids l_did l_fid log_prep on_tick s_ticks s_ins s_next set_front c_rs c_decode c_fetch].
        -- rewrite T. reflexivity.
        -- exact Q.
        -- rewrite R1. apply Forall2_app.
           ++ eapply forall2_impl; [|exact M1]. intros n e' I (s & [S1 S2] & S3). exists s. split; [|exact S3]. split; [|exact S2]. rewrite Op; [exact S1|]. apply Nid, in_or_app. now left.
           ++ constructor; [|constructor]. exists SPrep. split; [|exact R3]. split; [now apply put_here|]. eapply lv_next; [exact M2| |]; cbn; lia.
        -- exact I.
        -- rewrite F1. destruct (l_fid x) as [n|] eqn:Ef, (c_fetch (l_cpu x)); try contradiction; [|exact I]. destruct M3 as [M3 M3s]. split; [exact M3|]. rewrite Op; [exact M3s|]. apply Nid, in_or_app. right. now left.
        -- exists fl. split; [exact J1|]. split; [unfold flight in *; cbn [l_ids l_did l_fid olist]; rewrite J2, Ei, <- app_assoc; reflexivity|]. rewrite J3, R1, F1, (map_app e_ins). cbn [map olist app fst]. rewrite R2, <- app_assoc. reflexivity.
        -- exact M5.
        -- exact M6.
        -- intros n Hn. destruct (M7 n Hn) as [Z1 Z2]. split; [exact Z1|]. rewrite Op; [exact Z2|lia].
        -- intros n Nn. rewrite in_app_iff in Nn. rewrite Op; [apply M8; tauto|]. intros ->. apply Nn. right. now left.
      * intros n I. apply Op. intros ->. rewrite J1, map_app in M5. apply (nodup_app _ _ _ M5 id I). rewrite J2. unfold flight. rewrite Ei, !in_app_iff. right. left. now left.
    + apply Ok_eq in H. subst x'. split; [reflexivity|]. split; [reflexivity|]. exists t. auto.
  - destruct (l_did x) as [id|] eqn:Ei; [contradiction|]. apply Ok_eq in H. subst x'. split; [reflexivity|]. split; [reflexivity|]. exists t. auto.
Qed.

Definition SInv (x : lcpu) (rt : list (nat * (Z * instr))) : Prop :=
  LInv (s_ticks (l_log x)) x rt /\ forall id, In id (map fst rt) -> finished (hist (s_ticks (l_log x)) id).

(** the stage in which an instruction is after a tick *)
Definition at_fetch (x : lcpu) (id : nat) : bool := oid (l_fid x) id.
Definition at_decode (x : lcpu) (id : nat) : bool := oid (l_did x) id.
Definition in_station (x : lcpu) (id : nat) : bool := found id (l_ids x).

Definition busy (t : tickst) (id : nat) : bool := found id (t_prep t) || found id (t_noalu t) || found id (t_exec t) || found id (t_wait t).
Definition fits (x : lcpu) (t : tickst) : Prop := t_fetch t = l_fid x /\ t_decode t = l_did x /\ forall id, busy t id = in_station x id.

Lemma nodup_mid : forall (A : Type) (l m n : list A) a, NoDup (l ++ m ++ n) -> (In a l -> ~ In a m /\ ~ In a n) /\ (In a m -> ~ In a n).
Proof.
  intros A l m n a H. split.
  - intros I. pose proof (nodup_app _ _ _ H a I) as K. rewrite in_app_iff in K. tauto.
  - intros I. assert (G : NoDup (m ++ n)) by (clear I; induction l; [exact H|]; cbn in H; inversion H; auto). now apply (nodup_app _ _ _ G).
Qed.

Lemma busy_stages : forall t id s, stages t id = [s] -> (rank s < 2 -> busy t id = false) /\ (rank s = 6 -> busy t id = false) /\ (2 <= rank s < 6 -> busy t id = true).
Proof.
  intros t id s H. unfold stages in H. unfold busy. destruct (oid (t_fetch t) id), (oid (t_decode t) id), (found id (t_prep t)), (found id (t_noalu t)), (found id (t_exec t)), (found id (t_wait t)), (found id (t_done t));
    cbn in H; try discriminate; injection H as <-; cbn; repeat split; intros; try reflexivity; lia.
Qed.
Lemma busy_nil : forall t id, stages t id = [] -> busy t id = false.
Proof. intros t id H. destruct (stages_nil _ _ H) as (_ & _ & H3 & H4 & H5 & H6 & _). unfold busy. now rewrite H3, H4, H5, H6. Qed.
Lemma forall2_in : forall (A B : Type) (P : A -> B -> Prop) l m a, Forall2 P l m -> In a l -> exists b, P a b.
Proof. induction 1; intros I; [destruct I|]. destruct I as [->|I]; eauto. Qed.

(** the front end of a tick *)
Lemma ltick_front_ok : forall ts t x rt, MInv ts t x rt -> l_cpu (ltick_front x) = tick_front (l_cpu x) /\ exists t', s_ticks (l_log (ltick_front x)) = t' :: ts /\ LInv (t' :: ts) (ltick_front x) rt /\ (forall id, In id (map fst rt) -> stages t' id = stages t id) /\ fits (ltick_front x) t'.
Proof.
  intros ts t x rt [T [Q1 Q2] M1 M2 M3 M4 M5 M6 M7 M8]. destruct M4 as (fl & J1 & J2 & J3). pose proof (nodup_flight _ _ _ _ J1 J2 M5) as ND.
  assert (Hin : forall n, In n (flight x) -> n < s_next (l_log x)) by (intros n I; apply M6; rewrite J1, map_app, J2, in_app_iff; now right).
  assert (Hrt : forall n, In n (map fst rt) -> ~ In n (flight x) /\ n < s_next (l_log x)).
  { intros n I. split; [rewrite J1, map_app, J2 in M5; now apply (nodup_app _ _ _ M5)|apply M6; rewrite J1, map_app, in_app_iff; now left]. }
  (* the general form of the end: [f] is in the fetch slot and [d] may be in the decode slot *)
  assert (G : forall f d c' l', c_rs c' = c_rs (l_cpu x) -> c_fetch c' <> None -> (c_decode c' = None <-> d = None) -> ~ In f (l_ids x) -> (forall n, d = Some n -> n <> f /\ ~ In n (l_ids x)) ->
     stages t f = [] -> lived SFetch ([SFetch] :: hist ts f) -> (forall n, d = Some n -> stages t n = [] /\ lived SDecode ([SDecode] :: hist ts n)) ->
     (exists fl', s_ins l' = rt ++ fl' /\ map fst fl' = l_ids x ++ olist d ++ [f] /\ map (fun y => snd (snd y)) fl' = map e_ins (c_rs c') ++ map fst (olist (c_decode c') ++ olist (c_fetch c'))) ->
     NoDup (map fst (s_ins l')) -> (forall n, In n (map fst (s_ins l')) -> n < s_next l') -> s_next (l_log x) <= s_next l' -> ~ In f (map fst rt) -> (forall n, d = Some n -> ~ In n (map fst rt)) -> s_ticks l' = t :: ts ->
     let y := mkL c' (Some f) d (l_ids x) (match d with Some n => log_decode n (log_fetch f l') | None => log_fetch f l' end) in
     exists t', s_ticks (l_log y) = t' :: ts /\ LInv (t' :: ts) y rt /\ (forall id, In id (map fst rt) -> stages t' id = stages t id) /\ fits y t').
  { intros f d c' l' A1 A2 A3 A4 A5 A6 A7 A8 A9 A10 A11 A12 A13 A14 A15 y.
    set (t' := match d with Some n => put SDecode n (put SFetch f t) | None => put SFetch f t end).
    assert (Sf : stages t' f = [SFetch]).
    { unfold t'. destruct d as [n|]; [|now apply put_here]. destruct (A5 n eq_refl) as [Nf _]. rewrite put_other; [now apply put_here|discriminate|intros _; exact Q2|congruence]. }
    assert (Sd : forall n, d = Some n -> stages t' n = [SDecode]).
    { intros n ->. unfold t'. destruct (A5 n eq_refl) as [Nf _]. apply put_here. rewrite put_other; [now apply (A8 n)|intros _; exact Q1|discriminate|exact Nf]. }
    assert (So : forall n, n <> f -> d <> Some n -> stages t' n = stages t n).
    { intros n N1 N2. unfold t'. destruct d as [m|]; [rewrite put_other; [| discriminate|intros _; exact Q2|congruence]|]; apply put_other; auto; discriminate. }
    assert (Et : s_ticks (l_log y) = t' :: ts) by (unfold y, t'; cbn [l_log]; destruct d; cbn [log_decode log_fetch on_tick s_ticks]; rewrite A15; reflexivity).
    assert (Ei : s_ins (l_log y) = s_ins l') by (unfold y; cbn [l_log]; destruct d; reflexivity).
    assert (En : s_next (l_log y) = s_next l') by (unfold y; cbn [l_log]; destruct d; reflexivity).
    assert (Fi : exists fl', s_ins l' = rt ++ fl' /\ map fst fl' = l_ids x ++ olist d ++ [f]) by (destruct A9 as (fl' & Z1 & Z2 & _); eauto).
    assert (Lf : f < s_next l') by (destruct Fi as (fl' & Z1 & Z2); apply A11; rewrite Z1, map_app, Z2, !in_app_iff; right; right; right; now left).
    assert (Ld : forall n, d = Some n -> n < s_next l') by (intros n ->; destruct Fi as (fl' & Z1 & Z2); apply A11; rewrite Z1, map_app, Z2, !in_app_iff; right; right; left; now left).
    exists t'. split; [exact Et|]. split; [|split].
    - constructor; rewrite ?Ei, ?En; cbn [y l_ids l_did l_fid l_cpu]; rewrite ?A1.
      + eapply forall2_impl; [|exact M1]. intros n e I (s & [S1 S2] & S3). exists s. split; [|exact S3]. cbn [hist map]. rewrite So, S1; [exact S2|intros ->; contradiction|]. intros ->. destruct (A5 n eq_refl). contradiction.
      + destruct d as [n|].
        * destruct (c_decode c') eqn:Edc; [|discriminate (proj1 A3 eq_refl)]. cbn [hist map]. rewrite (Sd n eq_refl). now apply (A8 n).
        * now rewrite (proj2 A3 eq_refl).
      + destruct (c_fetch c'); [|congruence]. cbn [hist map]. now rewrite Sf.
      + destruct A9 as (fl' & Z1 & Z2 & Z3). exists fl'. split; [exact Z1|]. split; [exact Z2|]. now rewrite A1 in Z3.
      + exact A10.
      + exact A11.
      + intros n Hn. cbn [hist map]. destruct (M7 n) as [Z1 Z2]; [lia|]. constructor; [|exact Z1]. rewrite So; [now rewrite Z2|lia|]. intros X. specialize (Ld n X). lia.
    - intros n I. apply So; [intros ->; contradiction|]. intros X. now apply (A14 n X).
    - split; [unfold t'; destruct d; reflexivity|]. split; [unfold t'; destruct d; [reflexivity|exact Q2]|]. intros n. unfold in_station. cbn [y l_ids]. destruct (in_dec Nat.eq_dec n (l_ids x)) as [I|N].
      + rewrite (proj2 (found_in _ _) I). destruct (forall2_in _ _ _ _ _ _ M1 I) as (e & s & [S1 S2] & S3). apply (busy_stages t' n s).
        * rewrite So; [exact S1|intros ->; contradiction|]. intros ->. destruct (A5 n eq_refl). contradiction.
        * destruct (e_state e); cbn in S3; try (destruct S3 as [-> | ->]); subst; cbn; lia.
      + rewrite (found_not _ _ N). destruct (Nat.eq_dec n f) as [->|N1]; [apply (proj1 (busy_stages t' f SFetch Sf)); cbn; lia|]. destruct d as [m|].
        * destruct (Nat.eq_dec n m) as [->|N2]; [apply (proj1 (busy_stages t' m SDecode (Sd m eq_refl))); cbn; lia|]. pose proof (So n N1) as E. specialize (M8 n N). destruct M8 as [Z|Z]; rewrite <- E in Z by congruence; [now apply busy_nil|now apply (proj1 (proj2 (busy_stages t' n SDone Z)))].
        * pose proof (So n N1) as E. specialize (M8 n N). destruct M8 as [Z|Z]; rewrite <- E in Z by congruence; [now apply busy_nil|now apply (proj1 (proj2 (busy_stages t' n SDone Z)))]. }
  unfold ltick_front, tick_front. cbv zeta. unfold flight in *.
  assert (New : stages t (s_next (l_log x)) = [] /\ lived SFetch ([SFetch] :: hist ts (s_next (l_log x)))) by (destruct (M7 (s_next (l_log x)) (le_n _)) as [Z1 Z2]; split; [exact Z2|now apply lv_first]).
  assert (Nnew : ~ In (s_next (l_log x)) (l_ids x ++ olist (l_did x) ++ olist (l_fid x))) by (intros I; apply Hin in I; lia).
  assert (Nrt : ~ In (s_next (l_log x)) (map fst rt)) by (intros I; apply Hrt in I; lia).
  assert (Hreg : forall pc i, NoDup (map fst (s_ins (log_register pc i (l_log x)))) /\ (forall n, In n (map fst (s_ins (log_register pc i (l_log x)))) -> n < S (s_next (l_log x)))).
  { intros pc i. cbn [log_register s_ins]. rewrite map_app. cbn [map fst]. split.
    - apply NoDup_rev in M5. rewrite <- (rev_involutive (_ ++ _)). apply NoDup_rev. rewrite rev_app_distr. cbn [rev app]. constructor; [|exact M5]. rewrite <- in_rev. intros I. apply M6 in I. lia.
    - intros n I. rewrite in_app_iff in I. destruct I as [I|[<-|[]]]; [apply M6 in I; lia|lia]. }
  pose proof (fun n => nodup_mid _ _ _ _ n ND) as NM.
  destruct (c_decode (l_cpu x)) as [[di dpc]|] eqn:Ed.
  - destruct (l_did x) as [d|] eqn:Edi; [|contradiction]. destruct M2 as [M2 M2s]. cbn [l_cpu].
    assert (Nd : ~ In d (l_ids x)) by (intros I; apply (NM d) in I; destruct I as [I _]; apply I; now left).
    assert (Ld : lived SDecode ([SDecode] :: hist ts d)) by (eapply lv_next; [exact M2| |]; cbn; lia).
    assert (Drt : ~ In d (map fst rt)) by (intros I; apply Hrt in I; destruct I as [I _]; apply I; rewrite !in_app_iff; right; left; now left).
    destruct (c_fetch (l_cpu x)) as [[fi fpc]|] eqn:Ef.
    + destruct (l_fid x) as [f|] eqn:Efi; [|contradiction]. destruct M3 as [M3 M3s]. cbn [l_cpu l_fid l_did l_ids l_log]. rewrite ?Efi, ?Edi. split; [reflexivity|].
      apply (G f (Some d) (l_cpu x) (l_log x)); auto.
      * congruence.
      * rewrite Ed. split; discriminate.
      * intros I. apply (NM f) in I. destruct I as [_ I]. apply I. now left.
      * intros n E. injection E as <-. split; [|exact Nd]. intros ->. apply (proj2 (NM f)); now left.
      * eapply lv_next; [exact M3| |]; cbn; lia.
      * intros n E. injection E as <-. auto.
      * exists fl. rewrite Ed, Ef. auto.
      * intros I. apply Hrt in I. destruct I as [I _]. apply I. rewrite !in_app_iff. right. right. now left.
      * intros n E. injection E as <-. exact Drt.
    + destruct (l_fid x) as [f|] eqn:Efi; [contradiction|]. cbn [l_cpu l_fid l_did l_ids l_log]. rewrite ?Edi. split; [reflexivity|].
      destruct (Hreg (c_spec (l_cpu x)) (prog_at (c_prog (l_cpu x)) (c_spec (l_cpu x)))) as [R1 R2].
      apply (G (s_next (l_log x)) (Some d) (fetch (l_cpu x)) (log_register (c_spec (l_cpu x)) (prog_at (c_prog (l_cpu x)) (c_spec (l_cpu x))) (l_log x))); auto.
      * unfold fetch. destruct (jump_dest _); reflexivity.
      * unfold fetch. destruct (jump_dest _); discriminate.
      * unfold fetch. destruct (jump_dest _); cbn [set_front c_decode]; rewrite Ed; split; discriminate.
      * intros I. apply Nnew. rewrite !in_app_iff. now left.
      * intros n E. injection E as <-. split; [|exact Nd]. intros ->. apply Nnew. rewrite !in_app_iff. right. left. now left.
      * apply New.
      * apply New.
      * intros n E. injection E as <-. auto.
      * exists (fl ++ [(s_next (l_log x), (c_spec (l_cpu x), prog_at (c_prog (l_cpu x)) (c_spec (l_cpu x))))]). cbn [log_register s_ins]. rewrite J1, <- app_assoc. split; [reflexivity|]. rewrite !map_app, J2, J3. cbn [map fst snd olist app]. rewrite <- !app_assoc.
        split; [reflexivity|]. unfold fetch. destruct (jump_dest _); cbn [set_front c_decode c_fetch c_rs]; rewrite Ed; reflexivity.
      * cbn [log_register s_next]. lia.
      * intros n E. injection E as <-. exact Drt.
  - destruct (l_did x) as [d|] eqn:Edi; [contradiction|]. cbn [l_cpu set_front c_fetch].
    destruct (Hreg (c_spec (l_cpu x)) (prog_at (c_prog (l_cpu x)) (c_spec (l_cpu x)))) as [R1 R2].
    destruct (c_fetch (l_cpu x)) as [[fi fpc]|] eqn:Ef.
    + destruct (l_fid x) as [f|] eqn:Efi; [|contradiction]. destruct M3 as [M3 M3s]. cbn [l_cpu l_fid l_did l_ids l_log set_front c_spec c_prog]. split; [reflexivity|].
      apply (G (s_next (l_log x)) (Some f) (fetch (set_front (l_cpu x) (c_spec (l_cpu x)) None (Some (fi, fpc)) (c_pred (l_cpu x)))) (log_register (c_spec (l_cpu x)) (prog_at (c_prog (l_cpu x)) (c_spec (l_cpu x))) (l_log x))); auto.
      * unfold fetch. cbn [set_front c_prog c_spec]. destruct (jump_dest _); reflexivity.
      * unfold fetch. cbn [set_front c_prog c_spec]. destruct (jump_dest _); discriminate.
      * unfold fetch. cbn [set_front c_prog c_spec]. destruct (jump_dest _); cbn [set_front c_decode]; split; discriminate.
      * intros I. apply Nnew. rewrite !in_app_iff. now left.
      * intros n E. injection E as <-. split; [intros ->; apply Nnew; rewrite !in_app_iff; right; right; now left|]. intros I. apply (NM f) in I. destruct I as [_ I]. apply I. now left.
      * apply New.
      * apply New.
      * intros n E. injection E as <-. split; [exact M3s|]. eapply lv_next; [exact M3| |]; cbn; lia.
      * exists (fl ++ [(s_next (l_log x), (c_spec (l_cpu x), prog_at (c_prog (l_cpu x)) (c_spec (l_cpu x))))]). cbn [log_register s_ins]. rewrite J1, <- app_assoc. split; [reflexivity|]. rewrite !map_app, J2, J3. cbn [map fst snd olist app]. rewrite <- !app_assoc.
        split; [reflexivity|]. unfold fetch. cbn [set_front c_prog c_spec]. destruct (jump_dest _); cbn [set_front c_decode c_fetch c_rs]; reflexivity.
      * cbn [log_register s_next]. lia.
      * intros n E. injection E as <-. intros I. apply Hrt in I. destruct I as [I _]. apply I. rewrite !in_app_iff. right. right. now left.
    + destruct (l_fid x) as [f|] eqn:Efi; [contradiction|]. cbn [l_cpu l_fid l_did l_ids l_log set_front c_spec c_prog]. split; [reflexivity|].
      apply (G (s_next (l_log x)) None (fetch (set_front (l_cpu x) (c_spec (l_cpu x)) None None (c_pred (l_cpu x)))) (log_register (c_spec (l_cpu x)) (prog_at (c_prog (l_cpu x)) (c_spec (l_cpu x))) (l_log x))); auto.
      * unfold fetch. cbn [set_front c_prog c_spec]. destruct (jump_dest _); reflexivity.
      * unfold fetch. cbn [set_front c_prog c_spec]. destruct (jump_dest _); discriminate.
      * unfold fetch. cbn [set_front c_prog c_spec]. destruct (jump_dest _); cbn [set_front c_decode]; split; reflexivity.
      * intros I. apply Nnew. rewrite !in_app_iff. now left.
      * discriminate.
      * apply New.
      * apply New.
      * discriminate.
      * exists (fl ++ [(s_next (l_log x), (c_spec (l_cpu x), prog_at (c_prog (l_cpu x)) (c_spec (l_cpu x))))]). cbn [log_register s_ins]. rewrite J1, <- app_assoc. split; [reflexivity|]. rewrite !map_app, J2, J3. cbn [map fst snd olist app]. rewrite <- !app_assoc.
        split; [reflexivity|]. unfold fetch. cbn [set_front c_prog c_spec]. destruct (jump_dest _); cbn [set_front c_decode c_fetch c_rs]; reflexivity.
      * cbn [log_register s_next]. lia.
      * discriminate.
Qed.

(** ---- a tick ---- *)

Definition tick_trace (E : env) (c : cpu) : list instr :=
  let r := ram_tick (c_ram c) in
  let c1 := set_stop (set_mem c r (wm_remove_finished (c_wm c) r)) (c_single c) 0%Z in
  match exec_loop E (c_regs c1) (c_wm c1) (c_alus c1) (c_rs c1) with
  | Ok (f, w, a, es) => retire_trace (length es) (set_exec c1 f w es a)
  | _ => []
  end.

Lemma lift_bind_ok : forall S A B (c : S) (r : res unit A) (f : A -> res S B) b, bind (lift c r) f = Ok b -> exists a, r = Ok a /\ f a = Ok b.
Proof. intros S A B c r f b H. apply bind_ok in H. destruct H as (a & H & G). apply lift_ok in H. eauto. Qed.

Lemma hist_nil : forall t ts id, stages t id = [] -> finished (hist ts id) -> finished (hist (t :: ts) id).
Proof. intros t ts id H (b & s & h & E & L). exists (S b), s, h. split; [|exact L]. cbn [hist map repeat app]. rewrite H. f_equal. exact E. Qed.

Theorem ltick_ok : forall E x x' rt, SInv x rt -> ltick E x = Ok x' ->
  (tick E (l_cpu x) = Ok (l_cpu x') -> c_halted (l_cpu x') = true \/ c_int (l_cpu x') <> 0%Z -> c_rs (l_cpu x') = [] /\ c_fetch (l_cpu x') = None /\ c_decode (l_cpu x') = None) ->
  tick E (l_cpu x) = Ok (l_cpu x') /\ exists rn t', SInv x' (rt ++ rn) /\ s_ticks (l_log x') = t' :: s_ticks (l_log x) /\ fits x' t' /\ map (fun y => snd (snd y)) rn = tick_trace E (l_cpu x).
Proof.
  intros E x x' rt [L F] H Hstop. remember (tick E (l_cpu x)) as T eqn:HT. set (ts := s_ticks (l_log x)) in *. unfold ltick in H. cbv zeta in H. apply lift_bind_ok in H. destruct H as ([[[f w] a] es] & He & H).
  apply bind_ok in H. destruct H as (x2 & Hr & H). unfold tick, tick_retire in HT. unfold tick_trace. cbv zeta in HT |- *. rewrite He in HT |- *. cbn [lift bind] in HT.
  set (c1 := set_exec (set_stop (set_mem (l_cpu x) (ram_tick (c_ram (l_cpu x))) (wm_remove_finished (c_wm (l_cpu x)) (ram_tick (c_ram (l_cpu x))))) (c_single (l_cpu x)) 0) f w es a) in *.
  destruct (exec_loop_states _ _ _ _ _ _ _ _ _ He) as [Xi Xs].
  set (x1 := on_cpu (on_log x log_new_tick) c1) in *.
  assert (L1 : LInv ts x1 rt).
  { destruct L as [L1 L2 L3 L4 L5 L6 L7]. constructor; cbn [x1 on_cpu on_log l_ids l_did l_fid l_cpu l_log c1 set_exec set_stop set_mem c_rs c_decode c_fetch log_new_tick s_ins s_next flight]; auto.
    destruct L4 as (fl & I1 & I2 & I3). exists fl. split; [exact I1|]. split; [exact I2|]. rewrite Xi. exact I3. }
  destruct (lretire_loop_ok _ ts no_tick [] x1 x2 rt L1 eq_refl (conj eq_refl eq_refl) (fun _ => eq_refl) (fun _ I => match I with end) Hr) as (R1 & rn & t & L2 & T2 & Q2 & S2 & N2 & V2 & W2).
  cbn [x1 on_cpu l_cpu] in R1, W2. rewrite R1 in HT. cbn [bind] in HT.
  (* when the machine has stopped nothing is in flight *)
  assert (Early : forall c3, T = Ok (l_cpu x') -> l_cpu x' = c3 -> x' = on_cpu x2 c3 -> c_rs c3 = c_rs (l_cpu x2) -> c_fetch c3 = c_fetch (l_cpu x2) -> c_decode c3 = c_decode (l_cpu x2) -> (c_halted (l_cpu x') = true \/ c_int (l_cpu x') <> 0%Z) ->
     exists rn t', SInv x' (rt ++ rn) /\ s_ticks (l_log x') = t' :: ts /\ fits x' t' /\ map (fun y => snd (snd y)) rn = retire_trace (length es) c1).
  { intros c3 ET E3 Ex A1 A2 A3 St. destruct (Hstop ET St) as (B1 & B2 & B3). rewrite E3 in B1, B2, B3. exists rn, t. destruct L2 as [K1 K2 K3 K4 K5 K6 K7].
    rewrite A1 in B1. rewrite A2 in B2. rewrite A3 in B3. rewrite B1 in K1. inversion K1 as [Ei|]; subst. rewrite B2 in K3. rewrite B3 in K2.
    destruct (l_did x2) eqn:Ed; [contradiction|]. destruct (l_fid x2) eqn:Ef; [contradiction|]. destruct K4 as (fl & I1 & I2 & I3). unfold flight in I2. rewrite <- Ei, Ed, Ef in I2. cbn in I2. apply map_eq_nil in I2. subst fl. rewrite app_nil_r in I1.
    rewrite I1 in K5, K6. rewrite map_app in K5.
    assert (Sn : forall id, ~ In id (map fst rn) -> stages t id = []) by (intros id Nn; rewrite S2; cbn [app]; now rewrite found_not).
    split; [|split; [rewrite Ex; exact T2|split; [|exact W2]]].
    - assert (Et : s_ticks (l_log x') = t :: ts) by (rewrite Ex; exact T2). split.
      + rewrite Et. rewrite Ex. constructor; cbn [on_cpu l_ids l_did l_fid l_cpu l_log flight]; rewrite ?A1, ?A2, ?A3, ?B1, ?B2, ?B3, ?Ed, ?Ef, <- ?Ei, ?I1; auto.
        * exists []. rewrite !app_nil_r. split; [reflexivity|]. split; [unfold flight; cbn [on_cpu l_ids l_did l_fid]; rewrite <- Ei, Ed, Ef; reflexivity|reflexivity].
        * rewrite map_app. exact K5.
        * intros id Hid. cbn [hist map]. constructor; [|apply K7; exact Hid]. symmetry. apply Sn. intros I. assert (id < s_next (l_log x2)) by (apply K6; rewrite map_app, in_app_iff; now right). lia.
      + rewrite Et. intros id I. rewrite map_app, in_app_iff in I. destruct I as [I|I].
        * apply hist_nil; [|now apply F]. apply Sn. intros J. exact (nodup_app _ _ _ K5 id I J).
        * destruct (V2 id I) as (s & V). exists 0, s, (hist ts id). split; [|exact V]. cbn [hist map repeat app]. rewrite S2. cbn [app]. rewrite (proj2 (found_in _ _) I). reflexivity.
    - rewrite Ex. destruct Q2 as [Q1 Q2]. split; [cbn; congruence|]. split; [cbn; congruence|]. intros id. unfold in_station. cbn [on_cpu l_ids]. rewrite <- Ei. cbn [found existsb].
      destruct (in_dec Nat.eq_dec id (map fst rn)) as [I|N]; [|apply busy_nil; now apply Sn]. apply (proj1 (proj2 (busy_stages t id SDone (eq_trans (S2 id) (eq_trans (f_equal (fun b => when b SDone) (proj2 (found_in _ _) I)) eq_refl))))). reflexivity. }
  destruct (c_halted (l_cpu x2)) eqn:Hh.
  { apply Ok_eq in H. subst x'. split; [exact HT|]. apply (Early (l_cpu x2)); auto. now destruct x2. }
  set (c3 := if c_single (l_cpu x2) then set_stop (l_cpu x2) false (if (c_int (l_cpu x2) =? 0)%Z then 1%Z else c_int (l_cpu x2)) else l_cpu x2) in *.
  assert (C3 : c_rs c3 = c_rs (l_cpu x2) /\ c_fetch c3 = c_fetch (l_cpu x2) /\ c_decode c3 = c_decode (l_cpu x2)) by (unfold c3; destruct (c_single (l_cpu x2)); auto). destruct C3 as (C31 & C32 & C33).
  destruct (negb (c_int c3 =? 0)%Z) eqn:Hi.
  { apply Ok_eq in H. subst x'. split; [exact HT|]. apply (Early c3); auto. right. cbn [on_cpu l_cpu]. rewrite negb_true_iff, Z.eqb_neq in Hi. exact Hi. }
  clear Early. apply lift_bind_ok in H. destruct H as ([[r' a'] es'] & Hp & H). rewrite Hp in HT. cbn [lift bind] in HT.
  set (x4 := mkL (set_polled c3 r' es' a') (l_fid x2) (l_did x2) (l_ids x2) (log_poll (l_ids x2) (c_rs c3) es' (l_log x2))) in *.
  apply bind_ok in H. destruct H as (x5 & H5 & H). apply Ok_eq in H.
  pose proof L2 as [K1 K2 K3 K4 K5 K6 K7]. destruct K4 as (fl & I1 & I2 & I3). pose proof (nodup_flight _ _ _ _ I1 I2 K5) as ND.
  assert (Nfl : forall id, In id (flight x2) -> stages t id = []).
  { intros id I. rewrite S2. cbn [app]. rewrite found_not; [reflexivity|]. intros J. rewrite I1, map_app, I2 in K5. apply (nodup_app _ _ _ K5 id); [rewrite map_app, in_app_iff; now right|exact I]. }
  rewrite <- C31 in K1.
  destruct (log_poll_ok E _ _ _ (l_ids x2) (c_rs c3) _ _ r' a' es' (l_log x2) t ts Hp T2 Q2) as (P1 & t4 & P2 & P3 & P4 & P5 & P6 & P7); auto.
  { unfold flight in ND. now apply nodup_left in ND. }
  { intros id I. apply Nfl. unfold flight. rewrite in_app_iff. now left. }
  assert (M4 : MInv ts t4 x4 (rt ++ rn)).
  { constructor; cbn [x4 l_ids l_did l_fid l_cpu l_log set_polled c_rs c_decode c_fetch]; rewrite ?C32, ?C33, ?P4, ?P5; auto.
    - destruct (l_did x2) as [d|] eqn:Ed, (c_decode (l_cpu x2)); try contradiction; [|exact I]. split; [exact K2|]. rewrite P6; [apply Nfl|intros J; unfold flight in ND; rewrite Ed in ND; apply (nodup_app _ _ _ ND d J); now left]. unfold flight. rewrite Ed, !in_app_iff. right. left. now left.
    - destruct (l_fid x2) as [d|] eqn:Ed, (c_fetch (l_cpu x2)); try contradiction; [|exact I]. split; [exact K3|]. rewrite P6; [apply Nfl|intros J; unfold flight in ND; rewrite Ed in ND; apply (nodup_app _ _ _ ND d J), in_or_app; right; now left]. unfold flight. rewrite Ed, !in_app_iff. right. right. now left.
    - exists fl. split; [exact I1|]. split; [exact I2|]. rewrite P1, C31. exact I3.
    - intros id Hid. split; [now apply K7|]. rewrite P6.
      + rewrite S2. cbn [app]. rewrite found_not; [reflexivity|]. intros I. assert (id < s_next (l_log x2)) by (apply K6; rewrite I1, !map_app, !in_app_iff; left; now right). lia.
      + intros I. assert (id < s_next (l_log x2)) by (apply K6; rewrite I1, map_app, I2, in_app_iff; right; unfold flight; rewrite in_app_iff; now left). lia.
    - intros id N. rewrite P6 by exact N. rewrite S2. destruct (found id _); auto. }
  destruct (ltick_decode_ok ts t4 x4 x5 (rt ++ rn) M4 H5) as (D1 & D2 & t5 & M5 & D3). cbn [x4 l_cpu] in D1. rewrite D1 in HT. cbn [bind] in HT.
  destruct (ltick_front_ok ts t5 x5 (rt ++ rn) M5) as (F1 & t6 & F2 & F3 & F4 & F5). rewrite H in F1, F2, F3, F5. rewrite <- F1 in HT. split; [exact HT|]. exists rn, t6. split; [|split; [exact F2|split; [exact F5|exact W2]]].
  split; rewrite F2; [exact F3|]. intros id I.
  assert (St : stages t6 id = when (found id (map fst rn)) SDone).
  { rewrite (F4 _ I), (D3 _ I), P6; [apply S2|]. intros J. rewrite I1, map_app, I2 in K5. apply (nodup_app _ _ _ K5 id I). unfold flight. rewrite in_app_iff. now left. }
  rewrite map_app, in_app_iff in I. destruct I as [I|I].
  - apply hist_nil; [|now apply F]. rewrite St, found_not; [reflexivity|]. intros J. rewrite I1, !map_app in K5. rewrite <- app_assoc in K5. apply (nodup_app _ _ _ K5 id I), in_or_app. now left.
  - destruct (V2 id I) as (s & V). exists 0, s, (hist ts id). split; [|exact V]. cbn [hist map repeat app]. rewrite St, (proj2 (found_in _ _) I). reflexivity.
Qed.
