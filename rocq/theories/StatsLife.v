(** The lifetimes computed from the histories. *)
From Coq Require Import String ZArith NArith List Bool Lia.
From Verif Require Import Base Alu Isa Exec Ram Writes Rat Cpu PipeBasics Stats StatsProof.
Import ListNotations.
Open Scope nat_scope.

Definition is_at (s : stage) (id : nat) (t : tickst) : bool :=
  match s with
  | SFetch => oid (t_fetch t) id
  | SDecode => oid (t_decode t) id
  | SPrep => found id (t_prep t)
  | SAlu => found id (t_noalu t)
  | SExec => found id (t_exec t)
  | SWait => found id (t_wait t)
  | SDone => found id (t_done t)
  end.
Definition count (s : stage) (id : nat) (l : list tickst) : nat := length (filter (is_at s id) l).

Lemma is_at_one : forall t id s s', stages t id = [s] -> is_at s' id t = Nat.eqb (rank s) (rank s').
Proof.
  intros t id s s' H. unfold stages in H. destruct (oid (t_fetch t) id) eqn:H1, (oid (t_decode t) id) eqn:H2, (found id (t_prep t)) eqn:H3, (found id (t_noalu t)) eqn:H4, (found id (t_exec t)) eqn:H5, (found id (t_wait t)) eqn:H6, (found id (t_done t)) eqn:H7;
    cbn in H; try discriminate; injection H as <-; destruct s'; cbn [is_at rank Nat.eqb]; assumption.
Qed.
Lemma is_at_nil : forall t id s', stages t id = [] -> is_at s' id t = false.
Proof. intros t id s' H. destruct (stages_nil _ _ H) as (H1 & H2 & H3 & H4 & H5 & H6 & H7). destruct s'; assumption. Qed.

Inductive ord (id : nat) : nat -> list tickst -> Prop :=
| ord_nil : forall k, ord id k []
| ord_cons : forall k t s l, stages t id = [s] -> k <= rank s -> rank s < 6 -> ord id (rank s) l -> ord id k (t :: l).

Lemma ord_le : forall id k l, ord id k l -> forall j, j <= k -> ord id j l.
Proof. intros id k l H. destruct H; intros j Hj; [constructor|]. eapply ord_cons; eauto. lia. Qed.
Lemma ord_none : forall id k l, ord id k l -> forall s, rank s < k -> count s id l = 0.
Proof.
  induction 1 as [|k t s l H1 H2 H3 H4 IH]; intros s' Hs; [reflexivity|]. unfold count. cbn [filter]. rewrite (is_at_one _ _ _ s' H1). destruct (Nat.eqb_spec (rank s) (rank s')); [lia|]. apply IH. lia.
Qed.
Lemma span_ord : forall id s td r, stages td id = [SDone] -> rank s < 6 -> forall l, ord id (rank s) l ->
  exists l', span (is_at s id) (l ++ td :: r) = (count s id l, l' ++ td :: r) /\ ord id (S (rank s)) l' /\ forall s', rank s < rank s' -> count s' id l' = count s' id l.
Proof.
  intros id s td r Hd Hs. induction l as [|t l IH]; intros H.
  - exists []. cbn [app span]. rewrite (is_at_one _ _ _ s Hd). destruct (Nat.eqb_spec (rank SDone) (rank s)) as [e|_]; [cbn in e; lia|]. split; [reflexivity|]. split; [constructor|auto].
  - inversion H as [|? ? s0 ? H1 H2 H3 H4]; subst. cbn [app span]. rewrite (is_at_one _ _ _ s H1). destruct (Nat.eqb_spec (rank s0) (rank s)) as [e|n].
    + rewrite e in H4. destruct (IH H4) as (l' & I1 & I2 & I3). exists l'. rewrite I1. split; [|split; [exact I2|]].
      * unfold count. cbn [filter]. rewrite (is_at_one _ _ _ s H1), e, Nat.eqb_refl. reflexivity.
      * intros s' Hs'. rewrite I3 by exact Hs'. unfold count. cbn [filter]. rewrite (is_at_one _ _ _ s' H1). destruct (Nat.eqb_spec (rank s0) (rank s')); [lia|reflexivity].
    + exists (t :: l). split; [|split; [|auto]].
      * f_equal. symmetry. apply (ord_none id (S (rank s))); [|lia]. eapply ord_cons; eauto. lia.
      * eapply ord_cons; eauto. lia.
Qed.

Lemma span_skip : forall (f : tickst -> bool) l t r, (forall u, In u l -> f u = true) -> f t = false -> span f (l ++ t :: r) = (length l, t :: r).
Proof. induction l as [|u l IH]; intros t r H Ht; cbn [app span]; [now rewrite Ht|]. rewrite (H u) by now left. rewrite IH; auto. intros. apply H. now right. Qed.

(** the oldest first *)
Lemma lived_ord : forall s h, lived s h -> forall id ts, hist ts id = h -> exists z t l, rev ts = z ++ t :: l /\ (forall u, In u z -> stages u id = []) /\ stages t id = [SFetch] /\ ord id 0 (t :: l) /\
  (forall k, k <= rank s -> forall u s', stages u id = [s'] -> rank s <= rank s' -> rank s' < 6 -> ord id 0 ((t :: l) ++ [u])).
Proof.
  induction 1 as [h Hh|s s' h H IH Hr H6]; intros id ts E; destruct ts as [|t0 ts]; try discriminate; cbn [hist map] in E; injection E as E1 E2.
  - exists (rev ts), t0, []. cbn [rev]. split; [reflexivity|]. split; [|split; [exact E1|split]].
    + intros u I. apply in_rev in I. rewrite Forall_forall in Hh. symmetry. apply Hh. rewrite <- E2. now apply (in_map (fun t => stages t id)).
    + eapply ord_cons; [exact E1| | |constructor]; cbn; lia.
    + intros k _ u s' Hu _ H6. cbn [app]. eapply ord_cons; [exact E1| | |]; [cbn; lia|cbn; lia|]. eapply ord_cons; [exact Hu| | |constructor]; cbn; lia.
  - destruct (IH id ts E2) as (z & t & l & Z1 & Z2 & Z3 & Z4 & Z5). exists z, t, (l ++ [t0]). cbn [rev]. rewrite Z1, <- app_assoc. split; [reflexivity|]. split; [exact Z2|]. split; [exact Z3|].
    pose proof (Z5 0 (Nat.le_0_l _) t0 s' E1 Hr H6) as O. split; [exact O|]. intros k _ u s2 Hu Hr2 H62.
    clear -O E1 Hu Hr2 H62 H6. cbn [app] in *. change (t :: (l ++ [t0]) ++ [u]) with (((t :: l) ++ [t0]) ++ [u]). change (t :: l ++ [t0]) with ((t :: l) ++ [t0]) in O. generalize dependent (t :: l). intros m. generalize 0. induction m as [|v m IHm]; intros j O; cbn [app] in *.
    + inversion O as [|? ? s3 ? G1 G2 G3 G4]; subst. rewrite E1 in G1. injection G1 as <-. eapply ord_cons; eauto. eapply ord_cons; [exact Hu|exact Hr2|exact H62|constructor].
    + inversion O as [|? ? s3 ? G1 G2 G3 G4]; subst. eapply ord_cons; eauto.
Qed.

Lemma count_app : forall s id l m, count s id (l ++ m) = count s id l + count s id m.
Proof. intros. unfold count. rewrite filter_app, app_length. reflexivity. Qed.
Lemma count_rev : forall s id l, count s id (rev l) = count s id l.
Proof. intros s id. induction l as [|t l IH]; [reflexivity|]. cbn [rev]. rewrite count_app, IH. unfold count. cbn [filter]. destruct (is_at s id t); cbn; lia. Qed.
Lemma count_nil : forall s id l, (forall u, In u l -> stages u id = []) -> count s id l = 0.
Proof. intros s id. induction l as [|t l IH]; intros H; [reflexivity|]. unfold count. cbn [filter]. rewrite is_at_nil by (apply H; now left). apply IH. intros. apply H. now right. Qed.

Theorem life_time_ok : forall id ts, finished (hist ts id) -> exists st,
  life_time id (rev ts) = Ok (mkLife (count SFetch id ts) (count SDecode id ts) (count SPrep id ts) st (count SAlu id ts) (count SExec id ts) (count SWait id ts) 1) /\ 1 <= count SFetch id ts.
Proof.
  intros id ts (b & s & h & E & L). unfold hist in E. apply map_eq_app in E. destruct E as (tb & tr & -> & E1 & E2). destruct tr as [|td t0]; [discriminate|]. cbn [map] in E2. injection E2 as Ed E0.
  destruct (lived_ord s h L id t0 E0) as (z & t & l & Z1 & Z2 & Z3 & Z4 & _).
  assert (Hb : forall u, In u tb -> stages u id = []) by (intros u I; apply (in_map (fun t => stages t id)) in I; rewrite E1 in I; now apply repeat_spec in I).
  assert (Er : rev (tb ++ td :: t0) = z ++ t :: (l ++ td :: rev tb)) by (rewrite rev_app_distr; cbn [rev]; rewrite Z1, <- !app_assoc; reflexivity).
  assert (Ec : forall s', rank s' < 6 -> count s' id (tb ++ td :: t0) = count s' id (t :: l)).
  { intros s' H6. rewrite count_app, (count_nil _ _ tb Hb). change (td :: t0) with ([td] ++ t0). rewrite count_app. rewrite <- (count_rev s' id t0), Z1, count_app, (count_nil _ _ z Z2).
    unfold count at 1. cbn [filter]. rewrite (is_at_one _ _ _ s' Ed). destruct (Nat.eqb_spec (rank SDone) (rank s')) as [e|_]; [cbn in e; lia|]. reflexivity. }
  rewrite !Ec by (cbn; lia). unfold life_time. rewrite Er, span_skip.
  2: { intros u I. rewrite (is_at_nil u id SFetch (Z2 u I) : oid (t_fetch u) id = false). reflexivity. }
  2: { pose proof (is_at_one t id SFetch SFetch Z3) as X. cbn in X. now rewrite X. }
  destruct (span_ord id SFetch td (rev tb) Ed ltac:(cbn; lia) (t :: l) Z4) as (l1 & S1 & O1 & C1). cbn [app] in S1. change (is_at SFetch id) with (fun t => oid (t_fetch t) id) in S1. rewrite S1.
  destruct (span_ord id SDecode td (rev tb) Ed ltac:(cbn; lia) l1 O1) as (l2 & S2 & O2 & C2). change (is_at SDecode id) with (fun t => oid (t_decode t) id) in S2. rewrite S2.
  destruct (span_ord id SPrep td (rev tb) Ed ltac:(cbn; lia) l2 O2) as (l3 & S3 & O3 & C3). change (is_at SPrep id) with (fun t => found id (t_prep t)) in S3. rewrite S3.
  destruct (span_ord id SAlu td (rev tb) Ed ltac:(cbn; lia) l3 O3) as (l4 & S4 & O4 & C4). change (is_at SAlu id) with (fun t => found id (t_noalu t)) in S4. rewrite S4.
  destruct (span_ord id SExec td (rev tb) Ed ltac:(cbn; lia) l4 O4) as (l5 & S5 & O5 & C5). change (is_at SExec id) with (fun t => found id (t_exec t)) in S5. rewrite S5.
  destruct (span_ord id SWait td (rev tb) Ed ltac:(cbn; lia) l5 O5) as (l6 & S6 & O6 & C6). change (is_at SWait id) with (fun t => found id (t_wait t)) in S6. rewrite S6.
  assert (l6 = []) by (inversion O6 as [|k u s' l' G1 G2 G3]; [reflexivity|cbn in G2; lia]). subst l6. cbn [app].
  pose proof (is_at_one td id SDone SDone Ed) as X. cbn in X. rewrite X. eexists. split.
  - f_equal. f_equal.
    + apply (C1 SDecode). cbn. lia.
    + rewrite (C2 SPrep) by (cbn; lia). apply (C1 SPrep). cbn. lia.
    + rewrite (C3 SAlu), (C2 SAlu) by (cbn; lia). apply (C1 SAlu). cbn. lia.
    + rewrite (C4 SExec), (C3 SExec), (C2 SExec) by (cbn; lia). apply (C1 SExec). cbn. lia.
    + rewrite (C5 SWait), (C4 SWait), (C3 SWait), (C2 SWait) by (cbn; lia). apply (C1 SWait). cbn. lia.
  - unfold count. cbn [filter]. rewrite (is_at_one t id SFetch SFetch Z3). cbn. lia.
Qed.
