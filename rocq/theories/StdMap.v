(** std::map as an association list in the order of its keys, which is the order of
    iteration. *)
From Coq Require Import Ascii String ZArith NArith List Bool Lia.
From Verif Require Import Text.
Import ListNotations.
Open Scope Z_scope.

Section Map.
Context {K V : Type} (eqb ltb : K -> K -> bool).

(** find, at, count, contains *)
Fixpoint mget (m : list (K * V)) (k : K) : option V :=
  match m with [] => None | (k', v) :: m' => if eqb k k' then Some v else mget m' k end.

(** operator[] with assignment, emplace of a new key *)
Fixpoint mput (m : list (K * V)) (k : K) (v : V) : list (K * V) :=
  match m with
  | [] => [(k, v)]
  | (k', v') :: m' =>
      if eqb k k' then (k, v) :: m' else if ltb k k' then (k, v) :: m else (k', v') :: mput m' k v
  end.

(** erase *)
Definition merase (m : list (K * V)) (k : K) : list (K * V) := filter (fun x => negb (eqb k (fst x))) m.

Hypothesis eqb_eq : forall a b, eqb a b = true <-> a = b.

Lemma eqb_same : forall a, eqb a a = true.
Proof. intros a. now apply eqb_eq. Qed.
Lemma eqb_neq : forall a b, a <> b -> eqb a b = false.
Proof. intros a b H. destruct (eqb a b) eqn:E; [|reflexivity]. now apply eqb_eq in E. Qed.

Lemma mget_put_same : forall m k v, mget (mput m k v) k = Some v.
Proof.
  induction m as [|[k' v'] m IH]; intros k v; cbn [mput mget]; [now rewrite eqb_same|].
  destruct (eqb k k') eqn:E; [cbn [mget]; now rewrite eqb_same|].
  destruct (ltb k k'); cbn [mget]; [now rewrite eqb_same|]. rewrite E. apply IH.
Qed.
Lemma mget_put_other : forall m k v x, x <> k -> mget (mput m k v) x = mget m x.
Proof.
  induction m as [|[k' v'] m IH]; intros k v x H; cbn [mput mget]; [now rewrite eqb_neq|].
  destruct (eqb k k') eqn:E.
  - apply eqb_eq in E. subst k'. cbn [mget]. now rewrite !(eqb_neq x k).
  - destruct (ltb k k'); cbn [mget]; [now rewrite (eqb_neq x k)|]. destruct (eqb x k'); [reflexivity|now apply IH].
Qed.
Lemma mget_erase_same : forall m k, mget (merase m k) k = None.
Proof.
  induction m as [|[k' v'] m IH]; intros k; [reflexivity|]. cbn [merase filter fst]. destruct (eqb k k') eqn:E; cbn [negb]; [apply IH|].
  cbn [mget]. rewrite E. apply IH.
Qed.
Lemma mget_erase_other : forall m k x, x <> k -> mget (merase m k) x = mget m x.
Proof.
  induction m as [|[k' v'] m IH]; intros k x H; [reflexivity|]. cbn [merase filter fst mget]. destruct (eqb k k') eqn:E; cbn [negb].
  - apply eqb_eq in E. subst k'. rewrite (eqb_neq x k H). now apply IH.
  - cbn [mget]. destruct (eqb x k'); [reflexivity|now apply IH].
Qed.
Lemma mget_in : forall m k v, mget m k = Some v -> In (k, v) m.
Proof.
  induction m as [|[k' v'] m IH]; intros k v H; cbn [mget] in H; [discriminate|]. destruct (eqb k k') eqn:E; [|right; now apply IH].
  apply eqb_eq in E. injection H as ->. subst. now left.
Qed.

(** The keys are in strictly increasing order, in particular different. *)
Definition distinct (m : list (K * V)) : Prop := NoDup (map fst m).
Lemma mput_keys : forall m k v x, In x (map fst (mput m k v)) <-> x = k \/ In x (map fst m).
Proof.
  induction m as [|[k' v'] m IH]; intros k v x; cbn [mput map fst In]; [intuition congruence|].
  destruct (eqb k k') eqn:E; [apply eqb_eq in E; subst; cbn; intuition congruence|]. destruct (ltb k k'); cbn [map fst In]; [intuition congruence|].
  rewrite IH. intuition.
Qed.
Lemma mget_keys : forall m k, mget m k <> None <-> In k (map fst m).
Proof.
  induction m as [|[k' v'] m IH]; intros k; cbn [mget map fst In]; [split; [intros H; now elim H|intros []]|]. destruct (eqb k k') eqn:E.
  - apply eqb_eq in E. subst. split; [now left|discriminate].
  - rewrite IH. split; [now right|]. intros [->|H]; [now rewrite eqb_same in E|exact H].
Qed.
Lemma mget_distinct : forall m k v, distinct m -> In (k, v) m -> mget m k = Some v.
Proof.
  unfold distinct. induction m as [|[k' v'] m IH]; intros k v D H; [destruct H|]. cbn [map fst] in D. inversion D as [|? ? D1 D2]; subst. cbn [mget].
  destruct H as [H|H]; [injection H as -> ->; now rewrite eqb_same|]. destruct (eqb k k') eqn:E; [|now apply IH].
  apply eqb_eq in E. subst k'. elim D1. apply in_map_iff. now exists (k, v).
Qed.
Lemma merase_distinct : forall m k, distinct m -> distinct (merase m k).
Proof.
  unfold distinct. induction m as [|[k' v'] m IH]; intros k D; [constructor|]. cbn [map fst] in D. inversion D as [|? ? D1 D2]; subst. cbn [merase filter fst].
  destruct (negb (eqb k k')); [|now apply IH]. cbn [map fst]. constructor; [|now apply IH].
  intros H. apply D1. apply in_map_iff in H. destruct H as ([k2 v2] & H1 & H2). cbn in H1. subst. apply in_map_iff. exists (k', v2). split; [reflexivity|].
  apply filter_In in H2. apply H2.
Qed.
End Map.

(** std::less<std::string> *)
Fixpoint tltb (a b : text) : bool :=
  match a, b with
  | [], [] => false
  | [], _ => true
  | _, [] => false
  | x :: a', y :: b' => if Ascii.eqb x y then tltb a' b' else (N_of_ascii x <? N_of_ascii y)%N
  end.

Notation tget := (mget teqb).
Notation tput := (mput teqb tltb).
Notation zget := (mget Z.eqb).
Notation zput := (mput Z.eqb Z.ltb).
Notation zerase := (merase Z.eqb).
