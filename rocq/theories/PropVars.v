(** C35, C66: which declaration a name stands for. *)
From Coq Require Import Ascii String ZArith NArith List Bool Lia.
From Verif Require Import Base Text StdMap Lexer Src Info.
Import ListNotations.
Open Scope Z_scope.

(** ---- specification ---- *)

(** A function or a scope is active at the addresses from its ATTR_begin_addr up to, not
    including, its ATTR_end_addr (docs/source-info.md, DIE_scope); other DIEs always. *)
Definition active (a : Z) (d : die) : Prop :=
  die_tag d = TScope \/ die_tag d = TFunction ->
  exists b e, at_begin d = Some b /\ at_end d = Some e /\ b <= a < e.
Definition is_variable (d : die) (n : text) : Prop := die_tag d = TVariable /\ at_name d = Some n.
(** [declares a k d n v]: [v] declares [n] [k] levels inside [d], everything around it
    being active at [a]. Inside of a variable nothing is declared. *)
Inductive declares (a : Z) : nat -> die -> text -> die -> Prop :=
| declares_here : forall v n, is_variable v n -> declares a 0 v n v
| declares_inside : forall k d x n v, (forall m, ~ is_variable d m) -> active a d -> In x (die_children d) ->
    declares a k x n v -> declares a (S k) d n v.
(** The variables come before the scopes and functions they are visible in, and of these
    at most one is active: a child that declares something further inside is the last to
    declare anything. *)
Inductive orderly (a : Z) : die -> Prop :=
| orderly_die : forall d, (forall x, In x (die_children d) -> orderly a x) ->
    (forall l1 x l2, die_children d = l1 ++ x :: l2 -> (exists k n v, declares a (S k) x n v) ->
       forall y k n v, In y l2 -> ~ declares a k y n v) -> orderly a d.

(** ---- proofs ---- *)

Lemma teqb_eq : forall a b, teqb a b = true <-> a = b.
Proof.
  induction a as [|x a IH]; destruct b as [|y b]; cbn [teqb]; split; try congruence; try discriminate.
  - intros H. apply andb_true_iff in H. destruct H as [H1 H2]. apply Ascii.eqb_eq in H1. apply IH in H2. congruence.
  - intros H. injection H as -> ->. apply andb_true_iff. split; [apply Ascii.eqb_refl|now apply IH].
Qed.
Lemma teqb_refl : forall a, teqb a a = true.
Proof. intros. now apply teqb_eq. Qed.

Section Induction.
Variable P : die -> Prop.
Hypothesis step : forall t at_ ch, Forall P ch -> P (Die t at_ ch).
Fixpoint die_ind' (d : die) : P d :=
  match d with
  | Die t at_ ch => step t at_ ch ((fix all l : Forall P l := match l with [] => Forall_nil _ | x :: l' => Forall_cons _ (die_ind' x) (all l') end) ch)
  end.
End Induction.

Definition puts (l : list (text * die)) (m : list (text * die)) : list (text * die) := fold_left (fun m x => tput m (fst x) (snd x)) l m.
Fixpoint visit (a : Z) (d : die) : list (text * die) :=
  match d with
  | Die t at_ ch =>
      match t, at_name d with
      | TVariable, Some n => [(n, d)]
      | _, _ => if pruned d a then [] else (fix all l := match l with [] => [] | x :: l' => visit a x ++ all l' end) ch
      end
  end.
Definition visits (a : Z) (l : list die) : list (text * die) := concat (map (visit a) l).
Definition named_variable (d : die) : option text := match die_tag d with TVariable => at_name d | _ => None end.
Lemma named_variable_spec : forall d n, named_variable d = Some n <-> is_variable d n.
Proof. intros [t at_ ch] n. unfold named_variable, is_variable. cbn [die_tag]. destruct t; split; try (intros [? ?]; congruence); try congruence; auto. Qed.
Lemma visit_eq : forall a d, visit a d = match named_variable d with Some n => [(n, d)] | None => if pruned d a then [] else visits a (die_children d) end.
Proof.
  intros a [t at_ ch]. cbn [visit die_children]. unfold named_variable. cbn [die_tag].
  assert (E : (fix all l := match l with [] => [] | x :: l' => visit a x ++ all l' end) ch = visits a ch).
  { unfold visits. induction ch as [|x l IH]; [reflexivity|]. cbn [map concat]. now rewrite IH. }
  rewrite E. destruct t; reflexivity.
Qed.
Definition find_all (a : Z) (l : list die) (m : list (text * die)) : list (text * die) := fold_left (fun m x => find_variables a x m) l m.
Lemma find_eq : forall a d m, find_variables a d m = match named_variable d with Some n => tput m n d | None => if pruned d a then m else find_all a (die_children d) m end.
Proof.
  intros a [t at_ ch] m. cbn [find_variables die_children]. unfold named_variable. cbn [die_tag].
  assert (E : forall m, (fix all (l : list die) (m : list (text * die)) : list (text * die) :=
                match l with [] => m | x :: l' => all l' (find_variables a x m) end) ch m = find_all a ch m).
  { unfold find_all. induction ch as [|x l IH]; intros; [reflexivity|]. cbn [fold_left]. now rewrite IH. }
  rewrite E. destruct t; reflexivity.
Qed.
Lemma puts_app : forall l l' m, puts (l ++ l') m = puts l' (puts l m).
Proof. intros. apply fold_left_app. Qed.
Lemma find_visit : forall a d m, find_variables a d m = puts (visit a d) m.
Proof.
  intros a. induction d as [t at_ ch IH] using die_ind'. intros m. rewrite find_eq, visit_eq.
  destruct (named_variable _); [reflexivity|]. destruct (pruned _ a); [reflexivity|]. cbn [die_children].
  unfold find_all, visits. revert m. induction IH as [|x l H F IHl]; intros m; [reflexivity|]. cbn [fold_left map concat].
  now rewrite puts_app, <- H, IHl.
Qed.

(** The last pair with the key. *)
Lemma puts_get : forall l m n, match tget (puts l m) n with
  | Some v => (exists l1 l2, l = l1 ++ (n, v) :: l2 /\ forall v', ~ In (n, v') l2) \/ ((forall v', ~ In (n, v') l) /\ tget m n = Some v)
  | None => (forall v', ~ In (n, v') l) /\ tget m n = None
  end.
Proof.
  induction l as [|[k w] l IH] using rev_ind; intros m n.
  - cbn [puts fold_left]. destruct (tget m n) eqn:E; auto.
  - rewrite puts_app. cbn [puts fold_left fst snd]. fold (puts l m). destruct (teqb k n) eqn:K.
    + apply teqb_eq in K. subst k. rewrite (mget_put_same teqb tltb teqb_eq). left. exists l, []. auto.
    + assert (N : n <> k) by (intros ->; rewrite teqb_refl in K; discriminate).
      rewrite (mget_put_other teqb tltb teqb_eq) by exact N. specialize (IH m n). destruct (tget (puts l m) n) as [v|].
      * destruct IH as [(l1 & l2 & -> & H)|[H1 H2]].
        -- left. exists l1, (l2 ++ [(k, w)]). split; [now rewrite <- app_assoc|]. intros v' I. apply in_app_or in I. destruct I as [I|[I|[]]]; [now apply (H v')|congruence].
        -- right. split; [|exact H2]. intros v' I. apply in_app_or in I. destruct I as [I|[I|[]]]; [now apply (H1 v')|congruence].
      * destruct IH as [H1 H2]. split; [|exact H2]. intros v' I. apply in_app_or in I. destruct I as [I|[I|[]]]; [now apply (H1 v')|congruence].
Qed.

Lemma pruned_spec : forall d a, pruned d a = false <-> active a d.
Proof.
  intros d a. unfold pruned, active, covers. destruct (die_tag d); try (split; [intros _ [H|H]; discriminate|reflexivity]).
  all: destruct (at_begin d) as [b|]; [destruct (at_end d) as [e|]|]; cbn [negb];
    try (split; [discriminate|intros H; destruct H as (? & ? & ? & ? & ?); auto; discriminate]).
  all: split; [intros H _; exists b, e; split; [reflexivity|]; split; [reflexivity|]; destruct (Z.leb_spec b a), (Z.ltb_spec a e); cbn in H; try discriminate; lia
              |intros H; destruct H as (b' & e' & E1 & E2 & H); auto; injection E1 as <-; injection E2 as <-; apply negb_false_iff, andb_true_iff; lia].
Qed.
Lemma no_variable : forall d, named_variable d = None <-> forall m, ~ is_variable d m.
Proof.
  intros d. split.
  - intros E m H. apply named_variable_spec in H. congruence.
  - intros H. destruct (named_variable d) as [n|] eqn:E; [|reflexivity]. elim (H n). now apply named_variable_spec.
Qed.
Lemma in_visits : forall a l n v, In (n, v) (visits a l) <-> exists x, In x l /\ In (n, v) (visit a x).
Proof.
  intros. unfold visits. rewrite in_concat. split.
  - intros (y & I & J). apply in_map_iff in I. destruct I as (x & <- & I). eauto.
  - intros (x & I & J). exists (visit a x). split; [now apply in_map|exact J].
Qed.
Lemma visit_declares : forall a d n v, In (n, v) (visit a d) <-> exists k, declares a k d n v.
Proof.
  intros a. induction d as [t at_ ch IH] using die_ind'. intros n v. rewrite visit_eq. set (d := Die t at_ ch) in *.
  destruct (named_variable d) as [m|] eqn:N.
  - apply named_variable_spec in N. split.
    + intros [E|[]]. injection E as <- <-. exists 0%nat. now constructor.
    + intros (k & H). inversion H as [? ? V|? ? ? ? ? V]; subst.
      * destruct N as [_ N], V as [_ V]. rewrite N in V. injection V as ->. now left.
      * now elim (V m).
  - pose proof N as N'. rewrite no_variable in N. destruct (pruned d a) eqn:P.
    + split; [intros []|]. intros (k & H). inversion H as [? ? V|? ? ? ? ? V A]; subst; [now elim (N n)|]. apply pruned_spec in A. congruence.
    + apply pruned_spec in P. cbn [die_children]. rewrite in_visits. rewrite Forall_forall in IH. split.
      * intros (x & I & J). apply IH in J; [|exact I]. destruct J as (k & J). exists (S k). now apply declares_inside with x.
      * intros (k & H). inversion H as [? ? V|? ? x ? ? V A I J]; subst; [now elim (N n)|]. exists x. split; [exact I|]. apply IH; eauto.
Qed.

(** The declaration found is one of the name that is active at the address. *)
Theorem C35_sound : forall s a n v, variable_die s a n = Some v ->
  exists d k, so_die s = Some d /\ declares a k d n v.
Proof.
  intros s a n v H. unfold variable_die, active_variables in H. destruct (so_die s) as [d|]; [|discriminate].
  rewrite find_visit in H. pose proof (puts_get (visit a d) [] n) as G. rewrite H in G. destruct G as [(l1 & l2 & E & _)|[_ G]]; [|discriminate].
  assert (I : In (n, v) (visit a d)) by (rewrite E; apply in_elt). apply visit_declares in I. destruct I as (k & I). eauto.
Qed.
(** None is found only if there is none. *)
Theorem C35_complete : forall s a n d k v, so_die s = Some d -> declares a k d n v -> variable_die s a n <> None.
Proof.
  intros s a n d k v E H. unfold variable_die, active_variables. rewrite E, find_visit. pose proof (puts_get (visit a d) [] n) as G.
  destruct (tget _ n); [discriminate|]. destruct G as [G _]. elim (G v). apply visit_declares. eauto.
Qed.

(** In an orderly tree the last declaration is the deepest one. *)
Lemma last_deepest : forall a d, orderly a d -> forall n v l1 l2, visit a d = l1 ++ (n, v) :: l2 -> (forall v', ~ In (n, v') l2) ->
  exists k, declares a k d n v /\ forall k' v', declares a k' d n v' -> (k' <= k)%nat.
Proof.
  intros a. induction d as [t at_ ch IH] using die_ind'. intros O n v l1 l2 E L. inversion O as [? O1 O2]; subst. rewrite visit_eq in E.
  set (d := Die t at_ ch) in *. cbn [die_children] in *. destruct (named_variable d) as [m|] eqn:N.
  - apply named_variable_spec in N. destruct l1 as [|? l1]; [|destruct l1; discriminate]. cbn [app] in E. injection E as E1 E2 _. subst m v. exists 0%nat. split; [now constructor|].
    intros k' v' H. inversion H as [|? ? ? ? ? V]; subst; [lia|]. now elim (V n).
  - pose proof N as N'. rewrite no_variable in N. destruct (pruned d a) eqn:P; [destruct l1; discriminate|]. apply pruned_spec in P.
    assert (S : exists c1 x c2 m1 m2, ch = c1 ++ x :: c2 /\ visit a x = m1 ++ (n, v) :: m2 /\ (forall v', ~ In (n, v') m2) /\ (forall v', ~ In (n, v') (visits a c2))).
    { clear -E L. revert l1 E. induction ch as [|x ch IH]; intros l1 E; [destruct l1; discriminate|]. unfold visits in E. cbn [map concat] in E. fold (visits a ch) in E.
      apply app_eq_app in E. destruct E as (u & [[E1 E2]|[E1 E2]]).
      - destruct u as [|w u].
        + cbn [app] in E2. rewrite app_nil_r in E1. destruct (IH [] (eq_sym E2)) as (c1 & y & c2 & m1 & m2 & -> & ?). exists (x :: c1), y, c2, m1, m2. auto.
        + injection E2 as <- ->. exists [], x, ch, l1, u. repeat split; auto; intros v' I; apply (L v'), in_or_app; auto.
      - destruct (IH u E2) as (c1 & y & c2 & m1 & m2 & -> & ?). exists (x :: c1), y, c2, m1, m2. auto. }
    destruct S as (c1 & x & c2 & m1 & m2 & -> & V & L1 & L2). rewrite Forall_forall in IH.
    assert (X : In x (c1 ++ x :: c2)) by apply in_elt. destruct (IH x X (O1 x X) n v m1 m2 V L1) as (k & D & M). exists (S k).
    split; [now apply declares_inside with x|]. intros k' v' H. inversion H as [? ? W|? ? y ? ? W A I J]; subst; [now elim (N n)|].
    cbn [die_children] in I. apply in_app_or in I. destruct I as [I|[<-|I]].
    + destruct k0; [lia|]. apply in_split in I. destruct I as (e1 & e2 & ->). exfalso. refine (O2 e1 y (e2 ++ x :: c2) _ _ x k n v _ D).
      * unfold d. cbn [die_children]. now rewrite <- app_assoc.
      * eauto.
      * apply in_elt.
    + apply M in J. lia.
    + exfalso. apply (L2 v'). apply in_visits. exists y. split; [exact I|]. apply visit_declares. eauto.
Qed.
(** In a tree where variables come first the declaration found is the innermost one. *)
Theorem C35_innermost : forall s a n d v, so_die s = Some d -> orderly a d -> variable_die s a n = Some v ->
  exists k, declares a k d n v /\ forall k' v', declares a k' d n v' -> (k' <= k)%nat.
Proof.
  intros s a n d v E O H. unfold variable_die, active_variables in H. rewrite E, find_visit in H. pose proof (puts_get (visit a d) [] n) as G. rewrite H in G.
  destruct G as [(l1 & l2 & V & L)|[_ G]]; [|discriminate]. now apply (last_deepest a d O n v l1 l2).
Qed.
(** In any tree, a variable that is the last child hides every other one of its name,
    those in the scopes before it included. *)
Theorem C66_last_child_refuted : forall a s t at_ l v n, so_die s = Some (Die t at_ (l ++ [v])) ->
  (forall m, ~ is_variable (Die t at_ (l ++ [v])) m) -> active a (Die t at_ (l ++ [v])) -> is_variable v n ->
  variable_die s a n = Some v.
Proof.
  intros a s t at_ l v n E N A V. unfold variable_die, active_variables. rewrite E, find_visit, visit_eq.
  apply no_variable in N. rewrite N. apply pruned_spec in A. rewrite A. cbn [die_children]. unfold visits. rewrite map_app, concat_app, puts_app.
  cbn [map concat]. rewrite app_nil_r, visit_eq. apply named_variable_spec in V. rewrite V. cbn [puts fold_left fst snd]. apply (mget_put_same teqb tltb teqb_eq).
Qed.

(** ---- cases, from the text of a file ---- *)
Definition nl : string := String (ch 10) "".
Definition scope_text (inner outer : string) : text :=
  str (".text" ++ nl ++ "NOP" ++ nl ++ ".debug_info" ++ nl ++ "DIE_compilation_unit: { DIE_function: { ATTR_name: main, ATTR_begin_addr: 0, ATTR_end_addr: 9, " ++
       inner ++ outer ++ " } }" ++ nl).
Definition x_var : string := "DIE_variable: { ATTR_name: x, ATTR_type: 0, ATTR_location: `BASE_REG_OFFSET -2` }, ".
Definition x_scope : string := "DIE_scope: { ATTR_begin_addr: 2, ATTR_end_addr: 5, DIE_variable: { ATTR_name: x, ATTR_type: 0, ATTR_location: `BASE_REG_OFFSET -3` }, }, ".
Definition var_at (z : Z) : die := Die TVariable [AName (str "x"); AType 0; ALoc [LBase z]] [].
Definition inner_scope : die := Die TScope [ABegin 2; AEnd 5] [var_at (-3)].
Definition main_die (l : list die) : die := Die TUnit [] [Die TFunction [AName (str "main"); ABegin 0; AEnd 9] l].
Definition src (l : list die) : source := mkSource None None (Some (main_die l)) [].
Lemma texts_read : forall stod,
  (exists i, parse_info stod (scope_text x_var x_scope) = POk i /\ source_of i = Some (src [var_at (-2); inner_scope])) /\
  (exists i, parse_info stod (scope_text x_scope x_var) = POk i /\ source_of i = Some (src [inner_scope; var_at (-2)])).
Proof. intros stod. split; eexists; (split; [vm_compute; reflexivity|vm_compute; reflexivity]). Qed.

Lemma declares_var : forall a z k n v, declares a k (var_at z) n v -> k = 0%nat /\ v = var_at z.
Proof.
  intros a z k n v H. inversion H as [|? ? ? ? ? V]; subst; [auto|]. elim (V (str "x")). split; reflexivity.
Qed.
Lemma declares_scope : forall a k n v, declares a k inner_scope n v -> k = 1%nat /\ v = var_at (-3).
Proof.
  intros a k n v H. inversion H as [? ? V|? ? ? ? ? V A I J]; subst; [destruct V; discriminate|]. destruct I as [<-|[]]. apply declares_var in J. destruct J; subst. auto.
Qed.
Lemma orderly_var : forall a z, orderly a (var_at z).
Proof. intros. constructor; [intros ? []|]. intros l1 x l2 E. destruct l1; discriminate. Qed.
Lemma orderly_case : forall a, orderly a (main_die [var_at (-2); inner_scope]).
Proof.
  intros a. constructor.
  - intros x [<-|[]]. constructor.
    + intros x [<-|[<-|[]]]; [apply orderly_var|]. constructor; [intros x [<-|[]]; apply orderly_var|].
      intros l1 x l2 E. destruct l1 as [|? [|? ?]]; try discriminate. injection E as <- <-. intros _ y k n v [].
    + intros l1 x l2 E (k & n & v & D). cbn [die_children] in E. destruct l1 as [|? [|? [|? ?]]]; try discriminate.
      * injection E as <- _. apply declares_var in D. destruct D. discriminate.
      * injection E as _ _ <-. intros y k' n' v' [].
  - intros l1 x l2 E. destruct l1 as [|? [|? ?]]; try discriminate. injection E as <- <-. intros _ y k n v [].
Qed.
(** In the block that has its own x the inner one is meant, outside of it the outer one. *)
Example C35_case : forall a, 2 <= a < 5 ->
  orderly a (main_die [var_at (-2); inner_scope]) /\ variable_die (src [var_at (-2); inner_scope]) a (str "x") = Some (var_at (-3)) /\
  variable_die (src [var_at (-2); inner_scope]) 7 (str "x") = Some (var_at (-2)).
Proof.
  intros a A. split; [apply orderly_case|]. split; [|vm_compute; reflexivity].
  assert (D : a = 2 \/ a = 3 \/ a = 4) by lia. destruct D as [->|[->| ->]]; vm_compute; reflexivity.
Qed.
(** With the same declarations the other way round the outer one is taken in the block,
    although the inner one is declared deeper. *)
Theorem C66_order_refuted : forall stod, exists i s d, parse_info stod (scope_text x_scope x_var) = POk i /\ source_of i = Some s /\ so_die s = Some d /\
  declares 3 2 d (str "x") (var_at (-2)) /\ declares 3 3 d (str "x") (var_at (-3)) /\ variable_die s 3 (str "x") = Some (var_at (-2)).
Proof.
  intros stod. destruct (proj2 (texts_read stod)) as (i & P & S0). exists i, (src [inner_scope; var_at (-2)]), (main_die [inner_scope; var_at (-2)]).
  split; [exact P|]. split; [exact S0|]. split; [reflexivity|].
  assert (F : forall k v, declares 3 k inner_scope (str "x") v \/ declares 3 k (var_at (-2)) (str "x") v -> declares 3 (S (S k)) (main_die [inner_scope; var_at (-2)]) (str "x") v).
  { intros k v H. eapply declares_inside; [intros m [X _]; discriminate|intros [X|X]; discriminate|now left|].
    assert (A : active 3 (Die TFunction [AName (str "main"); ABegin 0; AEnd 9] [inner_scope; var_at (-2)])) by (intros _; exists 0, 9; repeat split; lia).
    destruct H as [H|H]; (eapply declares_inside; [intros m [X _]; discriminate|exact A| |exact H]); [now left|right; now left]. }
  split; [apply F; right; constructor; split; reflexivity|]. split; [|vm_compute; reflexivity].
  apply F. left. eapply declares_inside; [intros m [X _]; discriminate| |now left|constructor; split; reflexivity].
  intros _. exists 2, 5. repeat split; lia.
Qed.

Print Assumptions C35_sound.
Print Assumptions C35_complete.
Print Assumptions C35_innermost.
Print Assumptions C66_last_child_refuted.
Print Assumptions C66_order_refuted.
