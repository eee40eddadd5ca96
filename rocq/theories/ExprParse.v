(** The parser of expressions against the grammar: soundness, completeness, the fuel. *)
From Coq Require Import Ascii String ZArith NArith List Bool Lia.
From Verif Require Import Text Lexer LexProofs Expr ExprSpec.
Import ListNotations.

Open Scope nat_scope.
Section P.
Variable stod : text -> option Z.
Notation advance := (advance stod).

(** The current token with its value. *)
Definition tok_of (s : pstate) : tok :=
  match fst s with
  | KId => TId (l_id (snd s)) | KNum => TNum (l_num (snd s)) | KFloat => TFloat (l_float (snd s)) | KString => TStr (l_str (snd s)) | k => TOp k
  end.
Inductive eats : pstate -> list tok -> pstate -> Prop :=
| eats_nil : forall s, eats s [] s
| eats_cons : forall s s1 ts s2, advance s = POk s1 -> eats s1 ts s2 -> eats s (tok_of s :: ts) s2.
Lemma eats_app : forall s ts s1 ts' s2, eats s ts s1 -> eats s1 ts' s2 -> eats s (ts ++ ts') s2.
Proof. induction 1; intros; cbn [app]; [assumption|]. econstructor; eauto. Qed.
Lemma eats_one : forall s s1, advance s = POk s1 -> eats s [tok_of s] s1.
Proof. intros. econstructor; [eassumption|constructor]. Qed.
Lemma eats_app_inv : forall ts s ts' s2, eats s (ts ++ ts') s2 -> exists s1, eats s ts s1 /\ eats s1 ts' s2.
Proof.
  induction ts as [|t ts IH]; intros s ts' s2 H; cbn [app] in H; [exists s; split; [constructor|exact H]|].
  inversion H as [|? s0 ? ? A E]; subst. apply IH in E. destruct E as (s1 & E1 & E2). exists s1. split; [econstructor; eassumption|exact E2].
Qed.
Lemma eats_cons_inv : forall s t ts s2, eats s (t :: ts) s2 -> tok_of s = t /\ exists s1, advance s = POk s1 /\ eats s1 ts s2.
Proof. intros s t ts s2 H. inversion H; subst. eauto. Qed.
Lemma eats_det : forall s ts s1, eats s ts s1 -> forall s2, eats s ts s2 -> s1 = s2.
Proof.
  induction 1 as [|s s1 ts s2 A E IH]; intros s3 H; [now inversion H|]. apply eats_cons_inv in H. destruct H as (_ & s4 & A' & E'). rewrite A in A'. injection A' as <-. auto.
Qed.
Lemma tok_kind : forall s k, tok_of s = TOp k -> fst s = k.
Proof. intros [k0 l] k. unfold tok_of. cbn [fst]. destruct k0; intros H; congruence. Qed.
(** Where an expression of a level ends: no operator of that level or a deeper one
    follows, and no suffix. *)
Definition suffix (k : kind) : bool := match k with KLbracket | KDot | KArrow => true | _ => false end.
Definition ends (l : nat) (k : kind) : Prop := suffix k = false /\ forall m, l <= m <= 7 -> ops_of m k = None.
Lemma ends_up : forall l k, ends (S l) k -> ops_of l k = None -> ends l k.
Proof. intros l k [A B] C. split; [exact A|]. intros m M. destruct (Nat.eq_dec m l) as [->|]; [exact C|]. apply B. lia. Qed.
Lemma ends_down : forall l k, ends l k -> ends (S l) k.
Proof. intros l k [A B]. split; [exact A|]. intros m M. apply B. lia. Qed.

Lemma ops_operator : forall l k op, ops_of l k = Some op -> operator false l k op.
Proof. intros l k op H. do 8 (destruct l as [|l]; [destruct k; try discriminate H; injection H as <-; constructor|]). discriminate H. Qed.
Lemma operator_ops : forall l k op, operator false l k op -> ops_of l k = Some op.
Proof. intros l k op H. destruct H; try discriminate; reflexivity. Qed.
Lemma unop_prefix : forall k op, unop_of k = Some op <-> prefix k op.
Proof. intros k op. split; [destruct k; intros H; try discriminate H; injection H as <-; constructor|intros []; reflexivity]. Qed.
Lemma ops_tok : forall l s op, ops_of l (fst s) = Some op -> tok_of s = TOp (fst s).
Proof. intros l [k x] op H. cbn [fst] in H. unfold tok_of. cbn [fst]. do 8 (destruct l as [|l]; [destruct k; try discriminate H; reflexivity|]). discriminate H. Qed.
Lemma unop_tok : forall s op, unop_of (fst s) = Some op -> tok_of s = TOp (fst s).
Proof. intros [k x] op H. cbn [fst] in H. unfold tok_of. cbn [fst]. destruct k; try discriminate H; reflexivity. Qed.

(** ---- soundness ---- *)

(** [p] reads expressions of level [l] and stops where these end. *)
Definition sound (l : nat) (p : pstate -> pres (expr * pstate)) : Prop :=
  forall s e s', p s = POk (e, s') -> exists ts, eats s ts s' /\ derives false l ts e /\ ends l (fst s').

Lemma op_loop_sound : forall l p, (l <= 7)%nat -> sound (S l) p -> forall n e s ts0 e' s', op_loop stod (ops_of l) p n e s = POk (e', s') ->
  derives false l ts0 e -> ends (S l) (fst s) -> exists ts, eats s ts s' /\ derives false l (ts0 ++ ts) e' /\ ends l (fst s').
Proof.
  intros l p L P. induction n as [|n IH]; intros e s ts0 e' s' H D E; cbn [op_loop] in H; destruct (ops_of l (fst s)) as [op|] eqn:O.
  - discriminate.
  - injection H as <- <-. exists []. rewrite app_nil_r. split; [constructor|]. split; [exact D|now apply ends_up].
  - destruct (advance s) as [s1|] eqn:A; [|discriminate]. cbn [pbind] in H. destruct (p s1) as [[b s2]|] eqn:Q; [|discriminate]. cbn [pbind] in H.
    destruct (P _ _ _ Q) as (ts1 & E1 & D1 & N1). destruct (IH _ _ (ts0 ++ TOp (fst s) :: ts1) _ _ H) as (ts2 & E2 & D2 & N2); [|exact N1|].
    + apply d_bin; [now apply ops_operator|exact D|exact D1].
    + exists (TOp (fst s) :: ts1 ++ ts2). split; [|split; [|exact N2]].
      * rewrite <- (ops_tok _ _ _ O). econstructor; [exact A|]. eapply eats_app; eassumption.
      * now rewrite <- app_assoc in D2.
  - injection H as <- <-. exists []. rewrite app_nil_r. split; [constructor|]. split; [exact D|now apply ends_up].
Qed.
Lemma left_assoc_sound : forall l n p, (l <= 7)%nat -> sound (S l) p -> sound l (left_assoc stod n (ops_of l) p).
Proof.
  intros l n p L P s e s' H. unfold left_assoc in H. destruct (p s) as [[e0 s1]|] eqn:Q; [|discriminate]. cbn [pbind] in H.
  destruct (P _ _ _ Q) as (ts0 & E0 & D0 & N0). destruct (op_loop_sound l p L P n e0 s1 ts0 e s' H) as (ts & E & D & N); [apply d_up; [lia|exact D0]|exact N0|].
  exists (ts0 ++ ts). split; [eapply eats_app; eassumption|]. auto.
Qed.
Lemma primary_sound : forall f, sound 0 f -> forall s e s', primary stod f s = POk (e, s') -> exists ts, eats s ts s' /\ derives false 10 ts e.
Proof.
  intros f F s e s' H. unfold primary in H. destruct s as [k x]. cbn [fst] in H. destruct k; try discriminate; destruct (advance _) as [s1|] eqn:A; try discriminate; cbn [pbind] in H.
  - injection H as <- <-. eexists. split; [apply eats_one; exact A|]. apply d_id.
  - injection H as <- <-. eexists. split; [apply eats_one; exact A|]. apply d_num.
  - destruct (f s1) as [[e1 s2]|] eqn:Q; [|discriminate]. cbn [pbind] in H. destruct (F _ _ _ Q) as (ts & E & D & _).
    destruct (fst s2) eqn:K; try discriminate. destruct (advance s2) as [s3|] eqn:A2; [|discriminate]. injection H as <- <-.
    exists (TOp KLparen :: ts ++ [TOp KRparen]). split; [|now apply d_paren]. change (TOp KLparen) with (tok_of (KLparen, x)). econstructor; [exact A|].
    eapply eats_app; [exact E|]. replace (TOp KRparen) with (tok_of s2) by (unfold tok_of; now rewrite K). now apply eats_one.
  - destruct (fst s1) eqn:K; try discriminate. destruct (advance s1) as [s2|] eqn:A2; [|discriminate]. injection H as <- <-.
    exists [TOp KDollar; TNum (l_num (snd s1))]. split; [|apply d_value]. change (TOp KDollar) with (tok_of (KDollar, x)). econstructor; [exact A|].
    replace (TNum (l_num (snd s1))) with (tok_of s1) by (unfold tok_of; now rewrite K). now apply eats_one.
  - injection H as <- <-. eexists. split; [apply eats_one; exact A|]. apply d_float.
Qed.
Lemma post_loop_sound : forall f, sound 0 f -> forall n e s ts0 e' s', post_loop stod n f e s = POk (e', s') -> derives false 9 ts0 e ->
  exists ts, eats s ts s' /\ derives false 9 (ts0 ++ ts) e' /\ suffix (fst s') = false.
Proof.
  intros f F n. assert (Stop : forall e s ts0 e' s', suffix (fst s) = false -> POk (e, s) = POk (e', s') -> derives false 9 ts0 e ->
    exists ts, eats s ts s' /\ derives false 9 (ts0 ++ ts) e' /\ suffix (fst s') = false).
  { intros e s ts0 e' s' X H D. injection H as <- <-. exists []. rewrite app_nil_r. split; [constructor|auto]. }
  induction n as [|n IH]; intros e s ts0 e' s' H D; cbn [post_loop] in H; destruct (suffix (fst s)) eqn:X.
  - destruct (fst s); discriminate.
  - apply (Stop e s ts0 e' s' X); [|exact D]. destruct (fst s); try discriminate X; exact H.
  - assert (Mem : forall s1 m, advance s = POk s1 -> fst s1 = KId -> m = l_id (snd s1) -> forall s2 k, tok_of s = TOp k -> advance s1 = POk s2 ->
      forall e0, derives false 9 (ts0 ++ [TOp k; TId m]) e0 -> post_loop stod n f e0 s2 = POk (e', s') ->
      exists ts, eats s ts s' /\ derives false 9 (ts0 ++ ts) e' /\ suffix (fst s') = false).
    { intros s1 m A K M s2 k T A2 e0 D0 P. destruct (IH _ _ _ _ _ P D0) as (ts & E & D1 & S1). exists (TOp k :: TId m :: ts). split; [|split; [|exact S1]].
      - rewrite <- T. econstructor; [exact A|]. replace (TId m) with (tok_of s1) by (unfold tok_of; rewrite K; congruence). econstructor; [exact A2|exact E].
      - now rewrite <- app_assoc in D1. }
    destruct (fst s) eqn:K; try discriminate X.
    + destruct (advance s) as [s1|] eqn:A; [|discriminate]. cbn [pbind] in H. destruct (fst s1) eqn:K1; try discriminate.
      destruct (advance s1) as [s2|] eqn:A2; [|discriminate]. cbn [pbind] in H. refine (Mem s1 _ eq_refl K1 eq_refl s2 KDot _ A2 _ _ H); [unfold tok_of; now rewrite K|now apply d_dot].
    + destruct (advance s) as [s1|] eqn:A; [|discriminate]. cbn [pbind] in H. destruct (f s1) as [[i s2]|] eqn:Q; [|discriminate]. cbn [pbind] in H.
      destruct (fst s2) eqn:K2; try discriminate. destruct (advance s2) as [s3|] eqn:A2; [|discriminate]. cbn [pbind] in H. destruct (F _ _ _ Q) as (ts1 & E1 & D1 & _).
      destruct (IH _ _ (ts0 ++ TOp KLbracket :: ts1 ++ [TOp KRbracket]) _ _ H) as (ts & E & D2 & S1); [now apply d_index|].
      exists (TOp KLbracket :: (ts1 ++ [TOp KRbracket]) ++ ts). split; [|split; [|exact S1]].
      * replace (TOp KLbracket) with (tok_of s) by (unfold tok_of; now rewrite K). econstructor; [exact A|]. eapply eats_app; [|exact E]. eapply eats_app; [exact E1|].
        replace (TOp KRbracket) with (tok_of s2) by (unfold tok_of; now rewrite K2). now apply eats_one.
      * rewrite <- app_assoc in D2. exact D2.
    + destruct (advance s) as [s1|] eqn:A; [|discriminate]. cbn [pbind] in H. destruct (fst s1) eqn:K1; try discriminate.
      destruct (advance s1) as [s2|] eqn:A2; [|discriminate]. cbn [pbind] in H. refine (Mem s1 _ eq_refl K1 eq_refl s2 KArrow _ A2 _ _ H); [unfold tok_of; now rewrite K|now apply d_arrow].
  - apply (Stop e s ts0 e' s' X); [|exact D]. destruct (fst s); try discriminate X; exact H.
Qed.
Lemma postfix_sound : forall n f, sound 0 f -> forall s e s', postfix stod n f s = POk (e, s') -> exists ts, eats s ts s' /\ derives false 9 ts e /\ suffix (fst s') = false.
Proof.
  intros n f F s e s' H. unfold postfix in H. destruct (primary stod f s) as [[e0 s1]|] eqn:Q; [|discriminate]. cbn [pbind] in H.
  destruct (primary_sound f F _ _ _ Q) as (ts0 & E0 & D0). destruct (post_loop_sound f F n e0 s1 ts0 e s' H) as (ts & E & D & S1); [apply d_up; [lia|exact D0]|].
  exists (ts0 ++ ts). split; [eapply eats_app; eassumption|auto].
Qed.
Lemma unary_sound : forall n f, sound 0 f -> sound 8 (unary stod n f).
Proof.
  intros n f F. unfold unary. generalize n at 1. intros k. induction k as [|k IH]; intros s e s' H; cbn [unary_] in H; destruct (unop_of (fst s)) as [op|] eqn:O.
  - discriminate.
  - destruct (postfix_sound n f F s e s' H) as (ts & E & D & X). exists ts. split; [exact E|]. split; [apply d_up; [lia|exact D]|]. split; [exact X|lia].
  - destruct (advance s) as [s1|] eqn:A; [|discriminate]. cbn [pbind] in H. destruct (unary_ stod k (postfix stod n f) s1) as [[e1 s2]|] eqn:Q; [|discriminate].
    injection H as <- <-. destruct (IH _ _ _ Q) as (ts & E & D & X). exists (TOp (fst s) :: ts). split; [|split; [|exact X]].
    + rewrite <- (unop_tok _ _ O). econstructor; eassumption.
    + apply d_un; [now apply unop_prefix|exact D].
  - destruct (postfix_sound n f F s e s' H) as (ts & E & D & X). exists ts. split; [exact E|]. split; [apply d_up; [lia|exact D]|]. split; [exact X|lia].
Qed.
Lemma level_sound : forall n f, sound 0 f -> forall j, (j <= 8)%nat -> sound (8 - j) (level stod n f j).
Proof.
  intros n f F. induction j as [|j IH]; intros J; cbn [level]; [now apply unary_sound|].
  replace (8 - S j)%nat with (7 - j)%nat by lia. apply left_assoc_sound; [lia|]. replace (S (7 - j)) with (8 - j)%nat by lia. apply IH. lia.
Qed.
Lemma expr_sound : forall n d, sound 0 (expr_ stod n d).
Proof.
  intros n. induction d as [|d IH]; intros s e s' H; [discriminate|]. cbn [expr_] in H. exact (level_sound n _ IH 8 (le_n 8) s e s' H).
Qed.

(** ---- completeness ---- *)

(** The results when the tokens of an expression come first. The loops have used up at
    most as many rounds as there are tokens. *)
Definition complete (n : nat) (l : nat) (p : pstate -> pres (expr * pstate)) (m : nat) : Prop :=
  forall ts e s s', derives false l ts e -> (length ts <= m)%nat -> eats s ts s' -> ends l (fst s') -> p s = POk (e, s').

Lemma derives_nonempty : forall le l ts e, derives le l ts e -> ts <> [].
Proof. intros le l ts e D. induction D; try discriminate; auto; intros X; apply app_eq_nil in X; destruct X; discriminate. Qed.

(** [level_of n f l]: the function of the parser for a level up to 8. *)
Definition level_of (n : nat) (f : pstate -> pres (expr * pstate)) (l : nat) : pstate -> pres (expr * pstate) := level stod n f (8 - l).
Lemma level_of_bin : forall n f l, (l <= 7)%nat -> level_of n f l = left_assoc stod n (ops_of l) (level_of n f (S l)).
Proof. intros n f l L. unfold level_of. replace (8 - l)%nat with (S (7 - l)) by lia. cbn [level]. replace (7 - (7 - l))%nat with l by lia. now replace (8 - S l)%nat with (7 - l)%nat by lia. Qed.

Lemma op_loop_stop : forall ops p n e s, ops (fst s) = None -> op_loop stod ops p n e s = POk (e, s).
Proof. intros ops p n e s H. destruct n; cbn [op_loop]; now rewrite H. Qed.
Lemma post_loop_stop : forall f n e s, suffix (fst s) = false -> post_loop stod n f e s = POk (e, s).
Proof. intros f n e s H. destruct n; cbn [post_loop]; destruct (fst s); try discriminate H; reflexivity. Qed.

Section Complete.
Variable n : nat.
Variable f : pstate -> pres (expr * pstate).

(** What the parser does with an expression of a level, what follows being open: at the
    binary levels it is in the loop, and so it is behind a primary. *)
Definition does (l : nat) (ts : list tok) (e : expr) (s s' : pstate) : Prop :=
  if (l <=? 7)%nat then ends (S l) (fst s') -> exists k, (k <= length ts)%nat /\ level_of n f l s = op_loop stod (ops_of l) (level_of n f (S l)) (n - k) e s'
  else if (l =? 8)%nat then suffix (fst s') = false -> forall k, (length ts <= k)%nat -> unary_ stod k (postfix stod n f) s = POk (e, s')
  else if (l =? 9)%nat then exists k, (k <= length ts)%nat /\ postfix stod n f s = post_loop stod (n - k) f e s'
  else primary stod f s = POk (e, s').

Lemma does_all : forall l ts e, derives false l ts e -> complete n 0 f (length ts - 1) -> (l <= 10)%nat -> (length ts <= n)%nat -> forall s s', eats s ts s' -> does l ts e s s'.
Proof.
  intros l ts e D. induction D as [l ts e Hl D IH|l k op ts1 e1 ts2 e2 O D1 IH1 D2 IH2|k op ts e P D IH|ts e ts' i D IH D' IH'|ts e m D IH|ts e m D IH|z|z|z|ts e D IH|z];
    intros F L T s s' E.
  - specialize (IH F ltac:(lia) T s s' E). unfold does in *. destruct (Nat.leb_spec l 7).
    + intros X. exists 0%nat. split; [lia|]. rewrite level_of_bin by lia. unfold left_assoc. rewrite Nat.sub_0_r.
      destruct (Nat.leb_spec (S l) 7).
      * destruct (IH (ends_down _ _ X)) as (k & _ & Q). rewrite Q. rewrite op_loop_stop by (apply X; lia). reflexivity.
      * assert (l = 7)%nat by lia. subst l. cbn [Nat.eqb] in IH. change (level_of n f 8) with (unary stod n f). unfold unary at 1. rewrite IH; [reflexivity|apply X|exact T].
    + destruct (Nat.eqb_spec l 8) as [->|].
      * cbn [Nat.leb Nat.eqb] in IH. intros X k K. destruct IH as (j & _ & Q). rewrite post_loop_stop in Q by exact X.
        assert (U : unop_of (fst s) = None). { unfold postfix in Q. destruct (unop_of (fst s)) eqn:U; [|reflexivity]. unfold primary in Q. destruct (fst s); try discriminate U; discriminate Q. }
        destruct k; cbn [unary_]; rewrite U; exact Q.
      * assert (l = 9)%nat by lia. subst l. cbn [Nat.leb Nat.eqb] in *. exists 0%nat. split; [lia|]. unfold postfix. rewrite IH. cbn [pbind]. now rewrite Nat.sub_0_r.
  - rewrite app_length in T, F. cbn [length] in T, F. assert (L7 : (l <= 7)%nat) by (destruct O; lia).
    apply eats_app_inv in E. destruct E as (s1 & E1 & E2). apply eats_cons_inv in E2. destruct E2 as (T1 & s2 & A & E2). pose proof (tok_kind _ _ T1) as K1.
    assert (F1 : complete n 0 f (length ts1 - 1)) by (intros ? ? ? ? ? ?; apply F; [assumption|lia]). assert (F2 : complete n 0 f (length ts2 - 1)) by (intros ? ? ? ? ? ?; apply F; [assumption|lia]).
    specialize (IH1 F1 L ltac:(lia) _ _ E1). specialize (IH2 F2 ltac:(lia) ltac:(lia) _ _ E2). unfold does in *. destruct (Nat.leb_spec l 7); [|lia]. intros X.
    assert (Y : ends (S l) (fst s1)). { rewrite K1. clear -O. split; [destruct O; reflexivity|]. intros m M. destruct O; try discriminate; do 8 (destruct m as [|m]; [try lia; reflexivity|]); reflexivity. }
    destruct (IH1 Y) as (k1 & Lk & Q1). rewrite Q1. exists (S k1). split; [rewrite app_length; cbn [length]; lia|]. destruct (n - k1)%nat as [|r] eqn:R; [lia|]. cbn [op_loop].
    rewrite K1, (operator_ops _ _ _ O), A. cbn [pbind]. replace (n - S k1)%nat with r by lia. destruct (Nat.leb_spec (S l) 7).
    + destruct (IH2 (ends_down _ _ X)) as (k2 & _ & Q2). rewrite Q2, op_loop_stop by (apply X; lia). reflexivity.
    + assert (l = 7)%nat by lia. subst l. cbn [Nat.eqb] in IH2. change (level_of n f 8) with (unary stod n f). unfold unary at 1. rewrite IH2; [reflexivity|apply X|lia].
  - cbn [length] in *. apply eats_cons_inv in E. destruct E as (T1 & s1 & A & E). pose proof (tok_kind _ _ T1) as K1. unfold does in *. cbn [Nat.leb Nat.eqb] in *. intros X j J.
    assert (F1 : complete n 0 f (length ts - 1)) by (intros ? ? ? ? ? ?; apply F; [assumption|lia]).
    destruct j as [|j]; [cbn [length] in J; lia|]. cbn [length] in J. cbn [unary_]. apply unop_prefix in P. rewrite K1, P, A. cbn [pbind]. rewrite (IH F1 ltac:(lia) ltac:(lia) _ _ E X j ltac:(lia)). reflexivity.
  - rewrite app_length in T, F. cbn [length] in T, F. rewrite app_length in T, F. cbn [length] in T, F. apply eats_app_inv in E. destruct E as (s1 & E1 & E2).
    apply eats_cons_inv in E2. destruct E2 as (T1 & s2 & A & E2). pose proof (tok_kind _ _ T1) as K1. apply eats_app_inv in E2. destruct E2 as (s3 & E2 & E3).
    apply eats_cons_inv in E3. destruct E3 as (T2 & s4 & A2 & E3). inversion E3; subst. pose proof (tok_kind _ _ T2) as K2.
    assert (F1 : complete n 0 f (length ts - 1)) by (intros ? ? ? ? ? ?; apply F; [assumption|lia]). specialize (IH F1 ltac:(lia) ltac:(lia) _ _ E1).
    unfold does in *. cbn [Nat.leb Nat.eqb] in *. destruct IH as (k & Lk & Q). exists (S k). split; [rewrite app_length; cbn [length]; lia|]. rewrite Q.
    destruct (n - k)%nat as [|r] eqn:R; [lia|]. cbn [post_loop]. rewrite K1, A. cbn [pbind]. rewrite (F ts' i s2 s3 D' ltac:(lia) E2).
    + cbn [pbind]. rewrite K2, A2. cbn [pbind]. now replace (n - S k)%nat with r by lia.
    + rewrite K2. split; [reflexivity|]. intros m M. do 8 (destruct m as [|m]; [reflexivity|]). reflexivity.
  - rewrite app_length in T, F. cbn [length] in T, F. apply eats_app_inv in E. destruct E as (s1 & E1 & E2).
    apply eats_cons_inv in E2. destruct E2 as (T1 & s2 & A & E2). pose proof (tok_kind _ _ T1) as K1. apply eats_cons_inv in E2. destruct E2 as (T2 & s3 & A2 & E3). inversion E3; subst.
    assert (F1 : complete n 0 f (length ts - 1)) by (intros ? ? ? ? ? ?; apply F; [assumption|lia]). specialize (IH F1 ltac:(lia) ltac:(lia) _ _ E1).
    unfold does in *. cbn [Nat.leb Nat.eqb] in *. destruct IH as (k & Lk & Q). exists (S k). split; [rewrite app_length; cbn [length]; lia|]. rewrite Q.
    destruct (n - k)%nat as [|r] eqn:R; [lia|]. cbn [post_loop]. rewrite K1, A. cbn [pbind].
    assert (K2 : fst s2 = KId /\ l_id (snd s2) = m) by (unfold tok_of in T2; destruct (fst s2); try discriminate T2; injection T2 as <-; auto). destruct K2 as [K2 M].
    rewrite K2, A2, M. cbn [pbind]. now replace (n - S k)%nat with r by lia.
  - rewrite app_length in T, F. cbn [length] in T, F. apply eats_app_inv in E. destruct E as (s1 & E1 & E2).
    apply eats_cons_inv in E2. destruct E2 as (T1 & s2 & A & E2). pose proof (tok_kind _ _ T1) as K1. apply eats_cons_inv in E2. destruct E2 as (T2 & s3 & A2 & E3). inversion E3; subst.
    assert (F1 : complete n 0 f (length ts - 1)) by (intros ? ? ? ? ? ?; apply F; [assumption|lia]). specialize (IH F1 ltac:(lia) ltac:(lia) _ _ E1).
    unfold does in *. cbn [Nat.leb Nat.eqb] in *. destruct IH as (k & Lk & Q). exists (S k). split; [rewrite app_length; cbn [length]; lia|]. rewrite Q.
    destruct (n - k)%nat as [|r] eqn:R; [lia|]. cbn [post_loop]. rewrite K1, A. cbn [pbind].
    assert (K2 : fst s2 = KId /\ l_id (snd s2) = m) by (unfold tok_of in T2; destruct (fst s2); try discriminate T2; injection T2 as <-; auto). destruct K2 as [K2 M].
    rewrite K2, A2, M. cbn [pbind]. now replace (n - S k)%nat with r by lia.
  - apply eats_cons_inv in E. destruct E as (T1 & s1 & A & E). inversion E; subst. unfold does. cbn [Nat.leb Nat.eqb]. unfold primary.
    unfold tok_of in T1. destruct (fst s) eqn:K; try discriminate T1. injection T1 as <-. now rewrite A.
  - apply eats_cons_inv in E. destruct E as (T1 & s1 & A & E). inversion E; subst. unfold does. cbn [Nat.leb Nat.eqb]. unfold primary.
    unfold tok_of in T1. destruct (fst s) eqn:K; try discriminate T1. injection T1 as <-. now rewrite A.
  - apply eats_cons_inv in E. destruct E as (T1 & s1 & A & E). inversion E; subst. unfold does. cbn [Nat.leb Nat.eqb]. unfold primary.
    unfold tok_of in T1. destruct (fst s) eqn:K; try discriminate T1. injection T1 as <-. now rewrite A.
  - cbn [length] in T, F. rewrite app_length in T, F. cbn [length] in T, F. apply eats_cons_inv in E. destruct E as (T1 & s1 & A & E). pose proof (tok_kind _ _ T1) as K1.
    apply eats_app_inv in E. destruct E as (s2 & E & E2). apply eats_cons_inv in E2. destruct E2 as (T2 & s3 & A2 & E3). inversion E3; subst. pose proof (tok_kind _ _ T2) as K2.
    unfold does. cbn [Nat.leb Nat.eqb]. unfold primary. rewrite K1, A. cbn [pbind]. rewrite (F ts e s1 s2 D ltac:(lia) E).
    + cbn [pbind]. now rewrite K2, A2.
    + rewrite K2. split; [reflexivity|]. intros m M. do 8 (destruct m as [|m]; [reflexivity|]). reflexivity.
  - apply eats_cons_inv in E. destruct E as (T1 & s1 & A & E). pose proof (tok_kind _ _ T1) as K1. apply eats_cons_inv in E. destruct E as (T2 & s2 & A2 & E). inversion E; subst.
    unfold does. cbn [Nat.leb Nat.eqb]. unfold primary. rewrite K1, A. cbn [pbind]. unfold tok_of in T2. destruct (fst s1) eqn:K; try discriminate T2. injection T2 as <-. now rewrite A2.
Qed.
End Complete.

Lemma expr_complete : forall n d m, (m <= n)%nat -> (m <= d)%nat -> complete n 0 (expr_ stod n d) m.
Proof.
  intros n. induction d as [|d IH]; intros m M1 M2 ts e s s' D L E X.
  - apply derives_nonempty in D. destruct ts; [now elim D|cbn in L; lia].
  - cbn [expr_]. pose proof (derives_nonempty _ _ _ _ D) as NE. assert (F : complete n 0 (expr_ stod n d) (length ts - 1)) by (apply IH; lia).
    pose proof (does_all n (expr_ stod n d) 0 ts e D F ltac:(lia) ltac:(lia) s s' E) as Q. unfold does in Q. cbn [Nat.leb] in Q.
    destruct (Q (ends_down _ _ X)) as (k & _ & R). unfold level_of in R. cbn [Nat.sub] in R. rewrite R. apply op_loop_stop. apply X. lia.
Qed.

End P.
