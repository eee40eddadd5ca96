(** C37, C68: the expressions a user types. *)
From Coq Require Import Ascii String ZArith NArith List Bool Lia.
From Verif Require Import Text PropText Lexer LexProofs Expr ExprSpec ExprParse.
Import ListNotations.
Open Scope nat_scope.

(** ---- tokens of a text and states of the parser ---- *)

Section P.
Variable stod : text -> option Z.

Definition proper (t : tok) : Prop := match t with TOp (KId | KNum | KFloat | KString) => False | _ => True end.
Lemma here_proper : forall s t r, here stod s = POk (t, r) -> proper t.
Proof.
  intros s t r H. unfold here in H. destruct (lead_of (hd EOF s)) as [|k|k m| | | |] eqn:L; try discriminate.
  - injection H as <- _. exact I.
  - injection H as <- _. destruct (hd EOF s) as [[] [] [] [] [] [] [] []]; try discriminate L; injection L as <-; exact I.
  - assert (P : proper (TOp k) /\ forall c k', second c m = Some k' -> proper (TOp k')).
    { destruct (hd EOF s) as [[] [] [] [] [] [] [] []]; try discriminate L; injection L as <- <-; (split; [exact I|]); intros c k' X; cbn [second] in X;
        repeat (destruct (Ascii.eqb _ _) in X; [injection X as <-; exact I|]); discriminate X. }
    destruct P as [P1 P2]. destruct (second (hd EOF (tl s)) m) as [k'|] eqn:S2; injection H as <- _; [now apply (P2 (hd EOF (tl s)))|exact P1].
  - destruct (lex_string (tl s) []) as [[v r0]|]; [|discriminate]. injection H as <- _. exact I.
  - destruct (span _ (tl s)) as [w r0]. destruct (existsb _ w); [destruct (stod _)|destruct (stoi _)]; try discriminate; injection H as <- _; exact I.
  - destruct (span _ (tl s)) as [w r0]. injection H as <- _. exact I.
Qed.
Lemma token_proper : forall ign s t r, token_at stod ign s = POk (t, r) -> proper t.
Proof.
  intros ign s t r. unfold token_at. generalize (S (length s)). intros n. revert s. induction n as [|n IH]; intros s H; cbn [token_loop] in H; [discriminate|].
  destruct (Ascii.eqb (hd EOF s) (ch 35)); [now apply IH in H|]. destruct (is_space (hd EOF s)); [now apply IH in H|].
  destruct (lead_of (hd EOF s)) eqn:L; try (now apply here_proper in H). destruct ign; [now apply IH in H|discriminate].
Qed.
Lemma token_len : forall s t r, token_at stod false s = POk (t, r) -> length r + (if kind_eqb (kind_of t) KEnd then 0 else 1) <= length s.
Proof.
  intros s t r H. destruct (kind_eqb (kind_of t) KEnd) eqn:K.
  - unfold token_at in H. assert (G : forall n s, token_loop stod n false s = POk (t, r) -> length r <= length s); [|apply G in H; lia].
    assert (T : t = TOp KEnd) by (destruct t; cbn in K; try discriminate; destruct k; try discriminate; reflexivity). subst t. clear.
    induction n as [|n IH]; intros s H; cbn [token_loop] in H; [discriminate|]. assert (TL : length (tl s) <= length s) by (destruct s; cbn; lia).
    destruct (Ascii.eqb (hd EOF s) (ch 35)); [apply IH in H; pose proof (skip_line_length s); lia|]. destruct (is_space (hd EOF s)); [apply IH in H; lia|].
    unfold here in H. destruct (lead_of (hd EOF s)) as [|k|k m| | | |] eqn:L; try discriminate.
    + now injection H as <-.
    + injection H as -> <-. lia.
    + assert (TL2 : length (tl (tl s)) <= length (tl s)) by (destruct (tl s); cbn; lia). destruct (second _ m); injection H as _ <-; lia.
    + destruct (lex_string (tl s) []) as [[v r0]|]; discriminate.
    + destruct (span _ (tl s)) as [w r0]. destruct (existsb _ w); [destruct (stod _)|destruct (stoi _)]; discriminate.
    + destruct (span _ (tl s)); discriminate.
  - assert (T : t <> TOp KEnd) by (intros ->; discriminate). apply token_at_false in H. destruct (token_at_app stod s t r H T) as (a & -> & A & _).
    rewrite app_length. destruct a; [now elim A|]. cbn [length]. lia.
Qed.

(** The state shows [t] with [r] behind it. *)
Definition shows (s : pstate) (t : tok) (r : text) : Prop := tok_of s = t /\ l_in (snd s) = r /\ l_ignore (snd s) = false.
Lemma get_next_shows : forall l, l_ignore l = false ->
  match get_next stod l with
  | POk s => exists t r, token_at stod false (l_in l) = POk (t, r) /\ shows s t r
  | PFail e => token_at stod false (l_in l) = PFail e
  end.
Proof.
  intros l L. rewrite get_next_token, L. destruct (token_at stod false (l_in l)) as [[t r]|e] eqn:T; [|reflexivity].
  exists t, r. split; [reflexivity|]. apply token_proper in T. split; [|split; [reflexivity|exact L]].
  unfold tok_of, load. cbn [fst snd l_id l_num l_float l_str]. destruct t; try reflexivity. cbn [kind_of]. destruct k; try reflexivity; contradiction.
Qed.
Lemma eats_lexes : forall s ts s', eats stod s ts s' -> l_ignore (snd s) = false -> forall x, token_at stod false x = POk (tok_of s, l_in (snd s)) ->
  exists y, lexes stod x ts y /\ token_at stod false y = POk (tok_of s', l_in (snd s')) /\ l_ignore (snd s') = false.
Proof.
  induction 1 as [s|s s1 ts s2 A E IH]; intros G x X; [exists x; split; [constructor|auto]|].
  unfold advance in A. pose proof (get_next_shows (snd s) G) as H. rewrite A in H. destruct H as (t & r & T & S1 & S2 & S3). subst t r.
  destruct (IH S3 _ T) as (y & Y1 & Y2 & Y3). exists y. split; [econstructor; eassumption|auto].
Qed.
Lemma lexes_eats : forall x ts y, lexes stod x ts y -> forall s t r, l_ignore (snd s) = false -> token_at stod false x = POk (tok_of s, l_in (snd s)) ->
  token_at stod false y = POk (t, r) -> exists s', eats stod s ts s' /\ shows s' t r.
Proof.
  induction 1 as [x|x t0 r0 ts y T0 L IH]; intros s t r G X Y.
  - rewrite X in Y. injection Y as <- <-. exists s. split; [constructor|]. repeat split; auto.
  - rewrite X in T0. injection T0 as <- <-. pose proof (get_next_shows (snd s) G) as H.
    assert (N : exists t1 r1, token_at stod false (l_in (snd s)) = POk (t1, r1)) by (inversion L; subst; eauto). destruct N as (t1 & r1 & N).
    destruct (get_next stod (snd s)) as [s1|e] eqn:A; [|congruence]. destruct H as (t2 & r2 & T & S1 & S2 & S3). subst t2 r2.
    destruct (IH s1 t r S3 T Y) as (s' & E & S). exists s'. split; [econstructor; [exact A|exact E]|exact S].
Qed.
Lemma new_parser_shows : forall x, match new_parser stod x with
  | POk s => token_at stod false x = POk (tok_of s, l_in (snd s)) /\ l_ignore (snd s) = false
  | PFail e => token_at stod false x = PFail e end.
Proof.
  intros x. pose proof (get_next_shows (new_lexer x) eq_refl) as H. unfold new_parser. destruct (get_next stod (new_lexer x)) as [s|e]; [|exact H].
  destruct H as (t & r & T & <- & <- & G). auto.
Qed.
Lemma lexes_len : forall x ts y, lexes stod x ts y -> ~ In (TOp KEnd) ts -> length ts + length y <= length x.
Proof.
  induction 1 as [x|x t r ts y T L IH]; intros N; [cbn; lia|]. pose proof (token_len _ _ _ T) as H. cbn [length].
  assert (K : kind_eqb (kind_of t) KEnd = false).
  { destruct (kind_eqb (kind_of t) KEnd) eqn:K; [|reflexivity]. elim N. left. destruct t; cbn in K; try discriminate. destruct k; try discriminate. reflexivity. }
  rewrite K in H. assert (~ In (TOp KEnd) ts) by (intros I; apply N; now right). specialize (IH H0). lia.
Qed.
Lemma derives_no_end : forall le l ts e, derives le l ts e -> ~ In (TOp KEnd) ts.
Proof.
  assert (OP : forall le l op, ~ operator le l KEnd op) by (intros le l op H; inversion H).
  assert (PR : forall op, ~ prefix KEnd op) by (intros op H; inversion H).
  intros le l ts e D. induction D as [| ? k op ? ? ? ? O| k op ? ? P| | | | | | | |]; try assumption; rewrite ?in_app_iff; cbn [In]; rewrite ?in_app_iff; cbn [In]; intros X; intuition (try discriminate).
  all: match goal with H : TOp _ = TOp KEnd |- _ => injection H as -> end; (now apply OP in O) || (now apply PR in P).
Qed.
Lemma ends_continues : forall k, ends 0 k <-> ~ continues k.
Proof.
  intros k. split.
  - intros [A B] [(l & op & O)|[->|[->| ->]]]; try discriminate A. assert (L : l <= 7) by (destruct O; lia). apply operator_ops in O. rewrite B in O by lia. discriminate.
  - intros H. split.
    + destruct k; try reflexivity; elim H; right; auto.
    + intros m M. destruct (ops_of m k) as [op|] eqn:O; [|reflexivity]. elim H. left. exists m, op. now apply ops_operator.
Qed.
Lemma kind_tok_of : forall s, kind_of (tok_of s) = fst s.
Proof. intros [k l]. unfold tok_of. cbn [fst]. now destruct k. Qed.

(** ---- what is accepted ---- *)

(** The tree is that of the first tokens of the text, as the grammar has it; they are as
    many as possible: what follows could not go on. *)
Theorem C37_prefix : forall x e, parse stod x = POk e ->
  exists ts y t r, lexes stod x ts y /\ derives false 0 ts e /\ token_at stod false y = POk (t, r) /\ ~ continues (kind_of t).
Proof.
  intros x e H. unfold parse in H. pose proof (new_parser_shows x) as P. destruct (new_parser stod x) as [s|]; [|discriminate]. cbn [pbind] in H. destruct P as [P G].
  unfold parse_expression in H. destruct (expr_ stod (S (length x)) (S (length x)) s) as [[e0 s']|] eqn:X; [|discriminate]. injection H as ->.
  destruct (expr_sound stod _ _ _ _ _ X) as (ts & E & D & N). destruct (eats_lexes _ _ _ E G x P) as (y & Y1 & Y2 & _).
  exists ts, y, (tok_of s'), (l_in (snd s')). split; [exact Y1|]. split; [exact D|]. split; [exact Y2|]. rewrite kind_tok_of. now apply ends_continues.
Qed.
Lemma parse_prefix : forall x ts y t r e, lexes stod x ts y -> derives false 0 ts e -> token_at stod false y = POk (t, r) -> ~ continues (kind_of t) -> parse stod x = POk e.
Proof.
  intros x ts y t r e L D T C. unfold parse. pose proof (new_parser_shows x) as P. destruct (new_parser stod x) as [s|er].
  - destruct P as [P G]. cbn [pbind]. destruct (lexes_eats _ _ _ L s t r G P T) as (s' & E & S1 & _). unfold parse_expression.
    pose proof (lexes_len _ _ _ L (derives_no_end _ _ _ _ D)). rewrite (expr_complete stod (S (length x)) (S (length x)) (length ts) ltac:(lia) ltac:(lia) ts e s s' D (le_n _) E); [reflexivity|].
    apply ends_continues. rewrite <- kind_tok_of, S1. exact C.
  - inversion L; subst; congruence.
Qed.
Lemma tokens_lexes : forall x ts, tokens stod x ts -> exists y r, lexes stod x ts y /\ token_at stod false y = POk (TOp KEnd, r).
Proof. induction 1 as [x r H|x t r ts H N T IH]; [exists x, r; split; [constructor|exact H]|]. destruct IH as (y & r' & L & E). exists y, r'. split; [econstructor; eassumption|exact E]. Qed.
Lemma end_stops : ~ continues KEnd.
Proof. intros [(l & op & O)|[H|[H|H]]]; try discriminate. inversion O. Qed.
(** Every text that is an expression of the grammar without "<=" and ">=" is accepted,
    with its tree; *)
Theorem C37_whole : forall x ts e, tokens stod x ts -> derives false 0 ts e -> parse stod x = POk e.
Proof. intros x ts e T D. destruct (tokens_lexes x ts T) as (y & r & L & E). now apply (parse_prefix x ts y (TOp KEnd) r e L D E end_stops). Qed.
(** so it has one tree only. *)
Theorem C37_unambiguous : forall x ts e e', tokens stod x ts -> derives false 0 ts e -> derives false 0 ts e' -> e = e'.
Proof. intros x ts e e' T D D'. apply (C37_whole x ts e T) in D. apply (C37_whole x ts e' T) in D'. congruence. Qed.

(** ---- what follows is ignored (refuted) ---- *)

Lemma skip_cases : forall s, (exists b s', s = b ++ ch 10 :: s' /\ ~ In (ch 10) b /\ ~ In EOF b) \/
  (forall x, ~ In (ch 10) x -> skip_line (s ++ x) = [] \/ exists r, skip_line (s ++ x) = EOF :: r).
Proof.
  assert (Q : forall x, ~ In (ch 10) x -> skip_line x = [] \/ exists r, skip_line x = EOF :: r).
  { induction x as [|c x IH]; intros N; [now left|]. cbn [skip_line]. destruct (Ascii.eqb_spec c EOF) as [->|]; [right; eauto|].
    destruct (Ascii.eqb_spec c (ch 10)) as [->|]; [elim N; now left|]. apply IH. intros I. apply N. now right. }
  induction s as [|c s IH]; [right; exact Q|]. destruct (Ascii.eqb_spec c EOF) as [->|N1]; [right; intros; right; eexists; reflexivity|].
  destruct (Ascii.eqb_spec c (ch 10)) as [->|N2]; [left; exists [], s; auto|]. destruct IH as [(b & s' & -> & B1 & B2)|G].
  - left. exists (c :: b), s'. split; [reflexivity|]. split; intros [X|X]; congruence || contradiction.
  - right. intros x X. cbn [app skip_line]. destruct (Ascii.eqb_spec c EOF); [contradiction|]. destruct (Ascii.eqb_spec c (ch 10)); [contradiction|]. now apply G.
Qed.
Lemma here_end : forall s r, here stod s = POk (TOp KEnd, r) -> lead_of (hd EOF s) = LEnd.
Proof.
  intros s r H. unfold here in H. destruct (lead_of (hd EOF s)) as [|k|k m| | | |] eqn:L; try discriminate; [reflexivity| | | | |].
  - exfalso. injection H as -> _. destruct (hd EOF s) as [[] [] [] [] [] [] [] []]; discriminate L.
  - exfalso. assert (P : k <> KEnd /\ forall c, second c m <> Some KEnd).
    { destruct (hd EOF s) as [[] [] [] [] [] [] [] []]; try discriminate L; injection L as <- <-; (split; [discriminate|]); intros c X; cbn [second] in X;
        repeat (destruct (Ascii.eqb _ _) in X; [discriminate X|]); discriminate X. }
    destruct P as [P1 P2]. destruct (second (hd EOF (tl s)) m) as [k'|] eqn:S2; injection H as -> _; [now apply P2 in S2|now elim P1].
  - destruct (lex_string (tl s) []) as [[v r0]|]; discriminate.
  - destruct (span _ (tl s)) as [w r0]. destruct (existsb _ w); [destruct (stod _)|destruct (stoi _)]; discriminate.
  - destruct (span _ (tl s)); discriminate.
Qed.
Lemma token_end_append : forall s r x, token_at stod false s = POk (TOp KEnd, r) -> ~ In (ch 10) x ->
  token_at stod false (s ++ x) = token_at stod false x \/ exists r', token_at stod false (s ++ x) = POk (TOp KEnd, r').
Proof.
  intros s. remember (length s) as n eqn:Hn. assert (Hl : length s <= n) by lia. clear Hn. revert s Hl.
  induction n as [|n IH]; intros s Hl r x H N; (destruct s as [|c s]; [now left|]); cbn [length] in Hl; [lia|].
  destruct (Ascii.eqb c (ch 35)) eqn:E1; [|destruct (is_space c) eqn:E2].
  - apply Ascii.eqb_eq in E1. subst c. cbn [app]. rewrite token_at_comment in H |- *. destruct (skip_cases s) as [(b & s' & -> & B1 & B2)|G].
    + rewrite skip_comment in H by assumption. rewrite <- app_assoc. cbn [app]. rewrite skip_comment by assumption. rewrite app_length in Hl. cbn [length] in Hl. apply (IH s' ltac:(lia) r x H N).
    + right. destruct (G x N) as [Q|[r' Q]]; rewrite Q; eexists; reflexivity.
  - cbn [app]. rewrite token_at_space in H |- * by exact E2. apply (IH s ltac:(lia) r x H N).
  - destruct (lead_of c) eqn:L.
    7: { rewrite token_at_none in H by assumption. discriminate. }
    all: rewrite token_at_here in H by (cbn [hd]; rewrite L; discriminate); pose proof (here_end _ _ H) as Q; cbn [hd] in Q; rewrite L in Q; try discriminate Q.
    right. cbn [app]. rewrite token_at_here by (cbn [hd]; rewrite L; discriminate). unfold here. cbn [hd]. rewrite L. eauto.
Qed.
Lemma token_append : forall s t r c y, token_at stod false s = POk (t, r) -> t <> TOp KEnd -> is_space c = true -> token_at stod false (s ++ c :: y) = POk (t, r ++ c :: y).
Proof.
  intros s t r c y H T S. pose proof (token_at_false _ _ _ H) as H'. destruct (token_at_app stod s t r H' T) as (a & -> & _ & K).
  rewrite <- app_assoc. assert (F : follows r (r ++ c :: y)) by (destruct r as [|d r]; [left; unfold stopper; now rewrite S|right; reflexivity]).
  destruct (K _ F) as [_ Q]. rewrite Q, H. reflexivity.
Qed.
Lemma lexes_append : forall x ts y, lexes stod x ts y -> ~ In (TOp KEnd) ts -> forall c z, is_space c = true -> lexes stod (x ++ c :: z) ts (y ++ c :: z).
Proof.
  induction 1 as [x|x t r ts y T L IH]; intros N c z S; [constructor|]. econstructor.
  - apply token_append; [exact T|intros ->; apply N; now left|exact S].
  - apply IH; [intros I; apply N; now right|exact S].
Qed.
Lemma rest_ignored : forall x e z t r, parse stod x = POk e -> ~ In (ch 10) z -> token_at stod false (ch 32 :: z) = POk (t, r) -> ~ continues (kind_of t) -> parse stod (x ++ ch 32 :: z) = POk e.
Proof.
  intros x e z t r H N T C. destruct (C37_prefix x e H) as (ts & y & t0 & r0 & L & D & Y & C0).
  pose proof (lexes_append _ _ _ L (derives_no_end _ _ _ _ D) (ch 32) z eq_refl) as L'.
  destruct (kind_eqb (kind_of t0) KEnd) eqn:K.
  - assert (t0 = TOp KEnd) by (destruct t0; cbn in K; try discriminate; destruct k; try discriminate; reflexivity). subst t0.
    assert (N' : ~ In (ch 10) (ch 32 :: z)) by (intros [I|I]; [discriminate I|contradiction]).
    destruct (token_end_append y r0 _ Y N') as [Q|[r' Q]].
    + apply (parse_prefix _ ts (y ++ ch 32 :: z) t r e L' D); [rewrite Q; exact T|exact C].
    + apply (parse_prefix _ ts (y ++ ch 32 :: z) (TOp KEnd) r' e L' D Q end_stops).
  - apply (parse_prefix _ ts (y ++ ch 32 :: z) t0 (r0 ++ ch 32 :: z) e L' D); [|exact C0]. apply token_append; [exact Y|intros ->; discriminate K|reflexivity].
Qed.
(** Whatever expression is accepted, with one of these and any text of one line behind it
    is accepted as well, and has the same tree: nothing of the rest is looked at. *)
Definition ignored_words : list text := map str ["<="; ">="; ")"; "]"; "("; "{"; "}"; ","; ";"; ":"; "$"; "`"]%string.
Theorem C68_rest_ignored_refuted : forall x e w y, parse stod x = POk e -> In w ignored_words -> ~ In (ch 10) y ->
  parse stod (x ++ str " " ++ w ++ y) = POk e.
Proof.
  intros x e w y H W N. unfold ignored_words in W. cbn [map In] in W.
  assert (Q : exists k r, token_at stod false (ch 32 :: w ++ y) = POk (TOp k, r) /\ ~ continues k /\ ~ In (ch 10) w).
  { repeat (destruct W as [<-|W]; [eexists; eexists; split; [reflexivity|]; (split; [intros [(l & op & O)|[X|[X|X]]]; try discriminate; inversion O; discriminate|]); cbn; intuition discriminate|]). contradiction. }
  destruct Q as (k & r & T & C & W'). apply (rest_ignored x e (w ++ y) (TOp k) r H); [|exact T|exact C]. intros I. apply in_app_or in I. destruct I; contradiction.
Qed.
(** Another number or name behind it is not looked at either. *)
Theorem C68_second_operand_refuted : forall x e, parse stod x = POk e -> parse stod (x ++ str " 1") = POk e /\ parse stod (x ++ str " y") = POk e.
Proof.
  intros x e H. split.
  - apply (rest_ignored x e (str "1") (TNum 1) [] H); [cbn; intuition discriminate|reflexivity|]. intros [(l & op & O)|[X|[X|X]]]; try discriminate; inversion O.
  - apply (rest_ignored x e (str "y") (TId (str "y")) [] H); [cbn; intuition discriminate|reflexivity|]. intros [(l & op & O)|[X|[X|X]]]; try discriminate; inversion O.
Qed.

(** ---- the parser ends ---- *)

Definition mu (s : pstate) : nat := length (l_in (snd s)) + (if kind_eqb (fst s) KEnd then 0 else 1).
Definition plain (s : pstate) : Prop := l_ignore (snd s) = false.
Lemma advance_mu : forall s, plain s -> match advance stod s with
  | POk s1 => plain s1 /\ (fst s <> KEnd -> mu s1 < mu s)
  | PFail e => e <> PFuel end.
Proof.
  intros s G. unfold advance. pose proof (get_next_shows (snd s) G) as H. destruct (get_next stod (snd s)) as [s1|e].
  - destruct H as (t & r & T & S1 & S2 & S3). split; [exact S3|]. intros K. apply token_len in T. subst t r. rewrite kind_tok_of in T. unfold mu.
    assert (Q : kind_eqb (fst s) KEnd = false) by (destruct (fst s); try reflexivity; now elim K). rewrite Q. lia.
  - intros ->. now apply token_at_fuel in H.
Qed.
Lemma eats_mu : forall s ts s', eats stod s ts s' -> plain s -> ~ In (TOp KEnd) ts -> plain s' /\ mu s' + length ts <= mu s.
Proof.
  induction 1 as [s|s s1 ts s2 A E IH]; intros G N; [cbn; split; [exact G|lia]|]. pose proof (advance_mu s G) as H. rewrite A in H. destruct H as [G1 M].
  destruct (IH G1) as [G2 M2]; [intros I; apply N; now right|]. split; [exact G2|].
  assert (K : fst s <> KEnd) by (intros K; apply N; left; unfold tok_of; now rewrite K). specialize (M K). cbn [length]. lia.
Qed.
Lemma sound_mu : forall l p, sound stod l p -> forall s e s', p s = POk (e, s') -> plain s -> plain s' /\ mu s' < mu s.
Proof.
  intros l p P s e s' H G. destruct (P _ _ _ H) as (ts & E & D & _). destruct (eats_mu _ _ _ E G (derives_no_end _ _ _ _ D)) as [G' M]. split; [exact G'|].
  apply derives_nonempty in D. destruct ts; [now elim D|cbn [length] in M; lia].
Qed.
Definition ended {A} (x : pres A) : Prop := x <> PFail PFuel.
Definition ending (p : pstate -> pres (expr * pstate)) (m : nat) : Prop := forall s, plain s -> mu s <= m -> ended (p s).
Lemma op_loop_ends : forall l p m, sound stod (S l) p -> ending p m -> forall n e s, plain s -> mu s <= n -> mu s <= m -> ended (op_loop stod (ops_of l) p n e s).
Proof.
  intros l p m P Q. induction n as [|n IH]; intros e s G M M2; cbn [op_loop]; destruct (ops_of l (fst s)) as [op|] eqn:O; try discriminate.
  - unfold mu in M. destruct (fst s) eqn:K; cbn [kind_eqb] in M; try lia. do 8 (destruct l as [|l]; [discriminate|]). discriminate.
  - pose proof (advance_mu s G) as A. destruct (advance stod s) as [s1|er]; [|cbn [pbind]; unfold ended; congruence]. destruct A as [G1 A]. cbn [pbind].
    assert (K : fst s <> KEnd) by (intros K; rewrite K in O; do 8 (destruct l as [|l]; [discriminate|]); discriminate). specialize (A K).
    specialize (Q s1 G1 ltac:(lia)). destruct (p s1) as [[b s2]|er] eqn:X; [|unfold ended in *; cbn [pbind]; congruence]. cbn [pbind].
    destruct (sound_mu _ _ P _ _ _ X G1) as [G2 M3]. apply IH; [exact G2|lia|lia].
Qed.
Lemma left_assoc_ends : forall l n p m, sound stod (S l) p -> ending p m -> m <= n -> ending (left_assoc stod n (ops_of l) p) m.
Proof.
  intros l n p m P Q L s G M. unfold left_assoc. pose proof (Q s G M) as H. destruct (p s) as [[e s1]|er] eqn:X; [|unfold ended in *; cbn [pbind]; congruence]. cbn [pbind].
  destruct (sound_mu _ _ P _ _ _ X G) as [G2 M3]. apply (op_loop_ends l p m P Q); [exact G2|lia|lia].
Qed.
Lemma primary_ends : forall f m, sound stod 0 f -> ending f m -> ending (primary stod f) (S m).
Proof.
  intros f m F Q s G M. unfold primary. pose proof (advance_mu s G) as A. destruct (fst s) eqn:K; try discriminate;
    (destruct (advance stod s) as [s1|er]; [|cbn [pbind]; unfold ended; congruence]); destruct A as [G1 A]; specialize (A ltac:(discriminate)); cbn [pbind]; try discriminate.
  - specialize (Q s1 G1 ltac:(lia)). destruct (f s1) as [[e s2]|er] eqn:X; [|unfold ended in *; cbn [pbind]; congruence]. cbn [pbind].
    destruct (sound_mu _ _ F _ _ _ X G1) as [G2 M3]. destruct (fst s2); try discriminate. pose proof (advance_mu s2 G2) as A2. destruct (advance stod s2); [discriminate|unfold ended; cbn [pbind]; congruence].
  - destruct (fst s1); try discriminate. pose proof (advance_mu s1 G1) as A2. destruct (advance stod s1); [discriminate|unfold ended; cbn [pbind]; congruence].
Qed.
Lemma post_loop_ends : forall f m, sound stod 0 f -> ending f m -> forall n e s, plain s -> mu s <= n -> mu s <= S m -> ended (post_loop stod n f e s).
Proof.
  intros f m F Q. induction n as [|n IH]; intros e s G M M2; cbn [post_loop].
  - unfold mu in M. destruct (fst s) eqn:K; cbn [kind_eqb] in M; try lia. discriminate.
  - pose proof (advance_mu s G) as A. destruct (fst s) eqn:K; try discriminate; (destruct (advance stod s) as [s1|er]; [|cbn [pbind]; unfold ended; congruence]);
      destruct A as [G1 A]; specialize (A ltac:(discriminate)); cbn [pbind].
    + destruct (fst s1) eqn:K1; try discriminate. pose proof (advance_mu s1 G1) as A2. destruct (advance stod s1) as [s2|]; [|unfold ended; cbn [pbind]; congruence].
      destruct A2 as [G2 A2]. specialize (A2 ltac:(rewrite K1; discriminate)). cbn [pbind]. apply IH; [exact G2|lia|lia].
    + specialize (Q s1 G1 ltac:(lia)). destruct (f s1) as [[i s2]|er] eqn:X; [|unfold ended in *; cbn [pbind]; congruence]. cbn [pbind].
      destruct (sound_mu _ _ F _ _ _ X G1) as [G2 M3]. destruct (fst s2) eqn:K2; try discriminate. pose proof (advance_mu s2 G2) as A2.
      destruct (advance stod s2) as [s3|]; [|unfold ended; cbn [pbind]; congruence]. destruct A2 as [G3 A2]. specialize (A2 ltac:(rewrite K2; discriminate)). cbn [pbind]. apply IH; [exact G3|lia|lia].
    + destruct (fst s1) eqn:K1; try discriminate. pose proof (advance_mu s1 G1) as A2. destruct (advance stod s1) as [s2|]; [|unfold ended; cbn [pbind]; congruence].
      destruct A2 as [G2 A2]. specialize (A2 ltac:(rewrite K1; discriminate)). cbn [pbind]. apply IH; [exact G2|lia|lia].
Qed.
Lemma postfix_ends : forall f m n, sound stod 0 f -> ending f m -> S m <= n -> ending (postfix stod n f) (S m).
Proof.
  intros f m n F Q L s G M. unfold postfix. pose proof (primary_ends f m F Q s G M) as H. destruct (primary stod f s) as [[e s1]|er] eqn:X; [|unfold ended in *; cbn [pbind]; congruence].
  cbn [pbind]. destruct (primary_sound stod f F _ _ _ X) as (ts & E & D). destruct (eats_mu _ _ _ E G (derives_no_end _ _ _ _ D)) as [G1 M1]. apply (post_loop_ends f m F Q); [exact G1|lia|lia].
Qed.
Lemma unary_ends : forall p m, ending p m -> forall k s, plain s -> mu s <= k -> mu s <= m -> ended (unary_ stod k p s).
Proof.
  intros p m P. induction k as [|k IH]; intros s G K M; cbn [unary_]; destruct (unop_of (fst s)) as [op|] eqn:O.
  - unfold mu in K. destruct (fst s); try discriminate O; cbn [kind_eqb] in K; lia.
  - now apply P.
  - pose proof (advance_mu s G) as A. destruct (advance stod s) as [s1|er]; [|cbn [pbind]; unfold ended; congruence]. destruct A as [G1 A]. cbn [pbind].
    specialize (A ltac:(destruct (fst s); discriminate)). specialize (IH s1 G1 ltac:(lia) ltac:(lia)). destruct (unary_ stod k p s1) as [[e s2]|]; [discriminate|unfold ended in *; cbn [pbind]; congruence].
  - now apply P.
Qed.
Lemma level_ends : forall n f m, sound stod 0 f -> ending f m -> S m <= n -> forall j, j <= 8 -> ending (level stod n f j) (S m).
Proof.
  intros n f m F Q L. induction j as [|j IH]; intros J; cbn [level].
  - intros s G M. unfold unary. apply (unary_ends _ (S m)); [now apply postfix_ends|exact G|lia|exact M].
  - apply left_assoc_ends; [|apply IH; lia|exact L]. replace (S (7 - j)) with (8 - j) by lia. apply level_sound; [exact F|lia].
Qed.
Lemma expr_ends : forall n d, d <= n -> ending (expr_ stod n d) (d - 1) \/ d = 0.
Proof.
  intros n. induction d as [|d IH]; intros L; [now right|left]. intros s G M. cbn [expr_]. destruct d as [|d].
  - (* no token is left *)
    assert (K : fst s = KEnd) by (unfold mu in M; destruct (fst s); cbn [kind_eqb] in M; try lia; reflexivity).
    clear IH. assert (U : forall j, j <= 8 -> exists e, level stod n (expr_ stod n 0) j s = PFail e /\ e <> PFuel).
    { induction j as [|j IHj]; intros J; cbn [level].
      - exists PSyntax. split; [|discriminate]. unfold unary. assert (X : postfix stod n (expr_ stod n 0) s = PFail PSyntax) by (unfold postfix, primary; rewrite K; reflexivity).
        destruct n; cbn [unary_]; rewrite K; exact X.
      - destruct (IHj ltac:(lia)) as (e & E & N). exists e. split; [unfold left_assoc; now rewrite E|exact N]. }
    destruct (U 8 (le_n 8)) as (e & E & N). rewrite E. unfold ended. congruence.
  - destruct IH as [IH|]; [lia| |discriminate]. apply (level_ends n _ (S d - 1)); [apply expr_sound|exact IH|lia|lia|exact G|]. cbn in *. lia.
Qed.
(** For every text the parser ends: with a tree, with an error, or with an exception from
    the conversion of a number. *)
Theorem C37_ends : forall x, parse stod x <> PFail PFuel.
Proof.
  intros x. unfold parse. pose proof (new_parser_shows x) as P. destruct (new_parser stod x) as [s|e]; cbn [pbind].
  - destruct P as [P G]. unfold parse_expression. destruct (expr_ends (S (length x)) (S (length x)) (le_n _)) as [E|]; [|discriminate].
    assert (M : mu s <= S (length x) - 1) by (unfold mu; pose proof (token_len _ _ _ P); rewrite kind_tok_of in *; lia).
    specialize (E s G M). destruct (expr_ stod _ _ s) as [[e s']|]; [discriminate|]. unfold ended in E. cbn [pbind]. congruence.
  - intros H. injection H as ->. now apply token_at_fuel in P.
Qed.
End P.

(** ---- cases ---- *)
Definition sample : text := str "*a.b[i - 2 - 1] = -x << 1 | $0".
Definition sample_tokens : list tok :=
  [TOp KTimes; TId (str "a"); TOp KDot; TId (str "b"); TOp KLbracket; TId (str "i"); TOp KMinus; TNum 2; TOp KMinus; TNum 1; TOp KRbracket; TOp KAssign;
   TOp KMinus; TId (str "x"); TOp KLshift; TNum 1; TOp KOr; TOp KDollar; TNum 0].
Definition sample_tree : expr :=
  EBin (EUn UDeref (EIndex (EDot (EId (str "a")) (str "b")) (EBin (EBin (EId (str "i")) BSub (EInt 2)) BSub (EInt 1)))) BAssign
    (EBin (EUn UNegate (EId (str "x"))) BLsh (EBin (EInt 1) BIOr (EValue 0))).
Ltac up := repeat (apply d_up; [lia|]).
Example C37_case : forall stod, tokens stod sample sample_tokens /\ derives false 0 sample_tokens sample_tree /\ parse stod sample = POk sample_tree.
Proof.
  intros stod. assert (T : tokens stod sample sample_tokens).
  { unfold sample_tokens. repeat (eapply tokens_cons; [vm_compute; reflexivity|discriminate|]). eapply tokens_end. vm_compute. reflexivity. }
  assert (D : derives false 0 sample_tokens sample_tree).
  { unfold sample_tokens, sample_tree.
    apply (d_bin false 0 KAssign BAssign [TOp KTimes; TId (str "a"); TOp KDot; TId (str "b"); TOp KLbracket; TId (str "i"); TOp KMinus; TNum 2; TOp KMinus; TNum 1; TOp KRbracket]); [constructor| |].
    - do 8 (apply d_up; [lia|]). apply d_un; [constructor|]. apply d_up; [lia|].
      apply (d_index false [TId (str "a"); TOp KDot; TId (str "b")] _ [TId (str "i"); TOp KMinus; TNum 2; TOp KMinus; TNum 1]).
      + apply (d_dot false [TId (str "a")]). apply d_up; [lia|]. apply d_id.
      + do 6 (apply d_up; [lia|]). apply (d_bin false 6 KMinus BSub [TId (str "i"); TOp KMinus; TNum 2]); [constructor| |up; apply d_num].
        apply (d_bin false 6 KMinus BSub [TId (str "i")]); [constructor|up; apply d_id|up; apply d_num].
    - do 3 (apply d_up; [lia|]). apply (d_bin false 4 KLshift BLsh [TOp KMinus; TId (str "x")]); [constructor| |].
      + do 4 (apply d_up; [lia|]). apply d_un; [constructor|]. up. apply d_id.
      + apply (d_bin false 5 KOr BIOr [TNum 1]); [constructor|up; apply d_num|up; apply d_value]. }
  split; [exact T|]. split; [exact D|]. exact (C37_whole stod _ _ _ T D).
Qed.
(** "x <= 3" has a tree in the grammar of the documentation, but x is what is evaluated. *)
Theorem C68_less_or_equal_refuted : forall stod, tokens stod (str "x <= 3") [TId (str "x"); TOp KLeq; TNum 3] /\
  derives true 0 [TId (str "x"); TOp KLeq; TNum 3] (EBin (EId (str "x")) BLeq (EInt 3)) /\ parse stod (str "x <= 3") = POk (EId (str "x")).
Proof.
  intros stod. split; [|split; [|vm_compute; reflexivity]].
  - repeat (eapply tokens_cons; [vm_compute; reflexivity|discriminate|]). eapply tokens_end. vm_compute. reflexivity.
  - do 3 (apply d_up; [lia|]). apply (d_bin true 3 KLeq BLeq [TId (str "x")]); [now constructor|up; apply d_id|up; apply d_num].
Qed.

Print Assumptions C37_prefix.
Print Assumptions C37_whole.
Print Assumptions C37_unambiguous.
Print Assumptions C68_rest_ignored_refuted.
Print Assumptions C68_second_operand_refuted.
Print Assumptions C68_less_or_equal_refuted.
Print Assumptions C37_ends.
