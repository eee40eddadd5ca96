(** The VM puts the words of the text of an instruction together again with single
    spaces between them; the assembler reads the same instruction. *)
From Coq Require Import Ascii String ZArith NArith List Bool Lia.
From Verif Require Import Base Text PropText Isa Lexer LexProofs Asm Show AsmSpec AsmSweep DbgText.
Import ListNotations.
Open Scope Z_scope.

Definition QUOTE : ascii := ch 34.
Definition blank (a : text) : Prop := Forall (eq SPACE) a.
Definition breaks (r : text) : Prop := match r with [] => True | c :: _ => c = SPACE end.

(** The same words between spaces. *)
Inductive spaced : text -> text -> Prop :=
| sp_end : forall a b, blank a -> blank b -> spaced a b
| sp_word : forall a b w r r', blank a -> blank b -> w <> [] -> ~ In SPACE w -> ~ In QUOTE w ->
    breaks r -> breaks r' -> spaced r r' -> spaced (a ++ w ++ r) (b ++ w ++ r').

Lemma spaced_tail : forall w r r', ~ In SPACE w -> ~ In QUOTE w -> breaks r -> breaks r' -> spaced r r' -> spaced (w ++ r) (w ++ r').
Proof.
  intros [|c w] r r' S Q B B' H; [exact H|]. apply (sp_word [] [] (c :: w) r r'); auto; try constructor. discriminate.
Qed.

Lemma skip_line_blank : forall a s, blank a -> skip_line (a ++ s) = skip_line s.
Proof. induction 1 as [|c a <- _ IH]; [reflexivity|]. exact IH. Qed.
Lemma spaced_skip_word : forall w r r', ~ In SPACE w -> ~ In QUOTE w -> breaks r -> breaks r' -> spaced r r' ->
  spaced (skip_line r) (skip_line r') -> spaced (skip_line (w ++ r)) (skip_line (w ++ r')).
Proof.
  induction w as [|c w IH]; intros r r' S Q B B' H K; [exact K|]. cbn [app skip_line]. cbn [In] in S, Q.
  destruct (Ascii.eqb c EOF).
  - apply (spaced_tail (c :: w)); cbn [In]; auto.
  - destruct (Ascii.eqb c (ch 10)); [apply spaced_tail; auto|apply IH; auto].
Qed.
Lemma spaced_skip : forall s s', spaced s s' -> spaced (skip_line s) (skip_line s').
Proof.
  induction 1 as [a b A B|a b w r r' A B W S Q K K' H IH].
  - rewrite <- (app_nil_r a), <- (app_nil_r b), !skip_line_blank by assumption. apply sp_end; constructor.
  - rewrite (skip_line_blank a), (skip_line_blank b) by assumption. apply spaced_skip_word; assumption.
Qed.

Lemma blank_layout : forall a, blank a -> layout a.
Proof. induction 1 as [|c a <- _ IH]; constructor; auto. Qed.

Lemma span_breaks : forall p w r, p SPACE = false -> breaks r -> span p (w ++ r) = (fst (span p w), snd (span p w) ++ r).
Proof.
  intros p w r P B. induction w as [|c w IH]; cbn [app span].
  - destruct r as [|c r]; [reflexivity|]. red in B. subst c. cbn [span]. now rewrite P.
  - destruct (p c); [|reflexivity]. rewrite IH. destruct (span p w). reflexivity.
Qed.
Lemma span_in : forall p w c, In c (snd (span p w)) -> In c w.
Proof.
  induction w as [|x w IH]; intros c H; cbn [span] in H; [destruct H|]. destruct (p x); [|exact H].
  destruct (span p w) as [u v] eqn:E. cbn [snd] in *. right. now apply IH.
Qed.

Section Spaces.
Variable stod : text -> option Z.

Lemma token_at_none : forall ign c s, Ascii.eqb c (ch 35) = false -> is_space c = false -> lead_of c = LNone ->
  token_at stod ign (c :: s) = if ign then token_at stod ign s else PFail PSyntax.
Proof.
  intros ign c s H1 H2 H3. unfold token_at. cbn [length]. set (n := Datatypes.S (length s)). cbn [token_loop hd tl]. rewrite H1, H2, H3.
  destruct ign; reflexivity.
Qed.
Lemma token_at_here : forall ign c s, Ascii.eqb c (ch 35) = false -> is_space c = false -> lead_of c <> LNone ->
  token_at stod ign (c :: s) = here stod (c :: s).
Proof.
  intros ign c s H1 H2 H3. unfold token_at. cbn [token_loop hd tl]. rewrite H1, H2. destruct (lead_of c); try reflexivity. now elim H3.
Qed.

Lemma second_breaks : forall c k m r, lead_of c = LTwo k m -> breaks r -> second (hd EOF r) m = None.
Proof.
  intros [[] [] [] [] [] [] [] []] k m r H B; try discriminate H; injection H as <- <-; (destruct r as [|d r]; [reflexivity|]);
    cbn in B; subst d; reflexivity.
Qed.

Lemma here_spaced : forall c w r r', ~ In SPACE (c :: w) -> ~ In QUOTE (c :: w) -> breaks r -> breaks r' -> spaced r r' ->
  match here stod (c :: w ++ r), here stod (c :: w ++ r') with
  | POk (t, r), POk (t', r') => t = t' /\ spaced r r'
  | PFail e, PFail e' => e = e'
  | _, _ => False
  end.
Proof.
  intros c w r r' S Q B B' H. assert (S' : ~ In SPACE w) by (intro; apply S; now right). assert (Q' : ~ In QUOTE w) by (intro; apply Q; now right).
  unfold here. cbn [hd tl]. destruct (lead_of c) eqn:L.
  - split; [reflexivity|]. apply (spaced_tail (c :: w)); assumption.
  - split; [reflexivity|]. now apply spaced_tail.
  - destruct w as [|d w].
    + cbn [app]. rewrite !(second_breaks _ _ _ _ L) by assumption. split; [reflexivity|exact H].
    + cbn [app hd tl]. assert (T : spaced (w ++ r) (w ++ r')) by (apply spaced_tail; auto; intro; [apply S'|apply Q']; now right).
      destruct (second d more); (split; [reflexivity|]); [exact T|]. apply (spaced_tail (d :: w)); assumption.
  - exfalso. apply Q. left. destruct c as [[] [] [] [] [] [] [] []]; try discriminate L; reflexivity.
  - rewrite !span_breaks by (assumption || reflexivity). set (p := fun c0 : ascii => _). pose proof (span_in p w) as I.
    destruct (span p w) as [u v]. cbn [fst snd] in *.
    assert (T : spaced (v ++ r) (v ++ r')) by (apply spaced_tail; auto).
    destruct (existsb _ u); [destruct (stod (c :: u))|destruct (stoi (c :: u))]; auto.
  - rewrite !span_breaks by (assumption || reflexivity). pose proof (span_in is_word w) as I. destruct (span is_word w) as [u v]. cbn [fst snd] in *.
    split; [reflexivity|]. apply spaced_tail; auto.
  - reflexivity.
Qed.

Lemma token_spaced : forall ign s s', spaced s s' ->
  match token_at stod ign s, token_at stod ign s' with
  | POk (t, r), POk (t', r') => t = t' /\ spaced r r'
  | PFail e, PFail e' => e = e'
  | _, _ => False
  end.
Proof.
  intros ign s. remember (length s) as n eqn:Hn. assert (Hl : (length s <= n)%nat) by lia. clear Hn. revert s Hl.
  induction n as [|n IH]; intros s Hl s' H.
  { destruct s; [|cbn in Hl; lia]. inversion H as [a b A B E1 E2|a b w r r' A B W S Q K K' H' E1 E2]; subst.
    - rewrite <- (app_nil_r s'), (token_at_layout stod ign s' []) by now apply blank_layout. cbn. split; [reflexivity|exact (sp_end [] [] A A)].
    - destruct a; [|discriminate]. destruct w; [now elim W|discriminate]. }
  inversion H as [a b A B E1 E2|a b w r r' A B W S Q K K' H' E1 E2]; subst.
  { rewrite <- (app_nil_r s), <- (app_nil_r s'), (token_at_layout stod ign s []), (token_at_layout stod ign s' []) by now apply blank_layout.
    cbn. split; [reflexivity|]. apply sp_end; constructor. }
  rewrite (token_at_layout stod ign a), (token_at_layout stod ign b) by now apply blank_layout.
  rewrite !app_length in Hl. destruct w as [|c w]; [now elim W|]. cbn [app length] in *. assert (Hw : (length w + length r <= n)%nat) by lia. clear H Hl a b A B W.
  assert (S' : ~ In SPACE w) by (intro; apply S; now right). assert (Q' : ~ In QUOTE w) by (intro; apply Q; now right).
  assert (T : spaced (w ++ r) (w ++ r')) by now apply spaced_tail.
  destruct (Ascii.eqb c (ch 35)) eqn:E1.
  { apply Ascii.eqb_eq in E1. subst c. rewrite !token_at_comment. apply IH; [|now apply spaced_skip].
    pose proof (skip_line_length (w ++ r)) as L. rewrite app_length in L. lia. }
  destruct (is_space c) eqn:E2.
  { rewrite !(token_at_space stod ign c) by assumption. apply IH; [rewrite app_length; lia|exact T]. }
  destruct (lead_of c) eqn:E3; try (rewrite !token_at_here by (assumption || congruence); now apply here_spaced).
  rewrite !token_at_none by assumption. destruct ign; [|reflexivity]. apply IH; [rewrite app_length; lia|exact T].
Qed.

Theorem spaced_instr : forall s s', spaced s s' -> assemble_instr stod s = assemble_instr stod s' /\ check_instr stod s = check_instr stod s'.
Proof. intros s s' H. eapply assemble_instr_sim; [apply token_spaced|exact H]. Qed.

End Spaces.

(** ---- a text and its words ---- *)

Lemma blank_pieces : forall ps s, pieces SPACE ps s -> filter nonempty ps = [] -> blank s.
Proof.
  induction 1 as [w W|w ps s W P IH]; intros E; cbn [filter] in E; destruct w as [|c w]; cbn [nonempty] in E; try discriminate; [constructor|].
  cbn [app]. constructor; [reflexivity|exact (IH E)].
Qed.

Lemma spaced_refl_blank : spaced [] [].
Proof. apply sp_end; constructor. Qed.

(** Any way of writing the words with at least one space between them. *)
Lemma spaced_words : forall ps s, pieces SPACE ps s -> ~ In QUOTE s -> forall x, x = [] \/ x = [SPACE] ->
  spaced s (join (filter nonempty ps) [SPACE] ++ x).
Proof.
  intros ps s P Q x X. assert (BX : blank x) by (destruct X as [->| ->]; repeat constructor).
  assert (KX : breaks x) by (destruct X as [->| ->]; cbn; auto).
  induction P as [w W|w ps s W P IH].
  - cbn [filter]. destruct w as [|c w]; cbn [nonempty join]; [cbn [app]; apply sp_end; [constructor|exact BX]|].
    rewrite !app_nil_r. rewrite <- (app_nil_r (c :: w)) at 1. apply (sp_word [] [] (c :: w) [] x); auto; try constructor; try discriminate; try exact I; [constructor|exact BX].
  - assert (Qs : ~ In QUOTE s) by (intro H; apply Q, in_or_app; right; now right).
    assert (Qw : ~ In QUOTE w) by (intro H; apply Q, in_or_app; now left). specialize (IH Qs).
    destruct w as [|c w]; [change (filter nonempty ([] :: ps)) with (filter nonempty ps)|change (filter nonempty ((c :: w) :: ps)) with ((c :: w) :: filter nonempty ps)].
    + cbn [app]. inversion IH as [a b A B E1 E2|a b w r r' A B Wn S Q' K K' H' E1 E2]; subst.
      * apply sp_end; [constructor; auto|exact B].
      * apply (sp_word (SPACE :: a) b); auto. now constructor.
    + destruct (filter nonempty ps) as [|y l] eqn:F.
      * cbn [join]. rewrite app_nil_r. apply (sp_word [] [] (c :: w) (SPACE :: s) x); auto; try (constructor; fail); try discriminate; try reflexivity.
        apply sp_end; [|exact BX]. constructor; [reflexivity|]. exact (blank_pieces _ _ P F).
      * change (join ((c :: w) :: y :: l) [SPACE]) with ((c :: w) ++ SPACE :: join (y :: l) [SPACE]). rewrite <- app_assoc. cbn [app].
        apply (sp_word [] [] (c :: w) (SPACE :: s) (SPACE :: join (y :: l) [SPACE] ++ x)); auto; try (constructor; fail); try discriminate; try reflexivity.
        inversion IH as [a b A B E1 E2|a b u r r' A B Wn S Q' K K' H' E1 E2]; subst.
        -- exfalso. destruct y as [|d y].
           ++ assert (In ([] : text) (filter nonempty ps)) by (rewrite F; now left). apply filter_In in H. destruct H as [_ H]. discriminate H.
           ++ cbn [join app] in B. inversion B; subst.
              assert (In (SPACE :: y) (filter nonempty ps)) by (rewrite F; now left). apply filter_In in H. destruct H as [H _].
              apply (pieces_sep _ _ _ P _ H). now left.
        -- change (b ++ u ++ r' = join (y :: l) [SPACE] ++ x) in E2. rewrite <- E2. apply (sp_word (SPACE :: a) (SPACE :: b) u r r'); auto; now constructor.
Qed.
