(** Lexing as a function from texts to tokens with values; the lexer of Lexer.v
    computes it. *)
From Coq Require Import Ascii String ZArith NArith List Bool Lia.
From Verif Require Import Text PropText Lexer.
Import ListNotations.
Open Scope Z_scope.

(** A token with its value. *)
Inductive tok : Type := TId (s : text) | TNum (n : Z) | TFloat (v : Z) | TStr (s : text) | TOp (k : kind).

Definition kind_of (t : tok) : kind :=
  match t with TId _ => KId | TNum _ => KNum | TFloat _ => KFloat | TStr _ => KString | TOp k => k end.

(** The lexer after reading [t], with [s] left. *)
Definition load (t : tok) (s : text) (l : lexer) : lexer :=
  mkLexer s (match t with TNum n => n | _ => l_num l end) (match t with TFloat v => v | _ => l_float l end)
    (match t with TId i => i | _ => l_id l end) (match t with TStr i => i | _ => l_str l end) (l_ignore l).

Section Lex.
Variable stod : text -> option Z.

(** The token at the beginning of a text that does not begin with layout. *)
Definition here (s : text) : pres (tok * text) :=
  let c := hd EOF s in
  match lead_of c with
  | LEnd => POk (TOp KEnd, s)
  | LOne k => POk (TOp k, tl s)
  | LTwo k m => match second (hd EOF (tl s)) m with Some k' => POk (TOp k', tl (tl s)) | None => POk (TOp k, tl s) end
  | LString => let? (v, r) := lex_string (tl s) [] in POk (TStr v, r)
  | LNumber =>
      let (w, r) := span (fun c => is_digit c || Ascii.eqb c (ch 46)) (tl s) in
      if existsb (Ascii.eqb (ch 46)) w
      then match stod (c :: w) with Some v => POk (TFloat v, r) | None => PFail PRange end
      else match stoi (c :: w) with Some v => POk (TNum v, r) | None => PFail PRange end
  | LIdent => let (w, r) := span is_word (tl s) in POk (TId (c :: w), r)
  | LNone => PFail PSyntax
  end.

Fixpoint token_loop (fuel : nat) (ign : bool) (s : text) : pres (tok * text) :=
  match fuel with
  | O => PFail PFuel
  | S n =>
      let c := hd EOF s in
      if Ascii.eqb c (ch 35) then token_loop n ign (skip_line s)
      else if is_space c then token_loop n ign (tl s)
      else match lead_of c with LNone => if ign then token_loop n ign (tl s) else PFail PSyntax | _ => here s end
  end.

(** The first token of a text. *)
Definition token_at (ign : bool) (s : text) : pres (tok * text) := token_loop (S (length s)) ign s.

Lemma lex_token_here : forall l, lex_token stod l =
  match here (l_in l) with POk (t, s) => POk (kind_of t, load t s l) | PFail e => PFail e end.
Proof.
  intros [s n f i st ig]. unfold lex_token, here, lookahead, load. cbn [l_in l_num l_float l_id l_str l_ignore].
  destruct (lead_of (hd EOF s)); try reflexivity.
  - cbn [get_char l_in]. destruct (second (hd EOF (tl s)) more); reflexivity.
  - destruct (lex_string (tl s) []) as [[v r]|e]; reflexivity.
  - unfold lex_number, lookahead. cbn [l_in l_num l_float l_id l_str l_ignore].
    destruct (span (fun c => is_digit c || Ascii.eqb c (ch 46)) (tl s)) as [w r].
    destruct (existsb (Ascii.eqb (ch 46)) w); [destruct (stod (hd EOF s :: w))|destruct (stoi (hd EOF s :: w))]; reflexivity.
  - unfold lex_ident, lookahead. cbn [l_in l_num l_float l_id l_str l_ignore]. destruct (span is_word (tl s)) as [w r]. reflexivity.
Qed.

Lemma next_loop_token : forall fuel l, next_loop fuel stod l =
  match token_loop fuel (l_ignore l) (l_in l) with POk (t, s) => POk (kind_of t, load t s l) | PFail e => PFail e end.
Proof.
  induction fuel as [|n IH]; intros l; [reflexivity|]. cbn [next_loop token_loop].
  change (lookahead l) with (hd EOF (l_in l)).
  destruct (Ascii.eqb (hd EOF (l_in l)) (ch 35)); [rewrite IH; reflexivity|].
  destruct (is_space (hd EOF (l_in l))); [rewrite IH; reflexivity|].
  destruct (lead_of (hd EOF (l_in l))) eqn:E; try apply lex_token_here.
  destruct (l_ignore l) eqn:G; [|reflexivity]. rewrite IH. destruct l; cbn in *. subst. reflexivity.
Qed.

Lemma get_next_token : forall l, get_next stod l =
  match token_at (l_ignore l) (l_in l) with POk (t, s) => POk (kind_of t, load t s l) | PFail e => PFail e end.
Proof. intros l. apply next_loop_token. Qed.

(** ---- the fuel suffices ---- *)

Lemma skip_line_length : forall s, (length (skip_line s) <= length s)%nat.
Proof. induction s as [|c s IH]; cbn [skip_line length]; [lia|]. destruct (Ascii.eqb c EOF); [cbn [length]; lia|]. destruct (Ascii.eqb c (ch 10)); lia. Qed.

Lemma token_loop_fuel : forall n m ign s, (length s < n)%nat -> (length s < m)%nat -> token_loop n ign s = token_loop m ign s.
Proof.
  induction n as [|n IH]; intros m ign s Hn Hm; [lia|]. destruct m as [|m]; [lia|]. cbn [token_loop].
  destruct s as [|c s]; [reflexivity|]. cbn [hd tl].
  destruct (Ascii.eqb c (ch 35)) eqn:E.
  - apply Ascii.eqb_eq in E. subst c. change (skip_line (ch 35 :: s)) with (skip_line s).
    pose proof (skip_line_length s). cbn [length] in *. apply IH; lia.
  - cbn [length] in *. destruct (is_space c); [apply IH; lia|]. destruct (lead_of c); try reflexivity.
    destruct ign; [apply IH; lia|reflexivity].
Qed.

Lemma here_fuel : forall s, here s <> PFail PFuel.
Proof.
  intros s. unfold here. destruct (lead_of (hd EOF s)); try discriminate.
  - destruct (second (hd EOF (tl s)) more); discriminate.
  - assert (G : forall s acc, lex_string s acc <> PFail PFuel).
    { clear. intros s. remember (length s) as n eqn:Hn. assert (Hl : (length s <= n)%nat) by lia. clear Hn. revert s Hl.
      induction n as [|n IH]; intros [|c s] Hl acc; cbn [lex_string length] in *; try discriminate; [lia|].
      destruct (Ascii.eqb c (ch 34)); [discriminate|]. destruct (Ascii.eqb c EOF); [discriminate|].
      destruct (Ascii.eqb c (ch 92)); [|apply IH; lia]. destruct s as [|d s]; [discriminate|].
      destruct (escape d); [|discriminate]. cbn [length] in Hl. apply IH; lia. }
    specialize (G (tl s) []). destruct (lex_string (tl s) []) as [[v r]|e]; cbn; [discriminate|]. congruence.
  - destruct (span _ (tl s)) as [w r]. destruct (existsb _ w); [destruct (stod _)|destruct (stoi _)]; discriminate.
  - destruct (span _ (tl s)) as [w r]. discriminate.
Qed.

Lemma token_at_fuel : forall ign s, token_at ign s <> PFail PFuel.
Proof.
  intros ign s. unfold token_at. assert (G : forall n s, (length s < n)%nat -> token_loop n ign s <> PFail PFuel); [|apply G; lia].
  induction n as [|n IH]; intros [|c x] Hn; cbn [length] in *; try lia; [discriminate|].
  - cbn [token_loop hd tl]. destruct (Ascii.eqb c (ch 35)) eqn:E.
    + apply Ascii.eqb_eq in E. subst c. change (skip_line (ch 35 :: x)) with (skip_line x).
      pose proof (skip_line_length x). apply IH; lia.
    + destruct (is_space c); [apply IH; lia|]. destruct (lead_of c); try apply here_fuel.
      destruct ign; [apply IH; lia|discriminate].
Qed.

(** ---- layout ---- *)

(** White space and whole comments. *)
Inductive layout : text -> Prop :=
| ly_nil : layout []
| ly_space : forall c w, is_space c = true -> layout w -> layout (c :: w)
| ly_comment : forall b w, ~ In (ch 10) b -> ~ In EOF b -> layout w -> layout (ch 35 :: b ++ ch 10 :: w).

Lemma skip_comment : forall b s, ~ In (ch 10) b -> ~ In EOF b -> skip_line (b ++ ch 10 :: s) = s.
Proof.
  induction b as [|c b IH]; intros s H1 H2; cbn [app skip_line].
  - reflexivity.
  - destruct (Ascii.eqb_spec c EOF) as [->|N1]; [exfalso; apply H2; now left|].
    destruct (Ascii.eqb_spec c (ch 10)) as [->|N2]; [exfalso; apply H1; now left|].
    apply IH; intros X; [apply H1|apply H2]; now right.
Qed.

Lemma token_at_space : forall ign c s, is_space c = true -> token_at ign (c :: s) = token_at ign s.
Proof.
  intros ign c s H. unfold token_at at 1. cbn [token_loop hd tl]. rewrite H.
  destruct (Ascii.eqb_spec c (ch 35)) as [->|N]; [discriminate|]. reflexivity.
Qed.
Lemma token_at_comment : forall ign s, token_at ign (ch 35 :: s) = token_at ign (skip_line s).
Proof.
  intros ign s. unfold token_at at 1. cbn [token_loop hd tl]. rewrite Ascii.eqb_refl.
  change (skip_line (ch 35 :: s)) with (skip_line s). pose proof (skip_line_length s). apply token_loop_fuel; cbn [length]; lia.
Qed.
Lemma token_at_layout : forall ign w s, layout w -> token_at ign (w ++ s) = token_at ign s.
Proof.
  intros ign w s H. induction H as [|c w Hc Hw IH|b w H1 H2 Hw IH]; cbn [app]; [reflexivity| |].
  - now rewrite token_at_space.
  - rewrite token_at_comment, <- app_assoc. cbn [app]. now rewrite skip_comment.
Qed.

(** ---- tokens end where layout begins ---- *)

Lemma span_app : forall p s a b, span p s = (a, b) -> s = a ++ b /\ Forall (fun c => p c = true) a.
Proof.
  induction s as [|c s IH]; intros a b H; cbn [span] in H; [injection H as <- <-; auto|].
  destruct (p c) eqn:P; [|injection H as <- <-; auto]. destruct (span p s) as [x y]. injection H as <- <-.
  destruct (IH _ _ eq_refl) as [-> F]. split; [reflexivity|constructor; auto].
Qed.
Lemma span_all : forall p a b, Forall (fun c => p c = true) a -> match b with [] => True | c :: _ => p c = false end ->
  span p (a ++ b) = (a, b).
Proof.
  induction a as [|c a IH]; intros b H N; cbn [app span].
  - destruct b as [|c b]; [reflexivity|]. cbn [span]. now rewrite N.
  - inversion H; subst. rewrite H2. now rewrite IH.
Qed.

Lemma lex_string_app : forall s acc v r, lex_string s acc = POk (v, r) -> exists a, s = a ++ r /\ forall r', lex_string (a ++ r') acc = POk (v, r').
Proof.
  intros s. remember (length s) as n eqn:Hn. assert (Hl : (length s <= n)%nat) by lia. clear Hn. revert s Hl.
  induction n as [|n IH]; intros [|c s] Hl acc v r H; cbn [lex_string length] in *; try discriminate; [lia|].
  destruct (Ascii.eqb c (ch 34)) eqn:E1.
  { injection H as <- <-. exists [c]. split; [reflexivity|]. intros r'. cbn [app lex_string]. now rewrite E1. }
  destruct (Ascii.eqb c EOF) eqn:E2; [discriminate|].
  destruct (Ascii.eqb c (ch 92)) eqn:E3.
  - destruct s as [|d s]; [discriminate|]. cbn [length] in Hl. destruct (escape d) as [e|] eqn:E4; [|discriminate].
    destruct (IH s ltac:(lia) _ _ _ H) as (a & -> & G). exists (c :: d :: a). split; [reflexivity|]. intros r'.
    cbn [app lex_string]. now rewrite E1, E2, E3, E4.
  - destruct (IH s ltac:(lia) _ _ _ H) as (a & -> & G). exists (c :: a). split; [reflexivity|]. intros r'.
    cbn [app lex_string]. now rewrite E1, E2, E3.
Qed.

(** Characters that end every token: those layout begins with. *)
Definition stopper (c : ascii) : bool := is_space c || Ascii.eqb c (ch 35).

Lemma stopper_facts : forall c, stopper c = true ->
  (is_digit c || Ascii.eqb c (ch 46)) = false /\ is_word c = false /\
  Ascii.eqb c (ch 61) = false /\ Ascii.eqb c (ch 62) = false /\ Ascii.eqb c (ch 60) = false /\ Ascii.eqb c (ch 38) = false /\
  Ascii.eqb c (ch 124) = false.
Proof. intros [[] [] [] [] [] [] [] []] H; try discriminate H; vm_compute; auto 10. Qed.

Lemma second_stopper : forall c k m d, lead_of d = LTwo k m -> stopper c = true -> second c m = None.
Proof.
  intros c k m d H S. destruct (stopper_facts c S) as (_ & _ & A1 & A2 & A3 & A4 & A5).
  destruct d as [[] [] [] [] [] [] [] []]; try discriminate H; injection H as <- <-; cbn [second]; now rewrite ?A1, ?A2, ?A3, ?A4, ?A5.
Qed.

Lemma lead_eof : lead_of EOF = LEnd.
Proof. reflexivity. Qed.

(** What may stand behind a token instead of [r] without changing it: something that
    begins with the same character, or with one that ends every token. *)
Definition follows (r r' : text) : Prop :=
  match r' with [] => r = [] | c :: _ => stopper c = true \/ hd_error r = Some c end.

Lemma follows_refl : forall r, follows r r.
Proof. intros [|c r]; [reflexivity|right; reflexivity]. Qed.
Lemma follows_class : forall p r r', (forall c, stopper c = true -> p c = false) -> follows r r' ->
  match r with [] => True | c :: _ => p c = false end -> match r' with [] => True | c :: _ => p c = false end.
Proof.
  intros p r [|c r'] H F N; [exact I|]. destruct F as [F|F]; [now apply H|]. destruct r as [|d r]; [discriminate|]. injection F as ->. exact N.
Qed.
Lemma span_rest : forall p s a b, span p s = (a, b) -> match b with [] => True | c :: _ => p c = false end.
Proof.
  induction s as [|c s IH]; intros a b H; cbn [span] in H; [injection H as <- <-; exact I|].
  destruct (p c) eqn:P; [|injection H as <- <-; exact P]. destruct (span p s) as [x y]. injection H as <- <-. eapply IH. reflexivity.
Qed.
Lemma span_follows : forall p s a b b', (forall c, stopper c = true -> p c = false) -> span p s = (a, b) -> follows b b' -> span p (a ++ b') = (a, b').
Proof.
  intros p s a b b' H E F. destruct (span_app _ _ _ _ E) as [_ Fa]. apply span_all; [exact Fa|]. exact (follows_class p b b' H F (span_rest _ _ _ _ E)).
Qed.

(** A token other than the end is read in the same way when something else follows
    that does not belong to it. *)
Lemma here_app : forall s t r, here s = POk (t, r) -> t <> TOp KEnd -> exists a, s = a ++ r /\ a <> [] /\
  forall r', follows r r' -> here (a ++ r') = POk (t, r').
Proof.
  intros s t r H Ht. unfold here in H. destruct s as [|c s].
  { cbn [hd] in H. rewrite lead_eof in H. injection H as <- _. now elim Ht. }
  cbn [hd tl] in H. destruct (lead_of c) as [|k|k m| | | |] eqn:L; try discriminate.
  - injection H as <- _. now elim Ht.
  - injection H as <- <-. exists [c]. split; [reflexivity|]. split; [discriminate|]. intros r' _. unfold here. cbn [app hd tl]. now rewrite L.
  - destruct (second (hd EOF s) m) as [k'|] eqn:S2.
    + injection H as <- <-. destruct s as [|d s].
      { exfalso. cbn [hd] in S2. clear -L S2. destruct c as [[] [] [] [] [] [] [] []]; try discriminate L; injection L as <- <-; discriminate S2. }
      exists [c; d]. split; [reflexivity|]. split; [discriminate|]. intros r' _. unfold here. cbn [app hd tl] in *. now rewrite L, S2.
    + injection H as <- <-. exists [c]. split; [reflexivity|]. split; [discriminate|]. intros r' F. unfold here. cbn [app hd tl].
      assert (G : second (hd EOF r') m = None).
      { destruct r' as [|e r']; [cbn [follows] in F; subst s; exact S2|]. destruct F as [F|F]; [exact (second_stopper _ _ _ _ L F)|].
        destruct s as [|d s]; [discriminate|]. injection F as ->. exact S2. }
      now rewrite L, G.
  - destruct (lex_string s []) as [[v x]|e] eqn:LS; [|discriminate]. injection H as <- <-.
    destruct (lex_string_app _ _ _ _ LS) as (a & -> & G). exists (c :: a). split; [reflexivity|]. split; [discriminate|].
    intros r' _. unfold here. cbn [app hd tl]. now rewrite L, G.
  - destruct (span _ s) as [w x] eqn:Sp. destruct (span_app _ _ _ _ Sp) as [-> Fa].
    exists (c :: w). assert (X : r = x) by (destruct (existsb _ w); [destruct (stod _)|destruct (stoi _)]; try discriminate; now injection H).
    subst r. split; [reflexivity|]. split; [discriminate|]. intros r' F. unfold here. cbn [app hd tl].
    rewrite L, (span_follows _ _ _ _ r' (fun c Hc => proj1 (stopper_facts c Hc)) Sp F).
    destruct (existsb _ w); [destruct (stod _)|destruct (stoi _)]; try discriminate; now injection H as <-.
  - destruct (span _ s) as [w x] eqn:Sp. destruct (span_app _ _ _ _ Sp) as [-> Fa]. injection H as <- <-.
    exists (c :: w). split; [reflexivity|]. split; [discriminate|]. intros r' F. unfold here. cbn [app hd tl]. rewrite L.
    now rewrite (span_follows _ _ _ _ r' (fun c Hc => proj1 (proj2 (stopper_facts c Hc))) Sp F).
Qed.

Lemma lead_layout : forall c, lead_of c <> LNone -> Ascii.eqb c (ch 35) = false /\ is_space c = false.
Proof. intros [[] [] [] [] [] [] [] []] H; try (exfalso; apply H; reflexivity); split; reflexivity. Qed.

Lemma token_at_here : forall ign s, lead_of (hd EOF s) <> LNone -> token_at ign s = here s.
Proof.
  intros ign s H. unfold token_at. cbn [token_loop]. destruct (lead_layout _ H) as [-> ->].
  destruct (lead_of (hd EOF s)); try reflexivity. now elim H.
Qed.
Lemma token_at_none : forall s, lead_of (hd EOF s) = LNone -> Ascii.eqb (hd EOF s) (ch 35) = false -> is_space (hd EOF s) = false ->
  token_at false s = PFail PSyntax.
Proof. intros s H H1 H2. unfold token_at. cbn [token_loop]. now rewrite H1, H2, H. Qed.

Lemma skip_line_app : forall s, (exists b s', s = b ++ ch 10 :: s' /\ ~ In (ch 10) b /\ ~ In EOF b /\ skip_line s = s') \/
  (forall ign, token_at ign (skip_line s) = POk (TOp KEnd, skip_line s)).
Proof.
  induction s as [|c s IH]; [right; reflexivity|]. cbn [skip_line].
  destruct (Ascii.eqb_spec c EOF) as [->|N1].
  { right. intros ign. reflexivity. }
  destruct (Ascii.eqb_spec c (ch 10)) as [->|N2].
  { left. exists [], s. repeat split; auto. }
  destruct IH as [(b & s' & -> & B1 & B2 & B3)|G]; [|right; exact G].
  left. exists (c :: b), s'. split; [reflexivity|]. split; [intros [X|X]; [congruence|contradiction]|].
  split; [intros [X|X]; [congruence|contradiction]|exact B3].
Qed.

(** Both modes at once: what the lexer does when it does not ignore unknown
    characters only depends on the part that was read. *)
Lemma token_at_app : forall s t r, token_at true s = POk (t, r) -> t <> TOp KEnd -> exists a, s = a ++ r /\ a <> [] /\
  forall r', follows r r' -> token_at true (a ++ r') = POk (t, r') /\
    token_at false (a ++ r') = match token_at false s with POk _ => POk (t, r') | PFail e => PFail e end.
Proof.
  intros s. remember (length s) as n eqn:Hn. assert (Hl : (length s <= n)%nat) by lia. clear Hn. revert s Hl.
  induction n as [|n IH]; intros s Hl t r H Ht.
  { destruct s; [|cbn in Hl; lia]. injection H as <- _. now elim Ht. }
  destruct (Ascii.eqb (hd EOF s) (ch 35)) eqn:E1; [|destruct (is_space (hd EOF s)) eqn:E2].
  - destruct s as [|c s]; [discriminate|]. cbn [hd] in E1. apply Ascii.eqb_eq in E1. subst c. rewrite token_at_comment in H.
    destruct (skip_line_app s) as [(b & s' & -> & B1 & B2 & B3)|G]; [|rewrite G in H; injection H as <- _; now elim Ht].
    rewrite B3 in H. cbn [length] in Hl. rewrite app_length in Hl. cbn [length] in Hl. destruct (IH s' ltac:(lia) t r H Ht) as (a & -> & A & K).
    exists (ch 35 :: b ++ ch 10 :: a). split; [cbn [app]; rewrite <- app_assoc; reflexivity|]. split; [discriminate|].
    intros r' F. cbn [app]. rewrite !token_at_comment, <- app_assoc. cbn [app]. rewrite !skip_comment by assumption. now apply K.
  - destruct s as [|c s]; [discriminate|]. cbn [hd] in E2. rewrite token_at_space in H by exact E2. cbn [length] in Hl.
    destruct (IH s ltac:(lia) t r H Ht) as (a & -> & A & K). exists (c :: a). split; [reflexivity|]. split; [discriminate|].
    intros r' F. cbn [app]. rewrite !token_at_space by exact E2. now apply K.
  - destruct (lead_of (hd EOF s)) eqn:L.
    7: { destruct s as [|c s]; [discriminate L|]. cbn [hd] in *.
      assert (Q : forall x, token_at true (c :: x) = token_at true x).
      { intros x. unfold token_at at 1. cbn [token_loop hd tl]. rewrite E1, E2, L. reflexivity. }
      rewrite Q in H. cbn [length] in Hl. destruct (IH s ltac:(lia) t r H Ht) as (a & -> & A & K).
      exists (c :: a). split; [reflexivity|]. split; [discriminate|]. intros r' F. cbn [app]. rewrite Q.
      split; [now apply K|]. now rewrite !token_at_none by assumption. }
    all: rewrite token_at_here in H by (rewrite L; discriminate); destruct (here_app _ _ _ H Ht) as (a & -> & A & K);
      exists a; (split; [reflexivity|]); (split; [exact A|]); intros r' F;
      (assert (Q : lead_of (hd EOF (a ++ r')) <> LNone) by (destruct a as [|d a]; [now elim A|]; cbn [app hd] in *; rewrite L; discriminate));
      rewrite !token_at_here by (exact Q || rewrite L; discriminate); rewrite H, K by exact F; auto.
Qed.

Lemma token_at_false : forall s x, token_at false s = POk x -> token_at true s = POk x.
Proof.
  intros s. remember (length s) as n eqn:Hn. assert (Hl : (length s <= n)%nat) by lia. clear Hn. revert s Hl.
  induction n as [|n IH]; intros s Hl x H.
  { destruct s; [|cbn in Hl; lia]. exact H. }
  destruct (Ascii.eqb (hd EOF s) (ch 35)) eqn:E1; [|destruct (is_space (hd EOF s)) eqn:E2].
  - destruct s as [|c s]; [discriminate|]. cbn [hd] in E1. apply Ascii.eqb_eq in E1. subst c. rewrite token_at_comment in H |- *.
    cbn [length] in Hl. pose proof (skip_line_length s). apply IH; [lia|exact H].
  - destruct s as [|c s]; [discriminate|]. cbn [hd] in E2. rewrite token_at_space in H |- * by exact E2. cbn [length] in Hl. apply IH; [lia|exact H].
  - destruct (lead_of (hd EOF s)) eqn:L; try (rewrite token_at_none in H by assumption; discriminate H).
    all: rewrite token_at_here in H |- * by (rewrite L; discriminate); exact H.
Qed.

End Lex.
