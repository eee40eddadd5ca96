(** The parser of debugging information comes to an end on every text. *)
From Coq Require Import Ascii String ZArith NArith List Bool Lia.
From Verif Require Import Base Text StdMap Lexer LexProofs AsmSweep Src Info.
Import ListNotations.
Open Scope Z_scope.

Section Stop.
Variable stod : text -> option Z.
Notation next := (Info.next stod).
Notation expect := (Info.expect stod).
Notation is := Info.is.

(** What is left: the text, and the token the parser stands on unless it is the end *)
Definition m (s : istate) : nat := (length (l_in (snd s)) + if is KEnd s then 0 else 1)%nat.
(** ParserError and std::out_of_range *)
Definition exc (e : perr) : Prop := e = PSyntax \/ e = PRange.
Lemma string_exc : forall n s a e, (length s <= n)%nat -> lex_string s a = PFail e -> e = PSyntax.
Proof.
  induction n as [|n IH]; intros [|c s] a e Hl; cbn [lex_string length] in *; try lia; try (intros [= <-]; reflexivity).
  destruct (Ascii.eqb c (ch 34)); [discriminate|]. destruct (Ascii.eqb c EOF); [intros [= <-]; reflexivity|]. destruct (Ascii.eqb c (ch 92)); [|apply IH; lia].
  destruct s as [|d s]; [intros [= <-]; reflexivity|]. cbn [length] in Hl. destruct (escape d); [apply IH; lia|intros [= <-]; reflexivity].
Qed.
Lemma here_exc : forall s e, here stod s = PFail e -> exc e.
Proof.
  intros s e. unfold here, exc. destruct (lead_of _); try discriminate.
  - destruct (second _ _); discriminate.
  - destruct (lex_string (tl s) []) as [[v r]|e'] eqn:L; cbn [pbind]; [discriminate|]. intros [= <-]. apply (string_exc _ _ _ _ (Nat.le_refl _)) in L. auto.
  - destruct (span _ _) as [w r]. destruct (existsb _ _); [destruct (stod _)|destruct (stoi _)]; try discriminate; intros [= <-]; auto.
  - destruct (span _ _) as [w r]. discriminate.
  - intros [= <-]. auto.
Qed.
Lemma token_exc : forall ign s e, token_at stod ign s = PFail e -> exc e.
Proof.
  intros ign s e H. assert (F : e <> PFuel) by (intros ->; exact (token_at_fuel stod _ _ H)). unfold token_at in H. revert H. generalize (S (length s)). intros n. revert s.
  induction n as [|n IH]; intros s; cbn [token_loop]; [congruence|]. destruct (Ascii.eqb _ _); [apply IH|]. destruct (is_space _); [apply IH|].
  destruct (lead_of _) eqn:L; try apply here_exc. destruct ign; [apply IH|]. intros [= <-]. now left.
Qed.
Definition sh {A} (b : nat) (x : pres (A * istate)) : Prop := match x with POk (_, s) => (m s <= b)%nat | PFail e => exc e end.

Lemma next_m : forall s, match next s with POk s1 => (m s1 <= length (l_in (snd s)))%nat | PFail e => exc e end.
Proof.
  intros [k l]. unfold Info.next. cbn [snd]. rewrite get_next_token. destruct (token_at stod (l_ignore l) (l_in l)) as [[t r]|e] eqn:T.
  - destruct (token_at_is_here _ _ _ _ _ T) as (s' & L & H). unfold m, Info.is, load. cbn [fst snd l_in]. destruct (here_left _ _ _ _ H) as [[-> ->]|[L' N]].
    + cbn [kind_of kind_eqb]. lia.
    + assert (K : kind_eqb (kind_of t) KEnd = false) by (destruct t as [| | | |[]]; reflexivity || now elim N). rewrite K. lia.
  - exact (token_exc _ _ _ T).
Qed.
Lemma next_le : forall s s1, next s = POk s1 -> (m s1 <= m s)%nat.
Proof. intros s s1 H. pose proof (next_m s) as N. rewrite H in N. unfold m at 2. lia. Qed.
Lemma next_lt : forall k s s1, next s = POk s1 -> is k s = true -> k <> KEnd -> (m s1 < m s)%nat.
Proof.
  intros k s s1 H K Ne. pose proof (next_m s) as N. rewrite H in N. unfold m at 2. unfold Info.is in *. assert (E : kind_eqb (fst s) KEnd = false); [|rewrite E; lia].
  destruct (fst s), k; try discriminate K; try reflexivity; now elim Ne.
Qed.
Lemma next_fuel : forall s e, next s = PFail e -> exc e.
Proof. intros s e H. pose proof (next_m s) as N. now rewrite H in N. Qed.
Lemma expect_is : forall k s s1, expect k s = POk s1 -> (m s1 <= m s)%nat /\ is k s1 = true.
Proof. intros k s s1. unfold Info.expect. destruct (next s) as [s0|] eqn:N; cbn [pbind]; [|discriminate]. destruct (kind_eqb (fst s0) k) eqn:K; [|discriminate]. intros [= <-]. split; [now apply next_le|exact K]. Qed.
Lemma expect_fuel : forall k s e, expect k s = PFail e -> exc e.
Proof. intros k s e. unfold Info.expect. destruct (next s) as [s0|] eqn:N; cbn [pbind]; [|intros [= <-]; now apply (next_fuel s)]. destruct (kind_eqb (fst s0) k); [discriminate|]. intros [= <-]. now left. Qed.
Lemma sh_bind : forall A B b b' (x : pres (A * istate)) (f : A * istate -> pres (B * istate)), sh b x -> (forall a s, (m s <= b)%nat -> sh b' (f (a, s))) -> sh b' (pbind x f).
Proof. intros A B b b' [[a s]|e] f H K; [now apply K|exact H]. Qed.
Lemma sh_le : forall A b b' (x : pres (A * istate)), sh b x -> (b <= b')%nat -> sh b' x.
Proof. intros A b b' [[a s]|e] H L; [cbn [sh] in *; lia|exact H]. Qed.

Ltac syn := cbn [sh]; left; reflexivity.
(** One step: a token is fetched or tested. *)
Ltac st :=
  match goal with
  | |- sh _ (pbind (next ?s) _) =>
      let s1 := fresh "s" in let N := fresh "N" in let L := fresh "L" in let e := fresh "e" in
      destruct (next s) as [s1|e] eqn:N; cbn [pbind]; [pose proof (next_le _ _ N) as L|exact (next_fuel _ _ N)];
      try match goal with K : is ?k s = true |- _ => assert (m s1 < m s)%nat by (apply (next_lt k _ _ N K); discriminate) end
  | |- sh _ (pbind (expect ?k ?s) _) =>
      let s1 := fresh "s" in let N := fresh "N" in let L := fresh "L" in let e := fresh "e" in let K := fresh "K" in
      destruct (expect k s) as [s1|e] eqn:N; cbn [pbind]; [destruct (expect_is _ _ _ N) as [L K]|exact (expect_fuel _ _ _ N)]
  | |- sh _ (if is ?k ?s then _ else _) => let K := fresh "K" in destruct (is k s) eqn:K; [|try syn]
  | |- sh _ (if teqb ?a ?b then _ else _) => destruct (teqb a b); [|try syn]
  end.
Ltac fin := cbn [sh]; lia.

Lemma members_stop : forall n acc s, (m s < n)%nat \/ is KRbrace s = true -> sh (m s) (members_loop stod n acc s).
Proof.
  induction n as [|n IH]; intros acc s H; cbn [members_loop].
  - destruct H as [H|H]; [lia|]. rewrite H. st. fin.
  - destruct (is KRbrace s) eqn:B; [st; fin|]. destruct H as [H|H]; [|discriminate].
    repeat st; (eapply sh_le; [apply IH; first [left; lia|right; assumption]|lia]).
Qed.
Lemma line_stop : forall n mp s, (m s < n)%nat -> sh (m s) (line_loop stod n mp s).
Proof.
  induction n as [|n IH]; intros acc s H; [lia|]; cbn [line_loop].
  destruct (is KDot s || is KEnd s); [fin|]. do 4 st. eapply sh_le; [apply IH; lia|lia].
Qed.
Lemma offset_stop : forall s, sh (m s) (parse_offset stod s).
Proof. intros s. unfold parse_offset. destruct (is KMinus s) eqn:M; cbn [pbind]; repeat st; fin. Qed.
Lemma operand_stop : forall s, sh (m s) (parse_operand stod s).
Proof. intros s. unfold parse_operand. destruct (is KNum s || is KMinus s); [|repeat st; fin]. eapply sh_bind; [apply offset_stop|]. intros a s' L. fin. Qed.
Lemma one_stop : forall s, sh (m s) (parse_one stod s) /\ match parse_one stod s with POk (_, s') => (m s' < m s)%nat | _ => True end.
Proof.
  intros s. unfold parse_one. destruct (is KId s) eqn:I; [|split; [syn|exact Logic.I]]. destruct (next s) as [s1|e] eqn:N; cbn [pbind]; [|split; [exact (next_fuel _ _ N)|exact Logic.I]].
  assert (L : (m s1 < m s)%nat) by (apply (next_lt KId _ _ N I); discriminate).
  destruct (teqb _ _); [pose proof (offset_stop s1) as O; destruct (parse_offset stod s1) as [[z s2]|]; cbn [pbind sh] in *; split; try lia; try exact Logic.I; exact O|].
  destruct (teqb _ _); [pose proof (operand_stop s1) as O; destruct (parse_operand stod s1) as [[z s2]|]; cbn [pbind sh] in *; split; try lia; try exact Logic.I; exact O|].
  repeat (destruct (teqb _ _); [split; cbn [sh]; lia|]). split; [syn|exact Logic.I].
Qed.
Lemma loc_stop : forall n acc s, (m s < n)%nat \/ is KRbracket s = true -> sh (m s) (loc_loop stod n acc s).
Proof.
  induction n as [|n IH]; intros acc s H; cbn [loc_loop].
  - destruct H as [H|H]; [lia|]. rewrite H. st. fin.
  - destruct (is KRbracket s) eqn:B; [st; fin|]. destruct H as [H|H]; [|discriminate].
    destruct (one_stop s) as [O1 O2]. destruct (parse_one stod s) as [[o s1]|e]; cbn [pbind]; [|exact O1].
    st; [st; eapply sh_le; [apply IH; left; lia|lia]|]. st. eapply sh_le; [apply IH; now right|lia].
Qed.
Lemma parse_loc_stop : forall n s, (m s < n)%nat -> sh (m s) (parse_loc stod n s).
Proof.
  intros n s H. unfold parse_loc. st.
  - st. st; [st; fin|]. eapply sh_bind; [apply one_stop|]. intros o s2 L2. st. fin.
  - st. st. eapply sh_le; [apply loc_stop; left; lia|lia].
Qed.
Lemma attr_stop : forall n v s, (m s <= n)%nat -> sh (m s) (parse_attr stod n v s).
Proof.
  intros n v s H. unfold parse_attr, number_attr. st. st. st; [repeat st; fin|]. do 5 (st; [st; st; fin|]). st; [|st].
  - st. st. eapply sh_bind; [apply members_stop; left; lia|]. intros ms s3 L3. fin.
  - eapply sh_bind; [apply parse_loc_stop; lia|]. intros ms s3 L3. fin.
Qed.
Definition sh3 {A B} (b : nat) (x : pres (A * B * istate)) : Prop := match x with POk (_, s) => (m s <= b)%nat | PFail e => exc e end.
Lemma die_loop_stop : forall b die_ n, (forall id s, (m s <= b)%nat -> sh (m s) (die_ id s)) ->
  forall attrs children s, (m s <= b)%nat -> (m s < n)%nat \/ is KRbrace s = true -> sh (m s) (die_loop stod n die_ attrs children s).
Proof.
  intros b die_ n D. induction n as [|n IH]; intros attrs children s Hb H; cbn [die_loop].
  - destruct H as [H|H]; [lia|]. rewrite H. st. fin.
  - destruct (is KRbrace s) eqn:B; [st; fin|]. destruct H as [H|H]; [|discriminate]. st.
    eapply (sh_bind _ _ (m s0)).
    + destruct (is_prefix_of _ _); [eapply sh_bind; [apply attr_stop; lia|]; intros a s2 L2; fin|].
      destruct (is_prefix_of _ _); [eapply sh_bind; [apply D; lia|]; intros a s2 L2; fin|]. fin.
    + intros [a c] s2 L2. st; [st; eapply sh_le; [apply IH; [lia|left; lia]|lia]|]. st. eapply sh_le; [apply IH; [lia|now right]|lia].
Qed.
Lemma die_stop : forall n d name s, (m s < n)%nat -> (m s < d)%nat -> sh (m s) (parse_die stod n d name s).
Proof.
  intros n. induction d as [|d IH]; intros name s Hn H; [lia|]. cbn [parse_die]. destruct (is KDoubledot s) eqn:K; [|syn].
  assert (E : forall s1, expect KLbrace s = POk s1 -> (m s1 < m s)%nat).
  { intros s1. unfold Info.expect. destruct (next s) as [s0|] eqn:N; cbn [pbind]; [|discriminate]. destruct (kind_eqb _ _); [|discriminate]. intros [= <-]. apply (next_lt KDoubledot _ _ N K). discriminate. }
  destruct (expect KLbrace s) as [s1|e] eqn:X; cbn [pbind]; [|exact (expect_fuel _ _ _ X)]. specialize (E _ eq_refl). st. destruct (tag_of name); [|syn].
  eapply sh_bind; [apply (die_loop_stop (m s0)); [intros id s' L'; apply IH; lia|lia|left; lia]|]. intros [a c] s3 L3. fin.
Qed.
Lemma debug_info_stop : forall n s, (m s < n)%nat -> sh (m s) (debug_info stod n s).
Proof.
  intros n s H. unfold debug_info. destruct (is KDot s || is KEnd s); [fin|]. st. st. eapply sh_le; [apply die_stop; lia|lia].
Qed.
Lemma skip_stop : forall n s, (m s < n)%nat -> match skip_section stod n s with POk s' => (m s' <= m s)%nat | PFail e => exc e end.
Proof.
  induction n as [|n IH]; intros s H; [lia|]. cbn [skip_section]. destruct (is KDot s || is KEnd s) eqn:D; [lia|].
  pose proof (next_m s) as N. destruct (next s) as [s1|e]; cbn [pbind]; [|exact N].
  assert (L : (m s1 < m s)%nat) by (unfold m at 2; destruct (is KEnd s); [destruct (is KDot s); discriminate|lia]).
  specialize (IH s1 ltac:(lia)). destruct (skip_section stod n s1); [lia|exact IH].
Qed.
Lemma sections_stop : forall n k i s, (m s < n)%nat -> (m s < k)%nat -> match sections stod n k i s with POk _ => True | PFail e => exc e end.
Proof.
  intros n. induction k as [|k IH]; intros i s Hn Hk; [lia|]. cbn [sections]. destruct (is KEnd s); [exact I|]. destruct (is KDot s) eqn:D; [|now left].
  assert (E : forall s1, expect KId s = POk s1 -> (m s1 < m s)%nat).
  { intros s1. unfold Info.expect. destruct (next s) as [s0|] eqn:N; cbn [pbind]; [|discriminate]. destruct (kind_eqb _ _); [|discriminate]. intros [= <-]. apply (next_lt KDot _ _ N D). discriminate. }
  destruct (expect KId s) as [s1|e] eqn:X; cbn [pbind]; [|exact (expect_fuel _ _ _ X)]. specialize (E _ eq_refl).
  destruct (teqb _ _); [exact I|]. destruct (next s1) as [s2|e] eqn:N; cbn [pbind]; [|exact (next_fuel _ _ N)]. pose proof (next_le _ _ N) as L.
  destruct (teqb _ _); [|destruct (teqb _ _)].
  - pose proof (line_stop n [] s2 ltac:(lia)) as H. destruct (line_loop stod n [] s2) as [[mp s3]|e]; cbn [pbind sh] in *; [apply IH; lia|exact H].
  - pose proof (debug_info_stop n s2 ltac:(lia)) as H. destruct (debug_info stod n s2) as [[d s3]|e]; cbn [pbind sh] in *; [apply IH; lia|exact H].
  - pose proof (skip_stop n (fst s2, set_ignore (snd s2) true) ltac:(unfold m in *; cbn [fst snd set_ignore l_in]; unfold Info.is in *; cbn [fst]; lia)) as H.
    destruct (skip_section _ _ _) as [s3|e]; cbn [pbind] in *; [|exact H]. apply IH; unfold m, Info.is, set_ignore in *; cbn [fst snd l_in] in *; lia.
Qed.
Lemma parse_info_stop : forall t, match parse_info stod t with POk _ => True | PFail e => e = PSyntax \/ e = PRange \/ e = PAssert end.
Proof.
  intros t. unfold parse_info. pose proof (next_m (KEnd, new_lexer t)) as N. unfold Info.next in N. cbn [snd] in N. destruct (get_next stod (new_lexer t)) as [s|e]; [|auto].
  assert (E : l_in (new_lexer t) = t) by reflexivity. rewrite E in N. pose proof (sections_stop (S (length t)) (S (length t)) (mkInfo None None None) s ltac:(lia) ltac:(lia)) as H.
  destruct (sections _ _ _ _ _); [exact I|]. destruct H; auto.
Qed.
End Stop.
