(** C27, C28, C43: text utilities. *)
From Coq Require Import Ascii String ZArith NArith List Bool Lia.
From Verif Require Import Text.
Import ListNotations.
Open Scope Z_scope.

(** ---- C27 ---- *)

(** [s] consists of the pieces [ps] with a separator between any two. *)
Inductive pieces (d : ascii) : list text -> text -> Prop :=
| pc_last : forall w, ~ In d w -> pieces d [w] w
| pc_more : forall w ps s, ~ In d w -> pieces d ps s -> pieces d (w :: ps) (w ++ d :: s).

Definition nonempty (w : text) : bool := match w with [] => false | _ => true end.

Lemma find_char_none : forall d s, find_char d s = None <-> ~ In d s.
Proof.
  intros d s. induction s as [|c s IH]; cbn [find_char In]; [tauto|].
  destruct (Ascii.eqb_spec c d) as [->|Hn].
  - split; [discriminate|]. intros H. destruct H. now left.
  - destruct (find_char d s); cbn; split; try discriminate; intros H.
    + exfalso. apply (proj1 (not_iff_compat IH)); [discriminate|]. intros Hi. apply H. now right.
    + intros [Hi|Hi]; [congruence|]. now apply IH.
    + reflexivity.
Qed.

Lemma find_char_some : forall d s k, find_char d s = Some k ->
  s = firstn k s ++ d :: skipn (k + 1) s /\ ~ In d (firstn k s) /\ length (firstn k s) = k.
Proof.
  induction s as [|c s IH]; intros k H; cbn [find_char] in H; [discriminate|].
  destruct (Ascii.eqb_spec c d) as [->|Hn].
  - injection H as <-. cbn. auto.
  - destruct (find_char d s) as [k'|] eqn:Hk; [|discriminate]. cbn in H. injection H as <-.
    destruct (IH _ eq_refl) as [H1 [H2 H3]]. cbn [firstn skipn Nat.add app length]. split; [now rewrite <- H1|].
    split; [|now rewrite H3]. intros [Hi|Hi]; [congruence|contradiction].
Qed.

Lemma pieces_sep : forall d ps s, pieces d ps s -> forall w, In w ps -> ~ In d w.
Proof. induction 1; intros x [Hx|Hx]; subst; auto. Qed.

Lemma split_loop_pieces : forall d ps s, pieces d ps s -> forall fuel, (length s <= fuel)%nat ->
  split_loop fuel s d = Some (filter nonempty ps).
Proof.
  induction 1 as [w Hw|w ps s Hw Hp IH]; intros fuel Hf.
  - destruct w as [|c w]; [destruct fuel; reflexivity|]. destruct fuel as [|fuel]; [cbn in Hf; lia|].
    cbn [split_loop]. apply find_char_none in Hw. now rewrite Hw.
  - assert (Hfc : find_char d (w ++ d :: s) = Some (length w)).
    { clear -Hw. induction w as [|c w IH]; cbn [app find_char length].
      - now rewrite Ascii.eqb_refl.
      - destruct (Ascii.eqb_spec c d) as [->|_]; [destruct Hw; now left|].
        rewrite IH; [reflexivity|]. intros H. apply Hw. now right. }
    assert (Hsk : skipn (length w + 1) (w ++ d :: s) = s).
    { rewrite Nat.add_1_r. change (d :: s) with ([d] ++ s). rewrite app_assoc.
      replace (S (length w)) with (length (w ++ [d]) + 0)%nat by (rewrite app_length; cbn; lia).
      rewrite skipn_app, skipn_all2 by lia. cbn [app].
      replace (length (w ++ [d]) + 0 - length (w ++ [d]))%nat with 0%nat by lia. reflexivity. }
    rewrite app_length in Hf. cbn [length] in Hf.
    destruct fuel as [|fuel]; [lia|]. specialize (IH fuel ltac:(lia)).
    destruct (w ++ d :: s) as [|c0 t] eqn:Ht; [now destruct w|]. cbn [split_loop]. rewrite Hfc, Hsk, IH.
    destruct w as [|c w]; cbn [length filter nonempty]; [reflexivity|]. cbn [option_map]. f_equal. f_equal.
    rewrite <- Ht. change (S (length w)) with (length (c :: w)). rewrite firstn_app, firstn_all, Nat.sub_diag. cbn [firstn]. now rewrite app_nil_r.
Qed.

(** Splitting yields the non-empty pieces between separators, in order. *)
Theorem C27_split : forall d ps s, pieces d ps s -> split_v s d = filter nonempty ps.
Proof. intros d ps s H. unfold split_v. now rewrite (split_loop_pieces d ps s H (length s) (le_n _)). Qed.

(** Every string has such pieces. *)
Theorem C27_split_total : forall d s, exists ps, pieces d ps s.
Proof.
  intros d s. remember (length s) as n eqn:Hn. assert (Hl : (length s <= n)%nat) by lia. clear Hn. revert s Hl.
  induction n as [|n IH]; intros s Hl.
  - destruct s; [|cbn in Hl; lia]. exists [[]]. constructor. intros [].
  - destruct (find_char d s) as [k|] eqn:Hk.
    + destruct (find_char_some _ _ _ Hk) as [H1 [H2 H3]]. destruct (IH (skipn (k + 1) s)) as [ps Hps].
      { rewrite skipn_length. destruct s; [discriminate|]. cbn [length] in *. lia. }
      exists (firstn k s :: ps). rewrite H1 at 2. now constructor.
    + exists [s]. constructor. now apply find_char_none.
Qed.

(** Joining non-empty pieces that do not contain the separator and splitting again
    gives the pieces back. *)
Theorem C27_join_split : forall d ps, (forall w, In w ps -> w <> [] /\ ~ In d w) -> split_v (join ps [d]) d = ps.
Proof.
  intros d ps H. destruct ps as [|w ps]; [reflexivity|].
  assert (Hp : pieces d (w :: ps) (join (w :: ps) [d])).
  { revert w H. induction ps as [|x ps IH]; intros w H; cbn [join].
    - rewrite app_nil_r. constructor. now apply H; left.
    - constructor; [now apply H; left|]. apply IH. intros y Hy. apply H. now right. }
  rewrite (C27_split _ _ _ Hp). clear Hp. revert H. generalize (w :: ps). clear.
  induction l as [|x l IH]; intros H; [reflexivity|]. cbn [filter]. destruct (H x (or_introl eq_refl)) as [Hx _].
  destruct x; [congruence|]. cbn [nonempty]. now rewrite IH by (intros y Hy; apply H; now right).
Qed.

(** And the other way: joining the result of a split gives the text without
    leading, trailing and repeated separators; in particular, text that has none of
    these comes back. *)
Theorem C27_split_join : forall d ps s, pieces d ps s -> (forall w, In w ps -> w <> []) -> join (split_v s d) [d] = s.
Proof.
  intros d ps s H Hn. rewrite (C27_split _ _ _ H).
  replace (filter nonempty ps) with ps.
  - clear Hn. induction H as [w Hw|w ps s Hw Hp IH]; cbn [join]; [apply app_nil_r|].
    destruct ps as [|x ps]; [inversion Hp|]. now rewrite IH.
  - clear H. induction ps as [|x ps IH]; [reflexivity|]. cbn [filter].
    pose proof (Hn x (or_introl eq_refl)). destruct x; [congruence|]. cbn [nonempty]. f_equal. apply IH.
    intros w Hw. apply Hn. now right.
Qed.

Example C27_case : split_v (str "PEEKTEXT  4 2 ") (ch 32) = [str "PEEKTEXT"; str "4"; str "2"] /\
  pieces (ch 32) [str "PEEKTEXT"; []; str "4"; str "2"; []] (str "PEEKTEXT  4 2 ").
Proof.
  split; [reflexivity|].
  change (str "PEEKTEXT  4 2 ") with (str "PEEKTEXT" ++ ch 32 :: [] ++ ch 32 :: str "4" ++ ch 32 :: str "2" ++ ch 32 :: []).
  repeat (apply pc_more; [cbn; intuition discriminate|]). apply pc_last. intros [].
Qed.

(** ---- C28 ---- *)

(** The number a sequence of decimal digits denotes. *)
Inductive denotes : text -> Z -> Prop :=
| dn_nil : denotes [] 0
| dn_snoc : forall s n c k, denotes s n -> 0 <= k <= 9 -> c = ascii_of_N (Z.to_N (48 + k)) -> denotes (s ++ [c]) (10 * n + k).

Lemma digit_char : forall k, 0 <= k <= 9 -> digit (ascii_of_N (Z.to_N (48 + k))) = Some k.
Proof.
  intros k H. unfold digit. rewrite N_ascii_embedding by lia. rewrite Z2N.id by lia.
  destruct (Z.leb_spec 48 (48 + k)); [|lia]. destruct (Z.leb_spec (48 + k) 57); [|lia]. cbn [andb]. f_equal. lia.
Qed.

Lemma digit_some : forall c k, digit c = Some k -> 0 <= k <= 9 /\ c = ascii_of_N (Z.to_N (48 + k)).
Proof.
  intros c k H. unfold digit in H. destruct (Z.leb_spec 48 (Z.of_N (N_of_ascii c))); [|discriminate].
  destruct (Z.leb_spec (Z.of_N (N_of_ascii c)) 57); [|discriminate]. cbn [andb] in H. injection H as <-. split; [lia|].
  replace (48 + (Z.of_N (N_of_ascii c) - 48)) with (Z.of_N (N_of_ascii c)) by lia. rewrite N2Z.id. symmetry. apply ascii_N_embedding.
Qed.

(** What does not begin with a digit. *)
Definition stops (s : text) : Prop := match s with [] => True | c :: _ => digit c = None end.

Lemma digits_go : forall s acc, exists w r, s = w ++ r /\ stops r /\ snd (digits acc s) = r /\
  forall p n, denotes p n -> n = acc -> denotes (p ++ w) (fst (digits acc s)).
Proof.
  induction s as [|c s IH]; intros acc; cbn [digits].
  - exists [], []. do 3 (split; [reflexivity|]). intros p n Hp ->. now rewrite app_nil_r.
  - destruct (digit c) as [k|] eqn:Hk.
    + destruct (IH (10 * acc + k)) as [w [r [H1 [H2 [H3 H4]]]]]. exists (c :: w), r. split; [now rewrite H1|].
      split; [exact H2|]. split; [exact H3|]. intros p n Hp ->. destruct (digit_some _ _ Hk) as [Hk1 Hk2].
      change (p ++ c :: w) with (p ++ [c] ++ w). rewrite app_assoc. eapply H4; [|reflexivity]. eapply dn_snoc; eauto.
    + exists [], (c :: s). do 3 (split; [exact Hk || reflexivity|]). intros p n Hp ->. now rewrite app_nil_r.
Qed.

Lemma denotes_nonneg : forall s n, denotes s n -> 0 <= n.
Proof. induction 1; lia. Qed.

Lemma denotes_digits : forall s n c, denotes s n -> In c s -> digit c <> None.
Proof.
  induction 1 as [|s n c0 k Hs IH Hk Hc]; intros H; [destruct H|]. apply in_app_or in H. destruct H as [H|[H|[]]]; [auto|].
  subst c c0. rewrite digit_char by lia. discriminate.
Qed.

Lemma denotes_fun : forall s n m, denotes s n -> denotes s m -> n = m.
Proof.
  intros s n m H. revert m. induction H as [|s n c k Hs IH Hk Hc]; intros m H2.
  - assert (G : forall t v, denotes t v -> t = [] -> v = 0).
    { intros t v Hv Ht. destruct Hv; [reflexivity|]. destruct s; discriminate Ht. }
    symmetry. eapply G; eauto.
  - assert (G : forall t v, denotes t v -> t = s ++ [c] -> v = 10 * n + k); [|symmetry; eapply G; eauto].
    intros t v Hv Ht. destruct Hv as [|s' n' c' k' Hs' Hk' Hc']; [destruct s; discriminate Ht|].
    apply app_inj_tail in Ht. destruct Ht as [-> Ht]. subst. apply (f_equal digit) in Ht. rewrite !digit_char in Ht by lia.
    injection Ht as ->. now rewrite (IH _ Hs').
Qed.

Lemma number_spec : forall s, match number s with
  | Some (n, r) => exists w, w <> [] /\ s = w ++ r /\ stops r /\ denotes w n
  | None => stops s
  end.
Proof.
  intros [|c s]; cbn [number]; [exact I|]. destruct (digit c) as [k|] eqn:Hk; [|exact Hk].
  destruct (digits_go s k) as [w [r [H1 [H2 [H3 H4]]]]]. destruct (digits k s) as [n r'] eqn:Hd. cbn [fst snd] in *. subst r'.
  exists (c :: w). split; [discriminate|]. split; [now rewrite H1|]. split; [exact H2|].
  destruct (digit_some _ _ Hk) as [Hk1 Hk2].
  apply (H4 [c] k); [|reflexivity]. change [c] with ([] ++ [c]). replace k with (10 * 0 + k) at 1 by lia. eapply dn_snoc; [constructor|lia|assumption].
Qed.

Lemma split_digits : forall w r w' r' n n', denotes w n -> denotes w' n' -> stops r -> stops r' -> w ++ r = w' ++ r' -> w = w' /\ r = r'.
Proof.
  intros w r w' r' n n' Hw Hw' Hr Hr' H.
  assert (G : forall w r w' r', (forall c, In c w -> digit c <> None) -> (forall c, In c w' -> digit c <> None) ->
    stops r -> stops r' -> w ++ r = w' ++ r' -> w = w' /\ r = r').
  { clear. induction w as [|c w IH]; intros r [|c' w'] r' H1 H2 Hr Hr' H; cbn [app] in H.
    - auto.
    - subst r. destruct (H2 c' (or_introl eq_refl)). exact Hr.
    - subst r'. destruct (H1 c (or_introl eq_refl)). exact Hr'.
    - injection H as -> H. destruct (IH r w' r') as [-> ->]; auto; intros x Hx; [apply H1|apply H2]; now right. }
  assert (F : forall w n, denotes w n -> forall c, In c w -> digit c <> None) by (intros; eapply denotes_digits; eauto).
  apply G; auto; eapply F; eauto.
Qed.

(** Reading: the longest sequence of digits at the beginning, behind an optional
    minus sign for the signed type, is the number; the result is that number or,
    if it does not fit or there is none, nothing. *)
Theorem C28_read_unsigned : forall w r n, w <> [] -> denotes w n -> stops r ->
  svtou64 (w ++ r) = if n <? 2 ^ 64 then Some n else None.
Proof.
  intros w r n Hne Hw Hr. unfold svtou64. pose proof (number_spec (w ++ r)) as H. destruct (number (w ++ r)) as [[m r']|].
  - destruct H as [w' [H1 [H2 [H3 H4]]]]. destruct (split_digits _ _ _ _ _ _ Hw H4 Hr H3 H2) as [-> ->].
    now rewrite (denotes_fun _ _ _ Hw H4).
  - exfalso. destruct w as [|c w]; [congruence|]. cbn [app stops] in H. eapply (denotes_digits _ _ c); eauto. now left.
Qed.

Theorem C28_read_signed : forall neg w r n, w <> [] -> denotes w n -> stops r ->
  svtoi64 ((if neg : bool then [ch 45] else []) ++ w ++ r) =
  let v := if neg then - n else n in if (- 2 ^ 63 <=? v) && (v <? 2 ^ 63) then Some v else None.
Proof.
  intros neg w r n Hne Hw Hr. pose proof (number_spec (w ++ r)) as H.
  assert (Hn : exists r', number (w ++ r) = Some (n, r')).
  { destruct (number (w ++ r)) as [[m r']|].
    - destruct H as [w' [H1 [H2 [H3 H4]]]]. destruct (split_digits _ _ _ _ _ _ Hw H4 Hr H3 H2) as [-> ->].
      rewrite (denotes_fun _ _ _ Hw H4). eauto.
    - exfalso. destruct w as [|c w]; [congruence|]. cbn [app stops] in H. eapply (denotes_digits _ _ c); eauto. now left. }
  destruct Hn as [r' Hn]. destruct neg; cbn [app].
  - unfold svtoi64. rewrite Ascii.eqb_refl, Hn. reflexivity.
  - destruct w as [|c w]; [congruence|]. unfold svtoi64. cbn [app] in *.
    assert (Hc : Ascii.eqb c (ch 45) = false).
    { apply Ascii.eqb_neq. intros ->. eapply (denotes_digits _ _ (ch 45)); eauto. now left. }
    rewrite Hc, Hn. reflexivity.
Qed.

(** No digits, no number. *)
Theorem C28_no_number : forall s, stops s -> svtou64 s = None /\ (hd_error s <> Some (ch 45) -> svtoi64 s = None).
Proof.
  intros [|c s] H; [split; reflexivity|]. cbn [stops] in H. split; [unfold svtou64; cbn [number]; now rewrite H|].
  intros Hc. unfold svtoi64. destruct (Ascii.eqb_spec c (ch 45)) as [->|Hn]; [destruct Hc; reflexivity|]. cbn [number]. now rewrite H.
Qed.

Lemma put_digits_spec : forall fuel n acc, 0 <= n < 10 ^ Z.of_nat fuel -> (0 < fuel)%nat ->
  exists w, w <> [] /\ put_digits fuel n acc = w ++ acc /\ denotes w n.
Proof.
  induction fuel as [|k IH]; intros n acc Hn Hf; [lia|]. cbn [put_digits].
  assert (Hm : 0 <= n mod 10 < 10) by (apply Z.mod_pos_bound; lia).
  destruct (Z.ltb_spec n 10).
  - eexists [_]. split; [discriminate|]. split; [reflexivity|].
    replace n with (10 * 0 + n mod 10) at 2 by (rewrite Z.mod_small by lia; lia).
    apply (dn_snoc []); [constructor|lia|reflexivity].
  - destruct (IH (n / 10) (ascii_of_N (Z.to_N (48 + n mod 10)) :: acc)) as [w [H1 [H2 H3]]].
    { rewrite Nat2Z.inj_succ, Z.pow_succ_r in Hn by lia. split; [apply Z.div_pos; lia|]. apply Z.div_lt_upper_bound; lia. }
    { destruct k; [|lia]. cbn in Hn. lia. }
    exists (w ++ [ascii_of_N (Z.to_N (48 + n mod 10))]). split; [now destruct w|]. split; [rewrite H2, <- app_assoc; reflexivity|].
    replace n with (10 * (n / 10) + n mod 10) at 2 by (symmetry; apply Z_div_mod_eq_full).
    eapply dn_snoc; [exact H3|lia|reflexivity].
Qed.

Lemma show_nat_spec : forall n, 0 <= n -> show_nat n <> [] /\ denotes (show_nat n) n.
Proof.
  intros n Hn. unfold show_nat. destruct (put_digits_spec (S (Z.to_nat (Z.log2 n))) n []) as [w [H1 [H2 H3]]]; [|lia|].
  - split; [exact Hn|]. pose proof (Z.log2_nonneg n). rewrite Nat2Z.inj_succ, Z2Nat.id by lia.
    destruct (Z.eq_dec n 0) as [->|Hz]; [cbn; lia|].
    destruct (Z.log2_spec n) as [_ Hl]; [lia|]. eapply Z.lt_le_trans; [exact Hl|]. apply Z.pow_le_mono_l. lia.
  - rewrite H2, app_nil_r. auto.
Qed.

(** What is printed denotes the value, and what is printed is read back, alone or
    with anything behind it that is not a digit. *)
Theorem C28_print : forall v, exists w n, w <> [] /\ denotes w n /\ show_Z v = (if v <? 0 then [ch 45] else []) ++ w /\
  v = if v <? 0 then - n else n.
Proof.
  intros v. unfold show_Z. destruct (Z.ltb_spec v 0).
  - destruct (show_nat_spec (- v)) as [H1 H2]; [lia|]. exists (show_nat (- v)), (- v). repeat (split; [assumption || reflexivity|]). lia.
  - destruct (show_nat_spec v) as [H1 H2]; [lia|]. exists (show_nat v), v. repeat (split; [assumption || reflexivity|]). lia.
Qed.

Theorem C28_signed_roundtrip : forall v r, - 2 ^ 63 <= v < 2 ^ 63 -> stops r -> svtoi64 (show_Z v ++ r) = Some v.
Proof.
  intros v r Hv Hr. destruct (C28_print v) as [w [n [H1 [H2 [H3 H4]]]]]. rewrite H3, <- app_assoc.
  rewrite (C28_read_signed _ _ _ _ H1 H2 Hr). cbv zeta. rewrite <- H4.
  destruct (Z.leb_spec (- 2 ^ 63) v); [|lia]. destruct (Z.ltb_spec v (2 ^ 63)); [|lia]. reflexivity.
Qed.

Theorem C28_unsigned_roundtrip : forall v r, 0 <= v < 2 ^ 64 -> stops r -> svtou64 (show_Z v ++ r) = Some v.
Proof.
  intros v r Hv Hr. destruct (C28_print v) as [w [n [H1 [H2 [H3 H4]]]]]. destruct (Z.ltb_spec v 0); [lia|]. subst n.
  rewrite H3. cbn [app]. rewrite (C28_read_unsigned _ _ _ H1 H2 Hr). destruct (Z.ltb_spec v (2 ^ 64)); [reflexivity|lia].
Qed.

Example C28_case : show_Z (- 9223372036854775808) = str "-9223372036854775808" /\
  svtoi64 (str "-9223372036854775808") = Some (- 2 ^ 63) /\ svtou64 (str "18446744073709551615") = Some (2 ^ 64 - 1) /\
  svtoi64 (str "9223372036854775808") = None /\ svtou64 (str "-1") = None.
Proof. repeat split; vm_compute; reflexivity. Qed.

(** ---- C43 ---- *)

Theorem C43_prefix : forall p s, is_prefix_of p s = true <-> exists t, s = p ++ t.
Proof.
  intros p s. unfold is_prefix_of.
  assert (H : forall p s, (length p <= length s)%nat -> same_upto (length p) p s = true <-> exists t, s = p ++ t).
  { clear. induction p as [|x p IH]; intros s Hl; cbn [length same_upto].
    - split; [intros _; exists s; reflexivity|reflexivity].
    - destruct s as [|y s]; cbn [length] in Hl; [lia|]. rewrite andb_true_iff, Ascii.eqb_eq, (IH s) by lia. split.
      + intros [-> [t ->]]. exists t. reflexivity.
      + intros [t Ht]. injection Ht as -> ->. eauto. }
  destruct (Nat.ltb_spec (length s) (length p)) as [Hl|Hl]; [|now apply H].
  split; [discriminate|]. intros [t ->]. rewrite app_length in Hl. lia.
Qed.

Definition blank (b : text) : Prop := Forall (fun c => is_space c = true) b.
Definition word (w : text) : Prop := w <> [] /\ Forall (fun c => is_space c = false) w.

(** [laid_out l s]: [s] consists of the words of [l], each followed by the gap that
    stands beside it; only the last gap may be empty. *)
Inductive laid_out : list (text * text) -> text -> Prop :=
| lo_nil : laid_out [] []
| lo_last : forall w g, word w -> blank g -> laid_out [(w, g)] (w ++ g)
| lo_more : forall w g l s, word w -> blank g -> g <> [] -> l <> [] -> laid_out l s -> laid_out ((w, g) :: l) (w ++ g ++ s).

(** The words with the first character of each gap between them. *)
Fixpoint squashed (l : list (text * text)) : text :=
  match l with
  | [] => []
  | [(w, _)] => w
  | (w, g) :: l' => w ++ firstn 1 g ++ squashed l'
  end.

Lemma squash_word : forall w b s, Forall (fun c => is_space c = false) w -> w <> [] -> squash_loop b (w ++ s) = w ++ squash_loop false s.
Proof.
  intros w b s H Hn. destruct w as [|c w]; [congruence|]. clear Hn. revert b. cbn [app].
  assert (G : forall w s, Forall (fun c => is_space c = false) w -> squash_loop false (w ++ s) = w ++ squash_loop false s).
  { clear. induction w as [|c w IH]; intros s H; [reflexivity|]. inversion H; subst. cbn [app squash_loop].
    rewrite H2. cbn [negb]. now rewrite IH. }
  intros b. inversion H; subst. cbn [squash_loop]. rewrite H2. cbn [negb]. now rewrite G.
Qed.

Lemma squash_gap : forall g s, blank g -> squash_loop true (g ++ s) = squash_loop true s.
Proof. induction g as [|c g IH]; intros s H; [reflexivity|]. inversion H; subst. cbn [app squash_loop]. rewrite H2. cbn [negb]. now apply IH. Qed.

Lemma strip_front_blank : forall b s, blank b -> strip_front (b ++ s) = strip_front s.
Proof. induction b as [|c b IH]; intros s H; [reflexivity|]. inversion H; subst. cbn [app strip_front]. rewrite H2. now apply IH. Qed.

Lemma strip_front_word : forall w s, word w -> strip_front (w ++ s) = w ++ s.
Proof. intros [|c w] s [H1 H2]; [congruence|]. inversion H2; subst. cbn [app strip_front]. now rewrite H3. Qed.

Lemma word_rev : forall w, word w -> word (rev w).
Proof.
  intros w [H1 H2]. split; [|now apply Forall_rev]. intros H. apply H1. rewrite <- (rev_involutive w), H. reflexivity.
Qed.

(** The body of a layout: the text up to the last word. *)
Fixpoint body (l : list (text * text)) : text :=
  match l with
  | [] => []
  | [(w, _)] => w
  | (w, g) :: l' => w ++ g ++ body l'
  end.

Lemma body_last : forall l s, laid_out l s -> l <> [] -> exists x w g, s = body l ++ g /\ blank g /\ body l = x ++ w /\ word w.
Proof.
  induction 1 as [|w g Hw Hg|w g l s Hw Hg Hgn Hl Hs IH]; intros Hn; [congruence| |].
  - exists [], w, g. cbn. auto.
  - destruct (IH Hl) as [x [w' [g' [H1 [H2 [H3 H4]]]]]]. exists (w ++ g ++ x), w', g'.
    destruct l as [|[w2 g2] l]; [congruence|]. cbn [body] in *. rewrite H3, H1, H3.
    rewrite <- !app_assoc. auto.
Qed.

Lemma squash_body : forall l s, laid_out l s -> squash_loop true (body l) = squashed l.
Proof.
  induction 1 as [|w g Hw Hg|w g l s Hw Hg Hgn Hl Hs IH]; [reflexivity| |].
  - cbn [body squashed]. rewrite <- (app_nil_r w) at 1. rewrite squash_word by apply Hw. apply app_nil_r.
  - destruct l as [|[w2 g2] l]; [congruence|]. cbn [body squashed] in *. rewrite squash_word by apply Hw. f_equal.
    destruct g as [|c g]; [congruence|]. inversion Hg; subst. cbn [app squash_loop firstn]. rewrite H1. cbn [negb]. f_equal.
    rewrite squash_gap by assumption. exact IH.
Qed.

(** Squashing a text yields its words in order, with the first character of every
    gap between them and nothing at the ends. *)
Theorem C43_squash : forall b l s, blank b -> laid_out l s -> squash_strip_whitespace (b ++ s) = squashed l.
Proof.
  intros b l s Hb Hs. unfold squash_strip_whitespace, strip_back. destruct l as [|p l].
  - inversion Hs; subst. rewrite app_nil_r, <- (app_nil_r (rev b)), strip_front_blank by now apply Forall_rev. reflexivity.
  - destruct (body_last _ _ Hs) as [x [w [g [H1 [H2 [H3 H4]]]]]]; [discriminate|].
    rewrite H1, H3, !app_assoc, rev_app_distr, strip_front_blank by now apply Forall_rev.
    rewrite rev_app_distr, strip_front_word by now apply word_rev. rewrite <- rev_app_distr, rev_involutive.
    rewrite <- app_assoc, <- H3, strip_front_blank by exact Hb.
    rewrite <- (squash_body _ _ Hs). destruct p as [w0 g0].
    assert (Hw0 : word w0) by (inversion Hs; assumption).
    assert (Hb0 : body ((w0, g0) :: l) = w0 ++ match l with [] => [] | _ => g0 ++ body l end).
    { destruct l; cbn [body]; [now rewrite app_nil_r|reflexivity]. }
    rewrite Hb0, strip_front_word by exact Hw0. reflexivity.
Qed.

(** Every text is laid out in exactly such a way. *)
Theorem C43_squash_total : forall t, exists b l s, t = b ++ s /\ blank b /\ laid_out l s.
Proof.
  intros t. remember (length t) as n eqn:Hn. assert (Hl : (length t <= n)%nat) by lia. clear Hn. revert t Hl.
  assert (Hsplit : forall (f : ascii -> bool) (t : text), exists x y, t = x ++ y /\ Forall (fun c => f c = true) x /\
    match y with [] => True | c :: _ => f c = false end).
  { intros f t. induction t as [|c t [x [y [-> [H1 H2]]]]]; [exists [], []; repeat split; constructor|].
    destruct (f c) eqn:Hf.
    - exists (c :: x), y. repeat split; [now constructor|exact H2].
    - exists [], (c :: x ++ y). repeat split; [constructor|exact Hf]. }
  induction n as [|n IH]; intros t Hl.
  - destruct t; [|cbn in Hl; lia]. exists [], [], []. repeat split; constructor.
  - destruct (Hsplit is_space t) as [b [y [-> [H1 H2]]]]. destruct y as [|c y].
    { exists b, [], []. repeat split; [exact H1|constructor]. }
    destruct (Hsplit (fun c => negb (is_space c)) (c :: y)) as [w [z [Hwz [H3 H4]]]].
    assert (Hw : word w).
    { split.
      - intros ->. cbn [app] in Hwz. subst z. rewrite H2 in H4. discriminate.
      - eapply Forall_impl; [|exact H3]. intros a Ha. cbv beta in Ha |- *. destruct (is_space a); [discriminate Ha|reflexivity]. }
    assert (Hz : (length z <= n)%nat).
    { rewrite app_length in Hl. rewrite Hwz, app_length in Hl. destruct Hw as [Hw _]. destruct w; [congruence|]. cbn [length] in Hl. lia. }
    destruct (IH z Hz) as [g [l [s [H5 [H6 H7]]]]]. rewrite Hwz.
    exists b, ((w, g) :: l), (w ++ z). split; [reflexivity|]. split; [exact H1|]. rewrite H5.
    destruct l as [|p l].
    + inversion H7; subst. rewrite app_nil_r. now constructor.
    + constructor; auto; [|discriminate]. intros ->. destruct p as [w' g']. cbn [app] in H5. subst z.
      assert (Hw' : word w') by (inversion H7; assumption).
      destruct w' as [|c' w']; [destruct Hw'; congruence|]. destruct Hw' as [_ Hw']. inversion Hw'; subst.
      inversion H7; subst; cbn [app] in H4; match goal with H : is_space _ = false |- _ => rewrite H in H4 end; discriminate.
Qed.

Lemma squashed_laid : forall l s, laid_out l s -> exists l', laid_out l' (squashed l) /\ squashed l' = squashed l /\ (l <> [] -> l' <> []).
Proof.
  induction 1 as [|w g Hw Hg|w g l s Hw Hg Hgn Hl Hs [l' [H1 [H2 H3]]]].
  - exists []. repeat split; auto. constructor.
  - exists [(w, [])]. split; [|split; [reflexivity|discriminate]]. cbn [squashed]. rewrite <- (app_nil_r w) at 2. constructor; [exact Hw|constructor].
  - destruct l as [|p l]; [congruence|]. specialize (H3 Hl). destruct g as [|c g]; [congruence|]. inversion Hg; subst.
    exists ((w, [c]) :: l'). cbn [firstn] in *.
    assert (Hs2 : squashed ((w, [c]) :: l') = w ++ [c] ++ squashed l') by (destruct l'; [congruence|reflexivity]).
    change (squashed ((w, c :: g) :: p :: l)) with (w ++ [c] ++ squashed (p :: l)). split; [|split; [|discriminate]]; [|rewrite <- H2; exact Hs2].
    constructor; auto; [|discriminate]. now constructor.
Qed.

Theorem C43_squash_idempotent : forall t, squash_strip_whitespace (squash_strip_whitespace t) = squash_strip_whitespace t.
Proof.
  intros t. destruct (C43_squash_total t) as [b [l [s [-> [H1 H2]]]]]. rewrite (C43_squash _ _ _ H1 H2).
  destruct (squashed_laid _ _ H2) as [l' [H3 [H4 _]]]. rewrite <- H4 at 2.
  apply (C43_squash [] l' _); [constructor|exact H3].
Qed.

Example C43_case : squash_strip_whitespace (str "  istep   3  ") = str "istep 3" /\
  laid_out [(str "istep", str "   "); (str "3", str "  ")] (str "istep   3  ").
Proof.
  split; [reflexivity|]. assert (Hb : forall n, blank (repeat (ch 32) n)) by (induction n; cbn; constructor; auto).
  change (str "istep   3  ") with (str "istep" ++ str "   " ++ str "3" ++ str "  ").
  apply lo_more; [split; [discriminate|repeat constructor]|apply (Hb 3%nat)|discriminate|discriminate|].
  apply lo_last; [split; [discriminate|repeat constructor]|apply (Hb 2%nat)].
Qed.

Print Assumptions C27_split.
Print Assumptions C27_split_total.
Print Assumptions C27_join_split.
Print Assumptions C27_split_join.
Print Assumptions C28_read_unsigned.
Print Assumptions C28_read_signed.
Print Assumptions C28_no_number.
Print Assumptions C28_print.
Print Assumptions C28_signed_roundtrip.
Print Assumptions C28_unsigned_roundtrip.
Print Assumptions C43_prefix.
Print Assumptions C43_squash.
Print Assumptions C43_squash_total.
Print Assumptions C43_squash_idempotent.
