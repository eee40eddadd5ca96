(** Proofs about the ALU model. *)
From Coq Require Import ZArith Bool Lia ZifyBool.
From Verif Require Import Base Alu Isa AluSpec.
Open Scope Z_scope.
Ltac Zify.zify_post_hook ::= Z.div_mod_to_equations.

Lemma Ok_inj S A (a b : A) : @Ok S A a = Ok b -> a = b.
Proof. congruence. Qed.
Ltac inv H :=
  lazymatch type of H with
  | Ok _ = Ok _ => apply Ok_inj in H; first [subst | idtac]
  | Throw _ _ = _ => discriminate H
  | Undef _ = _ => discriminate H
  end.

Lemma p63 : 2 ^ 63 = two63. Proof. reflexivity. Qed.
Lemma p64 : 2 ^ 64 = two64. Proof. reflexivity. Qed.

Ltac words :=
  unfold is_word_of, fits, in_s64, in_u64, unsigned, int64_max, int64_min, uint64_max in *;
  rewrite ?p63, ?p64 in *; unfold two63, two64 in *.

Lemma s64_range z : in_s64 (s64 z).
Proof. unfold s64, in_s64, two63, two64. destruct (Z.ltb_spec (z mod 18446744073709551616) 9223372036854775808); lia. Qed.

Lemma s64_word z : is_word_of z (s64 z).
Proof.
  split; [apply s64_range|]. unfold s64. rewrite p64.
  assert (z mod two64 = z + (- (z / two64)) * two64) as ->
    by (pose proof (Z.div_mod z two64); unfold two64 in *; lia).
  destruct (_ <? _); eexists; [reflexivity|].
  instantiate (1 := - (z / two64) - 1). ring.
Qed.

Lemma s64_id z : in_s64 z -> s64 z = z.
Proof. unfold s64, in_s64, two63, two64. intros. destruct (Z.ltb_spec (z mod 18446744073709551616) 9223372036854775808); lia. Qed.

Lemma u64_range z : in_u64 (u64 z).
Proof. unfold u64, in_u64, two64. lia. Qed.

Lemma u64_id z : in_u64 z -> u64 z = z.
Proof. unfold u64, in_u64, two64. lia. Qed.

Lemma u64_unsigned x : in_s64 x -> u64 x = unsigned x.
Proof. unfold u64. words. intros. destruct (Z.ltb_spec x 0); lia. Qed.

Lemma s64_u64 z : s64 (u64 z) = s64 z.
Proof. unfold s64, u64. rewrite Z.mod_mod; [reflexivity|discriminate]. Qed.

Lemma u64_s64 z : u64 (s64 z) = u64 z.
Proof.
  unfold s64, u64. destruct (_ <? _).
  - rewrite Z.mod_mod; [reflexivity|discriminate].
  - rewrite <- Zminus_mod_idemp_r, Z_mod_same_full, Z.sub_0_r, Z.mod_mod; [reflexivity|discriminate].
Qed.

Lemma word_unique z v w : is_word_of z v -> is_word_of z w -> v = w.
Proof. words. intros [? [k ?]] [? [j ?]]. lia. Qed.

Lemma arith_word m z v : arith m z = Ok v -> is_word_of z v.
Proof.
  unfold arith. destruct m.
  - unfold in_s64b. destruct (_ && _) eqn:E; intros H; inv H. words. split; [lia|]. exists 0. lia.
  - intros H; inv H. apply s64_word.
Qed.

Lemma arith_s64 m z v : arith m z = Ok v -> v = s64 z.
Proof. intros H. apply (word_unique z); [eapply arith_word; eauto | apply s64_word]. Qed.

Lemma bitfits z : (forall i, 63 <= i -> Z.testbit z i = Z.testbit z 63) -> fits z.
Proof.
  intros H. words.
  assert (z / 2 ^ 63 = 0 \/ z / 2 ^ 63 = -1) as D.
  { rewrite <- Z.shiftr_div_pow2 by lia.
    destruct (Z.testbit z 63) eqn:E.
    - right. apply Z.bits_inj_iff'. intros n Hn. rewrite Z.shiftr_spec, Z.bits_m1 by lia.
      rewrite H by lia. reflexivity.
    - left. apply Z.bits_inj_iff'. intros n Hn. rewrite Z.shiftr_spec, Z.bits_0 by lia.
      rewrite H by lia. reflexivity. }
  change (2 ^ 63) with 9223372036854775808 in D. lia.
Qed.

Lemma fitsbit z i : in_s64 z -> 63 <= i -> Z.testbit z i = Z.testbit z 63.
Proof.
  intros F Hi. destruct (Z.ltb_spec z 0).
  - rewrite <- (Z.lnot_involutive z). rewrite (Z.lnot_spec (Z.lnot z) i), (Z.lnot_spec (Z.lnot z) 63) by lia. f_equal.
    assert (0 <= Z.lnot z < 2 ^ 63) by (unfold Z.lnot; words; lia).
    destruct (Z.eq_dec (Z.lnot z) 0) as [->|]; [now rewrite !Z.bits_0|].
    rewrite !Z.bits_above_log2; auto; try lia.
    apply Z.log2_lt_pow2; lia.
    apply Z.lt_le_trans with 63; [apply Z.log2_lt_pow2; lia|lia].
  - destruct (Z.eq_dec z 0) as [->|]; [now rewrite !Z.bits_0|].
    unfold in_s64, two63 in F. assert (z < 2 ^ 63) by lia.
    rewrite !Z.bits_above_log2; auto; try lia.
    apply Z.log2_lt_pow2; lia.
    apply Z.lt_le_trans with 63; [apply Z.log2_lt_pow2; lia|lia].
Qed.

Lemma sz_logic v : sz_spec (mkRes v (logic_flags v)).
Proof. unfold sz_spec; cbn. lia. Qed.

Lemma land_fits x y : in_s64 x -> in_s64 y -> fits (Z.land x y).
Proof. intros; apply bitfits; intros. rewrite !Z.land_spec. now rewrite (fitsbit x i), (fitsbit y i). Qed.
Lemma lor_fits x y : in_s64 x -> in_s64 y -> fits (Z.lor x y).
Proof. intros; apply bitfits; intros. rewrite !Z.lor_spec. now rewrite (fitsbit x i), (fitsbit y i). Qed.
Lemma lxor_fits x y : in_s64 x -> in_s64 y -> fits (Z.lxor x y).
Proof. intros; apply bitfits; intros. rewrite !Z.lxor_spec. now rewrite (fitsbit x i), (fitsbit y i). Qed.



Lemma quot_fits x y : in_s64 x -> y <> 0 -> ~ (x = int64_min /\ y = -1) -> fits (Z.quot x y).
Proof.
  intros. words. 
  destruct (Z.eq_dec y 1) as [->|]; [rewrite Z.quot_1_r; lia|].
  destruct (Z.eq_dec y (-1)) as [->|].
  { change (-1) with (- (1)). rewrite Z.quot_opp_r, Z.quot_1_r by lia. lia. }
  assert (Z.abs (Z.quot x y) <= Z.abs x / 2).
  { rewrite <- Z.quot_abs by lia. rewrite Z.quot_div_nonneg by lia.
    apply Z.div_le_compat_l; lia. }
  lia.
Qed.

Lemma rem_fits x y : in_s64 x -> y <> 0 -> fits (Z.rem x y).
Proof.
  intros. words.
  assert (Z.abs (Z.rem x y) <= Z.abs x).
  { rewrite <- Z.rem_abs by lia. destruct (Z.eq_dec (Z.abs x) 0) as [->|]; [rewrite Z.rem_0_l; lia|].
    rewrite Z.rem_mod_nonneg by lia. apply Z.mod_le; lia. }
  assert (Z.abs (Z.rem x y) < 9223372036854775808 \/ x = - 9223372036854775808) by lia.
  destruct H2; [lia|].
  subst x. pose proof (Z.rem_sign_mul (-9223372036854775808) y H0). nia.
Qed.

(** The product does not fit iff dividing the wrapped product misses the operand. *)
Lemma umul_carry ux uy : 0 <= ux < two64 -> 0 < uy < two64 ->
  (ux <> (ux * uy) mod two64 / uy <-> two64 <= ux * uy).
Proof.
  intros Hx Hy. split; intros H.
  - destruct (Z.lt_ge_cases (ux * uy) two64) as [L|]; [|lia].
    exfalso. apply H. rewrite Z.mod_small by nia. symmetry. apply Z.div_mul. lia.
  - intros E.
    assert ((ux * uy) mod two64 < two64) by (unfold two64; lia).
    pose proof (Z.div_mod ((ux * uy) mod two64) uy ltac:(lia)) as D.
    pose proof (Z.mod_pos_bound ((ux * uy) mod two64) uy ltac:(lia)).
    rewrite <- E in D.
    pose proof (Z.div_mod (ux * uy) two64 ltac:(unfold two64; lia)).
    pose proof (Z.mod_pos_bound (ux * uy) two64 ltac:(unfold two64; lia)).
    assert (1 <= ux * uy / two64) by (apply Z.div_le_lower_bound; unfold two64 in *; lia).
    nia.
Qed.

Lemma smul_overflow x y r : in_s64 x -> in_s64 y -> y <> 0 -> is_word_of (x * y) r ->
  (x <> Z.quot r y <-> ~ fits (x * y)).
Proof.
  intros Hx Hy Hy0 [Hr [k Hk]]. words.
  assert (k = 0 <-> - 9223372036854775808 <= x * y < 9223372036854775808) by lia.
  destruct (Z.eq_dec k 0) as [->|Hk0].
  - replace (x * y + 0 * 18446744073709551616) with (x * y) in Hk by ring. subst r.
    rewrite Z.quot_mul by lia. lia.
  - split; [lia|]. intros _ E.
    pose proof (Z.quot_rem r y ltac:(lia)) as D.
    pose proof (Z.rem_bound_abs r y ltac:(lia)).
    rewrite <- E in D.
    assert (y * x = x * y) by ring. lia.
Qed.

Lemma shl_spec m x y v : shl m x y = Ok v ->
  fits v /\ (0 <= y < 64 -> is_word_of (x * 2 ^ y) v).
Proof.
  unfold shl, shift_count. intros H.
  assert (exists k, v = s64 (Z.shiftl x k) /\ (0 <= y < 64 -> k = y)) as (k & -> & K).
  { destruct m; [destruct (_ && _) eqn:E; [|discriminate]|]; cbn [bind] in H; inv H; eexists; split; eauto.
    intros. lia. }
  split; [apply s64_range|]. intros. rewrite (K H0) in *.
  rewrite Z.shiftl_mul_pow2 by lia. apply s64_word.
Qed.

Lemma shr_spec m x y v : in_s64 x -> shr m x y = Ok v ->
  fits v /\ (0 <= y < 64 -> v = x / 2 ^ y).
Proof.
  unfold shr, shift_count. intros Hx H.
  assert (exists k, v = Z.shiftr x k /\ (0 <= y < 64 -> k = y) /\ 0 <= k) as (k & -> & K & K0).
  { destruct m; [destruct (_ && _) eqn:E; [|discriminate]|]; cbn [bind] in H; inv H; eexists; (split; [reflexivity|]).
    lia. split; [intros|]; lia. }
  split.
  - apply bitfits. intros. rewrite !Z.shiftr_spec by lia.
    rewrite (fitsbit x (i + k)), (fitsbit x (63 + k)) by (auto; lia). reflexivity.
  - intros. rewrite (K H0). apply Z.shiftr_div_pow2. lia.
Qed.

Lemma word_sign_bit z v : is_word_of z v -> (v <? 0) = Z.testbit z 63.
Proof.
  intros [Hv [k Hk]].
  assert (Z.testbit v 63 = (v <? 0)) as <-.
  { destruct (Z.ltb_spec v 0).
    - rewrite Z.testbit_true by lia. words. change (2^63) with 9223372036854775808. lia.
    - rewrite Z.testbit_false by lia. words. change (2^63) with 9223372036854775808. lia. }
  assert (z = v + (- k) * 2 ^ 64) as -> by (rewrite Hk; ring).
  rewrite <- (Z.mod_pow2_bits_low (v + - k * 2 ^ 64) 64) by lia.
  rewrite Z.mod_add by lia. now rewrite Z.mod_pow2_bits_low by lia.
Qed.

Ltac pj := cbn [bind rval rflags sf zf cf vf logic_flags negb andb orb alu_bin alu_un bin_traps cond_holds cmp_meaning arith shift_count Bool.eqb] in *.

Theorem alu_bin_correct m op x y r :
  in_s64 x -> in_s64 y -> alu_bin m op x y = Ok r -> bin_spec op x y r.
Proof.
  intros Hx Hy. unfold bin_spec. destruct op; cbn [alu_bin].
  - unfold alu_add. destruct (arith m (x + y)) eqn:E; pj; intros H; inv H ; pj.
    apply arith_word in E. split; [unfold sz_spec; pj; lia|]. split; [exact E|]. 
    rewrite (u64_unsigned x Hx), (u64_unsigned y Hy). words. lia.
  - unfold alu_sub. destruct (arith m (x - y)) eqn:E; pj; intros H; inv H ; pj.
    apply arith_word in E. split; [unfold sz_spec; pj; lia|]. split; [exact E|]. 
    rewrite (u64_unsigned x Hx), (u64_unsigned y Hy). words. lia.
  - unfold alu_mul. intros H; inv H ; pj.
    assert (is_word_of (x * y) (s64 (u64 (u64 x * u64 y)))) as W.
    { rewrite s64_u64. unfold u64. unfold s64. rewrite <- Zmult_mod. apply s64_word. }
    split.
    { unfold sz_spec ; pj. split; [lia|].
      pose proof (u64_range (u64 x * u64 y)). rewrite s64_u64 in *.
      unfold s64. fold (u64 (u64 x * u64 y)). words. 
      destruct (Z.ltb_spec (u64 (u64 x * u64 y)) 9223372036854775808); lia. }
    split; [exact W|]. split; [|reflexivity].
    rewrite (u64_unsigned x Hx), (u64_unsigned y Hy).
    assert (0 <= unsigned x < two64) by (words; destruct (Z.ltb_spec x 0); lia).
    assert (0 <= unsigned y < two64) by (words; destruct (Z.ltb_spec y 0); lia).
    destruct (Z.eqb_spec x 0) as [->|Hx0]; pj.
    { change (unsigned 0) with 0. rewrite Z.mul_0_l. rewrite p64. unfold two64. intuition lia. }
    destruct (Z.eqb_spec y 0) as [->|Hy0]; pj.
    { change (unsigned 0) with 0. rewrite Z.mul_0_r. rewrite p64. unfold two64. intuition lia. }
    assert (unsigned y <> 0) by (words; destruct (Z.ltb_spec y 0); lia).
    rewrite p64, <- (umul_carry (unsigned x) (unsigned y)) by lia.
    unfold u64. destruct (Z.eqb_spec (unsigned x) ((unsigned x * unsigned y) mod two64 / unsigned y)); pj; intuition congruence.
  - unfold alu_div. destruct (Z.eqb_spec (u64 y) 0) as [|N0]; intros H; inv H ; pj.
    rewrite (u64_unsigned x Hx), ?(u64_unsigned y Hy) in *.
    assert (0 <= unsigned x < two64) by (words; destruct (Z.ltb_spec x 0); lia).
    assert (0 < unsigned y < two64) by (words; destruct (Z.ltb_spec y 0); lia).
    assert (0 <= unsigned x / unsigned y < two64) as D.
    { split; [apply Z.div_pos; lia|]. apply Z.div_lt_upper_bound; nia. }
    split; [|split; [|split; [apply s64_word|split; reflexivity]]].
    + unfold sz_spec ; pj. split; [lia|]. unfold s64. rewrite Z.mod_small by lia.
      generalize dependent (unsigned x / unsigned y). intros q Q. unfold two63, two64 in *.
      destruct (Z.ltb_spec q 9223372036854775808); lia.
    + intros ->. apply N0. reflexivity.
  - unfold alu_mod. destruct (_ || _) eqn:E; intros H; inv H ; pj.
    split; [apply sz_logic|]. split; [lia|]. split; [reflexivity|]. split; [|split; reflexivity].
    apply rem_fits; auto; lia.
  - unfold alu_imul. destruct (arith m (x * y)) eqn:E; pj; [|discriminate..].
    apply arith_word in E.
    destruct (Z.eqb_spec x 0) as [->|Hx0]; pj.
    { pj. intros H; inv H ; pj. split; [unfold sz_spec; pj; lia|]. split; [exact E|].
      split; auto. rewrite Z.mul_0_l. words. intuition lia. }
    destruct (Z.eqb_spec y 0) as [->|Hy0]; pj.
    { pj. intros H; inv H ; pj. split; [unfold sz_spec; pj; lia|]. split; [exact E|].
      split; auto. rewrite Z.mul_0_r. words. intuition lia. }
    unfold sdiv. destruct (_ || _); pj; intros H; inv H ; pj.
    split; [unfold sz_spec; pj; lia|]. split; [exact E|]. split; [reflexivity|].
    rewrite <- (smul_overflow x y a) by auto.
    destruct (Z.eqb_spec x (Z.quot a y)); pj; intuition congruence.
  - unfold alu_idiv, sdiv. destruct (_ || _) eqn:E; pj; intros H; inv H ; pj.
    split; [apply sz_logic|]. split; [lia|]. split; [reflexivity|]. split; [|split; reflexivity].
    apply quot_fits; auto; lia.
  - unfold alu_and. intros H; inv H ; pj. split; [apply sz_logic|]. split; [now apply land_fits|]. split; [split; reflexivity|].
    intros. apply Z.land_spec.
  - unfold alu_or. intros H; inv H ; pj. split; [apply sz_logic|]. split; [now apply lor_fits|]. split; [split; reflexivity|].
    intros. apply Z.lor_spec.
  - unfold alu_xor. intros H; inv H ; pj. split; [apply sz_logic|]. split; [now apply lxor_fits|]. split; [split; reflexivity|].
    intros. apply Z.lxor_spec.
  - unfold alu_lsh. destruct (shl m x y) eqn:E; pj; [|discriminate..].
    apply shl_spec in E as [F W].
    destruct (Z.leb_spec y 64).
    + destruct (shl m x (y - 1)) eqn:E2; pj; intros H0; inv H0 ; pj.
      apply shl_spec in E2 as [F2 W2].
      split; [unfold sz_spec; pj; lia|]. split; [auto|]. split; [auto|]. split; [auto|].
      intros. rewrite (word_sign_bit _ _ (W2 ltac:(lia))).
      rewrite Z.mul_pow2_bits by lia. f_equal. lia.
    + pj; intros H0; inv H0 ; pj. split; [unfold sz_spec; pj; lia|]. 
      split; [auto|]. split; [auto|]. split; [auto|]. lia.
  - unfold alu_rsh. destruct (shr m x y) eqn:E; pj; [|discriminate..].
    apply shr_spec in E as [F W]; auto.
    destruct (Z.leb_spec y 64).
    + destruct (shr m x (y - 1)) eqn:E2; pj; intros H0; inv H0 ; pj.
      apply shr_spec in E2 as [F2 W2]; auto.
      split; [unfold sz_spec; pj; lia|]. split; [auto|]. split; [auto|]. split; [auto|].
      intros. rewrite (W2 ltac:(lia)).
      rewrite <- (Z.shiftr_div_pow2 x (y - 1)) by lia.
      change (Z.land (Z.shiftr x (y - 1)) 1) with (Z.land (Z.shiftr x (y - 1)) (Z.ones 1)).
      rewrite Z.land_ones by lia. change (2 ^ 1) with 2.
      rewrite <- (Z.add_0_l (y - 1)) at 2. rewrite <- (Z.shiftr_spec x (y-1) 0) by lia.
      rewrite Z.bit0_odd, Zmod_odd.
      destruct (Z.odd _); reflexivity.
    + pj; intros H0; inv H0 ; pj. split; [unfold sz_spec; pj; lia|]. 
      split; [auto|]. split; [auto|]. split; [auto|]. lia.
Qed.

Theorem alu_un_correct m op x r : in_s64 x -> alu_un m op x = Ok r -> un_spec op x r.
Proof.
  intros Hx. assert (in_s64 1) as H1 by (words; lia). unfold un_spec. destruct op; cbn [alu_un].
  - intros H. apply (alu_bin_correct m BADD x 1) in H; auto. destruct H as (S & W & C & V).
    split; [auto|]. split; [auto|]. rewrite C, V. words. change (1 <? 0) with false. destruct (Z.ltb_spec x 0); pj; split; lia.
  - intros H. apply (alu_bin_correct m BSUB x 1) in H; auto. destruct H as (S & W & C & V).
    split; [auto|]. split; [auto|]. rewrite C, V. words. change (1 <? 0) with false. destruct (Z.ltb_spec x 0); pj; split; lia.
  - unfold alu_neg. destruct (arith m (- x)) eqn:E; pj; intros H; inv H ; pj.
    apply arith_word in E. split; [apply sz_logic|]. split; [auto|]. split; reflexivity.
  - unfold alu_not. intros H; inv H. split; [apply sz_logic|]. pj. split; [|split; [split; reflexivity|]].
    + unfold Z.lnot. words. lia.
    + intros. apply Z.lnot_spec. auto.
Qed.

(** With wrap-around arithmetic the integer operations trap exactly in the listed cases. *)
Theorem alu_bin_defined op x y :
  in_s64 x -> in_s64 y -> ~ bin_traps op x y -> exists r, alu_bin Wrap op x y = Ok r.
Proof.
  intros Hx Hy T. destruct op; pj; try (eexists; reflexivity).
  - unfold alu_div. destruct (Z.eqb_spec (u64 y) 0) as [E|]; [|eexists; reflexivity].
    rewrite u64_unsigned in E by auto. words. destruct (Z.ltb_spec y 0); lia.
  - unfold alu_mod. words. destruct (_ || _) eqn:E; [|eexists; reflexivity].
    change (2^63) with two63 in T. unfold two63 in T. lia.
  - unfold alu_imul. pj.
    destruct (Z.eqb_spec x 0) as [->|Hx0]; pj; [eexists; reflexivity|].
    destruct (Z.eqb_spec y 0) as [->|Hy0]; pj; [eexists; reflexivity|].
    unfold sdiv. destruct (_ || _) eqn:E; [|eexists; reflexivity]. exfalso. apply T.
    destruct (Z.eqb_spec y 0); pj; cbn in E; [lia|].
    pose proof (s64_word (x * y)) as [_ [k K]]. words. lia.
  - unfold alu_idiv, sdiv. words. destruct (_ || _) eqn:E; [|eexists; reflexivity].
    change (2^63) with two63 in T. unfold two63 in T. lia.
  - unfold alu_lsh. pj. destruct (_ <=? _); eexists; reflexivity.
  - unfold alu_rsh. pj. destruct (_ <=? _); eexists; reflexivity.
Qed.

Theorem alu_bin_traps op x y :
  in_s64 x -> in_s64 y -> bin_traps op x y -> alu_bin Wrap op x y = Undef UDiv.
Proof.
  intros Hx Hy T. destruct op; pj; try contradiction.
  - subst. reflexivity.
  - destruct T as [->|[-> ->]]; reflexivity.
  - destruct T as [-> ->]; reflexivity.
  - destruct T as [->|[-> ->]]; reflexivity.
Qed.

Theorem strict_le_wrap op x y r : alu_bin Strict op x y = Ok r -> alu_bin Wrap op x y = Ok r.
Proof.
  assert (A : forall z v, arith Strict z = Ok v -> arith Wrap z = Ok v).
  { intros z v H. apply arith_s64 in H. subst. reflexivity. }
  assert (S : forall z v, shift_count Strict z = Ok v -> shift_count Wrap z = Ok v).
  { unfold shift_count. intros z v H. destruct (_ && _) eqn:E; inv H. f_equal. apply Z.mod_small. lia. }
  destruct op; cbn [alu_bin]; auto.
  - unfold alu_add. destruct (arith Strict _) eqn:E; [rewrite (A _ _ E)|..]; auto; discriminate.
  - unfold alu_sub. destruct (arith Strict _) eqn:E; [rewrite (A _ _ E)|..]; auto; discriminate.
  - unfold alu_imul. destruct (arith Strict _) eqn:E; [rewrite (A _ _ E)|..]; auto; discriminate.
  - unfold alu_lsh, shl. destruct (shift_count Strict y) eqn:E; [rewrite (S _ _ E)|..]; try discriminate.
    cbn [bind]. destruct (y <=? 64); auto.
    destruct (shift_count Strict (y - 1)) eqn:E2; [rewrite (S _ _ E2)|..]; auto; discriminate.
  - unfold alu_rsh, shr. destruct (shift_count Strict y) eqn:E; [rewrite (S _ _ E)|..]; try discriminate.
    cbn [bind]. destruct (y <=? 64); auto.
    destruct (shift_count Strict (y - 1)) eqn:E2; [rewrite (S _ _ E2)|..]; auto; discriminate.
Qed.

(** CMP is [alu_sub] whose result is discarded (instruction.cpp:474-479). *)
Theorem cmp_jcc_correct m c a b r :
  in_s64 a -> in_s64 b -> alu_sub m a b = Ok r ->
  (cond_holds c (rflags r) = true <-> cmp_meaning c a b).
Proof.
  intros Ha Hb H. pose proof (alu_bin_correct m BSUB a b r Ha Hb H) as (Sz & W & C & V).
  destruct Sz as [S Z]. destruct r as [v [fs fz fc fv]]; pj.
  assert ((exists w, is_word_of (a - b) w /\ w < 0) <-> v < 0) as E1.
  { split; [intros (w & Hw & L)|eauto]. now rewrite (word_unique _ _ _ W Hw). }
  assert ((exists w, is_word_of (a - b) w /\ 0 <= w) <-> 0 <= v) as E2.
  { split; [intros (w & Hw & L)|eauto]. now rewrite (word_unique _ _ _ W Hw). }
  assert (v = 0 <-> a = b) as E3. { destruct W as [W [k K]]. words. lia. }
  assert (fits (a - b) -> v = a - b) as F1.
  { intros. eapply word_unique; [exact W|]. split; [assumption|]. exists 0. ring. }
  assert (~ fits (a - b) -> (v < 0 <-> 0 < a - b)) as F2.
  { destruct W as [W [k K]]. words. lia. }
  assert (unsigned a = unsigned b <-> a = b) as E4.
  { words. destruct (Z.ltb_spec a 0), (Z.ltb_spec b 0); lia. }
  assert (fits (a - b) \/ ~ fits (a - b)) as D by (words; lia).
  rewrite E3 in Z.
  clear H. 
  destruct c; cbn [cond_holds cmp_meaning sf zf cf vf rflags]; rewrite ?E1, ?E2; clear E1 E2 W;
    generalize dependent (unsigned a); intros ua; generalize dependent (unsigned b); intros ub;
    unfold fits in *; rewrite ?p63 in *; unfold in_s64, two63 in *;
    destruct fs, fz, fc, fv; cbn [negb andb orb Bool.eqb]; lia.
Qed.

(** The comparison is defined for all operands when subtraction wraps. *)
Lemma sub_defined a b : exists r, alu_sub Wrap a b = Ok r.
Proof. eexists; reflexivity. Qed.

Theorem flags_roundtrip f : flags_of_word (flags_to_word f) = f.
Proof. destruct f as [[] [] [] []]; reflexivity. Qed.

Theorem flags_low_bits v w : v mod 16 = w mod 16 -> flags_of_word v = flags_of_word w.
Proof.
  intros H. unfold flags_of_word.
  assert (forall n, 0 <= n < 4 -> Z.testbit v n = Z.testbit w n) as B.
  { intros. change 16 with (2 ^ 4) in H.
    rewrite <- (Z.mod_pow2_bits_low v 4 n), <- (Z.mod_pow2_bits_low w 4 n) by lia. congruence. }
  assert (forall n, 0 <= n < 4 -> Z.land v (2 ^ n) = Z.land w (2 ^ n)) as L.
  { intros n Hn. apply Z.bits_inj_iff'. intros i Hi. rewrite !Z.land_spec.
    destruct (Z.eq_dec i n) as [->|]; [now rewrite B|].
    rewrite Z.pow2_bits_false by auto. now rewrite !andb_false_r. }
  pose proof (L 0 ltac:(lia)) as L0. pose proof (L 1 ltac:(lia)) as L1.
  pose proof (L 2 ltac:(lia)) as L2. pose proof (L 3 ltac:(lia)) as L3.
  cbn in L0, L1, L2, L3. rewrite L0, L1, L2, L3. reflexivity.
Qed.

Theorem flags_word_range f : 0 <= flags_to_word f < 16.
Proof. destruct f as [[] [] [] []]; cbn; lia. Qed.
