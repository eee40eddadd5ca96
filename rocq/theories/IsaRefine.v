(** Every step of the in-order reading of the code (InOrder.v) is a step of the
    sequential machine of the manual (IsaSpec.v). *)
From Coq Require Import ZArith NArith List Bool Lia ZifyBool.
From Verif Require Import Base Alu Isa AluSpec AluProofs Exec Ram Cpu InOrder IsaSpec PipeBasics.
Import ListNotations.
Open Scope Z_scope.

Ltac p64 := change (2 ^ 64) with two64 in *; change (2 ^ 63) with two63 in *.

(** A state all of whose values are 64-bit words. *)
Record wordy (S : arch) : Prop := mkWordy {
  w_pc : 0 <= a_pc S < 2 ^ 64;
  w_reg : forall l, l <> LR PC -> fits (a_reg S l);
  w_mem : forall a v, a_mem S a = Some v -> fits v;
  w_in : Forall (fun b => 0 <= b < 256) (a_in S)
}.

Lemma two_facts : two64 = 2 * two63 /\ 0 < two63.
Proof. split; reflexivity. Qed.

Lemma fits_mod : forall z, fits z <-> - two63 <= z < two63.
Proof. intros z. unfold fits. p64. tauto. Qed.

Lemma s64_word : forall z, is_word_of z (s64 z).
Proof.
  intros z. unfold is_word_of. p64. unfold s64. pose proof two_facts as [H1 H2].
  pose proof (Z.div_mod z two64 ltac:(lia)) as Hd. pose proof (Z.mod_pos_bound z two64 ltac:(lia)) as Hb.
  cbv zeta. destruct (Z.ltb_spec (z mod two64) two63).
  - split; [lia|]. exists (- (z / two64)). lia.
  - split; [lia|]. exists (- (z / two64) - 1). lia.
Qed.

Lemma arith_word : forall m z x, arith m z = Ok x -> is_word_of z x.
Proof.
  intros [] z x H; unfold arith in H.
  - destruct (in_s64b z) eqn:Hz; [|discriminate]. apply Ok_eq in H. subst x.
    unfold in_s64b in Hz. apply andb_prop in Hz. destruct Hz as [H1 H2].
    apply Z.leb_le in H1. apply Z.ltb_lt in H2. split; [p64; lia|]. exists 0. lia.
  - apply Ok_eq in H. subst x. apply s64_word.
Qed.

Lemma word_fits : forall z x, is_word_of z x -> fits x.
Proof. intros z x [H _]. exact H. Qed.

Lemma word_cong : forall z z' x, is_word_of z x -> (exists k, z' = z + k * 2 ^ 64) -> is_word_of z' x.
Proof. intros z z' x [H [k Hk]] [j Hj]. split; [exact H|]. exists (k - j). lia. Qed.

Lemma word_self : forall x, fits x -> is_word_of x x.
Proof. intros x H. split; [exact H|]. exists 0. lia. Qed.

Lemma address_word : forall z x, is_word_of z x -> u64 x = address z.
Proof.
  intros z x [_ [k ->]]. unfold u64, address. p64. apply Z.mod_add. discriminate.
Qed.

Lemma address_cong : forall z z', (exists k, z' = z + k * 2 ^ 64) -> address z' = address z.
Proof. intros z z' [k ->]. unfold address. p64. apply Z.mod_add. discriminate. Qed.

Lemma u64_s64 : forall a, s64 (u64 a) = s64 a.
Proof. intros a. unfold s64, u64. rewrite Z.mod_mod by discriminate. reflexivity. Qed.

Lemma rd_val : forall S l, wordy S -> reg_val S l (rd S l) /\ fits (rd S l).
Proof.
  intros S l W. destruct l as [[]|]; unfold rd; cbn [rd];
    try (split; [constructor; discriminate|apply (w_reg S W); discriminate]).
  rewrite u64_s64. split; [constructor; apply s64_word|]. eapply word_fits. apply s64_word.
Qed.

(** ---- operands ---- *)

Lemma supply_arith : forall m z (k : Z -> operand) o', (let! x := arith m z in Ok (k x)) = Ok (S := unit) o' ->
  exists x, is_word_of z x /\ o' = k x.
Proof.
  intros m z k o' H. destruct (arith m z) as [x| |] eqn:Hx; try discriminate. cbn [bind] in H.
  apply Ok_eq in H. exists x. split; [eapply arith_word; eauto|auto].
Qed.

Lemma supply_arith2 : forall m z (f : Z -> Z) (k : Z -> operand) o',
  (let! x := arith m z in let! y := arith m (f x) in Ok (k y)) = Ok (S := unit) o' ->
  exists x y, is_word_of z x /\ is_word_of (f x) y /\ o' = k y.
Proof.
  intros m z f k o' H. destruct (arith m z) as [x| |] eqn:Hx; try discriminate. cbn [bind] in H.
  apply supply_arith in H. destruct H as [y [H1 H2]]. exists x, y. split; [eapply arith_word; eauto|auto].
Qed.

Lemma ev_imm : forall n E S v w b, ev (Datatypes.S n) E S (OImm v) = Some (w, b) -> w = v /\ b = false.
Proof. intros n E S v w b H. cbn in H. inversion H. auto. Qed.

Lemma ev_fimm : forall n E S v w b, ev (Datatypes.S n) E S (OFImm v) = Some (w, b) -> w = v /\ b = false.
Proof. intros n E S v w b H. cbn in H. inversion H. auto. Qed.

Lemma ev_mem : forall n E S a v, ev (Datatypes.S (Datatypes.S n)) E S (OMemImm a) = Some (v, false) -> a_mem S a = Some v.
Proof.
  intros n E S a v H. cbn [ev requirement supply] in H. destruct (a_mem S a) as [x|].
  - cbn in H. inversion H; subst. reflexivity.
  - cbn in H. discriminate.
Qed.

(** one register delivered *)
Ltac deliver H o' Ho :=
  match type of H with
  | match ?x with Ok _ => _ | _ => _ end = _ => destruct x as [o'| |] eqn:Ho; try discriminate
  end.

Lemma ev_regoff : forall n E S r i v b, wordy S ->
  ev (Datatypes.S (Datatypes.S n)) E S (ORegOff r i) = Some (v, b) -> is_word_of (rd S (LR r) + i) v /\ b = false.
Proof.
  intros n E S r i v b W H. remember (Datatypes.S n) as n1. cbn [ev requirement supply] in H. deliver H o' Ho.
  apply supply_arith in Ho. destruct Ho as [x [Hx ->]]. subst n1. apply ev_imm in H. destruct H as [-> ->]. auto.
Qed.

Lemma ev_memregoff : forall n E S r i v, wordy S ->
  ev (Datatypes.S (Datatypes.S (Datatypes.S n))) E S (OMemRegOff r i) = Some (v, false) ->
  a_mem S (address (rd S (LR r) + i)) = Some v.
Proof.
  intros n E S r i v W H. remember (Datatypes.S (Datatypes.S n)) as n1. cbn [ev requirement supply] in H.
  deliver H o' Ho.
  apply (supply_arith _ _ (fun x => OMemImm (u64 x))) in Ho. destruct Ho as [x [Hx ->]]. subst n1. apply ev_mem in H.
  rewrite (address_word _ _ Hx) in H. exact H.
Qed.

Lemma ev_spec : forall E S o v, wordy S -> typed_operand o -> ev 4 E S o = Some (v, false) ->
  opnd S o v /\ fits v.
Proof.
  intros E S o v W T H.
  assert (Hm : forall z, a_mem S (address z) = Some v -> fits v) by (intros z Hz; eapply (w_mem S W); eauto).
  destruct o; unfold typed_operand in T;
    try pose proof (rd_val S (LR r) W) as [Hr Fr]; try pose proof (rd_val S (LR r1) W) as [Hr1 Fr1];
    try pose proof (rd_val S (LR r2) W) as [Hr2 Fr2]; try pose proof (rd_val S (LF n) W) as [Hf Ff].
  - apply ev_imm in H. destruct H as [-> _]. split; [constructor|exact T].
  - apply ev_fimm in H. destruct H as [-> _]. split; [constructor|exact T].
  - remember 3%nat as k. cbn [ev requirement supply] in H. subst k. apply ev_imm in H. destruct H as [-> _].
    split; [now constructor|exact Fr].
  - apply ev_regoff in H; [|exact W]. destruct H as [H _]. split; [|now apply word_fits in H].
    econstructor; eauto.
  - remember 3%nat as k. cbn [ev requirement supply] in H. subst k. apply ev_regoff in H; [|exact W].
    destruct H as [H _]. split; [|now apply word_fits in H]. econstructor; eauto.
    eapply word_cong; [exact H|]. exists 0. lia.
  - remember 3%nat as k. cbn [ev requirement supply] in H. deliver H o' Ho.
    apply supply_arith in Ho. destruct Ho as [x [Hx ->]]. subst k. apply ev_imm in H. destruct H as [-> _].
    split; [|now apply word_fits in Hx]. econstructor; eauto.
  - remember 3%nat as k. cbn [ev requirement supply] in H. deliver H o' Ho.
    apply (supply_arith _ _ (fun x => ORegOff r2 x)) in Ho. destruct Ho as [x [Hx ->]]. subst k.
    apply ev_regoff in H; [|exact W]. destruct H as [H _]. split; [|now apply word_fits in H].
    econstructor; eauto. eapply word_cong; [exact H|]. destruct Hx as [_ [k Hk]]. exists (- k). lia.
  - remember 3%nat as k. cbn [ev requirement supply] in H. deliver H o' Ho.
    apply (supply_arith _ _ (fun x => ORegOff r x)) in Ho. destruct Ho as [x [Hx ->]]. subst k.
    apply ev_regoff in H; [|exact W]. destruct H as [H _]. split; [|now apply word_fits in H].
    econstructor; eauto. eapply word_cong; [exact H|]. destruct Hx as [_ [k Hk]]. exists (- k). lia.
  - remember 3%nat as k. cbn [ev requirement supply] in H. deliver H o' Ho.
    apply (supply_arith2 _ _ (fun x => o + x) (fun y => ORegOff r y)) in Ho.
    destruct Ho as [x [y [Hx [Hy ->]]]]. subst k.
    apply ev_regoff in H; [|exact W]. destruct H as [H _]. split; [|now apply word_fits in H].
    econstructor; eauto. eapply word_cong; [exact H|].
    destruct Hx as [_ [k Hk]], Hy as [_ [j Hj]]. exists (- k - j). lia.
  - apply ev_mem in H. assert (Ha : address a = a) by (unfold address; apply Z.mod_small; exact T).
    split; [|eapply (w_mem S W); eauto]. econstructor; [constructor|]. now rewrite Ha.
  - remember 3%nat as k. cbn [ev requirement supply] in H. subst k. apply ev_mem in H.
    rewrite (address_word _ _ (word_self _ Fr)) in H. split; [|eauto]. econstructor; [econstructor; eauto|exact H].
  - apply ev_memregoff in H; [|exact W]. split; [|eauto]. econstructor; [econstructor; eauto|exact H].
  - remember 3%nat as k. cbn [ev requirement supply] in H. subst k. apply ev_memregoff in H; [|exact W].
    split; [|eauto]. econstructor; [econstructor; eauto|].
    rewrite Z.add_comm. exact H.
  - remember 3%nat as k. cbn [ev requirement supply] in H. deliver H o' Ho.
    apply (supply_arith _ _ (fun x => OMemImm (u64 x))) in Ho. destruct Ho as [x [Hx ->]]. subst k. apply ev_mem in H.
    rewrite (address_word _ _ Hx) in H. split; [|eauto]. econstructor; [econstructor; eauto|exact H].
  - remember 3%nat as k. cbn [ev requirement supply] in H. deliver H o' Ho.
    apply (supply_arith _ _ (fun x => OMemRegOff r2 x)) in Ho. destruct Ho as [x [Hx ->]]. subst k.
    apply ev_memregoff in H; [|exact W]. split; [|eauto]. econstructor; [econstructor; eauto|].
    rewrite <- H. f_equal. apply address_cong. destruct Hx as [_ [k Hk]]. exists (- k). lia.
  - remember 3%nat as k. cbn [ev requirement supply] in H. deliver H o' Ho.
    apply (supply_arith _ _ (fun x => OMemRegOff r x)) in Ho. destruct Ho as [x [Hx ->]]. subst k.
    apply ev_memregoff in H; [|exact W]. split; [|eauto]. econstructor; [econstructor; eauto|].
    rewrite <- H. f_equal. apply address_cong. destruct Hx as [_ [k Hk]]. exists (- k). lia.
  - remember 3%nat as k. cbn [ev requirement supply] in H. deliver H o' Ho.
    apply (supply_arith2 _ _ (fun x => o + x) (fun y => OMemRegOff r y)) in Ho.
    destruct Ho as [x [y [Hx [Hy ->]]]]. subst k.
    apply ev_memregoff in H; [|exact W]. split; [|eauto]. econstructor; [econstructor; eauto|].
    rewrite <- H. f_equal. apply address_cong.
    destruct Hx as [_ [k Hk]], Hy as [_ [j Hj]]. exists (- k - j). lia.
  - remember 3%nat as k. cbn [ev requirement supply] in H. subst k. apply ev_fimm in H. destruct H as [-> _].
    split; [now constructor|exact Ff].
Qed.

Lemma evs_nil : forall E S vs b, evs E S [] = Some (vs, b) -> vs = [].
Proof. intros E S vs b H. cbn in H. inversion H. reflexivity. Qed.

Lemma evs_cons : forall E S o os vs, evs E S (o :: os) = Some (vs, false) ->
  exists v ws, vs = v :: ws /\ ev 4 E S o = Some (v, false) /\ evs E S os = Some (ws, false).
Proof.
  intros E S o os vs H. cbn [evs] in H. destruct (ev 4 E S o) as [[v b]|]; [|discriminate].
  destruct (evs E S os) as [[ws b']|]; [|discriminate]. inversion H as [[H1 H2]].
  apply orb_false_elim in H2. destruct H2 as [-> ->]. exists v, ws. auto.
Qed.

Lemma ev_reg : forall E S r v, ev 4 E S (OReg r) = Some (v, false) -> v = rd S (LR r).
Proof. intros E S r v H. remember 3%nat as k. cbn [ev requirement supply] in H. subst k. apply ev_imm in H. tauto. Qed.

Lemma ev_freg : forall E S n v, ev 4 E S (OFReg n) = Some (v, false) -> v = rd S (LF n).
Proof. intros E S r v H. remember 3%nat as k. cbn [ev requirement supply] in H. subst k. apply ev_fimm in H. tauto. Qed.

(** ---- effective addresses of destinations ---- *)

Lemma evs_regs : forall E S rs vs, evs E S (map OReg rs) = Some (vs, false) -> vs = map (fun r => rd S (LR r)) rs.
Proof.
  induction rs as [|r rs IH]; intros vs H; cbn [map] in *.
  - now apply evs_nil in H.
  - apply evs_cons in H. destruct H as [v [ws [-> [H1 H2]]]]. apply ev_reg in H1. apply IH in H2. now subst.
Qed.

Lemma eff_addr_spec : forall E S d rs a, wordy S -> addr_regs d = Some rs ->
  eff_addr (e_mode E) d (map (fun r => rd S (LR r)) rs) = Ok a ->
  exists z, inside S d z /\ a = address z.
Proof.
  intros E S d rs a W Hr H. set (m := e_mode E) in *. clearbody m.
  destruct d; try discriminate Hr; cbn [addr_regs] in Hr; inversion Hr; subst rs; clear Hr;
    cbn [map] in H; unfold eff_addr in H; cbn [supply] in H;
    try pose proof (rd_val S (LR r) W) as [Hr Fr]; try pose proof (rd_val S (LR r1) W) as [Hr1 Fr1];
    try pose proof (rd_val S (LR r2) W) as [Hr2 Fr2].
  - cbn [bind mem_index] in H. apply Ok_eq in H. subst a. exists (rd S (LR r)). split; [now constructor|].
    apply address_word. now apply word_self.
  - destruct (arith m (rd S (LR r) + o)) as [x| |] eqn:Hx; try discriminate. cbn [bind mem_index] in H.
    apply Ok_eq in H. subst a. eexists. split; [constructor; exact Hr|]. apply address_word. now apply arith_word in Hx.
  - cbn [bind supply] in H. destruct (arith m (rd S (LR r2) + rd S (LR r1))) as [x| |] eqn:Hx; try discriminate.
    cbn [bind mem_index] in H. apply Ok_eq in H. subst a. eexists. split; [constructor; [exact Hr1|exact Hr2]|].
    apply address_word. rewrite Z.add_comm. now apply arith_word in Hx.
  - destruct (arith m (rd S (LR r) * s)) as [x| |] eqn:Hx; try discriminate. cbn [bind mem_index] in H.
    apply Ok_eq in H. subst a. eexists. split; [constructor; exact Hr|]. apply address_word. now apply arith_word in Hx.
  - destruct (arith m (o + rd S (LR r))) as [x| |] eqn:Hx; try discriminate. cbn [bind supply] in H.
    destruct (arith m (rd S (LR r2) + x)) as [y| |] eqn:Hy; try discriminate. cbn [bind mem_index] in H.
    apply Ok_eq in H. subst a. eexists. split; [constructor; [exact Hr|exact Hr2]|].
    apply arith_word in Hx, Hy. rewrite (address_word _ _ Hy). apply address_cong.
    destruct Hx as [_ [k Hk]]. exists k. lia.
  - destruct (arith m (s * rd S (LR r2))) as [x| |] eqn:Hx; try discriminate. cbn [bind supply] in H.
    destruct (arith m (rd S (LR r) + x)) as [y| |] eqn:Hy; try discriminate. cbn [bind mem_index] in H.
    apply Ok_eq in H. subst a. eexists. split; [constructor; [exact Hr|exact Hr2]|].
    apply arith_word in Hx, Hy. rewrite (address_word _ _ Hy). apply address_cong.
    destruct Hx as [_ [k Hk]]. exists k. lia.
  - destruct (arith m (s * rd S (LR r2))) as [x| |] eqn:Hx; try discriminate. cbn [bind] in H.
    destruct (arith m (o + x)) as [y| |] eqn:Hy; try discriminate. cbn [bind supply] in H.
    destruct (arith m (rd S (LR r) + y)) as [w| |] eqn:Hw; try discriminate. cbn [bind mem_index] in H.
    apply Ok_eq in H. subst a. eexists. split; [constructor; [exact Hr|exact Hr2]|].
    apply arith_word in Hx, Hy, Hw. rewrite (address_word _ _ Hw). apply address_cong.
    destruct Hx as [_ [k Hk]], Hy as [_ [j Hj]]. exists (k + j). lia.
Qed.

Lemma s64_address_word : forall z, is_word_of z (s64 (address z)).
Proof.
  intros z. unfold address. p64. change (z mod two64) with (u64 z). rewrite u64_s64. apply s64_word.
Qed.

Lemma flags_word_bits : forall f, flags_to_word f = flag_bits f.
Proof. intros [[] [] [] []]; reflexivity. Qed.

Lemma land_bit : forall v k, 0 <= k -> negb (Z.land v (2 ^ k) =? 0) = Z.testbit v k.
Proof.
  intros v k Hk. destruct (Z.testbit v k) eqn:Hb.
  - destruct (Z.eqb_spec (Z.land v (2 ^ k)) 0) as [H|H]; [|reflexivity].
    assert (Hx : Z.testbit (Z.land v (2 ^ k)) k = true) by (rewrite Z.land_spec, Hb, Z.pow2_bits_true; auto).
    rewrite H, Z.bits_0 in Hx. discriminate.
  - destruct (Z.eqb_spec (Z.land v (2 ^ k)) 0) as [H|H]; [reflexivity|]. exfalso. apply H.
    apply Z.bits_inj'. intros n Hn. rewrite Z.land_spec, Z.bits_0.
    destruct (Z.eq_dec n k) as [->|Hne]; [now rewrite Hb|].
    rewrite Z.pow2_bits_false by auto. apply andb_false_r.
Qed.

Lemma cond_taken : forall c v, cond_holds c (flags_of_word v) = taken c v.
Proof.
  intros c v. unfold flags_of_word, taken.
  pose proof (land_bit v 0 ltac:(lia)) as H0. pose proof (land_bit v 1 ltac:(lia)) as H1.
  pose proof (land_bit v 2 ltac:(lia)) as H2. pose proof (land_bit v 3 ltac:(lia)) as H3.
  change (2 ^ 0) with 1 in H0. change (2 ^ 1) with 2 in H1. change (2 ^ 2) with 4 in H2. change (2 ^ 3) with 8 in H3.
  rewrite H0, H1, H2, H3. cbv zeta.
  destruct c; cbn [cond_holds zf sf cf vf]; try reflexivity.
  now rewrite negb_orb.
Qed.

Lemma get_char_read : forall s c rest, get_char s = Some (c, rest) -> Forall (fun b => 0 <= b < 256) s ->
  read_char s c rest /\ fits c /\ Forall (fun b => 0 <= b < 256) rest.
Proof.
  induction s as [|b s IH]; intros c rest H Hs; cbn [get_char] in H; [discriminate|].
  apply Forall_cons_iff in Hs. destruct Hs as [Hb Hs].
  destruct (is_space b) eqn:Hsp.
  - destruct (IH _ _ H Hs) as [H1 H2]. split; [|exact H2]. apply rc_blank; [|exact H1].
    unfold is_space in Hsp. cbn. lia.
  - inversion H; subst. rewrite fits_mod. assert (Hb2 : 256 <= two63) by discriminate.
    destruct (Z.ltb_spec b 128).
    + split; [apply rc_low; [|lia]|split; [lia|exact Hs]].
      unfold is_space in Hsp. cbn. lia.
    + split; [apply rc_high; lia|split; [lia|exact Hs]].
Qed.

Lemma int_of_spec : forall x, - 2 ^ 31 <= int_of x < 2 ^ 31 /\ (int_of x - x) mod 2 ^ 32 = 0.
Proof.
  intros x. unfold int_of. change (2 ^ 31) with 2147483648. change (2 ^ 32) with 4294967296. cbv zeta.
  pose proof (Z.mod_pos_bound x 4294967296 ltac:(lia)) as Hb.
  pose proof (Z.div_mod x 4294967296 ltac:(lia)) as Hd.
  destruct (Z.ltb_spec (x mod 4294967296) 2147483648); (split; [lia|]).
  - replace (x mod 4294967296 - x) with (- (x / 4294967296) * 4294967296) by lia. apply Z_mod_mult.
  - replace (x mod 4294967296 - 4294967296 - x) with ((- (x / 4294967296) - 1) * 4294967296) by lia. apply Z_mod_mult.
Qed.

Lemma prog_at_instr : forall p pc, 0 <= pc -> prog_at p pc = instr_at p pc.
Proof.
  intros p pc H. unfold prog_at, instr_at. destruct (Z.leb_spec 0 pc); [|lia]. cbn [andb].
  destruct (Z.ltb_spec pc (Z.of_nat (length p))); [reflexivity|].
  rewrite nth_overflow; [reflexivity|lia].
Qed.

Lemma same_refl : forall S, same S S.
Proof. intros S. constructor; auto. Qed.

Ltac regs :=
  let l := fresh "l" in let Hl := fresh "Hl" in
  intros l Hl; unfold upd;
  repeat match goal with |- context [lreg_eqb ?a ?b] =>
    destruct (lreg_eqb_spec a b); subst; try congruence; auto end.
Ltac same_tac :=
  constructor; cbn [commit set_pc put store print take_input halt jump next result float_result
    a_pc a_reg a_mem a_out a_in a_halted late_reg last_set store_of act_val act_addr out_of in_after is_halt];
  rewrite ?app_nil_r, ?orb_false_r, ?orb_true_r, ?flags_word_bits; try reflexivity; try (regs; fail);
  try (repeat match goal with |- context [lreg_eqb ?a ?b] => destruct (lreg_eqb_spec a b); try congruence end; auto; fail).

Lemma pc_not : forall i ps l, pc_ok i -> jump_dest i = None -> produces i = Some ps -> In (PReg l) ps -> l <> LR PC.
Proof. intros i ps l H Hj Hp Hin ->. specialize (H Hj). rewrite Hp in H. contradiction. Qed.

Lemma pcset_no : forall d v rest, d <> LR PC -> last_set (LR PC) rest = None -> last_set (LR PC) (ASet d v :: rest) = None.
Proof.
  intros d v rest Hd Hr. cbn [last_set]. rewrite Hr. destruct (lreg_eqb_spec (LR PC) d); congruence.
Qed.

(** ---- one instruction ---- *)

Lemma effect_ok : forall E i S os vs acts, wordy S -> typed_instr i -> pc_ok i ->
  operands i = Some os -> evs E S os = Some (vs, false) -> exec_acts E i vs = Ok acts ->
  (forall a v, store_of i acts = Some (a, v) -> a_mem S a <> None) ->
  (forall r, i = IGetchar r -> get_char (a_in S) <> None) ->
  effect (e_fops E) i S (commit i vs acts S).
Proof.
  intros E i S os vs acts W T P Hos Hev Hex Hst Hgc.
  assert (Hnext : u64 (a_pc S + 1) = address (a_pc S + 1)) by (unfold u64, address; p64; reflexivity).
  assert (Hsp : rd S (LR SP) = a_reg S (LR SP)) by reflexivity.
  pose proof (rd_val S (LR SP) W) as [_ Fsp].
  destruct i; cbn [operands] in Hos.
  - (* IBin *)
    inversion Hos; subst os; clear Hos.
    apply evs_cons in Hev. destruct Hev as [x [ws [-> [Hx Hev]]]].
    apply evs_cons in Hev. destruct Hev as [y [ws' [-> [Hy Hev]]]]. apply evs_nil in Hev. subst ws'.
    cbn [exec_acts] in Hex. destruct (alu_bin (e_mode E) op x y) as [q| |] eqn:Hq; try discriminate.
    cbn [bind] in Hex. apply Ok_eq in Hex. subst acts. cbn [typed_instr] in T.
    pose proof Hx as Hx'. apply ev_reg in Hx'. destruct (rd_val S (LR r) W) as [Hr Fr]. rewrite <- Hx' in Hr, Fr.
    destruct (ev_spec _ _ _ _ W T Hy) as [Oy Fy].
    assert (Hd : LR dest <> LR PC).
    { eapply pc_not; [exact P|reflexivity|reflexivity|now left]. }
    exists x, y, q. split; [exact Hr|]. split; [exact Oy|].
    split; [eapply alu_bin_correct; [exact Fr|exact Fy|exact Hq]|].
    same_tac.
  - (* IUn *)
    inversion Hos; subst os; clear Hos.
    apply evs_cons in Hev. destruct Hev as [x [ws [-> [Hx Hev]]]]. apply evs_nil in Hev. subst ws.
    cbn [exec_acts] in Hex. destruct (alu_un (e_mode E) op x) as [q| |] eqn:Hq; try discriminate.
    cbn [bind] in Hex. apply Ok_eq in Hex. subst acts.
    apply ev_reg in Hx. destruct (rd_val S (LR r) W) as [Hr Fr]. rewrite <- Hx in Hr, Fr.
    assert (Hd : LR r <> LR PC).
    { eapply pc_not; [exact P|reflexivity|reflexivity|now left]. }
    exists x, q. split; [exact Hr|].
    split; [eapply alu_un_correct; [exact Fr|exact Hq]|].
    same_tac.
  - (* IFBin *)
    inversion Hos; subst os; clear Hos.
    apply evs_cons in Hev. destruct Hev as [x [ws [-> [Hx Hev]]]].
    apply evs_cons in Hev. destruct Hev as [y [ws' [-> [Hy Hev]]]]. apply evs_nil in Hev. subst ws'.
    cbn [exec_acts] in Hex. apply Ok_eq in Hex. subst acts. cbn [typed_instr] in T.
    apply ev_freg in Hx. destruct (rd_val S (LF f) W) as [Hr Fr]. rewrite <- Hx in Hr, Fr.
    destruct (ev_spec _ _ _ _ W T Hy) as [Oy Fy].
    exists x, y. split; [exact Hr|]. split; [exact Oy|].
    assert (He : alu_fbin (e_fops E) op x y = float_op (e_fops E) op x y) by (destruct op; reflexivity).
    rewrite He. same_tac.
  - (* IMov *)
    cbn [typed_instr] in T. destruct T as [Td Tv].
    assert (Hreg : forall r, d = OReg r -> LR r <> LR PC).
    { intros r ->. eapply pc_not; [exact P|reflexivity|reflexivity|now left]. }
    destruct (addr_regs d) as [rs|] eqn:Hrs.
    + assert (Hd : os = v :: map OReg rs) by (destruct d; cbn [addr_regs] in Hrs; try discriminate; inversion Hrs; subst rs; inversion Hos; reflexivity).
      clear Hos. subst os. apply evs_cons in Hev. destruct Hev as [y [ws [-> [Hy Hev]]]].
      apply evs_regs in Hev. subst ws. destruct (ev_spec _ _ _ _ W Tv Hy) as [Oy Fy].
      assert (Hex' : exists a, eff_addr (e_mode E) d (map (fun r => rd S (LR r)) rs) = Ok a /\ acts = [AAddr a; AVal y]).
      { destruct d; cbn [addr_regs] in Hrs; try discriminate; cbn [exec_acts] in Hex;
          (destruct (eff_addr (e_mode E) _ (map (fun r => rd S (LR r)) rs)) as [a| |]; try discriminate;
           cbn [bind] in Hex; apply Ok_eq in Hex; exists a; split; [reflexivity|now symmetry]). }
      destruct Hex' as [a [Ha ->]]. destruct (eff_addr_spec E S d rs a W Hrs Ha) as [z [Hz Haz]].
      assert (Hm : exists z y0, inside S d z /\ opnd S v y0 /\ a_mem S (address z) <> None /\
        same (commit (IMov d v) (y :: map (fun r => rd S (LR r)) rs) [AAddr a; AVal y] S) (next (store S (address z) y0))).
      { exists z, y. split; [exact Hz|]. split; [exact Oy|].
        split; [subst a; apply (Hst _ y); reflexivity|].
        subst a. same_tac. }
      destruct d; cbn [addr_regs] in Hrs; try discriminate; exact Hm.
    + destruct d; cbn [addr_regs] in Hrs; try discriminate; inversion Hos; subst os; clear Hos Hrs;
        apply evs_cons in Hev; destruct Hev as [y [ws [-> [Hy Hev]]]]; apply evs_nil in Hev; subst ws;
        destruct (ev_spec _ _ _ _ W Tv Hy) as [Oy Fy]; cbn [exec_acts] in Hex; apply Ok_eq in Hex; subst acts.
      * specialize (Hreg r eq_refl). exists y. split; [exact Oy|]. same_tac.
      * assert (Haa : address a = a) by (unfold address; apply Z.mod_small; exact Td).
        exists a, y. split; [constructor|]. split; [exact Oy|]. rewrite Haa.
        split; [apply (Hst _ y); reflexivity|]. same_tac.
      * exists y. split; [exact Oy|]. same_tac.
  - (* ILea *)
    assert (Hreg : LR r <> LR PC) by (eapply pc_not; [exact P|reflexivity|reflexivity|now left]).
    destruct (addr_regs m) as [rs|] eqn:Hrs; [|destruct m; discriminate].
    assert (Hd : os = map OReg rs) by (destruct m; try discriminate; inversion Hos; reflexivity).
    subst os. apply evs_regs in Hev. subst vs.
    assert (Hex' : exists a, eff_addr (e_mode E) m (map (fun r => rd S (LR r)) rs) = Ok a /\ acts = [ASet (LR r) (s64 a)]).
    { destruct m; try discriminate;
      (cbn [exec_acts] in Hex;
       match type of Hex with context [eff_addr ?a ?b ?c] => destruct (eff_addr a b c) as [x| |]; try discriminate end;
       cbn [bind] in Hex; apply Ok_eq in Hex; exists x; split; [reflexivity|now symmetry]). }
    destruct Hex' as [a [Ha ->]]. destruct (eff_addr_spec E S m rs a W Hrs Ha) as [z [Hz ->]].
    exists z, (s64 (address z)). split; [exact Hz|]. split; [apply s64_address_word|].
    same_tac.
  - inversion Hos; subst os; clear Hos. apply evs_nil in Hev. subst vs. cbn [exec_acts] in Hex. apply Ok_eq in Hex. subst acts.
    unfold effect. same_tac.
  - inversion Hos; subst os; clear Hos. apply evs_nil in Hev. subst vs. cbn [exec_acts] in Hex. apply Ok_eq in Hex. subst acts.
    unfold effect. same_tac.
  - inversion Hos; subst os; clear Hos. apply evs_nil in Hev. subst vs. cbn [exec_acts] in Hex. apply Ok_eq in Hex. subst acts.
    unfold effect. same_tac.
  - inversion Hos; subst os; clear Hos. apply evs_nil in Hev. subst vs. cbn [exec_acts] in Hex. apply Ok_eq in Hex. subst acts.
    unfold effect. same_tac.
  - (* CLF *)
    inversion Hos; subst os; clear Hos. apply evs_nil in Hev. subst vs. cbn [exec_acts] in Hex. apply Ok_eq in Hex. subst acts.
    unfold effect. same_tac.
  - (* CMP *)
    inversion Hos; subst os; clear Hos.
    apply evs_cons in Hev. destruct Hev as [x [ws [-> [Hx Hev]]]].
    apply evs_cons in Hev. destruct Hev as [y [ws' [-> [Hy Hev]]]]. apply evs_nil in Hev. subst ws'.
    cbn [exec_acts] in Hex. destruct (alu_sub (e_mode E) x y) as [q| |] eqn:Hq; try discriminate.
    cbn [bind] in Hex. apply Ok_eq in Hex. subst acts. cbn [typed_instr] in T.
    apply ev_reg in Hx. destruct (rd_val S (LR r) W) as [Hr Fr]. rewrite <- Hx in Hr, Fr.
    destruct (ev_spec _ _ _ _ W T Hy) as [Oy Fy].
    exists x, y, q. split; [exact Hr|]. split; [exact Oy|].
    split; [eapply (alu_bin_correct (e_mode E) BSUB); [exact Fr|exact Fy|exact Hq]|]. same_tac.
  - (* FCMP *)
    inversion Hos; subst os; clear Hos.
    apply evs_cons in Hev. destruct Hev as [x [ws [-> [Hx Hev]]]].
    apply evs_cons in Hev. destruct Hev as [y [ws' [-> [Hy Hev]]]]. apply evs_nil in Hev. subst ws'.
    cbn [exec_acts] in Hex. apply Ok_eq in Hex. subst acts. cbn [typed_instr] in T.
    apply ev_freg in Hx. destruct (rd_val S (LF f) W) as [Hr Fr]. rewrite <- Hx in Hr, Fr.
    destruct (ev_spec _ _ _ _ W T Hy) as [Oy Fy].
    exists x, y. split; [exact Hr|]. split; [exact Oy|]. cbv zeta. unfold fflags. same_tac.
  - (* JMP *)
    inversion Hos; subst os; clear Hos.
    apply evs_cons in Hev. destruct Hev as [x [ws [-> [Hx Hev]]]]. apply evs_nil in Hev. subst ws.
    cbn [exec_acts] in Hex. apply Ok_eq in Hex. subst acts. cbn [typed_instr] in T.
    destruct (ev_spec _ _ _ _ W T Hx) as [Oy Fy]. exists x. split; [exact Oy|]. same_tac.
  - (* LOOP *)
    inversion Hos; subst os; clear Hos.
    apply evs_cons in Hev. destruct Hev as [x [ws [-> [Hx Hev]]]].
    apply evs_cons in Hev. destruct Hev as [y [ws' [-> [Hy Hev]]]]. apply evs_nil in Hev. subst ws'.
    cbn [exec_acts] in Hex. destruct (alu_sub (e_mode E) x 1) as [q| |] eqn:Hq; try discriminate.
    cbn [bind] in Hex. apply Ok_eq in Hex. subst acts. cbn [typed_instr] in T.
    apply ev_reg in Hx. destruct (rd_val S (LR r) W) as [Hr Fr]. rewrite <- Hx in Hr, Fr.
    destruct (ev_spec _ _ _ _ W T Hy) as [Oy Fy].
    exists x, y, q. split; [exact Hr|]. split; [exact Oy|].
    split; [eapply (alu_un_correct (e_mode E) UDEC); [exact Fr|exact Hq]|].
    destruct (Z.eqb_spec (rval q) 0) as [Hz|Hz]; cbn [app]; [|same_tac].
    destruct r; same_tac. cbn [lreg_eqb reg_eqb]. rewrite Hz. reflexivity.
  - (* Jcc *)
    inversion Hos; subst os; clear Hos.
    apply evs_cons in Hev. destruct Hev as [x [ws [-> [Hx Hev]]]].
    apply evs_cons in Hev. destruct Hev as [y [ws' [-> [Hy Hev]]]]. apply evs_nil in Hev. subst ws'.
    cbn [exec_acts] in Hex. apply Ok_eq in Hex. subst acts. cbn [typed_instr] in T.
    apply ev_reg in Hy. cbn [rd] in Hy. subst y.
    destruct (ev_spec _ _ _ _ W T Hx) as [Oy Fy]. exists x. split; [exact Oy|]. rewrite cond_taken.
    destruct (taken c (a_reg S (LR Flags))); same_tac.
  - (* CALL *)
    inversion Hos; subst os; clear Hos.
    apply evs_cons in Hev. destruct Hev as [x [ws [-> [Hx Hev]]]].
    apply evs_cons in Hev. destruct Hev as [y [ws' [-> [Hy Hev]]]].
    apply evs_cons in Hev. destruct Hev as [z [ws'' [-> [Hz Hev]]]]. apply evs_nil in Hev. subst ws''.
    apply ev_reg in Hy. apply ev_reg in Hz. cbn [exec_acts] in Hex. cbn [rd] in Hy, Hz. subst y z.
    destruct (arith (e_mode E) (a_reg S (LR SP) - 1)) as [sp| |] eqn:Hs; try discriminate.
    cbn [bind] in Hex. apply Ok_eq in Hex. subst acts. cbn [typed_instr] in T. apply arith_word in Hs.
    destruct (ev_spec _ _ _ _ W T Hx) as [Oy Fy]. rewrite (address_word _ _ (word_self _ (word_fits _ _ Hs))) in *.
    exists x, sp, (s64 (u64 (a_pc S + 1))). split; [exact Oy|]. split; [exact Hs|].
    split; [rewrite u64_s64; apply s64_word|]. split; [eapply Hst; reflexivity|]. same_tac.
  - (* RET *)
    inversion Hos; subst os; clear Hos.
    apply evs_cons in Hev. destruct Hev as [x [ws [-> [Hx Hev]]]].
    apply evs_cons in Hev. destruct Hev as [y [ws' [-> [Hy Hev]]]]. apply evs_nil in Hev. subst ws'.
    apply ev_reg in Hy. cbn [exec_acts] in Hex. cbn [rd] in Hy. subst y.
    destruct (arith (e_mode E) (a_reg S (LR SP) + 1)) as [sp| |] eqn:Hs; try discriminate.
    cbn [bind] in Hex. apply Ok_eq in Hex. subst acts. apply arith_word in Hs.
    exists x, sp. split; [|split; [exact Hs|same_tac]].
    remember 3%nat as k. cbn [ev requirement supply] in Hx. subst k. apply ev_mem in Hx.
    rewrite (address_word _ _ (word_self _ Fsp)) in Hx. exact Hx.
  - (* PUSH *)
    inversion Hos; subst os; clear Hos.
    apply evs_cons in Hev. destruct Hev as [x [ws [-> [Hx Hev]]]].
    apply evs_cons in Hev. destruct Hev as [y [ws' [-> [Hy Hev]]]]. apply evs_nil in Hev. subst ws'.
    apply ev_reg in Hy. cbn [exec_acts] in Hex. cbn [rd] in Hy. subst y.
    destruct (arith (e_mode E) (a_reg S (LR SP) - 1)) as [sp| |] eqn:Hs; try discriminate.
    cbn [bind] in Hex. apply Ok_eq in Hex. subst acts. cbn [typed_instr] in T. apply arith_word in Hs.
    destruct (ev_spec _ _ _ _ W T Hx) as [Oy Fy]. rewrite (address_word _ _ (word_self _ (word_fits _ _ Hs))) in *.
    exists x, sp. split; [exact Oy|]. split; [exact Hs|]. split; [eapply Hst; reflexivity|]. same_tac.
  - (* FPUSH *)
    inversion Hos; subst os; clear Hos.
    apply evs_cons in Hev. destruct Hev as [x [ws [-> [Hx Hev]]]].
    apply evs_cons in Hev. destruct Hev as [y [ws' [-> [Hy Hev]]]]. apply evs_nil in Hev. subst ws'.
    apply ev_reg in Hy. cbn [exec_acts] in Hex. cbn [rd] in Hy. subst y.
    destruct (arith (e_mode E) (a_reg S (LR SP) - 1)) as [sp| |] eqn:Hs; try discriminate.
    cbn [bind] in Hex. apply Ok_eq in Hex. subst acts. cbn [typed_instr] in T. apply arith_word in Hs.
    destruct (ev_spec _ _ _ _ W T Hx) as [Oy Fy]. rewrite (address_word _ _ (word_self _ (word_fits _ _ Hs))) in *.
    exists x, sp. split; [exact Oy|]. split; [exact Hs|]. split; [eapply Hst; reflexivity|]. same_tac.
  - (* POP *)
    assert (Hreg : LR r <> LR PC) by (eapply pc_not; [exact P|reflexivity|reflexivity|now left]).
    inversion Hos; subst os; clear Hos.
    apply evs_cons in Hev. destruct Hev as [x [ws [-> [Hx Hev]]]].
    apply evs_cons in Hev. destruct Hev as [y [ws' [-> [Hy Hev]]]]. apply evs_nil in Hev. subst ws'.
    apply ev_reg in Hy. cbn [exec_acts] in Hex. cbn [rd] in Hy. subst y.
    destruct (arith (e_mode E) (a_reg S (LR SP) + 1)) as [sp| |] eqn:Hs; try discriminate.
    cbn [bind] in Hex. apply Ok_eq in Hex. subst acts. apply arith_word in Hs.
    exists x, sp. split; [|split; [exact Hs|same_tac]].
    remember 3%nat as k. cbn [ev requirement supply] in Hx. subst k. apply ev_mem in Hx.
    rewrite (address_word _ _ (word_self _ Fsp)) in Hx. exact Hx.
  - (* FPOP *)
    inversion Hos; subst os; clear Hos.
    apply evs_cons in Hev. destruct Hev as [x [ws [-> [Hx Hev]]]].
    apply evs_cons in Hev. destruct Hev as [y [ws' [-> [Hy Hev]]]]. apply evs_nil in Hev. subst ws'.
    apply ev_reg in Hy. cbn [exec_acts] in Hex. cbn [rd] in Hy. subst y.
    destruct (arith (e_mode E) (a_reg S (LR SP) + 1)) as [sp| |] eqn:Hs; try discriminate.
    cbn [bind] in Hex. apply Ok_eq in Hex. subst acts. apply arith_word in Hs.
    exists x, sp. split; [|split; [exact Hs|same_tac]].
    remember 3%nat as k. cbn [ev requirement supply] in Hx. subst k. apply ev_mem in Hx.
    rewrite (address_word _ _ (word_self _ Fsp)) in Hx. exact Hx.
  - (* PUTCHAR *)
    inversion Hos; subst os; clear Hos.
    apply evs_cons in Hev. destruct Hev as [x [ws [-> [Hx Hev]]]]. apply evs_nil in Hev. subst ws.
    cbn [exec_acts] in Hex. apply Ok_eq in Hex. subst acts.
    apply ev_reg in Hx. destruct (rd_val S (LR r) W) as [Hr Fr]. rewrite <- Hx in Hr, Fr.
    exists x. split; [exact Hr|]. same_tac.
  - (* PUTNUM *)
    inversion Hos; subst os; clear Hos.
    apply evs_cons in Hev. destruct Hev as [x [ws [-> [Hx Hev]]]]. apply evs_nil in Hev. subst ws.
    cbn [exec_acts] in Hex. apply Ok_eq in Hex. subst acts.
    apply ev_reg in Hx. destruct (rd_val S (LR r) W) as [Hr Fr]. rewrite <- Hx in Hr, Fr.
    destruct (int_of_spec x) as [I1 I2].
    exists x, (int_of x). split; [exact Hr|]. split; [exact I1|]. split; [exact I2|]. same_tac.
  - (* GETCHAR *)
    assert (Hreg : LR r <> LR PC) by (eapply pc_not; [exact P|reflexivity|reflexivity|now left]).
    inversion Hos; subst os; clear Hos. apply evs_nil in Hev. subst vs.
    cbn [exec_acts] in Hex. apply Ok_eq in Hex. subst acts.
    specialize (Hgc r eq_refl). destruct (get_char (a_in S)) as [[c rest]|] eqn:Hg; [|congruence].
    destruct (get_char_read _ _ _ Hg (w_in S W)) as [Hrc _].
    exists c, rest. split; [exact Hrc|]. same_tac; rewrite Hg; [|reflexivity].
    cbn [option_map fst]. regs.
  - (* EXT *)
    inversion Hos; subst os; clear Hos.
    apply evs_cons in Hev. destruct Hev as [x [ws [-> [Hx Hev]]]]. apply evs_nil in Hev. subst ws.
    cbn [exec_acts] in Hex. apply Ok_eq in Hex. subst acts.
    apply ev_reg in Hx. destruct (rd_val S (LR r) W) as [Hr Fr]. rewrite <- Hx in Hr, Fr.
    exists x. split; [exact Hr|]. same_tac.
  - (* NRW *)
    assert (Hreg : LR r <> LR PC) by (eapply pc_not; [exact P|reflexivity|reflexivity|now left]).
    inversion Hos; subst os; clear Hos.
    apply evs_cons in Hev. destruct Hev as [x [ws [-> [Hx Hev]]]]. apply evs_nil in Hev. subst ws.
    cbn [exec_acts] in Hex. destruct (f_to_int (e_fops E) x) as [z|] eqn:Hz; [|discriminate].
    apply Ok_eq in Hex. subst acts.
    apply ev_freg in Hx. destruct (rd_val S (LF f) W) as [Hr Fr]. rewrite <- Hx in Hr, Fr.
    exists x, z. split; [exact Hr|]. split; [exact Hz|]. same_tac.
Qed.

(** ---- values stay 64-bit words ---- *)

Lemma reg_val_fits : forall S l v, wordy S -> reg_val S l v -> fits v.
Proof. intros S l v W H. destruct H as [v H|l Hl]; [eapply word_fits; eauto|apply (w_reg S W); auto]. Qed.

Lemma opnd_fits : forall S o v, wordy S -> typed_operand o -> opnd S o v -> fits v.
Proof.
  intros S o v W T H. destruct H; try exact T; try (eapply word_fits; eassumption);
    try (eapply reg_val_fits; eassumption). eapply (w_mem S W); eauto.
Qed.

Lemma wordy_same : forall S T, same S T -> wordy T -> wordy S.
Proof.
  intros S T [H1 H2 H3 H4 H5 H6] [W1 W2 W3 W4]. constructor.
  - now rewrite H1. - intros l Hl. rewrite H2; auto. - intros a v. rewrite H3. eauto. - now rewrite H5.
Qed.

Lemma wordy_put : forall S l v, wordy S -> fits v -> wordy (put S l v).
Proof.
  intros S l v [W1 W2 W3 W4] Hv. constructor; auto. intros k Hk. cbn. unfold upd. destruct (lreg_eqb k l); auto.
Qed.

Lemma wordy_store : forall S a v, wordy S -> fits v -> wordy (store S a v).
Proof.
  intros S a v [W1 W2 W3 W4] Hv. constructor; auto. intros b w. cbn. unfold mupd.
  destruct (b =? a); [intros H; inversion H; subst; exact Hv|eauto].
Qed.

Lemma address_range : forall z, 0 <= address z < 2 ^ 64.
Proof. intros z. unfold address. p64. apply Z.mod_pos_bound. reflexivity. Qed.

Lemma wordy_jump : forall S t, wordy S -> wordy (jump S t).
Proof. intros S t [W1 W2 W3 W4]. constructor; auto. cbn [jump set_pc a_pc]. apply address_range. Qed.

Lemma wordy_next : forall S, wordy S -> wordy (next S).
Proof. intros S [W1 W2 W3 W4]. constructor; auto. cbn [next set_pc a_pc]. apply address_range. Qed.

Lemma flag_bits_fits : forall f, fits (flag_bits f).
Proof. intros f. rewrite fits_mod. destruct f as [[] [] [] []]; (split; [intros H; discriminate|reflexivity]). Qed.

Lemma wordy_result : forall S l q, wordy S -> fits (rval q) -> wordy (result S l q).
Proof. intros S l q W Hq. apply wordy_put; [now apply wordy_put|apply flag_bits_fits]. Qed.

Lemma bin_fits : forall op x y q, bin_spec op x y q -> fits (rval q).
Proof. intros op x y q [_ H]. destruct op; try tauto; try (destruct H as [H _]; exact (word_fits _ _ H)).
  destruct H as [_ [H _]]. exact (word_fits _ _ H).
Qed.

Lemma un_fits : forall op x q, un_spec op x q -> fits (rval q).
Proof. intros op x q [_ H]. destruct op; try tauto; destruct H as [H _]; exact (word_fits _ _ H). Qed.

Lemma read_char_bytes : forall s c rest, read_char s c rest -> Forall (fun b => 0 <= b < 256) s ->
  fits c /\ Forall (fun b => 0 <= b < 256) rest.
Proof.
  intros s c rest H. induction H; intros Hs; apply Forall_cons_iff in Hs; destruct Hs as [Hb Hs]; auto;
    (split; [rewrite fits_mod; assert (256 <= two63) by discriminate; lia|exact Hs]).
Qed.

Lemma effect_wordy : forall F i S S', typed_fops F -> typed_instr i -> wordy S -> effect F i S S' -> wordy S'.
Proof.
  intros F i S S' TF T W H.
  assert (Hst : forall d v y z, typed_instr (IMov d v) -> opnd S v y -> same S' (next (store S (address z) y)) -> wordy S').
  { intros d v y z [_ Tv] Hy Hs. eapply wordy_same; [exact Hs|]. apply wordy_next. apply wordy_store; [exact W|].
    eapply opnd_fits; eauto. }
  destruct i; cbn [effect] in H; cbn [typed_instr] in T.
  - destruct H as [x [y [q [_ [_ [Hq Hs]]]]]]. eapply wordy_same; [exact Hs|]. apply wordy_next, wordy_result; [exact W|].
    eapply bin_fits; eauto.
  - destruct H as [x [q [_ [Hq Hs]]]]. eapply wordy_same; [exact Hs|]. apply wordy_next, wordy_result; [exact W|].
    eapply un_fits; eauto.
  - destruct H as [x [y [_ [_ Hs]]]]. eapply wordy_same; [exact Hs|]. apply wordy_next.
    apply wordy_put; [apply wordy_put; [exact W|]|apply flag_bits_fits]. destruct op; first [apply (tf_add F TF)|apply (tf_sub F TF)|apply (tf_mul F TF)|apply (tf_div F TF)].
  - destruct d; try (destruct H as [z [y [_ [Hy [_ Hs]]]]]; eapply Hst; [exact T|exact Hy|exact Hs]);
      destruct H as [y [Hy Hs]]; (eapply wordy_same; [exact Hs|]); apply wordy_next, wordy_put; auto;
      eapply opnd_fits; try exact Hy; tauto.
  - destruct H as [z [v [_ [Hv Hs]]]]. eapply wordy_same; [exact Hs|]. apply wordy_next, wordy_put; auto.
    now apply word_fits in Hv.
  - eapply wordy_same; [exact H|]. now apply wordy_next.
  - eapply wordy_same; [exact H|]. pose proof (wordy_next S W) as [W1 W2 W3 W4]. constructor; auto.
  - eapply wordy_same; [exact H|]. now apply wordy_next.
  - eapply wordy_same; [exact H|]. now apply wordy_next.
  - eapply wordy_same; [exact H|]. apply wordy_next, wordy_put; auto. rewrite fits_mod. split; [discriminate|reflexivity].
  - destruct H as [x [y [q [_ [_ [_ Hs]]]]]]. eapply wordy_same; [exact Hs|]. apply wordy_next, wordy_put; auto. apply flag_bits_fits.
  - destruct H as [x [y [_ [_ Hs]]]]. eapply wordy_same; [exact Hs|]. apply wordy_next, wordy_put; auto. apply flag_bits_fits.
  - destruct H as [t [_ Hs]]. eapply wordy_same; [exact Hs|]. now apply wordy_jump.
  - destruct H as [x [t [q [_ [_ [Hq Hs]]]]]]. eapply wordy_same; [exact Hs|].
    assert (wordy (result S (LR r) q)) by (apply wordy_result; [exact W|eapply un_fits; eauto]).
    destruct (rval q =? 0); [|now apply wordy_jump]. destruct r; try (now apply wordy_next). now apply wordy_jump.
  - destruct H as [t [_ Hs]]. eapply wordy_same; [exact Hs|]. destruct (taken _ _); [now apply wordy_jump|now apply wordy_next].
  - destruct H as [t [sp [ret [_ [Hsp [Hr [_ Hs]]]]]]]. eapply wordy_same; [exact Hs|].
    apply wordy_jump, wordy_put; [apply wordy_store|]; auto; eapply word_fits; eauto.
  - destruct H as [t [sp [_ [Hsp Hs]]]]. eapply wordy_same; [exact Hs|]. apply wordy_jump, wordy_put; auto. eapply word_fits; eauto.
  - destruct H as [y [sp [Hy [Hsp [_ Hs]]]]]. eapply wordy_same; [exact Hs|].
    apply wordy_next, wordy_put; [apply wordy_store|]; auto; [eapply opnd_fits; eauto|eapply word_fits; eauto].
  - destruct H as [y [sp [Hy [Hsp [_ Hs]]]]]. eapply wordy_same; [exact Hs|].
    apply wordy_next, wordy_put; [apply wordy_store|]; auto; [eapply opnd_fits; eauto|eapply word_fits; eauto].
  - destruct H as [y [sp [Hy [Hsp Hs]]]]. eapply wordy_same; [exact Hs|].
    apply wordy_next, wordy_put; [apply wordy_put|]; auto; [eapply (w_mem S W); eauto|eapply word_fits; eauto].
  - destruct H as [y [sp [Hy [Hsp Hs]]]]. eapply wordy_same; [exact Hs|].
    apply wordy_next, wordy_put; [apply wordy_put|]; auto; [eapply (w_mem S W); eauto|eapply word_fits; eauto].
  - destruct H as [x [_ Hs]]. eapply wordy_same; [exact Hs|]. apply wordy_next. destruct W; constructor; auto.
  - destruct H as [x [n [_ [_ [_ Hs]]]]]. eapply wordy_same; [exact Hs|]. apply wordy_next. destruct W; constructor; auto.
  - destruct H as [c [rest [Hrc Hs]]]. eapply wordy_same; [exact Hs|]. apply wordy_next.
    destruct (read_char_bytes _ _ _ Hrc (w_in S W)) as [Hc Hrest].
    pose proof (wordy_put S (LR r) c W Hc) as [W1 W2 W3 W4]. constructor; auto.
  - destruct H as [x [_ Hs]]. eapply wordy_same; [exact Hs|]. apply wordy_next, wordy_put; auto. apply (tf_of F TF).
  - destruct H as [x [z [_ [Hz Hs]]]]. eapply wordy_same; [exact Hs|]. apply wordy_next, wordy_put; auto. eapply (tf_to F TF); eauto.
Qed.

Lemma typed_at : forall p pc, Forall typed_instr p -> typed_instr (instr_at p pc).
Proof.
  intros p pc H. unfold instr_at. destruct (nth_in_or_default (Z.to_nat pc) p INop) as [Hin|He].
  - rewrite Forall_forall in H. auto.
  - rewrite He. exact I.
Qed.

Lemma pc_ok_at : forall p pc, valid_prog p -> pc_ok (prog_at p pc).
Proof.
  intros p pc H. unfold prog_at. destruct (_ && _); [|intros _ []].
  destruct (nth_in_or_default (Z.to_nat pc) p INop) as [Hin|He].
  - unfold valid_prog in H. rewrite Forall_forall in H. auto.
  - rewrite He. intros _ [].
Qed.

Lemma io_isa : forall E p S S', valid_prog p -> Forall typed_instr p -> wordy S -> io_step E p S S' ->
  isa_step (e_fops E) p S S'.
Proof.
  intros E p S S' V T W H. destruct H as [os vs acts Hh Hos Hev Hex Hst Hgc]. constructor; [exact Hh|].
  rewrite <- prog_at_instr by (apply W). eapply effect_ok; eauto.
  - rewrite prog_at_instr by (apply W). now apply typed_at.
  - now apply pc_ok_at.
Qed.

Lemma io_isa_run : forall E p k S S', valid_prog p -> Forall typed_instr p -> typed_fops (e_fops E) ->
  io_steps E p k S S' -> wordy S -> isa_run (e_fops E) p k S S' /\ wordy S'.
Proof.
  intros E p k S S' V T TF H. induction H as [S|n S S1 S2 H1 H2 IH]; intros W.
  - split; [constructor|exact W].
  - pose proof (io_isa E p S S1 V T W H1) as H3.
    assert (W1 : wordy S1). { destruct H3 as [_ He]. eapply effect_wordy; eauto. now apply typed_at. }
    destruct (IH W1) as [H4 H5]. split; [econstructor; eauto|exact H5].
Qed.

Lemma boot_wordy : forall F p n data input, typed F p n data input -> wordy (isa_boot n data input).
Proof.
  intros F p n data input [T1 T2 T3 T4 T5].
  assert (H0 : fits 0) by (rewrite fits_mod; split; [discriminate|reflexivity]).
  assert (Hn : fits (Z.of_nat n)) by (unfold fits; lia).
  constructor; cbn.
  - split; [lia|reflexivity].
  - intros l _. destruct l as [[]|]; auto.
  - intros a v. destruct (_ && _); [|discriminate]. intros H; inversion H; subst.
    destruct (nth_in_or_default (Z.to_nat a) data 0) as [Hin|He].
    + rewrite Forall_forall in T4. auto.
    + now rewrite He.
  - exact T5.
Qed.
