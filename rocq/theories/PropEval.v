(** C71, C72: looking at expressions; C75, C76: what they should not do. *)
From Coq Require Import Ascii String ZArith NArith List Bool Lia.
From Verif Require Import Base Text PropText PropNet StdMap Alu AluSpec AluProofs Exec Lexer LexProofs Isa IsaSpec Cpu Os DbgText Client PropProto Native Src SrcFacts Info PropLoc Expr ExprSpec PropExpr
  Eval ValSpec EvalFacts EvalSound EvalOps.
Import ListNotations.
Open Scope Z_scope.

(** A tree has an assignment only if its text has "=". *)
Lemma derives_assign : forall le l ts e, derives le l ts e -> ~ In (TOp KAssign) ts -> no_assign e.
Proof.
  induction 1 as [l ts e L D IH|l k op ts1 e1 ts2 e2 O D1 IH1 D2 IH2|k op ts e P D IH|ts e ts' i D1 IH1 D2 IH2|ts e m D IH|ts e m D IH|z|z|n|ts e D IH|z]; intros N; cbn [no_assign]; auto.
  - split; [intros ->; inversion O; subst; apply N, in_or_app; right; now left|]. split; [apply IH1|apply IH2]; intros I; apply N, in_or_app; [now left|right; now right].
  - apply IH. intros I. apply N. now right.
  - split; [apply IH1|apply IH2]; intros I; apply N, in_or_app; [now left|]. right. right. apply in_or_app. now left.
  - apply IH. intros I. apply N, in_or_app. now left.
  - apply IH. intros I. apply N, in_or_app. now left.
  - apply IH. intros I. apply N. right. apply in_or_app. now left.
Qed.

Section U.
Variable U : setup.
Variable D : dops.
Variable N : native.
Variable c : cpu.
Hypothesis Sn : seen U N c.
Variable src : source.
Notation reg := (reg_named c).
Notation mem := (cell U c).

(** ---- C71 ---- *)

(** Nothing changes: neither in the debuggee nor in what the debugger keeps about it. The
    one thing that can happen is that the debuggee is lost: see C75. *)
Definition unchanged {A} (r : out native A) : Prop :=
  match r with Done _ N' => N' = N | Failed N' => N' = N \/ n_link N' = mkLink None true | Dead | Blocked => True end.

Lemma quiet_unchanged : forall A (m : act native A), quiet N m -> unchanged (m N).
Proof. intros A m Q. unfold quiet, unchanged in *. destruct (m N); auto. destruct Q as [-> | ->]; [now left|right; reflexivity]. Qed.

Theorem C71_expression : forall fuel values e, no_assign e -> unchanged (eval U D fuel src values e N).
Proof. intros fuel values e H. apply quiet_unchanged. now apply (quiet_eval U D N c Sn). Qed.

Lemma evaluate_parse : forall fuel values x, evaluate U D fuel src values x =
  match new_parser (u_stod U) x with PFail _ => dead | POk _ =>
    match parse (u_stod U) x with POk e => get_ip U;; eval U D fuel src values e | PFail PSyntax => fail | PFail _ => dead end end.
Proof. intros. unfold evaluate, parse. destruct (new_parser (u_stod U) x); [|reflexivity]. cbn [pbind]. destruct (parse_expression _ _ _) as [e|[]]; reflexivity. Qed.
(** Every text whose tokens have no "=". *)
Theorem C71_text : forall fuel values x, (forall ts y, lexes (u_stod U) x ts y -> ~ In (TOp KAssign) ts) ->
  unchanged (evaluate U D fuel src values x N).
Proof.
  intros fuel values x H. rewrite evaluate_parse. destruct (new_parser (u_stod U) x); [|exact I].
  destruct (parse (u_stod U) x) as [e|[]] eqn:E; try exact I; [|now left].
  destruct (C37_prefix _ _ _ E) as (ts & y & _ & _ & L & Dv & _). apply quiet_unchanged, quiet_then; [apply (quiet_ip U N c Sn)|].
  intros _. apply (quiet_eval U D N c Sn). eapply derives_assign; [exact Dv|]. now apply (H ts y).
Qed.

(** ---- C72 ---- *)

Variable ip : Z.
Hypothesis Hip : get_lreg c (LR PC) = Some ip.
Hypothesis P : plain src.
Variable values : list tvalue.
Notation val := (value src (u64 ip) reg mem (e_fops (u_env U)) D values).

(** What is shown is the value; every value is shown, the depth of types being enough. *)
Theorem C72_shown_is_value : forall fuel e v N', no_assign e -> eval U D fuel src values e N = Done v N' -> val e v /\ N' = N.
Proof.
  intros fuel e v N' H E. pose proof (quiet_eval U D N c Sn src fuel values e H) as Q. unfold quiet in Q. rewrite E in Q. subst N'.
  split; [|reflexivity]. now apply (eval_sound U D N c Sn src ip Hip P values fuel).
Qed.
Theorem C72_value_is_shown : forall e v, val e v -> exists k0, forall k, (k0 <= k)%nat -> eval U D k src values e N = Done v N.
Proof. exact (eval_complete U D N c Sn src ip Hip P values). Qed.
(** An expression has one value at most. *)
Theorem C72_one_value : forall e v w, val e v -> val e w -> v = w.
Proof.
  intros e v w V W. destruct (C72_value_is_shown e v V) as [k K]. destruct (C72_value_is_shown e w W) as [k' K'].
  specialize (K (Nat.max k k') ltac:(lia)). specialize (K' (Nat.max k k') ltac:(lia)). congruence.
Qed.
(** For a text of the grammar (C37). *)
Theorem C72_text : forall x ts e v, tokens (u_stod U) x ts -> derives false 0 ts e -> ~ In (TOp KAssign) ts ->
  (val e v <-> exists k0, forall k, (k0 <= k)%nat -> evaluate U D k src values x N = Done v N).
Proof.
  intros x ts e v T Dv NA. pose proof (C37_whole _ _ _ _ T Dv) as E. pose proof (derives_assign _ _ _ _ Dv NA) as A.
  assert (G : forall k, evaluate U D k src values x N = eval U D k src values e N).
  { intros k. rewrite evaluate_parse, E. unfold parse in E. destruct (new_parser (u_stod U) x); [|discriminate]. unfold then_. now rewrite (get_ip_done U N c Sn ip Hip). }
  split.
  - intros V. destruct (C72_value_is_shown e v V) as [k0 K]. exists k0. intros k Hk. rewrite G. now apply K.
  - intros [k0 K]. specialize (K k0 (le_n _)). rewrite G in K. now apply C72_shown_is_value in K.
Qed.

(** Where the elements of an array and the members of a structure are. *)
Theorem C72_element : forall a i id cnt first xs l x l' v, val a (VArr id cnt first xs l) -> val i (VInt x l') -> val (EIndex a i) v ->
  0 <= x /\ nth_error xs (Z.to_nat x) = Some v.
Proof.
  intros a i id cnt first xs l x l' v A I V. inversion V; subst.
  - assert (Q : VArr id cnt first xs l = VArr id0 cnt0 first0 xs0 l0) by (eapply C72_one_value; eauto). injection Q as <- <- <- <- <-.
    assert (Q : VInt x l' = VInt x0 l'0) by (eapply C72_one_value; eauto). injection Q as <- <-. auto.
  - assert (Q : VArr id cnt first xs l = VPtr id0 s p l0) by (eapply C72_one_value; eauto). discriminate.
Qed.
End U.

(** An element of an array at [a] is the object [i] sizes further. *)
Theorem C72_array : forall src reg mem id cnt a v, object src reg mem (TyArr id cnt) (LMem a) v ->
  exists t xs, v = VArr id cnt (a mod 2 ^ 64) xs (Some (LMem a)) /\ get_type src id = Some t /\ length xs = Z.to_nat cnt /\
    forall i x, nth_error xs i = Some x -> exists n, size_of src id n /\ object src reg mem t (LMem (s64 (a + Z.of_nat i * n))) x.
Proof.
  intros src reg mem id cnt a v H. inversion H as [| | | |? ? t ? xs GT L E|]; subst. exists t, xs. split; [reflexivity|]. split; [exact GT|]. split; [exact L|].
  clear H GT L. intros i x. replace (Z.of_nat i) with (0 + Z.of_nat i) by lia. revert i x. revert E. generalize 0 at 1 2 as j. induction xs as [|y xs IH]; intros j E i x Hx; [now destruct i|].
  inversion E as [|? ? ? ? n ? ? Sz Oj El]; subst. destruct i as [|i]; cbn [nth_error] in Hx.
  - injection Hx as <-. exists n. split; [exact Sz|]. replace (j + Z.of_nat 0) with j by lia. exact Oj.
  - destruct (IH (j + 1) El i x Hx) as (n' & S' & O'). exists n'. split; [exact S'|]. replace (j + Z.of_nat (Datatypes.S i)) with (j + 1 + Z.of_nat i) by lia. exact O'.
Qed.
(** A member of a structure is the object at its offset. *)
Lemma by_name_get : forall ms vs acc n x, tget (by_name acc ms vs) n = Some x <->
  tget acc n = Some x \/ tget acc n = None /\ exists i m, nth_error ms i = Some m /\ nth_error vs i = Some x /\ mb_name m = n /\
    forall j m', (j < i)%nat -> nth_error ms j = Some m' -> mb_name m' <> n.
Proof.
  induction ms as [|m ms IH]; intros vs acc n x; [cbn [by_name]; split; [now left|intros [H|(_ & [|i] & m & H & _)]; [exact H|discriminate|discriminate]]|].
  destruct vs as [|v vs]; cbn [by_name]. { split; [now left|]. intros [H|(_ & [|i] & m' & _ & H & _)]; [exact H|discriminate|discriminate]. }
  rewrite IH. clear IH. split.
  - intros [H|(H & i & m' & A & B & C & E)].
    + destruct (tget acc (mb_name m)) as [w|] eqn:Q; [now left|]. destruct (teqb n (mb_name m)) eqn:T.
      * apply teqb_eq in T. subst n. rewrite (mget_put_same teqb tltb teqb_eq) in H. injection H as <-. right. split; [exact Q|]. exists 0%nat, m.
        repeat split; auto. intros j m' J. lia.
      * left. rewrite (mget_put_other teqb tltb teqb_eq) in H; [exact H|]. intros ->. now rewrite teqb_refl in T.
    + right. assert (T : mb_name m <> n /\ tget acc n = None).
      { destruct (tget acc (mb_name m)) as [w|] eqn:Q.
        - split; [intros <-; congruence|exact H].
        - destruct (teqb n (mb_name m)) eqn:T; [apply teqb_eq in T; rewrite T in H; rewrite (mget_put_same teqb tltb teqb_eq) in H; discriminate|].
          assert (n <> mb_name m) by (intros ->; now rewrite teqb_refl in T). rewrite (mget_put_other teqb tltb teqb_eq) in H by assumption. auto. }
      destruct T as [T1 T2]. split; [exact T2|]. exists (Datatypes.S i), m'. repeat split; auto. intros [|j] m2 J M; cbn [nth_error] in M; [injection M as <-; exact T1|]. apply (E j); [lia|exact M].
  - intros [H|(H & [|i] & m' & A & B & C & E)].
    + left. destruct (tget acc (mb_name m)) as [w|] eqn:Q; [exact H|]. rewrite (mget_put_other teqb tltb teqb_eq); [exact H|congruence].
    + cbn [nth_error] in A, B. injection A as <-. injection B as <-. subst n. rewrite H. left. apply (mget_put_same teqb tltb teqb_eq).
    + right. cbn [nth_error] in A, B. assert (mb_name m <> n) by (apply (E 0%nat m); [lia|reflexivity]). split.
      * destruct (tget acc (mb_name m)); [exact H|]. rewrite (mget_put_other teqb tltb teqb_eq); [exact H|congruence].
      * exists i, m'. repeat split; auto. intros j m2 J M. apply (E (Datatypes.S j)); [lia|exact M].
Qed.
Theorem C72_member : forall src reg mem name n ms l v m, object src reg mem (TyStruct name n ms) l v -> NoDup (map mb_name ms) -> In m ms ->
  exists vs b t x, v = VStruct name n vs (Some l) /\ tget vs (mb_name m) = Some x /\
    means reg l b /\ get_type src (mb_type m) = Some t /\ object src reg mem t (LMem (b + mb_off m)) x.
Proof.
  intros src reg mem name n ms l v m H ND I. inversion H as [| | | | |? ? ? ? vs M]; subst. apply In_nth_error in I. destruct I as [i I].
  assert (G : exists b t x, nth_error vs i = Some x /\ means reg l b /\ get_type src (mb_type m) = Some t /\ object src reg mem t (LMem (b + mb_off m)) x).
  { clear H ND. revert ms vs M I. induction i as [|i IH]; intros ms vs M I; destruct ms as [|m0 ms]; try discriminate; inversion M as [|? ? ? b t w ws Me Fi GT Ob Ms]; subst.
    - cbn in I. injection I as <-. exists b, t, w. auto.
    - destruct (IH ms ws Ms I) as (b' & t' & x & X1 & X2). exists b', t', x. auto. }
  destruct G as (b & t & x & X & G). exists (by_name [] ms vs), b, t, x. split; [reflexivity|]. split; [|exact G]. apply by_name_get. right. split; [reflexivity|].
  exists i, m. repeat split; auto. intros j m' J M' E. assert (i = j); [|lia]. apply (proj1 (NoDup_nth_error (map mb_name ms)) ND).
  - rewrite map_length. apply nth_error_Some. congruence.
  - rewrite (map_nth_error mb_name _ _ I), (map_nth_error mb_name _ _ M'). now rewrite E.
Qed.

(** ---- C75: what ends the debugger or loses the debuggee (refuted) ---- *)

Section Ends.
Variable U : setup.
Variable D : dops.
Variable N : native.
Variable c : cpu.
Hypothesis Sn : seen U N c.
Variable src : source.
Variable ip : Z.
Hypothesis Hip : get_lreg c (LR PC) = Some ip.
Hypothesis P : plain src.
Variable values : list tvalue.
Notation val := (value src (u64 ip) (reg_named c) (cell U c) (e_fops (u_env U)) D values).
Notation shown := (eval_complete U D N c Sn src ip Hip P values).
(** The debugger ends. *)
Definition ends_debugger (e : expr) : Prop := exists k0, forall k, (k0 <= k)%nat -> eval U D k src values e N = Dead.

(** A text that begins with something that is no token: an exception nobody catches. *)
Theorem C75_first_token_refuted : forall k x er, token_at (u_stod U) false x = PFail er -> evaluate U D k src values x N = Dead.
Proof.
  intros k x er H. rewrite evaluate_parse. pose proof (new_parser_shows (u_stod U) x) as Q. destruct (new_parser (u_stod U) x) as [s|]; [|reflexivity].
  destruct Q as [Q _]. congruence.
Qed.
Ltac two A B := let k1 := fresh "j" in let K1 := fresh "K" in let k2 := fresh "j" in let K2 := fresh "K" in
  destruct (shown _ _ A) as [k1 K1]; destruct (shown _ _ B) as [k2 K2]; exists (Nat.max k1 k2); intros k Hk; cbn [eval]; unfold then_;
  rewrite ?(K1 k) by lia; rewrite ?(K2 k) by lia; rewrite ?(K1 k) by lia.
(** Sums, differences and products that do not fit into int64_t, and the least number
    divided by -1, *)
Theorem C75_overflow_refuted : forall a b x y l l' op, val a (VInt x l) -> val b (VInt y l') ->
  op = BAdd /\ ~ fits (x + y) \/ op = BSub /\ ~ fits (x - y) \/ op = BMul /\ ~ fits (x * y) \/ (op = BDiv \/ op = BMod) /\ x = - 2 ^ 63 /\ y = -1 ->
  ends_debugger (EBin a op b).
Proof.
  intros a b x y l l' op A B H. two A B.
  assert (F : forall z, ~ fits z -> checked z N = Dead).
  { intros z Hz. rewrite checked_ok. destruct (fits64 z) eqn:Q; [|reflexivity]. now apply fits64_spec in Q. }
  destruct H as [[-> H]|[[-> H]|[[-> H]|[[-> | ->] [-> ->]]]]]; cbn [binary add_values sub_values arithmetic]; unfold then_; try (now rewrite F).
  - reflexivity.
  - reflexivity.
Qed.
(** a shift by a negative number, or by 64 or more, *)
Theorem C75_shift_refuted : forall a b x y l l' op, val a (VInt x l) -> val b (VInt y l') -> op = BLsh \/ op = BRsh -> y < 0 \/ 64 <= y ->
  ends_debugger (EBin a op b).
Proof.
  intros a b x y l l' op A B O H. two A B. assert (Q : (0 <=? y) && (y <? 64) = false) by (destruct (Z.leb_spec 0 y), (Z.ltb_spec y 64); try reflexivity; lia).
  destruct O as [-> | ->]; cbn [binary bit_values]; unfold then_, shl, shr; rewrite Q; reflexivity.
Qed.
(** and a negative index of an array are undefined behaviour; *)
Theorem C75_index_refuted : forall a i x l l' id cnt first xs, val a (VArr id cnt first xs l) -> val i (VInt x l') -> x < 0 -> ends_debugger (EIndex a i).
Proof.
  intros a i x l l' id cnt first xs A I H. two A I. cbn [index_value].
  destruct (Z.leb_spec (Z.of_nat (length xs)) x); [lia|]. destruct (Z.ltb_spec x 0); [reflexivity|lia].
Qed.
(** an object of the type unsigned is NOT_IMPLEMENTED. *)
Theorem C75_unsigned_refuted : forall e id s p l n x, val e (VPtr id s p l) -> get_type src id = Some (TyPrim PrUnsigned n) ->
  cell U c (s64 p) = Some x -> ends_debugger (EUn UDeref e).
Proof.
  intros e id s p l n x V G X. destruct (shown _ _ V) as [k0 K]. exists (Datatypes.S k0). intros k Hk. cbn [eval]. unfold then_. rewrite K by lia.
  unfold dereference, then_. rewrite G. cbn [opt_or ret]. unfold ret. destruct k as [|k]; [lia|]. cbn [eval_type raw_value]. unfold then_.
  assert (s64 p <> -1) by (intros E; rewrite E in X; discriminate).
  now rewrite (read_cell_ok U N c _ Sn (s64_fits p)), X.
Qed.
(** A pointer with all bits set: the debuggee is lost, and with it the debugger if the
    VM is one of its threads. *)
Theorem C75_last_address_refuted : forall e id s l t n k0, val e (VPtr id s (2 ^ 64 - 1) l) -> get_type src id = Some t ->
  t = TyPrim k0 n \/ (exists i, t = TyPtr i n) -> 0 <= u_data U ->
  exists k1, forall k, (k1 <= k)%nat -> if u_local U then eval U D k src values (EUn UDeref e) N = Dead
    else exists N', eval U D k src values (EUn UDeref e) N = Failed N' /\ n_link N' = mkLink None true.
Proof.
  intros e id s l t n k0 V G T Du. destruct (shown _ _ V) as [k1 K]. exists (Datatypes.S k1). intros k Hk.
  cbn [eval]. unfold then_. rewrite K by lia. unfold dereference, then_. rewrite G. cbn [opt_or]. unfold ret. destruct k as [|k]; [lia|]. change (s64 (2 ^ 64 - 1)) with (-1).
  assert (R : read_cell U (-1) N = if u_local U then Dead else Failed (lost N)).
  { destruct Sn as [[r L] _ _ _]. unfold read_cell, then_, get_memory, proc, read_memory. rewrite L.
    change (u64 (-1)) with 18446744073709551615. change (u64 (18446744073709551615 + 1)) with 0.
    destruct (Z.ltb_spec (u_data U) 0); [lia|]. unfold then_, ask. cbn [k_host k_told stopped]. unfold serve.
    assert (DT : forall s s1, decode s s1 (str "PEEKDATA " ++ show_Z 18446744073709551615 ++ [SPACE] ++ show_Z 1) = DThrow) by reflexivity.
    rewrite DT. destruct (u_local U); reflexivity. }
  destruct T as [-> |[i ->]]; cbn [eval_type raw_value]; unfold then_; rewrite R; destruct (u_local U);
    solve [reflexivity | exists (lost N); split; reflexivity].
Qed.

(** ---- C76: operators that are not those of C (refuted) ---- *)

(** The difference of pointers is not divided by the size of the elements. *)
Theorem C76_pointer_difference_refuted : forall e k id s p l n, val e (VPtr id s p l) -> 0 <= p < 2 ^ 64 -> size_of src id n -> fits (k * n) ->
  val (EBin (EBin e BAdd (EInt k)) BSub e) (VInt (k * n) None).
Proof.
  intros e k id s p l n V B Sz F. replace (k * n) with (s64 ((p + k * n) mod 2 ^ 64 - p)).
  - eapply va_bin; [eapply va_bin; [exact V|apply va_int|apply bv_ptr_int; exact Sz]|exact V|]. apply bv_ptr_diff.
  - unfold fits in F. rewrite s64_spec.
    replace (((p + k * n) mod 2 ^ 64 - p + 2 ^ 63) mod 2 ^ 64) with ((k * n + 2 ^ 63) mod 2 ^ 64).
    + rewrite Z.mod_small by lia. lia.
    + replace ((p + k * n) mod 2 ^ 64 - p + 2 ^ 63) with ((p + k * n) mod 2 ^ 64 + (2 ^ 63 - p)) by lia. rewrite Zplus_mod_idemp_l. f_equal. lia.
Qed.
(** && and || evaluate their second operand always: an error there is an error of the
    whole, whatever the first is. *)
Theorem C76_both_sides_refuted : forall k a b op N', op = BAnd \/ op = BOr -> no_assign a -> eval U D k src values b N = Failed N' ->
  forall v N'', eval U D k src values (EBin a op b) N <> Done v N''.
Proof.
  intros k a b op N' O NA H v N'' E. cbn [eval] in E. unfold then_ in E. pose proof (quiet_eval U D N c Sn src k values a NA) as Q. unfold quiet in Q.
  destruct (eval U D k src values a N); try discriminate. subst. rewrite H in E. discriminate.
Qed.
(** Chars can be added, but not subtracted. *)
Theorem C76_char_difference_refuted : forall a b x y l l', val a (VChar x l) -> val b (VChar y l') ->
  val (EBin a BAdd b) (VInt (x + y) None) /\ exists k0, forall k, (k0 <= k)%nat -> eval U D k src values (EBin a BSub b) N = Failed N.
Proof. intros a b x y l l' A B. split; [eapply va_bin; eauto; apply bv_char; [discriminate|reflexivity]|]. two A B. reflexivity. Qed.
End Ends.

(** ---- cases ---- *)

(** A variable in a register, an array of structures and a pointer to one. *)
Definition info1 : text := str (".debug_info
DIE_compilation_unit: {
  DIE_primitive_type: { ATTR_name: int, ATTR_id: 0, ATTR_size: 1 },
  DIE_primitive_type: { ATTR_name: char, ATTR_id: 1, ATTR_size: 1 },
  DIE_primitive_type: { ATTR_name: float, ATTR_id: 2, ATTR_size: 1 },
  DIE_primitive_type: { ATTR_name: unsigned, ATTR_id: 3, ATTR_size: 1 },
  DIE_pointer_type: { ATTR_type: 5, ATTR_id: 4, ATTR_size: 1 },
  DIE_structured_type: { ATTR_name: pair, ATTR_id: 5, ATTR_size: 2, ATTR_members: { 0: {0: a}, 1: {1: b} } },
  DIE_array_type: { ATTR_type: 5, ATTR_size: 3, ATTR_id: 6 },
  DIE_pointer_type: { ATTR_type: 3, ATTR_id: 7, ATTR_size: 1 },
  DIE_variable: { ATTR_name: x, ATTR_type: 0, ATTR_location: `PUSH R1` },
  DIE_variable: { ATTR_name: ps, ATTR_type: 6, ATTR_location: [PUSH 0] },
  DIE_variable: { ATTR_name: p, ATTR_type: 4, ATTR_location: [BASE_REG_OFFSET -11] },
  DIE_variable: { ATTR_name: f, ATTR_type: 2, ATTR_location: [PUSH 9] },
  DIE_variable: { ATTR_name: u, ATTR_type: 7, ATTR_location: [PUSH 9] }
}
").
Definition src1 : source := Eval vm_compute in match parse_info (fun _ => None) info1 with POk i => match source_of i with Some s => s | None => no_source end | PFail _ => no_source end.
Example src1_read : forall stod, exists i, parse_info stod info1 = POk i /\ source_of i = Some src1.
Proof. intros stod. eexists. split; vm_compute; reflexivity. Qed.
(** Doubles without arithmetic; 4609434218613702656 is 1.5. *)
Definition D1 : dops := mkDops Z.ltb Z.leb Z.eqb (fun z => if z =? 4609434218613702656 then Some 1 else None) (fun _ => str "1.500000").

Definition vars1 : list (text * die) := Eval vm_compute in active_variables src1 0.
Lemma vars1_active : forall a, active_variables src1 a = vars1.
Proof. intros a. reflexivity. Qed.
Lemma plain_case : plain src1.
Proof.
  intros a n d ops V L. unfold variable_die in V. rewrite vars1_active in V. apply (mget_in teqb teqb_eq) in V.
  assert (F : Forall (fun x => forall ops, at_loc (snd x) = Some ops -> ~ In LDeref ops /\ forall v, In (LPush (LMem v)) ops -> fits v) vars1).
  { unfold vars1. repeat (apply Forall_cons; [intros o E; cbn in E; injection E as <-;
      (split; [intros [H|[]]; discriminate H|intros v [H|[]]; try discriminate H; injection H as <-; unfold fits; lia])|]). apply Forall_nil. }
  rewrite Forall_forall in F. exact (F _ V ops L).
Qed.
Example ip_case : get_lreg cpu1 (LR PC) = Some 5.
Proof. vm_compute. reflexivity. Qed.
Notation val1 := (value src1 (u64 5) (reg_named cpu1) (cell U1 cpu1) (e_fops (u_env U1)) D1 []).
Ltac shows k := eapply (C72_shown_is_value U1 D1 native1 cpu1 seen_case src1 5 ip_case plain_case [] k); [repeat split; discriminate|vm_compute; reflexivity].
(** ps[1], p->b + ps[0].b and (x - 2) * ps[0].a *)
Example C72_case : val1 (EIndex (EId (str "ps")) (EInt 1)) (VStruct (str "pair") 2 [(str "a", VInt 0 (Some (LMem 2))); (str "b", VChar 0 (Some (LMem 3)))] (Some (LMem 2))) /\
  val1 (EBin (EArrow (EId (str "p")) (str "b")) BAdd (EDot (EIndex (EId (str "ps")) (EInt 0)) (str "b"))) (VInt 8 None) /\
  val1 (EBin (EBin (EId (str "x")) BSub (EInt 2)) BMul (EDot (EIndex (EId (str "ps")) (EInt 0)) (str "a"))) (VInt 28 None).
Proof. repeat split; shows 9%nat. Qed.
Example C72_case_text : tokens (u_stod U1) (str "(x - 2) * ps[0].a")
    [TOp KLparen; TId (str "x"); TOp KMinus; TNum 2; TOp KRparen; TOp KTimes; TId (str "ps"); TOp KLbracket; TNum 0; TOp KRbracket; TOp KDot; TId (str "a")] /\
  match evaluate U1 D1 9 src1 [] (str "(x - 2) * ps[0].a") native1 with Done v _ => v = VInt 28 None | _ => False end.
Proof.
  split; [|vm_compute; reflexivity]. repeat (eapply tokens_cons; [vm_compute; reflexivity|discriminate|]). eapply tokens_end. vm_compute. reflexivity.
Qed.
Example C75_case : token_at (u_stod U1) false (str "@x") = PFail PSyntax /\ ends_debugger U1 D1 native1 src1 [] (EUn UDeref (EId (str "u"))) /\
  ends_debugger U1 D1 native1 src1 [] (EBin (EInt 1) BLsh (EInt 64)) /\ ends_debugger U1 D1 native1 src1 [] (EIndex (EId (str "ps")) (EUn UNegate (EInt 1))).
Proof.
  split; [vm_compute; reflexivity|]. split; [|split].
  - eapply (C75_unsigned_refuted U1 D1 native1 cpu1 seen_case src1 5 ip_case plain_case []); [shows 9%nat|vm_compute; reflexivity|vm_compute; reflexivity].
  - eapply (C75_shift_refuted U1 D1 native1 cpu1 seen_case src1 5 ip_case plain_case []); [apply va_int|apply va_int|now left|lia].
  - eapply (C75_index_refuted U1 D1 native1 cpu1 seen_case src1 5 ip_case plain_case []); [shows 9%nat|shows 9%nat|reflexivity].
Qed.
(** p + 1 is two cells further, and (p + 1) - p is 2. *)
Example C76_case : val1 (EId (str "p")) (VPtr 5 1 6 (Some (LMem 5))) /\ size_of src1 5 2 /\ val1 (EBin (EBin (EId (str "p")) BAdd (EInt 1)) BSub (EId (str "p"))) (VInt 2 None).
Proof. split; [shows 9%nat|]. split; [eapply size_struct; vm_compute; reflexivity|shows 9%nat]. Qed.

Print Assumptions C71_expression.
Print Assumptions C71_text.
Print Assumptions C72_shown_is_value.
Print Assumptions C72_value_is_shown.
Print Assumptions C72_one_value.
Print Assumptions C72_text.
Print Assumptions C72_element.
Print Assumptions C72_array.
Print Assumptions C72_member.
Print Assumptions C75_first_token_refuted.
Print Assumptions C75_overflow_refuted.
Print Assumptions C75_shift_refuted.
Print Assumptions C75_index_refuted.
Print Assumptions C75_unsigned_refuted.
Print Assumptions C75_last_address_refuted.
Print Assumptions C76_pointer_difference_refuted.
Print Assumptions C76_both_sides_refuted.
Print Assumptions C76_char_difference_refuted.
