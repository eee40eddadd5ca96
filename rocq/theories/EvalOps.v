(** The operators of expressions have their specified values (for C72). *)
From Coq Require Import Ascii String ZArith NArith List Bool Lia.
From Verif Require Import Base Text StdMap Alu AluSpec AluProofs Exec Lexer Isa IsaSpec Cpu Os DbgText Client PropProto Native Src SrcFacts PropLoc Expr Eval ValSpec EvalFacts EvalSound.
Import ListNotations.
Open Scope Z_scope.

Lemma truth_bit : forall (P : Prop) b z, (b = true <-> P) -> (truth P z <-> z = bit b).
Proof.
  intros P b z H. unfold truth, bit. destruct b.
  - split; [intros [[_ E]|[E _]]; [exact E|elim E; now apply H]|intros ->; left; split; [now apply H|reflexivity]].
  - split; [intros [[E _]|[_ E]]; [apply H in E; discriminate|exact E]|intros ->; right; split; [intros E; apply H in E; discriminate|reflexivity]].
Qed.
Lemma s64_spec : forall z, s64 z = (z + 2 ^ 63) mod 2 ^ 64 - 2 ^ 63.
Proof.
  intros z. unfold s64. cbv zeta. unfold two64, two63. change 18446744073709551616 with (2 ^ 64). change 9223372036854775808 with (2 ^ 63).
  pose proof (Z.mod_pos_bound z (2 ^ 64) ltac:(lia)) as B. rewrite <- (Zplus_mod_idemp_l z). destruct (Z.ltb_spec (z mod 2 ^ 64) (2 ^ 63)).
  - rewrite (Z.mod_small (z mod 2 ^ 64 + 2 ^ 63)) by lia. lia.
  - replace (z mod 2 ^ 64 + 2 ^ 63) with (z mod 2 ^ 64 - 2 ^ 63 + 1 * 2 ^ 64) by lia. rewrite Z.mod_add by lia. rewrite (Z.mod_small (z mod 2 ^ 64 - 2 ^ 63)) by lia. lia.
Qed.
Lemma s64_u64 : forall z, s64 (u64 z) = s64 z.
Proof. intros z. unfold s64, u64. now rewrite Zmod_mod. Qed.

(** The table of C on integers, as functions. *)
Definition int_fun (w : Z) (wrap : Z -> Z) (op : binop) (x y : Z) : option Z :=
  match op with
  | BAdd => Some (x + y) | BSub => Some (x - y) | BMul => Some (x * y)
  | BDiv => if y =? 0 then None else Some (Z.quot x y)
  | BMod => if y =? 0 then None else modulus x y
  | BEq => Some (bit (x =? y)) | BNeq => Some (bit (negb (x =? y))) | BLess => Some (bit (x <? y)) | BGreater => Some (bit (y <? x))
  | BLeq => Some (bit (x <=? y)) | BGeq => Some (bit (y <=? x)) | BAnd => Some (bit (both x y)) | BOr => Some (bit (either x y))
  | BIAnd => Some (Z.land x y) | BIOr => Some (Z.lor x y) | BIXor => Some (Z.lxor x y)
  | BLsh => shl w wrap x y | BRsh => shr w x y | BAssign => None
  end.
Lemma int_fun_spec : forall w wrap op x y z, (forall v, wrap v = (v + 2 ^ (w - 1)) mod 2 ^ w - 2 ^ (w - 1)) ->
  (int_op w op x y z <-> int_fun w wrap op x y = Some z).
Proof.
  intros w wrap op x y z W.
  assert (T : forall (P : Prop) b, (b = true <-> P) -> (truth P z <-> Some (bit b) = Some z)).
  { intros P b H. rewrite (truth_bit P b z H). split; [now intros ->|intros E; now injection E]. }
  assert (S' : forall a, (z = a) <-> Some a = Some z) by (intros a; split; [now intros ->|intros E; now injection E]).
  destruct op; cbn [int_op int_fun]; try apply S'; try (apply T; lia).
  - destruct (Z.eqb_spec y 0); [split; [intros [? _]; lia|discriminate]|]. rewrite <- S'. intuition lia.
  - destruct (Z.eqb_spec y 0); [split; [intros [? _]; lia|discriminate]|]. unfold modulus. pose proof (fits64_spec (Z.quot x y)) as Q. destruct (fits64 (Z.quot x y)).
    + rewrite <- S'. pose proof (Z.quot_rem' x y). intuition lia.
    + split; [intros (_ & H & _); apply Q in H; discriminate|discriminate].
  - apply T. unfold both. rewrite andb_true_iff, !negb_true_iff. lia.
  - apply T. unfold either. rewrite orb_true_iff, !negb_true_iff. lia.
  - rewrite <- S'. split; [intros H; apply Z.bits_inj'; intros i Hi; now rewrite Z.land_spec, H|intros -> i Hi; apply Z.land_spec].
  - rewrite <- S'. split; [intros H; apply Z.bits_inj'; intros i Hi; now rewrite Z.lor_spec, H|intros -> i Hi; apply Z.lor_spec].
  - rewrite <- S'. split; [intros H; apply Z.bits_inj'; intros i Hi; now rewrite Z.lxor_spec, H|intros -> i Hi; apply Z.lxor_spec].
  - unfold shl. destruct (Z.leb_spec 0 y); destruct (Z.ltb_spec y w); cbn [andb]; try (split; [lia|discriminate]).
    rewrite <- S', W, Z.shiftl_mul_pow2 by lia. intuition lia.
  - unfold shr. destruct (Z.leb_spec 0 y); destruct (Z.ltb_spec y w); cbn [andb]; try (split; [lia|discriminate]).
    rewrite <- S', Z.shiftr_div_pow2 by lia. intuition lia.
  - split; [tauto|discriminate].
Qed.

Section U.
Variable U : setup.
Variable D : dops.
Variable N : native.
Variable c : cpu.
Hypothesis Sn : seen U N c.
Variable src : source.
Notation F := (e_fops (u_env U)).
Notation reg := (reg_named c).
Notation mem := (cell U c).
Notation bv := (bin_value src F D).
Notation uv := (un_value src reg mem).

Definition float_fun (op : binop) (x y : Z) : option Z :=
  match op with
  | BAdd => Some (f_add F x y) | BSub => Some (f_sub F x y) | BMul => Some (f_mul F x y)
  | BDiv => if f_zero F y then None else Some (f_div F x y)
  | _ => None
  end.
Lemma float_fun_spec : forall op x y z, float_op F op x y z <-> float_fun op x y = Some z.
Proof.
  intros op x y z. destruct op; cbn [float_op float_fun]; try (split; [tauto|discriminate]); try (split; [now intros ->|intros E; now injection E]).
  destruct (f_zero F y); split; [intros [? _]; discriminate|discriminate|now intros [_ ->]|intros E; injection E; auto].
Qed.
Definition fcmp_fun (op : binop) (x y : Z) : option Z :=
  match op with
  | BEq => Some (bit (d_eq D x y)) | BNeq => Some (bit (negb (d_eq D x y))) | BLess => Some (bit (d_lt D x y)) | BGreater => Some (bit (d_lt D y x))
  | BLeq => Some (bit (d_le D x y)) | BGeq => Some (bit (d_le D y x))
  | BAnd => Some (bit (fboth U x y)) | BOr => Some (bit (feither U x y))
  | _ => None
  end.
Lemma fcmp_fun_spec : forall op x y z, float_cmp F D op x y z <-> fcmp_fun op x y = Some z.
Proof.
  intros op x y z.
  assert (T : forall (P : Prop) b, (b = true <-> P) -> (truth P z <-> Some (bit b) = Some z)).
  { intros P b H. rewrite (truth_bit P b z H). split; [now intros ->|intros E; now injection E]. }
  destruct op; cbn [float_cmp fcmp_fun]; try (split; [tauto|discriminate]); apply T; try reflexivity.
  - apply negb_true_iff.
  - unfold fboth. now rewrite andb_true_iff, !negb_true_iff.
  - unfold feither. now rewrite orb_true_iff, !negb_true_iff.
Qed.

(** The whole table. *)
Lemma checked_then : forall z (f : Z -> tvalue) v, (let* w := checked z in ret (f w)) N = Done v N <-> fits z /\ v = f z.
Proof.
  intros z f v. unfold then_, ret. rewrite checked_ok. pose proof (fits64_spec z) as Q. destruct (fits64 z).
  - split; [intros E; injection E as <-; split; [now apply Q|reflexivity]|now intros [_ ->]].
  - split; [discriminate|intros [E _]; apply Q in E; discriminate].
Qed.
Lemma opt_then : forall o (f : Z -> tvalue) v, (let* w := opt_or dead o in ret (f w)) N = Done v N <-> exists z, o = Some z /\ v = f z.
Proof.
  intros [z|] f v; unfold then_, opt_or, ret, dead; split; try discriminate.
  - intros E; injection E as <-. eauto.
  - now intros (w & E & ->); injection E as ->.
  - now intros (w & E & _).
Qed.
Lemma ret_done : forall (v w : tvalue), ret v N = Done w N <-> w = v.
Proof. intros. unfold ret. split; [intros E; now injection E|now intros ->]. Qed.

Ltac no := split; [discriminate|intros Hbv; inversion Hbv; subst; try contradiction; cbn in *; try contradiction; try congruence].

Lemma int_binary : forall fuel op x y l l' v, op <> BAssign ->
  (binary U D fuel src op (VInt x l) (VInt y l') N = Done v N <-> exists z, int_fun 64 s64 op x y = Some z /\ (arith op -> fits z) /\ v = VInt z None).
Proof.
  intros fuel op x y l l' v NA.
  assert (R : forall z, ret (VInt z None) N = Done v N <-> exists w, Some z = Some w /\ (False -> fits w) /\ v = VInt w None).
  { intros z. rewrite ret_done. split; [intros ->; exists z; tauto|intros (w & E & _ & ->); now injection E as ->]. }
  assert (O : forall o, (let* w := opt_or dead o in ret (VInt w None)) N = Done v N <-> exists z, o = Some z /\ (False -> fits z) /\ v = VInt z None).
  { intros o. rewrite opt_then. split; intros (z & E1 & E2); exists z; tauto. }
  assert (C : forall z, (let* w := checked z in ret (VInt w None)) N = Done v N <-> exists w, Some z = Some w /\ (True -> fits w) /\ v = VInt w None).
  { intros z. rewrite checked_then. split; [intros [Fi ->]; exists z; tauto|intros (w & E & Fi & ->); injection E as ->; auto]. }
  destruct op; cbn [binary add_values sub_values arithmetic compare_values bit_values int_fun arith not_zero]; try apply R; try apply O; try apply C.
  - destruct (Z.eqb_spec y 0); cbn [negb]; [split; [discriminate|now intros (? & ? & _)]|apply C].
  - destruct (Z.eqb_spec y 0); cbn [negb]; [split; [discriminate|now intros (? & ? & _)]|apply O].
  - congruence.
Qed.
Lemma char_binary : forall fuel op x y l l' v, op <> BAssign ->
  (binary U D fuel src op (VChar x l) (VChar y l') N = Done v N <-> exists z, op <> BSub /\ int_fun 32 s32 op x y = Some z /\ v = VInt z None).
Proof.
  intros fuel op x y l l' v NA.
  assert (R : forall z, ret (VInt z None) N = Done v N <-> exists w, Some z = Some w /\ v = VInt w None).
  { intros z. rewrite ret_done. split; [intros ->; exists z; tauto|intros (w & E & ->); now injection E as ->]. }
  assert (K : forall (P : Prop) (Q : Z -> Prop), op <> BSub -> (P <-> exists z, Q z) -> (P <-> exists z, op <> BSub /\ Q z)).
  { intros Q Q' H ->. split; intros (z & E); exists z; tauto. }
  destruct op; try (apply K; [discriminate|]); cbn [binary add_values sub_values arithmetic compare_values bit_values int_fun not_zero]; try apply R; try apply opt_then.
  - split; [discriminate|now intros (? & ? & _)].
  - destruct (Z.eqb_spec y 0); cbn [negb]; [split; [discriminate|now intros (? & ? & _)]|apply R].
  - destruct (Z.eqb_spec y 0); cbn [negb]; [split; [discriminate|now intros (? & ? & _)]|apply opt_then].
  - congruence.
Qed.
Lemma float_binary : forall fuel op x y l l' v, op <> BAssign ->
  (binary U D fuel src op (VFloat x l) (VFloat y l') N = Done v N <->
   (exists z, float_fun op x y = Some z /\ v = VFloat z None) \/ (exists z, fcmp_fun op x y = Some z /\ v = VInt z None)).
Proof.
  intros fuel op x y l l' v NA.
  assert (R : forall z, ret (VInt z None) N = Done v N <-> (exists w, None = Some w /\ v = VFloat w None) \/ exists w, Some z = Some w /\ v = VInt w None).
  { intros z. rewrite ret_done. split; [intros ->; right; exists z; tauto|intros [(w & E & _)|(w & E & ->)]; [discriminate|now injection E as ->]]. }
  assert (R' : forall z, ret (VFloat z None) N = Done v N <-> (exists w, Some z = Some w /\ v = VFloat w None) \/ exists w, None = Some w /\ v = VInt w None).
  { intros z. rewrite ret_done. split; [intros ->; left; exists z; tauto|intros [(w & E & ->)|(w & E & _)]; [now injection E as ->|discriminate]]. }
  assert (X : fail N = Done v N <-> (exists w, None = Some w /\ v = VFloat w None) \/ exists w, None = Some w /\ v = VInt w None).
  { split; [discriminate|intros [(w & E & _)|(w & E & _)]; discriminate]. }
  destruct op; cbn [binary add_values sub_values arithmetic compare_values bit_values float_fun fcmp_fun not_zero]; try apply R; try apply R'; try apply X.
  - destruct (f_zero F y); cbn [negb]; [apply X|apply R'].
  - destruct (f_zero F y); cbn [negb]; apply X.
  - congruence.
Qed.

Lemma size_then : forall fuel id (f : Z -> tvalue) v, (let* n := type_size fuel src id in ret (f n)) N = Done v N -> exists n, size_of src id n /\ v = f n.
Proof.
  intros fuel id f v H. apply then_done in H; [|apply quiet_size]. destruct H as (n & E & H). apply size_done in E. injection H as <-. eauto.
Qed.
Lemma ptr_cmp_fun : forall op x y, compares op -> exists z, int_fun 64 s64 op x y = Some z.
Proof. intros [] x y []; cbn [int_fun]; eauto. Qed.
Lemma wrap64 : forall v, s64 v = (v + 2 ^ (64 - 1)) mod 2 ^ 64 - 2 ^ (64 - 1).
Proof. exact s64_spec. Qed.
Lemma wrap32 : forall v, s32 v = (v + 2 ^ (32 - 1)) mod 2 ^ 32 - 2 ^ (32 - 1).
Proof. reflexivity. Qed.

Lemma bin_sound : forall fuel op a b v, op <> BAssign -> binary U D fuel src op a b N = Done v N -> bv op a b v.
Proof.
  intros fuel op a b v NA H. destruct a as [id s p l|x l|x l|x l|nm s m l|id cnt f m l], b as [id' s' p' l'|y l'|y l'|y l'|nm' s' m' l'|id' cnt' f' m' l'];
    try (exfalso; destruct op; cbn [binary add_values sub_values arithmetic compare_values bit_values not_zero] in H; try discriminate H; try congruence;
         repeat match type of H with (if ?b then _ else _) _ = _ => destruct b end; discriminate H).
  - (* two pointers *)
    destruct op; cbn [binary add_values sub_values arithmetic compare_values bit_values not_zero] in H; try discriminate H; try congruence;
      try (injection H as <-; apply bv_ptr_cmp; [exact I|]; apply (int_fun_spec 64 s64); [exact wrap64|reflexivity]).
    destruct (Z.eqb_spec id id'); [|discriminate]. subst id'. injection H as <-. constructor.
  - (* pointer, integer *)
    destruct op; cbn [binary add_values sub_values arithmetic compare_values bit_values not_zero] in H; try discriminate H; try congruence;
      try (repeat match type of H with (if ?b then _ else _) _ = _ => destruct b end; discriminate H);
      apply size_then in H; destruct H as (n & S & ->); now constructor.
  - destruct op; cbn [binary add_values sub_values arithmetic compare_values bit_values not_zero] in H; try discriminate H; try congruence.
    apply size_then in H; destruct H as (n & S & ->). rewrite Z.add_comm. now constructor.
  - apply int_binary in H; [|exact NA]. destruct H as (z & E & A & ->). constructor; [|exact A]. apply (int_fun_spec 64 s64); [exact wrap64|exact E].
  - apply float_binary in H; [|exact NA]. destruct H as [(z & E & ->)|(z & E & ->)]; [apply bv_float; now apply float_fun_spec|apply bv_fcmp; now apply fcmp_fun_spec].
  - apply char_binary in H; [|exact NA]. destruct H as (z & S & E & ->). constructor; [exact S|]. apply (int_fun_spec 32 s32); [exact wrap32|exact E].
Qed.

Lemma bin_complete : forall op a b v, bv op a b v -> exists k0, forall k, (k0 <= k)%nat -> binary U D k src op a b N = Done v N.
Proof.
  intros op a b v H. destruct H as [op x y z l l' Ho A|op x y z l l' NS Ho|op x y z l l' Ho|op x y z l l' Ho|id s p x n l l' Hs|id s p x n l l' Hs|id s p x n l l' Hs|id s s' p q l l'|op id id' s s' p q l l' z C Ho].
  - exists O. intros k _. apply int_binary; [intros ->; exact Ho|]. exists z. split; [|auto]. now apply (int_fun_spec 64 s64); [exact wrap64|].
  - exists O. intros k _. apply char_binary; [intros ->; exact Ho|]. exists z. split; [exact NS|]. split; [|reflexivity]. now apply (int_fun_spec 32 s32); [exact wrap32|].
  - exists O. intros k _. apply float_binary; [intros ->; exact Ho|]. left. exists z. split; [|reflexivity]. now apply float_fun_spec.
  - exists O. intros k _. apply float_binary; [intros ->; exact Ho|]. right. exists z. split; [|reflexivity]. now apply fcmp_fun_spec.
  - destruct (size_enough N src _ _ Hs) as [k0 K]. exists k0. intros k Hk. cbn [binary add_values]. eapply done_then; [now apply K|]. reflexivity.
  - destruct (size_enough N src _ _ Hs) as [k0 K]. exists k0. intros k Hk. cbn [binary add_values]. eapply done_then; [now apply K|]. rewrite Z.add_comm. reflexivity.
  - destruct (size_enough N src _ _ Hs) as [k0 K]. exists k0. intros k Hk. cbn [binary sub_values]. eapply done_then; [now apply K|]. reflexivity.
  - exists O. intros k _. cbn [binary sub_values]. rewrite Z.eqb_refl. reflexivity.
  - exists O. intros k _. apply (int_fun_spec 64 s64) in Ho; [|exact wrap64]. destruct op; try destruct C; cbn [int_fun] in Ho; injection Ho as <-; reflexivity.
Qed.

(** Pointers never point outside of 64 bits, so that they can be followed. *)
Lemma deref_sound : forall fuel a v, dereference U fuel src a N = Done v N ->
  exists id s p l t, a = VPtr id s p l /\ get_type src id = Some t /\ object src reg mem t (LMem (s64 p)) v.
Proof.
  intros fuel a v H. destruct a as [id s p l| | | | |]; cbn [dereference] in H; try discriminate.
  apply then_done in H; [|apply quiet_opt, quiet_fail]. destruct H as (t & T & H). apply opt_done in T; [|discriminate]. destruct T as [T _].
  apply (type_sound U N c Sn) in H; [|apply s64_fits]. exists id, s, p, l, t. auto.
Qed.
Lemma deref_complete : forall id s p l t v, get_type src id = Some t -> object src reg mem t (LMem (s64 p)) v ->
  exists k0, forall k, (k0 <= k)%nat -> dereference U k src (VPtr id s p l) N = Done v N.
Proof.
  intros id s p l t v T O. destruct (proj1 (type_complete U N c Sn src) _ _ _ O) as [k0 K]; [apply s64_fits|].
  exists k0. intros k Hk. cbn [dereference]. eapply done_then; [now rewrite T|]. now apply K.
Qed.
Lemma lnot_opp : forall x, Z.lnot x = - x - 1.
Proof. intros. unfold Z.lnot. lia. Qed.
Lemma s8_bit : forall b, s8 (bit b) = bit b.
Proof. now intros []. Qed.
Definition unary_op (fuel : nat) (op : unop) (v : tvalue) : act native tvalue :=
  match op with
  | UDeref => dereference U fuel src v
  | UNot => unary_value Z.lnot v
  | ULNot => unary_value (fun x => bit (x =? 0)) v
  | UNegate => unary_value Z.opp v
  end.
Lemma un_sound : forall fuel op a v, unary_op fuel op a N = Done v N -> uv op a v.
Proof.
  intros fuel op a v H. destruct op; cbn [unary_op] in H.
  - destruct a; cbn [unary_value] in H; try discriminate; [apply checked_then in H; destruct H as [Fi ->]; now constructor|injection H as <-; constructor].
  - destruct a; cbn [unary_value] in H; try discriminate.
    + apply checked_then in H; destruct H as [_ ->]. constructor. apply (truth_bit _ (v0 =? 0)); [lia|reflexivity].
    + injection H as <-. rewrite s8_bit. constructor. apply (truth_bit _ (v0 =? 0)); [lia|reflexivity].
  - apply deref_sound in H. destruct H as (id & s & p & l & t & -> & T & O). econstructor; eauto.
  - destruct a; cbn [unary_value] in H; try discriminate.
    + apply checked_then in H; destruct H as [Fi ->]. rewrite lnot_opp in *. now constructor.
    + injection H as <-. rewrite lnot_opp. constructor.
Qed.
Lemma un_complete : forall op a v, uv op a v -> exists k0, forall k, (k0 <= k)%nat -> unary_op k op a N = Done v N.
Proof.
  intros op a v H. destruct H as [x l Fi|x z l T|x l Fi|x l|x z l T|x l|id s p l t v G O].
  - exists O. intros k _. cbn [unary_op unary_value]. now apply checked_then.
  - exists O. intros k _. cbn [unary_op unary_value]. apply (truth_bit _ (x =? 0)) in T; [|lia]. subst z. apply checked_then. split; [|reflexivity].
    unfold fits, bit. destruct (x =? 0); lia.
  - exists O. intros k _. cbn [unary_op unary_value]. apply checked_then. now rewrite lnot_opp.
  - exists O. reflexivity.
  - exists O. intros k _. cbn [unary_op unary_value]. apply (truth_bit _ (x =? 0)) in T; [|lia]. subst z. now rewrite s8_bit.
  - exists O. intros k _. cbn [unary_op unary_value]. now rewrite lnot_opp.
  - now apply (deref_complete id s p l t v).
Qed.

(** ---- expressions ---- *)
Variable ip : Z.
Hypothesis Hip : get_lreg c (LR PC) = Some ip.
Hypothesis P : plain src.
Variable values : list tvalue.
Notation val := (value src (u64 ip) reg mem F D values).

Lemma eval_sound : forall fuel e v, no_assign e -> eval U D fuel src values e N = Done v N -> val e v.
Proof.
  intros fuel. induction e as [i|n|op e IH|a IHa i IHi|a IHa op b IHb|e IH m|e IH m|z|z|z]; intros v NA H.
  - cbn [eval] in H. destruct (Z.of_nat (length values) <=? i); [discriminate|]. apply opt_done in H; [|discriminate]. destruct H as [H _]. now constructor.
  - constructor. eapply id_sound; eauto.
  - cbn [eval] in H. apply then_done in H; [|now apply (quiet_eval U D N c Sn)]. destruct H as (x & E & H). apply IH in E; [|exact NA].
    change (unary_op fuel op x N = Done v N) in H. apply un_sound in H. econstructor; eauto.
  - cbn [eval] in H. destruct NA as [NA NI]. apply then_done in H; [|now apply (quiet_eval U D N c Sn)]. destruct H as (xi & Ei & H).
    apply then_done in H; [|now apply (quiet_eval U D N c Sn)]. destruct H as (xa & Ea & H). apply IHi in Ei; [|exact NI]. apply IHa in Ea; [|exact NA].
    destruct xa as [id s p l| | | | |id cnt f m l]; cbn [index_value] in H; try discriminate.
    + apply then_done in H; [|apply quiet_add]. destruct H as (q & Q & H). destruct xi as [|x l'| | | |]; cbn [add_values] in Q; try discriminate.
      apply size_then in Q. destruct Q as (n & Sz & ->). apply deref_sound in H. destruct H as (id' & s' & p' & l2 & t & E & G & O). injection E as <- <- <- <-.
      rewrite s64_u64 in O. eapply va_ptr; eauto.
    + destruct xi as [|x l'| | | |]; try discriminate. destruct (Z.leb_spec (Z.of_nat (length m)) x); [discriminate|]. destruct (Z.ltb_spec x 0); [discriminate|].
      apply opt_done in H; [|discriminate]. destruct H as [H _]. eapply va_elem; eauto.
  - cbn [eval] in H. destruct NA as (NO & NA & NB). apply then_done in H; [|now apply (quiet_eval U D N c Sn)]. destruct H as (x & Ex & H).
    apply then_done in H; [|now apply (quiet_eval U D N c Sn)]. destruct H as (y & Ey & H). apply IHa in Ex; [|exact NA]. apply IHb in Ey; [|exact NB].
    apply bin_sound in H; [|exact NO]. econstructor; eauto.
  - cbn [eval] in H. apply then_done in H; [|now apply (quiet_eval U D N c Sn)]. destruct H as (x & E & H). apply IH in E; [|exact NA].
    destruct x; cbn [access_member] in H; try discriminate. apply opt_done in H; [|discriminate]. destruct H as [H _]. econstructor; eauto.
  - cbn [eval] in H. apply then_done in H; [|now apply (quiet_eval U D N c Sn)]. destruct H as (x & E & H). apply IH in E; [|exact NA].
    apply then_done in H; [|apply (quiet_dereference U N c Sn)]. destruct H as (y & Y & H). apply deref_sound in Y. destruct Y as (id & s & p & l & t & -> & G & O).
    destruct y; cbn [access_member] in H; try discriminate. apply opt_done in H; [|discriminate]. destruct H as [H _]. eapply va_arrow; eauto.
  - injection H as <-. constructor.
  - injection H as <-. constructor.
  - injection H as <-. constructor.
Qed.

Lemma eval_complete : forall e v, val e v -> exists k0, forall k, (k0 <= k)%nat -> eval U D k src values e N = Done v N.
Proof.
  intros e v H. induction H as [z|z|z|i v E|n v V|op e x v He [k1 K1] Hu|op a b x y v Ha [k1 K1] Hb [k2 K2] Ho|a i id cnt first xs l x l' v Ha [k1 K1] Hi [k2 K2] Hx E
    |a i id s p l x l' n t v Ha [k1 K1] Hi [k2 K2] Sz G O|e m name n ms l v He [k1 K1] E|e m id s p l t name n ms l' v He [k1 K1] G O E].
  - exists O. reflexivity.
  - exists O. reflexivity.
  - exists O. reflexivity.
  - exists O. intros k _. cbn [eval]. assert (Z.to_nat i < length values)%nat by (apply nth_error_Some; congruence).
    destruct (Z.leb_spec (Z.of_nat (length values)) i); [lia|]. now rewrite E.
  - eapply id_complete; eauto.
  - destruct (un_complete _ _ _ Hu) as [k2 K2]. exists (k1 + k2)%nat. intros k Hk. cbn [eval]. eapply done_then; [apply K1; lia|]. apply K2. lia.
  - destruct (bin_complete _ _ _ _ Ho) as [k3 K3]. exists (k1 + k2 + k3)%nat. intros k Hk. cbn [eval]. eapply done_then; [apply K1; lia|].
    eapply done_then; [apply K2; lia|]. apply K3. lia.
  - exists (k1 + k2)%nat. intros k Hk. cbn [eval]. eapply done_then; [apply K2; lia|]. eapply done_then; [apply K1; lia|]. cbn [index_value].
    assert (Z.to_nat x < length xs)%nat by (apply nth_error_Some; congruence).
    destruct (Z.leb_spec (Z.of_nat (length xs)) x); [lia|]. destruct (Z.ltb_spec x 0); [lia|]. now rewrite E.
  - destruct (size_enough N src _ _ Sz) as [k3 K3]. destruct (deref_complete id s (u64 (p + x * n)) None t v) as [k4 K4]; [exact G|now rewrite s64_u64|].
    exists (k1 + k2 + k3 + k4)%nat. intros k Hk. cbn [eval]. eapply done_then; [apply K2; lia|]. eapply done_then; [apply K1; lia|]. cbn [index_value].
    eapply done_then; [cbn [add_values]; eapply done_then; [apply K3; lia|reflexivity]|]. apply K4. lia.
  - exists k1. intros k Hk. cbn [eval]. eapply done_then; [apply K1; lia|]. cbn [access_member]. now rewrite E.
  - destruct (deref_complete id s p l t (VStruct name n ms l') G O) as [k2 K2]. exists (k1 + k2)%nat. intros k Hk. cbn [eval].
    eapply done_then; [apply K1; lia|]. eapply done_then; [apply K2; lia|]. cbn [access_member]. now rewrite E.
Qed.
End U.
