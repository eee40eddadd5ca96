(** Facts about the evaluation of expressions: it only asks (for C71), and what it gives
    is the specified value (for C72). *)
From Coq Require Import Ascii String ZArith NArith List Bool Lia.
From Verif Require Import Base Text StdMap Alu AluSpec AluProofs Exec Lexer Isa IsaSpec Cpu Os DbgText Client PropProto Native Src SrcFacts PropLoc Expr Eval ValSpec.
Import ListNotations.
Open Scope Z_scope.

(** The library after the VM has ended by itself. *)
Definition lost (N : native) : native := set_link N (mkLink None true).

Section U.
Variable U : setup.
Variable D : dops.
Variable N : native.
Variable c : cpu.
Hypothesis Sn : seen U N c.

(** Nothing changes, unless the VM is lost. *)
Definition quiet {A} (m : act native A) : Prop :=
  match m N with Done _ N' => N' = N | Failed N' => N' = N \/ N' = lost N | Dead | Blocked => True end.

Lemma quiet_ret : forall A (a : A), quiet (ret a).
Proof. reflexivity. Qed.
Lemma quiet_fail : forall A, quiet (@fail native A).
Proof. intros. now left. Qed.
Lemma quiet_dead : forall A, quiet (@dead native A).
Proof. intros. exact I. Qed.
Lemma quiet_blocked : forall A, quiet (fun _ : native => @Blocked native A).
Proof. intros. exact I. Qed.
Lemma quiet_then : forall A B (m : act native A) (f : A -> act native B), quiet m -> (forall a, quiet (f a)) -> quiet (then_ m f).
Proof. unfold quiet, then_. intros A B m f H G. destruct (m N) as [a N'|N'| |]; auto. subst N'. apply G. Qed.
Lemma quiet_opt : forall A (e : act native A) o, quiet e -> quiet (opt_or e o).
Proof. intros A e [a|] H; [reflexivity|exact H]. Qed.
Lemma quiet_if : forall A (b : bool) (m n : act native A), quiet m -> quiet n -> quiet (if b then m else n).
Proof. now intros A [] m n. Qed.
Lemma quiet_checked : forall z, quiet (checked z).
Proof. intros. apply quiet_if; [apply quiet_ret|apply quiet_dead]. Qed.
Lemma quiet_register : forall n, quiet (get_register U n).
Proof. intros n. unfold quiet. rewrite (get_register_ok U N c n Sn). destruct (reg_named c n); auto. Qed.
Lemma quiet_ip : quiet (get_ip U).
Proof. unfold quiet. destruct (get_ip_ok U N c Sn) as (ip & _ & ->). reflexivity. Qed.

Lemma u64_s64 : forall a, u64 (s64 a) = u64 a.
Proof. intros a. unfold u64, s64, two64, two63. cbv zeta. destruct (_ <? _); [apply Zmod_mod|].
  rewrite Zminus_mod, Zmod_mod, Z_mod_same_full, Z.sub_0_r. apply Zmod_mod. Qed.
Lemma s64_fits : forall a, fits (s64 a).
Proof. intros a. unfold fits, s64, two64, two63. pose proof (Z.mod_pos_bound a (2 ^ 64) ltac:(lia)). cbv zeta.
  change 18446744073709551616 with (2 ^ 64). change 9223372036854775808 with (2 ^ 63). destruct (Z.ltb_spec (a mod 2 ^ 64) (2 ^ 63)); lia. Qed.
Lemma read_cell_s64 : forall a s, read_cell U a s = read_cell U (s64 a) s.
Proof. intros a s. unfold read_cell, then_. now rewrite u64_s64. Qed.
Lemma read_cell_last : read_cell U (-1) N = Failed N \/ read_cell U (-1) N = Failed (lost N) \/ read_cell U (-1) N = Dead.
Proof.
  destruct Sn as [[r L] _ _ _]. unfold read_cell, then_, get_memory, proc, read_memory. rewrite L.
  change (u64 (-1)) with 18446744073709551615. change (u64 (18446744073709551615 + 1)) with 0.
  destruct (u_data U <? 0); [left; cbn; now rewrite <- L, set_link_same|]. right.
  unfold then_, ask. cbn [k_host k_told stopped]. unfold serve.
  assert (DT : forall s s1, decode s s1 (str "PEEKDATA " ++ show_Z 18446744073709551615 ++ [SPACE] ++ show_Z 1) = DThrow) by reflexivity.
  rewrite DT. destruct (u_local U); [right|left]; reflexivity.
Qed.
Lemma quiet_cell : forall a, quiet (read_cell U a).
Proof.
  intros a. unfold quiet. rewrite read_cell_s64. destruct (Z.eq_dec (s64 a) (-1)) as [E|E].
  - rewrite E. destruct read_cell_last as [-> |[-> | ->]]; auto.
  - rewrite (read_cell_ok U N c _ Sn (s64_fits a) E). destruct (cell U c (s64 a)); auto.
Qed.

Ltac q := repeat match goal with
  | |- quiet (ret _) => apply quiet_ret
  | |- quiet fail => apply quiet_fail
  | |- quiet dead => apply quiet_dead
  | |- quiet (fun _ => Blocked) => apply quiet_blocked
  | |- quiet (checked _) => apply quiet_checked
  | |- quiet (get_register _ _) => apply quiet_register
  | |- quiet (get_ip _) => apply quiet_ip
  | |- quiet (read_cell _ _) => apply quiet_cell
  | |- quiet (opt_or _ _) => apply quiet_opt
  | |- quiet (then_ _ _) => apply quiet_then; [|intros]
  | |- quiet (if _ then _ else _) => apply quiet_if
  end.

Lemma quiet_operand : forall l, quiet (operand_value U l).
Proof. intros [n|v]; cbn [operand_value]; q. Qed.
Lemma quiet_loc_step : forall o s, quiet (loc_step U o s).
Proof.
  intros [l| |off|] s; cbn [loc_step]; q.
  - destruct s as [|a [|b s]]; q. unfold add_operands. q. apply quiet_operand. apply quiet_operand.
  - destruct s as [|[n|v] s]; q.
Qed.
Lemma quiet_loc_run : forall l s, quiet (loc_run U l s).
Proof. induction l as [|o l IH]; intros s; cbn [loc_run]; q; [apply quiet_loc_step|apply IH]. Qed.
Lemma quiet_interpret : forall l, quiet (interpret U l).
Proof. intros l. unfold interpret. apply quiet_then; [apply quiet_loc_run|]. intros [|x s]; q. Qed.
Lemma quiet_location : forall s n, quiet (variable_location U s n).
Proof.
  intros s n. unfold variable_location. destruct (so_die s) as [dd|]; q. destruct (variable_die s a n) as [d|]; q. destruct (at_loc d) as [[|o l]|]; q. apply quiet_interpret.
Qed.
Lemma quiet_type : forall s n, quiet (variable_type U s n).
Proof. intros s n. unfold variable_type. destruct (so_die s) as [dd|]; q. destruct (variable_die s a n) as [d|]; q. Qed.
Lemma quiet_size : forall s k id, quiet (type_size k s id).
Proof.
  intros s. induction k as [|k IH]; intros id; cbn [type_size]; destruct (get_type s id) as [[]|]; q. apply IH.
Qed.

(** The loops of [eval_type], by name. *)
Variable src : source.
Definition eval_members (k : nat) (l : loc) : list memb -> list (text * tvalue) -> act native (list (text * tvalue)) :=
  fix all (ms : list memb) (acc : list (text * tvalue)) : act native (list (text * tvalue)) :=
  match ms with
  | [] => ret acc
  | x :: ms' =>
      let* ml := interpret U [LPush l; LPush (LMem (mb_off x)); LAdd] in
      let* mt := opt_or fail (get_type src (mb_type x)) in
      let* v := eval_type U src k ml mt in
      all ms' (emplace acc (mb_name x) (with_loc v ml))
  end.
Definition eval_elements (k : nat) (id : Z) (mt : ty) (v : Z) : nat -> Z -> act native (list tvalue) :=
  fix all (n : nat) (i : Z) : act native (list tvalue) :=
  match n with
  | O => ret []
  | S n' =>
      let* sz := type_size k src id in
      let ml := LMem (s64 (v + i * sz)) in
      let* x := eval_type U src k ml mt in
      let* xs := all n' (i + 1) in
      ret (with_loc x ml :: xs)
  end.
Lemma eval_struct : forall k l name size ms, eval_type U src (S k) l (TyStruct name size ms) =
  let* m := eval_members k l ms [] in ret (VStruct name size m (Some l)).
Proof. reflexivity. Qed.
Lemma eval_array : forall k v id cnt, eval_type U src (S k) (LMem v) (TyArr id cnt) =
  let* mt := opt_or fail (get_type src id) in
  let* m := eval_elements k id mt v (Z.to_nat cnt) 0 in ret (VArr id cnt (u64 v) m (Some (LMem v))).
Proof. reflexivity. Qed.

Lemma quiet_eval_ : forall k, (forall l t, quiet (eval_type U src k l t)) /\ (forall l ms acc, quiet (eval_members k l ms acc)) /\
  (forall id mt v n i, quiet (eval_elements k id mt v n i)).
Proof.
  assert (Q : forall k, (forall l t, quiet (eval_type U src k l t)) -> (forall l ms acc, quiet (eval_members k l ms acc)) /\
    (forall id mt v n i, quiet (eval_elements k id mt v n i))).
  { intros k IH. split.
    - intros l. induction ms as [|m ms IHm]; intros acc; cbn [eval_members]; q; [apply quiet_interpret|apply IH|apply IHm].
    - intros id mt v. induction n as [|n IHn]; intros i; cbn [eval_elements]; q; [apply quiet_size|apply IH|apply IHn]. }
  induction k as [|k [IH [QM QE]]]; (split; [|apply Q]).
  1,2: intros l t; apply quiet_blocked.
  all: cut (forall l t, quiet (eval_type U src (S k) l t)); [auto|]; intros l t; destruct t as [p n|id n|id cnt|name n ms].
  all: try (rewrite eval_struct; q; apply QM).
  all: try (destruct l as [r|v]; [apply quiet_fail|]; rewrite eval_array; q; apply QE).
  all: cbn [eval_type]; apply quiet_then; [destruct l; cbn [raw_value]; q|]; intros v; try destruct p; q.
Qed.
Lemma quiet_members : forall k l ms acc, quiet (eval_members k l ms acc).
Proof. intros. apply quiet_eval_. Qed.
Lemma quiet_elements : forall k id mt v n i, quiet (eval_elements k id mt v n i).
Proof. intros. apply quiet_eval_. Qed.
Lemma quiet_eval_type : forall k l t, quiet (eval_type U src k l t).
Proof. intros. apply quiet_eval_. Qed.

Variable fuel : nat.
Variable values : list tvalue.
Lemma quiet_dereference : forall v, quiet (dereference U fuel src v).
Proof. intros []; cbn [dereference]; q. apply quiet_eval_type. Qed.
Lemma quiet_add : forall a b, quiet (add_values U fuel src a b).
Proof. intros [] []; cbn [add_values]; q; apply quiet_size. Qed.
Lemma quiet_sub : forall a b, quiet (sub_values U fuel src a b).
Proof. intros [] []; cbn [sub_values]; q; apply quiet_size. Qed.
Lemma quiet_arith : forall f g a b, quiet (arithmetic f g a b).
Proof. intros f g [] []; cbn [arithmetic]; q. Qed.
Lemma quiet_compare : forall f g a b, quiet (compare_values f g a b).
Proof. intros f g [] []; cbn [compare_values]; q. Qed.
Lemma quiet_bits : forall f g a b, quiet (bit_values f g a b).
Proof. intros f g [] []; cbn [bit_values]; q. Qed.
Lemma quiet_unary : forall f a, quiet (unary_value f a).
Proof. intros f []; cbn [unary_value]; q. Qed.
Lemma quiet_binary : forall op a b, op <> BAssign -> quiet (binary U D fuel src op a b).
Proof.
  intros op a b H. destruct op; cbn [binary]; q; try apply quiet_add; try apply quiet_sub; try apply quiet_arith; try apply quiet_compare; try apply quiet_bits. congruence.
Qed.
Lemma quiet_member : forall v m, quiet (access_member v m).
Proof. intros [] m; cbn [access_member]; q. Qed.
Lemma quiet_index : forall a i, quiet (index_value U fuel src a i).
Proof. intros [] i; cbn [index_value]; q; try apply quiet_add; try apply quiet_dereference. destruct i; q. Qed.

Lemma quiet_eval : forall e, no_assign e -> quiet (eval U D fuel src values e).
Proof.
  induction e; cbn [no_assign eval]; intros H; q.
  - apply quiet_type.
  - apply quiet_location.
  - destruct a0; q. destruct a; q. apply quiet_eval_type.
  - auto.
  - destruct op; try apply quiet_dereference; apply quiet_unary.
  - now apply IHe2.
  - now apply IHe1.
  - apply quiet_index.
  - now apply IHe1.
  - now apply IHe2.
  - now apply quiet_binary.
  - auto.
  - apply quiet_member.
  - auto.
  - apply quiet_dereference.
  - apply quiet_member.
Qed.
End U.
