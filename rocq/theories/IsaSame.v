(** The sequential machine does not tell states that are the same apart. *)
From Coq Require Import ZArith NArith List Bool Lia.
From Verif Require Import Base Alu Isa AluSpec State IsaSpec IsaRefine.
Import ListNotations.
Open Scope Z_scope.

Lemma same_sym : forall S T, same S T -> same T S.
Proof. intros S T []. constructor; auto. intros. symmetry. auto. Qed.
Lemma same_trans : forall S T U, same S T -> same T U -> same S U.
Proof. intros S T U [] []. constructor; try congruence. intros l H. rewrite s_reg by exact H. auto. Qed.

Lemma reg_val_same : forall S T l v, same S T -> reg_val S l v -> reg_val T l v.
Proof.
  intros S T l v H R. inversion R; subst.
  - constructor. now rewrite <- (s_pc _ _ H).
  - rewrite (s_reg _ _ H) by assumption. now constructor.
Qed.
Lemma inside_same : forall S T o z, same S T -> inside S o z -> inside T o z.
Proof. intros S T o z H R. inversion R; subst; constructor; eauto using reg_val_same. Qed.
Lemma opnd_same : forall S T o v, same S T -> opnd S o v -> opnd T o v.
Proof.
  intros S T o v H R. inversion R; subst; try (econstructor; eauto using reg_val_same; fail).
  eapply op_mem; [eapply inside_same; eauto|]. now rewrite <- (s_mem _ _ H).
Qed.

Lemma put_same : forall S T l v, same S T -> same (put S l v) (put T l v).
Proof. intros S T l v []. constructor; cbn; auto. intros k N. unfold upd. destruct (lreg_eqb k l); auto. Qed.
Lemma store_same : forall S T a v, same S T -> same (store S a v) (store T a v).
Proof. intros S T a v []. constructor; cbn; auto. intros b. unfold mupd. destruct (b =? a); auto. Qed.
Lemma print_same : forall S T o, same S T -> same (print S o) (print T o).
Proof. intros S T o []. constructor; cbn; auto. congruence. Qed.
Lemma take_same : forall S T r, same S T -> same (take_input S r) (take_input T r).
Proof. intros S T r []. constructor; cbn; auto. Qed.
Lemma halt_same : forall S T, same S T -> same (halt S) (halt T).
Proof. intros S T []. constructor; cbn; auto. Qed.
Lemma jump_same : forall S T t, same S T -> same (jump S t) (jump T t).
Proof. intros S T t []. constructor; cbn; auto. Qed.
Lemma next_same : forall S T, same S T -> same (next S) (next T).
Proof. intros S T []. constructor; cbn; auto. congruence. Qed.
Lemma result_same : forall S T l q, same S T -> same (result S l q) (result T l q).
Proof. intros. unfold result. auto using put_same. Qed.
Lemma float_result_same : forall F S T f r, same S T -> same (float_result F S f r) (float_result F T f r).
Proof. intros. unfold float_result. auto using put_same. Qed.

Create HintDb same_db.
#[export] Hint Resolve put_same store_same print_same take_same halt_same jump_same next_same result_same float_result_same : same_db.

Lemma effect_same : forall F i S T S', same S T -> effect F i S S' -> effect F i T S'.
Proof.
  intros F i S T S' H E.
  assert (K : forall X Y, same S' X -> same X Y -> same S' Y) by (intros; eapply same_trans; eauto).
  assert (R : forall l v, reg_val S l v -> reg_val T l v) by (intros; eapply reg_val_same; eauto).
  assert (O : forall o v, opnd S o v -> opnd T o v) by (intros; eapply opnd_same; eauto).
  assert (I : forall o z, inside S o z -> inside T o z) by (intros; eapply inside_same; eauto).
  assert (M : forall a, a_mem S a = a_mem T a) by apply (s_mem _ _ H).
  assert (SP' : a_reg S (LR SP) = a_reg T (LR SP)) by (apply (s_reg _ _ H); discriminate).
  assert (FL : a_reg S (LR Flags) = a_reg T (LR Flags)) by (apply (s_reg _ _ H); discriminate).
  pose proof (s_pc _ _ H) as P. pose proof (s_in _ _ H) as IN.
  destruct i; cbn [effect] in E |- *;
    try (repeat match type of E with
         | exists _, _ => let x := fresh "x" in destruct E as [x E]; exists x
         | _ /\ _ => let A := fresh "A" in destruct E as [A E]; split; [auto; try congruence|]
         end; eapply K; [exact E|]; auto with same_db; fail).
  - destruct d; repeat match type of E with
         | exists _, _ => let x := fresh "x" in destruct E as [x E]; exists x
         | _ /\ _ => let A := fresh "A" in destruct E as [A E]; split; [auto; try congruence|]
         end; (eapply K; [exact E|]); auto with same_db.
  - destruct E as (x & t & q & A & B & C & E). exists x, t, q. do 3 (split; [now auto|]). eapply K; [exact E|].
    destruct (rval q =? 0); [|auto with same_db]. destruct r; auto with same_db.
  - destruct E as (t & A & E). exists t. split; [now auto|]. eapply K; [exact E|]. rewrite <- FL. destruct (taken _ _); auto with same_db.
Qed.

Lemma effect_to_same : forall F i S S' S2, effect F i S S' -> same S2 S' -> effect F i S S2.
Proof.
  intros F i S S' S2 E H.
  assert (K : forall X, same S' X -> same S2 X) by (intros; eapply same_trans; eauto).
  destruct i; cbn [effect] in E |- *; try (repeat match type of E with
         | exists _, _ => let x := fresh "x" in destruct E as [x E]; exists x
         | _ /\ _ => let A := fresh "A" in destruct E as [A E]; split; [exact A|]
         end; apply K; exact E).
  destruct d; repeat match type of E with
         | exists _, _ => let x := fresh "x" in destruct E as [x E]; exists x
         | _ /\ _ => let A := fresh "A" in destruct E as [A E]; split; [exact A|]
         end; apply K; exact E.
Qed.

Lemma step_from_same : forall F p S T S', same S T -> isa_step F p S S' -> isa_step F p T S'.
Proof.
  intros F p S T S' H [Hh He]. constructor; [now rewrite <- (s_halted _ _ H)|]. rewrite <- (s_pc _ _ H). eapply effect_same; eauto.
Qed.
Lemma step_to_same : forall F p S S' S2, isa_step F p S S' -> same S2 S' -> isa_step F p S S2.
Proof. intros F p S S' S2 [Hh He] H. constructor; [exact Hh|]. eapply effect_to_same; eauto. Qed.

Lemma run_snoc : forall F p n S T U, isa_run F p n S T -> isa_step F p T U -> isa_run F p (Datatypes.S n) S U.
Proof.
  intros F p n S T U H. induction H as [S|n S S1 T H1 H2 IH]; intros Hs.
  - econstructor; [exact Hs|constructor].
  - econstructor; [exact H1|]. auto.
Qed.

Lemma run_app : forall F p n m S T U, isa_run F p n S T -> isa_run F p m T U -> isa_run F p (n + m) S U.
Proof. intros F p n m S T U H. induction H; intros G; cbn [Nat.add]; [exact G|]. econstructor; eauto. Qed.
