(** What the assembler produces fits the C++ types: immediates and data are 64-bit
    numbers, addresses are unsigned ones. *)
From Coq Require Import Ascii String ZArith NArith List Bool Lia.
From Verif Require Import Base Text PropText Isa AluSpec IsaSpec Lexer LexProofs Asm Show AsmSpec AsmSweep.
Import ListNotations.
Open Scope Z_scope.

Section Typed.
Variable stod : text -> option Z.
(** std::stod delivers a double, that is 64 bits *)
Hypothesis stod_fits : forall s v, stod s = Some v -> fits v.

(** The number and the double read last. *)
Definition inside (p : parser) : Prop := -1 <= num p < 2 ^ 31 /\ fits (l_float (p_lex p)).

Lemma here_float : forall s v r, here stod s = POk (TFloat v, r) -> fits v.
Proof.
  intros s n r H. unfold here in H. destruct (lead_of (hd EOF s)); try discriminate.
  - destruct (second _ _); discriminate.
  - destruct (lex_string _ _) as [[]|]; discriminate.
  - destruct (span _ _) as [w x]. destruct (existsb _ w); [|destruct (stoi _); discriminate]. destruct (stod _) eqn:E; [|discriminate].
    injection H as <- <-. eapply stod_fits. eassumption.
  - destruct (span _ _) as [w x]. discriminate.
Qed.

Lemma next_inside : forall p p', inside p -> next stod p = POk p' -> inside p'.
Proof.
  intros p p' [H1 H2] N. unfold next, advance in N. rewrite get_next_token in N.
  destruct (token_at stod (l_ignore (p_lex p)) (l_in (p_lex p))) as [[t r]|e] eqn:T; [|discriminate]. cbn [pbind] in N. injection N as <-.
  destruct (token_at_is_here _ _ _ _ _ T) as (s' & _ & H). unfold inside, num in *. cbn [p_lex load l_num l_float].
  destruct t; split; auto; [pose proof (here_num _ _ _ _ H); lia|exact (here_float _ _ _ H)].
Qed.
Lemma expect_inside : forall p k p', inside p -> expect stod p k = POk p' -> inside p'.
Proof. intros p k p' H E. unfold expect in E. destruct (is p k); [|discriminate]. eapply next_inside; eauto. Qed.

Definition yields {A} (Q : A -> Prop) (x : pres (A * parser)) : Prop := match x with POk (a, p) => Q a /\ inside p | PFail _ => True end.
Definition gives {A} (Q : A -> Prop) (f : parser -> pres (A * parser)) : Prop := forall p, inside p -> yields Q (f p).

Lemma y_next : forall A (Q : A -> Prop) p f, inside p -> (forall p', inside p' -> yields Q (f p')) -> yields Q (pbind (next stod p) f).
Proof. intros A Q p f H G. destruct (next stod p) eqn:E; [|exact I]. apply G. eapply next_inside; eauto. Qed.
Lemma y_expect : forall A (Q : A -> Prop) p k f, inside p -> (forall p', inside p' -> yields Q (f p')) -> yields Q (pbind (expect stod p k) f).
Proof. intros A Q p k f H G. destruct (expect stod p k) eqn:E; [|exact I]. apply G. eapply expect_inside; eauto. Qed.
Lemma y_gives : forall A B (Q : A -> Prop) (Q' : B -> Prop) g p (f : A * parser -> pres (B * parser)), gives Q g -> inside p ->
  (forall a p', Q a -> inside p' -> yields Q' (f (a, p'))) -> yields Q' (pbind (g p) f).
Proof. intros A B Q Q' g p f W H G. pose proof (W p H) as Y. destruct (g p) as [[a p']|e]; [|exact I]. destruct Y. now apply G. Qed.
Lemma y_reg : forall A B (Q : B -> Prop) (x : pres A) (f : A -> pres (B * parser)), (forall r, yields Q (f r)) -> yields Q (pbind x f).
Proof. intros A B Q x f G. destruct x; [apply G|exact I]. Qed.
Lemma y_ok : forall A (Q : A -> Prop) p a, inside p -> Q a -> yields Q (POk (a, p)).
Proof. intros. now split. Qed.

Lemma num_fits : forall p, inside p -> fits (num p) /\ fits (- num p) /\ u64_range (u64 (num p)).
Proof. intros p [H _]. unfold fits, u64_range, u64, two64. pose proof (Z.mod_pos_bound (num p) 18446744073709551616 ltac:(lia)). lia. Qed.
Lemma u64_in : forall v, u64_range (u64 v).
Proof. intros v. unfold u64_range, u64, two64. apply Z.mod_pos_bound. lia. Qed.

Definition opt_typed (o : option operand) : Prop := match o with Some o => typed_operand o | None => True end.
Ltac side := cbn [typed_operand opt_typed]; first [exact I | assumption | apply num_fits; assumption | apply u64_in | match goal with H : inside _ |- _ => exact (proj2 H) end | idtac].
Ltac step :=
  match goal with
  | |- yields _ (PFail _) => exact I
  | |- yields _ (POk _) => apply y_ok; [assumption|side]
  | |- yields _ (pbind (next _ _) _) => apply y_next; [assumption|intros ?p' ?]
  | |- yields _ (pbind (expect _ _ _) _) => apply y_expect; [assumption|intros ?p' ?]
  | |- yields _ (pbind (get_register _) _) => apply y_reg; intros ?
  | |- yields _ (pbind (get_fregister _) _) => apply y_reg; intros ?
  | W : gives _ ?f |- yields _ (pbind (?f _) _) => eapply y_gives; [exact W|assumption|intros ? ?p' ? ?]
  | W : gives _ ?f |- yields _ (?f _) => apply W; assumption
  | |- yields _ (if ?b then _ else _) => destruct b eqn:?
  end.
Ltac gives1 f := intros ?p ?H; unfold f; repeat step.

Lemma g_register : gives (fun _ => True) (p_register stod). Proof. gives1 p_register. Qed.
Lemma g_fregister : gives (fun _ => True) (p_fregister stod). Proof. gives1 p_fregister. Qed.
Lemma g_imm : gives fits (p_imm stod). Proof. gives1 p_imm. Qed.
Lemma g_fimm : gives typed_operand (p_fimm stod). Proof. gives1 p_fimm. Qed.
Lemma g_fimm_or_reg : gives typed_operand (p_fimm_or_reg stod).
Proof. pose proof g_fregister. pose proof g_fimm. gives1 p_fimm_or_reg. Qed.
Lemma g_imm_or_reg : gives typed_operand (p_imm_or_reg stod).
Proof. pose proof g_register. pose proof g_imm. gives1 p_imm_or_reg. Qed.
Lemma g_imm_or_reg_off : gives typed_operand (p_imm_or_reg_off stod).
Proof. pose proof g_register. pose proof g_imm. gives1 p_imm_or_reg_off. Qed.
Lemma g_simple_memory : gives typed_operand (p_simple_memory stod).
Proof. pose proof g_register. pose proof g_imm. gives1 p_simple_memory. Qed.
Lemma g_imm_or_reg_or_mem : gives typed_operand (p_imm_or_reg_or_mem stod).
Proof. pose proof g_imm_or_reg. pose proof g_simple_memory. gives1 p_imm_or_reg_or_mem. Qed.
Lemma g_value : gives typed_operand (p_value stod).
Proof. pose proof g_imm_or_reg_off. pose proof g_simple_memory. gives1 p_value. Qed.
Lemma g_memory_inner : gives opt_typed (p_memory_inner stod).
Proof. pose proof g_imm. gives1 p_memory_inner. Qed.
Lemma g_memory : gives typed_operand (p_memory stod).
Proof. pose proof g_memory_inner. gives1 p_memory. destruct a; [|exact I]. now apply y_ok. Qed.
Lemma g_operand : gives typed_operand (p_operand stod).
Proof. pose proof g_memory. pose proof g_fregister. pose proof g_register. pose proof g_imm. pose proof g_fimm. gives1 p_operand. Qed.
Lemma g_mov : gives typed_instr (p_mov stod).
Proof. pose proof g_operand. gives1 p_mov. split; assumption. Qed.
Lemma g_lea : gives typed_instr (p_lea stod).
Proof. pose proof g_register. pose proof g_memory. gives1 p_lea. Qed.
Lemma g_binary : forall A B (Q : A -> Prop) (Q' : B -> Prop) (f : parser -> pres (A * parser)) (g : parser -> pres (B * parser)) mk,
  gives Q f -> gives Q' g -> (forall a b, Q a -> Q' b -> typed_instr (mk a b)) -> gives typed_instr (p_binary stod f g mk).
Proof. intros A B Q Q' f g mk F G K. gives1 @p_binary. now apply K. Qed.
Lemma g_unary : forall A (Q : A -> Prop) (f : parser -> pres (A * parser)) mk,
  gives Q f -> (forall a, Q a -> typed_instr (mk a)) -> gives typed_instr (p_unary f mk).
Proof. intros A Q f mk F K. gives1 @p_unary. now apply K. Qed.
Lemma g_nullary : forall i, typed_instr i -> gives typed_instr (p_nullary i).
Proof. intros i K. gives1 p_nullary. Qed.

Ltac op_parser :=
  first [ apply g_register | apply g_fregister | apply g_value | apply g_imm_or_reg_or_mem | apply g_imm_or_reg | apply g_fimm_or_reg ].
Lemma g_by_name : Forall (fun x => gives typed_instr (snd x)) (by_name stod).
Proof.
  unfold by_name, bin, fbin, jcc.
  repeat (apply Forall_cons; [cbn [snd]; first
    [ apply g_mov | apply g_lea
    | apply g_nullary; exact I
    | eapply g_binary; [op_parser|op_parser|cbn [typed_instr]; auto]
    | eapply g_unary; [op_parser|cbn [typed_instr]; auto] ]|]).
  apply Forall_nil.
Qed.

Lemma g_instruction : gives typed_instr (p_instruction stod).
Proof.
  intros p H. unfold p_instruction.
  assert (G : match (if is_number p then next stod p else POk p) with POk p0 => inside p0 | PFail _ => True end).
  { destruct (is_number p); [|exact H]. destruct (next stod p) eqn:E; [|exact I]. eapply next_inside; eauto. }
  destruct (if is_number p then next stod p else POk p) as [p0|e]; [|exact I]. cbn [pbind].
  destruct (is p0 KId); [|exact I]. apply y_next; [exact G|]. intros p1 H1.
  destruct (assoc (id p0) (by_name stod)) as [f|] eqn:A; [|exact I].
  exact (assoc_forall _ (gives typed_instr) _ _ _ g_by_name A p1 H1).
Qed.

Lemma g_text : forall n, gives (Forall typed_instr) (p_text stod n).
Proof.
  induction n as [|n IH]; intros p H; [exact I|]. cbn [p_text]. destruct (_ || _); [|now apply y_ok].
  eapply y_gives; [exact g_instruction|exact H|]. intros i p1 Hi H1. eapply y_gives; [exact IH|exact H1|]. intros l p2 Hl H2. apply y_ok; [exact H2|]. now constructor.
Qed.

Lemma char_fits : forall c, fits (char_value c).
Proof. intros c. unfold char_value, fits. pose proof (N_ascii_bounded c). destruct (Z.ltb_spec (Z.of_N (N_of_ascii c)) 128); lia. Qed.

Lemma g_data : forall n, gives (Forall fits) (p_data stod n).
Proof.
  induction n as [|n IH]; intros p H; [exact I|]. cbn [p_data]. destruct (is p KString); [|destruct (is_number p); [|now apply y_ok]].
  - apply y_next; [exact H|]. intros p1 H1. eapply y_gives; [exact IH|exact H1|]. intros l p2 Hl H2. apply y_ok; [exact H2|].
    apply Forall_app. split; [|constructor; [unfold fits; lia|exact Hl]]. apply Forall_map. apply Forall_forall. intros c _. apply char_fits.
  - eapply y_gives; [exact g_imm|exact H|]. intros v p1 Hv H1. eapply y_gives; [exact IH|exact H1|]. intros l p2 Hl H2. apply y_ok; [exact H2|]. now constructor.
Qed.

Lemma skip_inside : forall n p p', inside p -> p_skip stod n p = POk p' -> inside p'.
Proof.
  induction n as [|n IH]; intros p p' H E; cbn [p_skip] in E; [discriminate|].
  destruct (_ || _); [injection E as <-; exact H|]. destruct (next stod p) eqn:N; [|discriminate]. cbn [pbind] in E. eapply IH; [|exact E]. eapply next_inside; eauto.
Qed.

Definition part (x : list instr * list Z) : Prop := Forall typed_instr (fst x) /\ Forall fits (snd x).
Lemma g_section : gives part (p_section stod).
Proof.
  intros p H. unfold p_section. destruct (is p KId); [|exact I]. apply y_next; [exact H|]. intros p1 H1.
  destruct (teqb _ _); [|destruct (teqb _ _)].
  - eapply y_gives; [apply g_text|exact H1|]. intros l p2 Hl H2. apply y_ok; [exact H2|]. split; [exact Hl|constructor].
  - eapply y_gives; [apply g_data|exact H1|]. intros l p2 Hl H2. apply y_ok; [exact H2|]. split; [constructor|exact Hl].
  - destruct (p_skip stod (fuel_of p1) (with_ignore true p1)) as [p2|e] eqn:E; [|exact I]. cbn [pbind].
    pose proof (skip_inside _ (with_ignore true p1) _ H1 E) as H2. apply y_ok; [exact H2|]. split; constructor.
Qed.

Lemma sections_typed : forall n p l, inside p -> p_sections stod n p = POk l -> part l.
Proof.
  induction n as [|n IH]; intros p l H E; cbn [p_sections] in E; [discriminate|]. destruct (is p KDot).
  - destruct (next stod p) as [p1|e] eqn:N; [|discriminate]. cbn [pbind] in E. pose proof (next_inside _ _ H N) as H1.
    destruct (_ && _); [injection E as <-; split; constructor|].
    pose proof (g_section p1 H1) as Y. destruct (p_section stod p1) as [[[l1 d1] p2]|e]; [|discriminate]. cbn [pbind] in E. destruct Y as [[Y1 Y2] H2].
    destruct (p_sections stod n p2) as [[l' d']|e] eqn:S2; [|discriminate]. cbn [pbind] in E. injection E as <-.
    destruct (IH _ _ H2 S2) as [I1 I2]. split; apply Forall_app; auto.
  - destruct (check_end p); [|discriminate]. injection E as <-. split; constructor.
Qed.

Lemma open_inside : forall s p, open stod s = POk p -> inside p.
Proof.
  intros s p H. change (open stod s) with (next stod (mkParser (new_lexer s) KEnd)) in H. eapply next_inside; [|exact H].
  unfold inside, num, fits. cbn [p_lex new_lexer l_num l_float]. split; split; reflexivity || (intros X; discriminate X).
Qed.

Lemma assembled_typed : forall s p d, assemble stod s = POk (p, d) -> Forall typed_instr p /\ Forall fits d.
Proof.
  intros s p d H. unfold assemble in H. destruct (open stod s) as [q|e] eqn:O; [|discriminate]. cbn [pbind] in H. unfold p_program in H.
  destruct (is q KDot); [|discriminate]. exact (sections_typed _ _ _ (open_inside _ _ O) H).
Qed.
Lemma assembled_instr_typed : forall s i, assemble_instr stod s = POk i -> typed_instr i.
Proof.
  intros s i H. unfold assemble_instr in H. destruct (open stod s) as [q|e] eqn:O; [|discriminate]. cbn [pbind] in H.
  pose proof (g_instruction q (open_inside _ _ O)) as Y. destruct (p_instruction stod q) as [[j q']|e]; [|discriminate]. injection H as <-. apply Y.
Qed.

End Typed.
