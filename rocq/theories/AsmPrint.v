(** The tokens of a printed instruction. *)
From Coq Require Import Ascii String ZArith NArith List Bool Lia.
From Verif Require Import Base Text PropText Isa Lexer LexProofs Asm Show AsmSpec AsmSweep AsmRead.
Import ListNotations.
Open Scope Z_scope.

(** What may follow a printed operand. *)
Definition ender (c : ascii) : bool := Ascii.eqb c (ch 32) || Ascii.eqb c (ch 10) || Ascii.eqb c (ch 44) || Ascii.eqb c (ch 93).
Definition ends (r : text) : Prop := match r with [] => True | c :: _ => ender c = true end.

Lemma ender_facts : forall c, ender c = true -> is_word c = false /\ (is_digit c || Ascii.eqb c (ch 46)) = false.
Proof. intros [[] [] [] [] [] [] [] []] H; try discriminate H; split; reflexivity. Qed.

Section Print.
Variable stod : text -> option Z.
Notation lexes := (lexes stod).
Notation token_at := (token_at stod).

Lemma lexes_app : forall s a s1 b s2, lexes s a s1 -> lexes s1 b s2 -> lexes s (a ++ b) s2.
Proof. intros s a s1 b s2 H. induction H; intros K; [exact K|]. cbn [app]. econstructor; eauto. Qed.
Lemma lexes_one : forall s t r, token_at false s = POk (t, r) -> lexes s [t] r.
Proof. intros. econstructor; [eassumption|constructor]. Qed.
Lemma lexes_space : forall s t ts r, lexes s (t :: ts) r -> lexes (ch 32 :: s) (t :: ts) r.
Proof. intros s t ts r H. inversion H; subst. econstructor; [|eassumption]. now rewrite token_at_space. Qed.

Definition prints (a : text) (ts : list tok) : Prop := forall r, ends r -> lexes (a ++ r) ts r.

Definition word (a : text) : bool := match a with c :: w => match lead_of c with LIdent => forallb is_word w | _ => false end | [] => false end.

Lemma prints_word : forall a, word a = true -> prints a [TId a].
Proof.
  intros [|c w] H; [discriminate|]. cbn [word] in H. destruct (lead_of c) eqn:L; try discriminate. intros r Hr. apply lexes_one.
  rewrite token_at_here by (cbn [app hd]; rewrite L; discriminate). unfold here. cbn [app hd tl]. rewrite L.
  rewrite (span_all is_word w r); [reflexivity| |].
  - apply Forall_forall. intros x Hx. rewrite forallb_forall in H. now apply H.
  - destruct r; [exact I|]. apply (ender_facts a), Hr.
Qed.

Lemma digit_lead : forall c, digit c <> None -> lead_of c = LNumber /\ is_digit c = true /\ is_word c = true /\ Ascii.eqb (ch 46) c = false.
Proof. intros [[] [] [] [] [] [] [] []] H; first [exfalso; apply H; reflexivity|repeat split; reflexivity]. Qed.

Lemma denotes_chars : forall w n, denotes w n -> Forall (fun c => digit c <> None) w.
Proof. intros w n H. apply Forall_forall. intros c Hc. eapply denotes_digits; eauto. Qed.

Lemma prints_num : forall w n, w <> [] -> denotes w n -> n < 2 ^ 31 -> prints w [TNum n].
Proof.
  intros w n N D L. pose proof (denotes_chars _ _ D) as F. destruct w as [|c w]; [now elim N|]. inversion F as [|? ? Fc Fw]; subst.
  intros r Hr. apply lexes_one. destruct (digit_lead c Fc) as (Lc & _).
  rewrite token_at_here by (cbn [app hd]; rewrite Lc; discriminate). unfold here. cbn [app hd tl]. rewrite Lc.
  rewrite (span_all _ w r).
  - assert (E : existsb (Ascii.eqb (ch 46)) w = false).
    { apply not_true_is_false. intros X. apply existsb_exists in X. destruct X as (x & X1 & X2). rewrite Forall_forall in Fw.
      destruct (digit_lead x (Fw x X1)) as (_ & _ & _ & Q). congruence. }
    rewrite E. unfold stoi. rewrite (digits_denotes _ _ D). destruct (Z.ltb_spec n (2 ^ 31)); [reflexivity|lia].
  - eapply Forall_impl; [|exact Fw]. intros x Hx. cbv beta. now rewrite (proj1 (proj2 (digit_lead x Hx))).
  - destruct r; [exact I|]. apply (ender_facts a), Hr.
Qed.
Lemma prints_show_nat : forall n, 0 <= n < 2 ^ 31 -> prints (show_nat n) [TNum n].
Proof. intros n H. destruct (show_nat_spec n (proj1 H)) as [N D]. apply prints_num; [exact N|exact D|lia]. Qed.

Definition int_toks (v : Z) : list tok := if v <? 0 then [MINUS; TNum (- v)] else [TNum v].
Lemma int_toks_written : forall v, int_written (int_toks v) v.
Proof. intros v. unfold int_toks. destruct (v <? 0); [|constructor]. replace v with (- - v) at 2 by lia. constructor. Qed.
Lemma prints_int : forall v, int_ok v -> prints (show_Z v) (int_toks v).
Proof.
  intros v H r Hr. unfold show_Z, int_toks, int_ok in *. destruct (Z.ltb_spec v 0).
  - econstructor; [|apply prints_show_nat; [lia|exact Hr]]. cbn [app].
    destruct (show_nat_spec (- v) ltac:(lia)) as [N D]. pose proof (denotes_chars _ _ D) as F. destruct (show_nat (- v)) as [|c w]; [now elim N|].
    inversion F as [|? ? Fc Fw]; subst. unfold LexProofs.token_at. cbn [app token_loop hd tl]. change (Ascii.eqb (ch 45) (ch 35)) with false.
    change (is_space (ch 45)) with false. change (lead_of (ch 45)) with (LTwo KMinus [(ch 62, KArrow)]). cbv iota beta. unfold here. cbn [hd tl].
    change (lead_of (ch 45)) with (LTwo KMinus [(ch 62, KArrow)]). cbv iota beta. cbn [second].
    assert (E : Ascii.eqb c (ch 62) = false) by (clear -Fc; destruct c as [[] [] [] [] [] [] [] []]; first [reflexivity|exfalso; apply Fc; reflexivity]).
    rewrite E. reflexivity.
  - apply prints_show_nat; [lia|exact Hr].
Qed.

Lemma show_nat_words : forall n, 0 <= n -> forallb is_word (show_nat n) = true.
Proof.
  intros n H. destruct (show_nat_spec n H) as [_ D]. apply forallb_forall. intros c Hc. apply digit_lead. eapply denotes_digits; eauto.
Qed.
Lemma show_reg_name : forall r, reg_ok r -> reg_name (show_reg r) r /\ word (show_reg r) = true.
Proof.
  intros [n| | | |] H; try contradiction; try (split; [constructor|reflexivity]). cbn [show_reg reg_ok] in *. split.
  - destruct (show_nat_spec (Z.of_N n) ltac:(lia)) as [N D]. pose proof (rn_num _ _ N D) as Q. rewrite N2Z.id in Q. apply Q.
    change (2 ^ 31) with (Z.of_N (2 ^ 31)). lia.
  - change (forallb is_word (show_nat (Z.of_N n)) = true). apply show_nat_words. lia.
Qed.
Lemma show_freg_name : forall f, freg_ok f -> freg_name (show_freg f) f /\ word (show_freg f) = true.
Proof.
  intros n H. unfold freg_ok, show_freg in *. split.
  - destruct (show_nat_spec (Z.of_N n) ltac:(lia)) as [N D]. pose proof (fn_num _ _ N D) as Q. rewrite N2Z.id in Q. apply Q.
    change (2 ^ 31) with (Z.of_N (2 ^ 31)). lia.
  - change (forallb is_word (show_nat (Z.of_N n)) = true). apply show_nat_words. lia.
Qed.

(** ---- operands ---- *)

Definition op_toks (o : operand) : list tok :=
  match o with
  | OImm v => int_toks v
  | OReg r => [TId (show_reg r)]
  | OFReg f => [TId (show_freg f)]
  | ORegOff r v => TId (show_reg r) :: PLUS :: int_toks v
  | OMemImm a => [OPEN; TNum a; CLOSE]
  | OMemReg r => [OPEN; TId (show_reg r); CLOSE]
  | OMemRegOff r v => OPEN :: TId (show_reg r) :: (PLUS :: int_toks v) ++ [CLOSE]
  | OMemRegReg a b => [OPEN; TId (show_reg a); PLUS; TId (show_reg b); CLOSE]
  | OMemRegScaled r v => OPEN :: TId (show_reg r) :: TIMES :: int_toks v ++ [CLOSE]
  | OMemRegOffReg a v b => OPEN :: TId (show_reg a) :: (PLUS :: int_toks v) ++ [PLUS; TId (show_reg b); CLOSE]
  | OMemRegRegScaled a b v => OPEN :: TId (show_reg a) :: PLUS :: TId (show_reg b) :: TIMES :: int_toks v ++ [CLOSE]
  | OMemRegOffRegScaled a v b x =>
      OPEN :: TId (show_reg a) :: (PLUS :: int_toks v) ++ PLUS :: TId (show_reg b) :: TIMES :: int_toks x ++ [CLOSE]
  | _ => []
  end.


Lemma op_toks_written : forall o, op_ok o -> no_float o -> small_address o -> op_written (op_toks o) o /\ plain (op_toks o).
Proof.
  intros o H F L. destruct o; cbn [op_ok no_float small_address] in *; try contradiction; unfold op_toks;
    repeat match goal with H : _ /\ _ |- _ => destruct H end;
    repeat match goal with H : reg_ok ?r |- _ => apply show_reg_name in H; destruct H end;
    repeat match goal with H : freg_ok ?r |- _ => apply show_freg_name in H; destruct H end;
    (split; [|cbn [plain app]; try exact I; unfold int_toks; repeat match goal with |- context [if ?b then _ else _] => destruct b end; exact I]).
  all: try (constructor; first [assumption|apply int_toks_written|constructor; apply int_toks_written]; fail).
  - assert (E : u64 a = a) by (unfold u64, two64; apply Z.mod_small; unfold addr_ok in H; lia). rewrite <- E at 2.
    exact (ow_mem_imm [TNum a] a (iw_pos a)).
Qed.

Lemma prints_plus : forall a ts b us, prints a ts -> prints b us -> us <> [] -> prints (a ++ str " + " ++ b) (ts ++ PLUS :: us).
Proof.
  intros a ts b us A B N r Hr. rewrite <- !app_assoc. eapply lexes_app; [apply A; reflexivity|]. destruct us as [|u us]; [now elim N|].
  change (str " + " ++ b ++ r) with (ch 32 :: ch 43 :: ch 32 :: b ++ r). apply lexes_space. econstructor; [reflexivity|]. apply lexes_space. now apply B.
Qed.
Lemma prints_times : forall a ts b us, prints a ts -> prints b us -> us <> [] -> prints (a ++ str " * " ++ b) (ts ++ TIMES :: us).
Proof.
  intros a ts b us A B N r Hr. rewrite <- !app_assoc. eapply lexes_app; [apply A; reflexivity|]. destruct us as [|u us]; [now elim N|].
  change (str " * " ++ b ++ r) with (ch 32 :: ch 42 :: ch 32 :: b ++ r). apply lexes_space. econstructor; [reflexivity|]. apply lexes_space. now apply B.
Qed.
Lemma prints_bracket : forall a ts, prints a ts -> prints (bracket a) (OPEN :: ts ++ [CLOSE]).
Proof.
  intros a ts A r Hr. unfold bracket. rewrite <- !app_assoc. change (str "[" ++ a ++ str "]" ++ r) with (ch 91 :: a ++ str "]" ++ r).
  econstructor; [reflexivity|]. eapply lexes_app; [apply A; reflexivity|]. apply lexes_one. reflexivity.
Qed.
Lemma int_toks_some : forall v, int_toks v <> [].
Proof. intros v. unfold int_toks. destruct (v <? 0); discriminate. Qed.
Lemma prints_reg : forall r, reg_ok r -> prints (show_reg r) [TId (show_reg r)].
Proof. intros r H. apply prints_word. apply show_reg_name, H. Qed.

Lemma prints_op : forall ftos o, op_ok o -> no_float o -> small_address o -> prints (show_operand ftos o) (op_toks o).
Proof.
  intros ftos o H F L. destruct o; cbn [op_ok no_float small_address] in *; try contradiction; cbn [show_operand op_toks];
    repeat match goal with H : _ /\ _ |- _ => destruct H end;
    unfold show_off, show_scaled, show_reg_reg, show_off_reg, show_reg_scaled, show_off_scaled, show_off, show_scaled.
  - now apply prints_int.
  - now apply prints_reg.
  - apply (prints_plus _ [_]); auto using prints_reg, prints_int, int_toks_some.
  - apply (prints_bracket _ [_]). apply prints_show_nat. unfold addr_ok in H. lia.
  - apply (prints_bracket _ [_]). now apply prints_reg.
  - apply (prints_bracket _ (_ :: PLUS :: _)). apply (prints_plus _ [_]); auto using prints_reg, prints_int, int_toks_some.
  - apply (prints_bracket _ [_; PLUS; _]). apply (prints_plus _ [_]); auto using prints_reg, prints_int, int_toks_some. discriminate.
  - apply (prints_bracket _ (_ :: TIMES :: _)). apply (prints_times _ [_]); auto using prints_reg, prints_int, int_toks_some.
  - replace (OPEN :: TId (show_reg r) :: (PLUS :: int_toks o) ++ [PLUS; TId (show_reg r2); CLOSE])
      with (OPEN :: ((TId (show_reg r) :: PLUS :: int_toks o) ++ [PLUS; TId (show_reg r2)]) ++ [CLOSE]) by (cbn [app]; now rewrite <- app_assoc).
    apply prints_bracket. apply prints_plus; [|now apply prints_reg|discriminate].
    apply (prints_plus _ [_]); auto using prints_reg, prints_int, int_toks_some.
  - apply (prints_bracket _ (_ :: PLUS :: _ :: TIMES :: _)). apply (prints_plus _ [_]); [now apply prints_reg| |discriminate].
    apply (prints_times _ [_]); auto using prints_reg, prints_int, int_toks_some.
  - replace (OPEN :: TId (show_reg r) :: (PLUS :: int_toks o) ++ PLUS :: TId (show_reg r2) :: TIMES :: int_toks s ++ [CLOSE])
      with (OPEN :: ((TId (show_reg r) :: PLUS :: int_toks o) ++ PLUS :: TId (show_reg r2) :: TIMES :: int_toks s) ++ [CLOSE]) by (cbn [app]; now rewrite <- app_assoc).
    apply prints_bracket. apply prints_plus; [| |discriminate].
    + apply (prints_plus _ [_]); auto using prints_reg, prints_int, int_toks_some.
    + apply (prints_times _ [_]); auto using prints_reg, prints_int, int_toks_some.
  - apply prints_word. apply show_freg_name, H.
Qed.

(** ---- instructions ---- *)

Definition instr_toks (i : instr) : list tok := TId (name_of i) :: commas (map op_toks (signature i)).
Definition printable (i : instr) : Prop := instr_ok i /\ Forall no_float (signature i) /\ Forall small_address (signature i).

Lemma name_word : forall i, word (name_of i) = true.
Proof. destruct i; try reflexivity; destruct op || destruct c; reflexivity. Qed.

Lemma op_toks_some : forall o, op_ok o -> no_float o -> op_toks o <> [].
Proof. intros o H F. destruct o; cbn [op_ok no_float] in *; try contradiction; cbn [op_toks]; try discriminate. apply int_toks_some. Qed.

Lemma prints_instr : forall ftos i, printable i -> prints (show_instr ftos i) (instr_toks i).
Proof.
  intros ftos i ([_ H] & F & L) r Hr. unfold show_instr, instr_toks. generalize dependent (signature i). intros ops H F L.
  assert (G : forall l, Forall op_ok l -> Forall no_float l -> Forall small_address l ->
    lexes (concat (map (fun x => str ", " ++ x) (map (show_operand ftos) l)) ++ r) (concat (map (cons COMMA) (map op_toks l))) r /\
    ends (concat (map (fun x => str ", " ++ x) (map (show_operand ftos) l)) ++ r)).
  { clear H F L ops. induction l as [|o l IH]; intros H F L; [split; [constructor|exact Hr]|].
    inversion H as [|? ? Ho Hl]; subst. inversion F as [|? ? Fo Fl]; subst. inversion L as [|? ? Lo Ll]; subst.
    destruct (IH Hl Fl Ll) as [I1 I2]. split; [|reflexivity]. cbn [map concat]. rewrite <- !app_assoc.
    change (str ", " ++ ?x) with (ch 44 :: ch 32 :: x). cbn [app]. econstructor; [reflexivity|].
    pose proof (prints_op ftos o Ho Fo Lo _ I2) as P. pose proof (op_toks_some o Ho Fo). destruct (op_toks o) as [|u us]; [congruence|].
    cbn [app]. apply lexes_space. eapply (lexes_app _ (u :: us)); [exact P|exact I1]. }
  destruct ops as [|o ops].
  - cbn [map commas]. rewrite app_nil_r. apply (prints_word _ (name_word i)). exact Hr.
  - inversion H as [|? ? Ho Hl]; subst. inversion F as [|? ? Fo Fl]; subst. inversion L as [|? ? Lo Ll]; subst.
    destruct (G ops Hl Fl Ll) as [I1 I2]. cbn [map commas]. rewrite <- !app_assoc. eapply (lexes_app _ [_]); [apply (prints_word _ (name_word i)); reflexivity|].
    change (str " " ++ ?x) with (ch 32 :: x). cbn [app]. pose proof (prints_op ftos o Ho Fo Lo _ I2) as P. pose proof (op_toks_some o Ho Fo).
    destruct (op_toks o) as [|u us]; [congruence|]. cbn [app]. apply lexes_space. eapply (lexes_app _ (u :: us)); [exact P|exact I1].
Qed.

Lemma instr_toks_written : forall i, printable i -> Forall2 op_written (map op_toks (signature i)) (signature i) /\ Forall plain (map op_toks (signature i)).
Proof.
  intros i ([_ H] & F & L). generalize dependent (signature i). intros ops H F L. induction ops as [|o ops IH]; [split; constructor|].
  inversion H as [|? ? Ho Hl]; subst. inversion F as [|? ? Fo Fl]; subst. inversion L as [|? ? Lo Ll]; subst.
  destruct (IH Hl Fl Ll) as [I1 I2]. destruct (op_toks_written o Ho Fo Lo). cbn [map]. split; constructor; assumption.
Qed.

(** Reading an instruction at the beginning of a text. *)
Lemma open_stands : forall s t r, token_at false s = POk (t, r) -> exists p, open stod s = POk p /\ stands p t r.
Proof.
  intros s t r T. unfold open, advance. rewrite get_next_token. cbn [new_lexer l_in l_ignore]. rewrite T. cbn [pbind].
  eexists. split; [reflexivity|]. exact (load_stands (mkParser (new_lexer s) KEnd) t r (token_proper _ _ _ _ _ T) eq_refl).
Qed.
Lemma open_from : forall s p, open stod s = POk p -> exists t r, token_at false s = POk (t, r) /\ stands p t r.
Proof.
  intros s p H. unfold open, advance in H. rewrite get_next_token in H. cbn [new_lexer l_in l_ignore] in H.
  destruct (token_at false s) as [[t r]|e] eqn:T; [|discriminate]. cbn [pbind] in H. injection H as <-. exists t, r. split; [reflexivity|].
  exact (load_stands (mkParser (new_lexer s) KEnd) t r (token_proper _ _ _ _ _ T) eq_refl).
Qed.

End Print.
