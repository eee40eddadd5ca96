(** C117 for the texts that the debugger reads: executable files and expressions. *)
From Coq Require Import Ascii String ZArith NArith List Bool Lia.
From Verif Require Import Base Text PropText Isa Lexer LexProofs Asm Show AsmSpec AsmSweep AsmRead AsmPrint AsmProg PropAsm Src Info InfoSpec InfoRead InfoStop PropInfo PropSpell.
From Verif Require Expr ExprSpec ExprParse PropExpr.
Import ListNotations.
Open Scope Z_scope.

Section S.
Variable stod : text -> option Z.

(** ---- proofs ---- *)

Lemma line_apart : forall x t more, spelled stod x t more -> ~ more NL.
Proof.
  intros x t more H. destruct H as [c w Hc Hw|w n N D L|a b v N Fa Fb Hs|x t Q|x k I]; try (rewrite word_ok_iff; discriminate); try (rewrite numeral_ok; intros [X|X]; discriminate); [exact (fun X => X)|].
  intros [k' X]. assert (G : forall y m, In (y, m) signs -> existsb (Ascii.eqb NL) (str y) = false).
  { clear. intros y m H. cbn in H. repeat (destruct H as [H|H]; [injection H as <- <-; reflexivity|]). contradiction. }
  apply G in X. clear -X. induction x as [|c x IH]; [discriminate X|]. apply IH. change (Ascii.eqb NL c || existsb (Ascii.eqb NL) (str (x ++ String NL "")) = false) in X. now apply orb_false_elim in X.
Qed.
Lemma source_then : forall s ts, source stod s ts -> forall z, exists r, lexes stod (s ++ NL :: z) ts r /\ token_at stod false r = token_at stod false z.
Proof.
  intros s ts H z. induction H as [|c s ts B H IH|b s ts N1 N2 H IH|b N1 N2|x t more s ts Sp F H IH].
  - exists (NL :: z). split; [constructor|]. now apply token_at_space.
  - destruct IH as (r & L & E). apply blank_ok in B. cbn [app]. inversion L; subst.
    + exists (c :: s ++ NL :: z). split; [constructor|]. now rewrite token_at_space.
    + exists r. split; [|exact E]. econstructor; [|eassumption]. now rewrite token_at_space.
  - destruct IH as (r & L & E). assert (C : token_at stod false (("#"%char :: b ++ NL :: s) ++ NL :: z) = token_at stod false (s ++ NL :: z)).
    { cbn [app]. rewrite <- app_assoc. cbn [app]. change "#"%char with (ch 35). rewrite token_at_comment. now rewrite skip_comment. }
    inversion L; subst.
    + eexists. split; [constructor|]. now rewrite C.
    + exists r. split; [|exact E]. econstructor; [|eassumption]. now rewrite C.
  - exists (("#"%char :: b) ++ NL :: z). split; [constructor|]. cbn [app]. change "#"%char with (ch 35). rewrite token_at_comment. now rewrite skip_comment.
  - destruct IH as (r & L & E). exists r. split; [|exact E]. econstructor; [|exact L]. rewrite <- app_assoc. eapply spelled_ok; [exact Sp|].
    destruct s as [|d s]; [exact (line_apart _ _ _ Sp)|exact F].
Qed.

(** An executable file whose sections are spelled out has these sections; with C77, the
    debugger reads them. *)
Theorem C117_file : forall s l parts, source stod s (concat l) -> Forall2 part_written l parts -> file_written stod s (concat l) parts None.
Proof. intros s l parts H F. destruct (C117_tokens _ _ _ H) as (r & r' & L & E). econstructor; [exact F|exact L|]. econstructor; exact E. Qed.
(** The same with the source, behind a line `.debug_source`. *)
Theorem C117_file_with_source : forall s l parts src ls, source stod s (concat l) -> Forall2 part_written l parts -> text_lines src ls ->
  file_written stod (s ++ [NL] ++ str ".debug_source" ++ [NL] ++ src) (concat l) parts (Some ls).
Proof.
  intros s l parts src ls H F T. destruct (source_then s (concat l) H (str ".debug_source" ++ [NL] ++ src)) as (r & L & E). cbn [app] in *.
  econstructor; [exact F|exact L|]. apply (en_source stod r src ls); [|exact T]. econstructor.
  - rewrite E. apply (sign_ok stod "." KDot (str "debug_source" ++ NL :: src)); [cbn; tauto|]. intros [k X]. cbn in X. repeat (destruct X as [X|X]; [discriminate|]). contradiction.
  - econstructor; [|constructor]. apply (spelled_ok stod (str "debug_source") _ _ (NL :: src) (name_spelled stod "d"%char (str "ebug_source") eq_refl eq_refl)). rewrite word_ok_iff. discriminate.
Qed.

(** An expression that is spelled out is read as its tree. *)
Theorem C117_expression : forall x ts e, source stod x ts -> ExprSpec.derives false 0 ts e -> Expr.parse stod x = POk e.
Proof.
  intros x ts e H D. apply (PropExpr.C37_whole stod x ts e); [|exact D]. pose proof (no_end _ _ _ H) as N. destruct (C117_tokens _ _ _ H) as (r & r' & L & E). clear H D.
  induction L as [s|s t s1 ts r T L IH]; [econstructor; exact E|]. apply (ExprSpec.tokens_cons stod s t s1 ts T); [intros ->; apply N; now left|]. apply IH; [intros X; apply N; now right|exact E].
Qed.
End S.

(** ---- the hypotheses can be met ---- *)

(** The file of C117_case: a data section and a program. *)
Example C117_file_case : forall stod, exists l, concat l = toks117 /\ source stod text117 (concat l) /\
  Forall2 part_written l [PCode [] [97; 9; 92; 0; -30]; PCode [IMov (OReg (R 0)) (OReg (R 1))] []] /\ text_lines (str "a = b") [str "a = b"].
Proof.
  intros stod. destruct (C117_case stod) as (H & _ & _).
  exists [[TOp KDot; TId (str "data"); TStr [ch 97; ch 9; ch 92]; MINUS; TNum 30]; [TOp KDot; TId (str "text")] ++ [TId (str "MOV"); TId (str "R0"); COMMA; TId (str "R1")]].
  split; [reflexivity|]. split; [exact H|]. split.
  - constructor; [|constructor; [|constructor]]; apply pw_code.
    + apply (sw_data [[TStr [ch 97; ch 9; ch 92]]; [MINUS; TNum 30]] [[97; 9; 92; 0]; [-30]]). constructor; [exact (dw_str [ch 97; ch 9; ch 92])|]. constructor; [apply dw_int, (iw_neg 30)|constructor].
    + apply (sw_text [[TId (str "MOV"); TId (str "R0"); COMMA; TId (str "R1")]] [IMov (OReg (R 0)) (OReg (R 1))]). constructor; [|constructor].
      apply (iw_instr [] [[TId (str "R0")]; [TId (str "R1")]] (IMov (OReg (R 0)) (OReg (R 1)))); [now left|]. constructor; [|constructor; [|constructor]]; apply ow_reg.
      * apply (rn_num (str "0") 0); [discriminate| |reflexivity]. apply (dn_snoc [] 0 (ch 48) 0 dn_nil); [lia|reflexivity].
      * apply (rn_num (str "1") 1); [discriminate| |reflexivity]. apply (dn_snoc [] 0 (ch 49) 1 dn_nil); [lia|reflexivity].
  - apply tl_last; [discriminate|cbn; intuition discriminate].
Qed.

Example C117_expression_case : forall stod, source stod (str "a_1<<2") [TId (str "a_1"); TOp KLshift; TNum 2] /\
  ExprSpec.derives false 0 [TId (str "a_1"); TOp KLshift; TNum 2] (Expr.EBin (Expr.EId (str "a_1")) Expr.BLsh (Expr.EInt 2)).
Proof.
  intros stod. split.
  - change (str "a_1<<2") with (str "a_1" ++ str "<<" ++ str "2" ++ []). eapply sc_token; [apply (name_spelled stod "a"%char (str "_1")); reflexivity|apart|].
    eapply sc_token; [apply (so_sign stod "<<"); cbn; tauto|apart|].
    eapply sc_token; [apply (so_num stod (str "2") 2); [discriminate|apply (dn_snoc [] 0 (ch 50) 2 dn_nil); [lia|reflexivity]|reflexivity]|exact I|constructor].
  - do 4 (apply ExprSpec.d_up; [lia|]). apply (ExprSpec.d_bin false 4 KLshift Expr.BLsh [TId (str "a_1")]); [constructor| |].
    + do 6 (apply ExprSpec.d_up; [lia|]). apply ExprSpec.d_id.
    + do 5 (apply ExprSpec.d_up; [lia|]). apply ExprSpec.d_num.
Qed.

Print Assumptions C117_file.
Print Assumptions C117_file_with_source.
Print Assumptions C117_expression.
