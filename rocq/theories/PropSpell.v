(** C117: how the tokens of source text are spelled; and C23 for texts. *)
From Coq Require Import Ascii String ZArith NArith List Bool Lia.
From Verif Require Import Base Text PropText Isa Lexer LexProofs Asm Show AsmSpec AsmSweep AsmRead AsmPrint AsmProg PropAsm.
Import ListNotations.
Open Scope Z_scope.

(** ---- specification ---- *)

Definition between (a b : N) (c : ascii) : Prop := (a <= N_of_ascii c <= b)%N.
Definition numeral (c : ascii) : Prop := between 48 57 c.                                     (* 0 - 9 *)
Definition alphabetic (c : ascii) : Prop := between 65 90 c \/ between 97 122 c \/ c = "_"%char.
Definition blank (c : ascii) : Prop := c = " "%char \/ between 9 13 c.                        (* tab to carriage return *)

(** Between the quotes of a string a character stands for itself, except for a quote and
    a backslash; behind a backslash, n is a line feed, t a tab, a backslash and a quote
    are themselves. The character 255 stands for the end of the text. *)
Definition backslash : ascii := "\"%char.
Definition quote : ascii := ascii_of_N 34.
Inductive quoted : text -> text -> Prop :=
| qt_nil : quoted [] []
| qt_char : forall c x t, c <> quote -> c <> backslash -> c <> ascii_of_N 255 -> quoted x t -> quoted (c :: x) (c :: t)
| qt_line : forall x t, quoted x t -> quoted (backslash :: "n"%char :: x) (ascii_of_N 10 :: t)
| qt_tab : forall x t, quoted x t -> quoted (backslash :: "t"%char :: x) (ascii_of_N 9 :: t)
| qt_backslash : forall x t, quoted x t -> quoted (backslash :: backslash :: x) (backslash :: t)
| qt_quote : forall x t, quoted x t -> quoted (backslash :: quote :: x) (quote :: t).

Definition signs : list (string * kind) :=
  [(";", KSemicolon); (",", KComma); ("[", KLbracket); ("]", KRbracket); ("{", KLbrace); ("}", KRbrace); ("(", KLparen); (")", KRparen);
   ("!", KBang); ("!=", KNeq); ("=", KAssign); ("==", KEq); ("%", KMod); ("+", KPlus); ("-", KMinus); ("->", KArrow);
   (">", KGreater); (">=", KGeq); (">>", KRshift); ("<", KLess); ("<=", KLeq); ("<<", KLshift); (":", KDoubledot); ("/", KSlash);
   ("*", KTimes); ("`", KBacktick); ("$", KDollar); (".", KDot); ("&", KAnd); ("&&", KLand); ("|", KOr); ("||", KLor); ("^", KXor)]%string.

(** [x] is a way to write the token, if a character that would continue it does not
    follow. [stod] is std::stod. *)
Inductive spelled (stod : text -> option Z) : text -> tok -> (ascii -> Prop) -> Prop :=
| so_name : forall c w, alphabetic c -> Forall (fun c => alphabetic c \/ numeral c) w ->
    spelled stod (c :: w) (TId (c :: w)) (fun d => alphabetic d \/ numeral d)
| so_num : forall w n, w <> [] -> denotes w n -> n < 2 ^ 31 -> spelled stod w (TNum n) (fun d => numeral d \/ d = "."%char)
| so_float : forall a b v, a <> [] -> Forall numeral a -> Forall numeral b -> stod (a ++ "."%char :: b) = Some v ->
    spelled stod (a ++ "."%char :: b) (TFloat v) (fun d => numeral d \/ d = "."%char)
| so_string : forall x t, quoted x t -> spelled stod (quote :: x ++ [quote]) (TStr t) (fun _ => False)
| so_sign : forall x k, In (x, k) signs -> spelled stod (str x) (TOp k) (fun d => exists k', In ((x ++ String d "")%string, k') signs).

(** A text with these tokens: blanks may stand between them, and comments, from # to the
    end of the line. *)
Inductive source (stod : text -> option Z) : text -> list tok -> Prop :=
| sc_end : source stod [] []
| sc_blank : forall c s ts, blank c -> source stod s ts -> source stod (c :: s) ts
| sc_comment : forall b s ts, ~ In NL b -> ~ In (ascii_of_N 255) b -> source stod s ts -> source stod ("#"%char :: b ++ NL :: s) ts
| sc_last_comment : forall b, ~ In NL b -> ~ In (ascii_of_N 255) b -> source stod ("#"%char :: b) []
| sc_token : forall x t more s ts, spelled stod x t more -> match s with [] => True | d :: _ => ~ more d end -> source stod s ts -> source stod (x ++ s) (t :: ts).

(** ---- proofs ---- *)

Lemma numeral_ok : forall c, numeral c <-> is_digit c = true.
Proof. intros c. unfold numeral, between, is_digit. rewrite andb_true_iff, !N.leb_le. reflexivity. Qed.
Lemma alpha_ok : forall c, alphabetic c <-> is_alpha c || Ascii.eqb c (ch 95) = true.
Proof.
  intros c. unfold alphabetic, between, is_alpha. rewrite !orb_true_iff, !andb_true_iff, !N.leb_le, Ascii.eqb_eq. change "_"%char with (ch 95). tauto.
Qed.
Lemma word_ok_iff : forall c, alphabetic c \/ numeral c <-> is_word c = true.
Proof. intros c. rewrite numeral_ok, alpha_ok. unfold is_word. rewrite !orb_true_iff. tauto. Qed.
Lemma blank_ok : forall c, blank c -> is_space c = true.
Proof. intros c [->|H]; [reflexivity|]. unfold between in H. unfold is_space. apply orb_true_iff. left. rewrite andb_true_iff, !N.leb_le. exact H. Qed.
Lemma alpha_lead : forall c, alphabetic c -> lead_of c = LIdent.
Proof. intros c H. apply alpha_ok in H. destruct c as [[] [] [] [] [] [] [] []]; try discriminate H; reflexivity. Qed.
Lemma numeral_lead : forall c, numeral c -> lead_of c = LNumber.
Proof. intros c H. apply numeral_ok in H. destruct c as [[] [] [] [] [] [] [] []]; try discriminate H; reflexivity. Qed.
Lemma not_true : forall (P : Prop) b, (P <-> b = true) -> ~ P -> b = false.
Proof. intros P [] H N; [|reflexivity]. elim N. now apply H. Qed.

Lemma quoted_ok : forall x t, quoted x t -> forall acc r, lex_string (x ++ quote :: r) acc = POk (acc ++ t, r).
Proof.
  induction 1 as [|c x t H1 H2 H3 H IH|x t H IH|x t H IH|x t H IH|x t H IH]; intros acc r; cbn [app lex_string].
  - now rewrite app_nil_r.
  - destruct (Ascii.eqb_spec c (ch 34)); [contradiction|]. destruct (Ascii.eqb_spec c EOF); [contradiction|]. destruct (Ascii.eqb_spec c (ch 92)); [contradiction|].
    rewrite IH, <- app_assoc. reflexivity.
  - change (lex_string (x ++ quote :: r) (acc ++ [ascii_of_N 10]) = POk (acc ++ ascii_of_N 10 :: t, r)). rewrite IH, <- app_assoc. reflexivity.
  - change (lex_string (x ++ quote :: r) (acc ++ [ascii_of_N 9]) = POk (acc ++ ascii_of_N 9 :: t, r)). rewrite IH, <- app_assoc. reflexivity.
  - change (lex_string (x ++ quote :: r) (acc ++ [backslash]) = POk (acc ++ backslash :: t, r)). rewrite IH, <- app_assoc. reflexivity.
  - change (lex_string (x ++ quote :: r) (acc ++ [quote]) = POk (acc ++ quote :: t, r)). rewrite IH, <- app_assoc. reflexivity.
Qed.

Section S.
Variable stod : text -> option Z.

Lemma sign_ok : forall x k s, In (x, k) signs -> match s with [] => True | d :: _ => ~ exists k', In ((x ++ String d "")%string, k') signs end ->
  token_at stod false (str x ++ s) = POk (TOp k, s).
Proof.
  intros x k s I F. repeat (destruct I as [I|I]; [injection I as <- <-|]); try contradiction;
    (rewrite token_at_here by (vm_compute; discriminate)); try reflexivity;
    (destruct s as [|d s]; [reflexivity|]); unfold here; cbn [str app hd tl];
    destruct d as [[] [] [] [] [] [] [] []]; first [reflexivity | exfalso; apply F; eexists; vm_compute; tauto].
Qed.

Lemma spelled_ok : forall x t more s, spelled stod x t more -> match s with [] => True | d :: _ => ~ more d end -> token_at stod false (x ++ s) = POk (t, s).
Proof.
  intros x t more s H F. destruct H as [c w Hc Hw|w n N D L|a b v N Fa Fb Hs|x t Q|x k I].
  - rewrite token_at_here by (cbn [app hd]; rewrite alpha_lead by exact Hc; discriminate). unfold here. cbn [app hd tl]. rewrite alpha_lead by exact Hc.
    rewrite (span_all is_word w s); [reflexivity| |].
    + eapply Forall_impl; [|exact Hw]. intros d Hd. now apply word_ok_iff.
    + destruct s as [|d s]; [exact Logic.I|]. exact (not_true _ _ (word_ok_iff d) F).
  - pose proof (denotes_chars _ _ D) as Fd. destruct w as [|c w]; [now elim N|]. inversion Fd as [|? ? Fc Fw]; subst. destruct (digit_lead c Fc) as (Lc & _).
    rewrite token_at_here by (cbn [app hd]; rewrite Lc; discriminate). unfold here. cbn [app hd tl]. rewrite Lc. rewrite (span_all _ w s).
    + assert (E : existsb (Ascii.eqb (ch 46)) w = false).
      { apply not_true_is_false. intros X. apply existsb_exists in X. destruct X as (x & X1 & X2). rewrite Forall_forall in Fw.
        destruct (digit_lead x (Fw x X1)) as (_ & _ & _ & Q). congruence. }
      rewrite E. unfold stoi. rewrite (digits_denotes _ _ D). destruct (Z.ltb_spec n (2 ^ 31)); [reflexivity|lia].
    + eapply Forall_impl; [|exact Fw]. intros x Hx. cbv beta. now rewrite (proj1 (proj2 (digit_lead x Hx))).
    + destruct s as [|d s]; [exact Logic.I|]. apply (not_true (numeral d \/ d = "."%char)); [|exact F]. rewrite numeral_ok, orb_true_iff, Ascii.eqb_eq. reflexivity.
  - destruct a as [|c a]; [now elim N|]. inversion Fa as [|? ? Fc Fa']; subst. cbn [app] in *.
    rewrite token_at_here by (cbn [hd]; rewrite numeral_lead by exact Fc; discriminate). unfold here. cbn [hd tl]. rewrite numeral_lead by exact Fc. rewrite (span_all _ (a ++ "."%char :: b) s).
    + assert (E : existsb (Ascii.eqb (ch 46)) (a ++ "."%char :: b) = true) by (apply existsb_exists; exists (ch 46); split; [apply in_or_app; right; now left|apply Ascii.eqb_refl]).
      rewrite E. now rewrite Hs.
    + apply Forall_app. split; [|constructor; [reflexivity|]]; (eapply Forall_impl; [|eassumption]); intros d Hd; apply numeral_ok in Hd; now rewrite Hd.
    + destruct s as [|d s]; [exact Logic.I|]. apply (not_true (numeral d \/ d = "."%char)); [|exact F]. rewrite numeral_ok, orb_true_iff, Ascii.eqb_eq. reflexivity.
  - cbn [app]. rewrite token_at_here by (cbn [hd]; discriminate). rewrite <- app_assoc. cbn [app]. unfold here. cbn [hd tl].
    change (lead_of quote) with LString. cbv iota. now rewrite (quoted_ok _ _ Q).
  - now apply sign_ok.
Qed.

(** C117. The lexer reads exactly the tokens that are spelled out, and then the end. *)
Theorem C117_tokens : forall s ts, source stod s ts -> exists r r', lexes stod s ts r /\ token_at stod false r = POk (TOp KEnd, r').
Proof.
  intros s ts H. induction H as [|c s ts B H IH|b s ts N1 N2 H IH|b N1 N2|x t more s ts Sp F H IH].
  - exists [], []. split; [constructor|reflexivity].
  - destruct IH as (r & r' & L & E). apply blank_ok in B. inversion L; subst.
    + exists (c :: r), r'. split; [constructor|]. now rewrite token_at_space.
    + exists r, r'. split; [|exact E]. econstructor; [|eassumption]. now rewrite token_at_space.
  - destruct IH as (r & r' & L & E). assert (C : token_at stod false ("#"%char :: b ++ NL :: s) = token_at stod false s) by (change "#"%char with (ch 35); rewrite token_at_comment; now rewrite skip_comment).
    inversion L; subst.
    + exists ("#"%char :: b ++ NL :: r), r'. split; [constructor|]. now rewrite C.
    + exists r, r'. split; [|exact E]. econstructor; [|eassumption]. now rewrite C.
  - exists ("#"%char :: b), []. split; [constructor|]. change "#"%char with (ch 35). rewrite token_at_comment. replace (skip_line b) with (@nil ascii); [reflexivity|].
    symmetry. induction b as [|c b IH]; [reflexivity|]. cbn [skip_line]. destruct (Ascii.eqb_spec c EOF) as [->|]; [elim N2; now left|]. destruct (Ascii.eqb_spec c (ch 10)) as [->|]; [elim N1; now left|].
    apply IH; intros X; [apply N1|apply N2]; now right.
  - destruct IH as (r & r' & L & E). exists r, r'. split; [|exact E]. econstructor; [|exact L]. eapply spelled_ok; eassumption.
Qed.
(** No text spells two sequences of tokens. *)
Lemma no_end : forall s ts, source stod s ts -> ~ In (TOp KEnd) ts.
Proof.
  intros s ts H. induction H as [|c s ts B H IH|b s ts N1 N2 H IH|b N1 N2|x t more s ts Sp F H IH]; [intros []|exact IH|exact IH|intros []|]. intros [X|X]; [|exact (IH X)].
  subst t. inversion Sp as [| | | |y k I]; subst. cbn in I. repeat (destruct I as [I|I]; [discriminate|]). contradiction.
Qed.
Theorem C117_one_reading : forall s ts ts', source stod s ts -> source stod s ts' -> ts = ts'.
Proof.
  intros s ts ts' H H'. pose proof (no_end _ _ H) as N. pose proof (no_end _ _ H') as N'. destruct (C117_tokens _ _ H) as (r & r1 & L & E). destruct (C117_tokens _ _ H') as (r' & r1' & L' & E').
  clear H H'. revert ts' r' L' E' N'. induction L as [s|s t s1 ts r T L IH]; intros ts' r' L' E' N'; inversion L' as [|? u u1 us ? T' M]; subst; clear L'.
  - reflexivity.
  - exfalso. apply N'. left. congruence.
  - exfalso. apply N. left. congruence.
  - assert (u = t /\ u1 = s1) as [-> ->] by (split; congruence). f_equal. eapply IH; try eassumption; intros X; [apply N|apply N']; now right.
Qed.

(** C23, from the text on: an instruction spelled out as documented is what is assembled, *)
Theorem C23_source_is_assembled : forall s ts i, source stod s ts -> instr_written ts i -> accepted i = true -> no_negative_address ts ->
  assemble_instr stod s = POk i /\ check_instr stod s = POk tt.
Proof. intros s ts i H W A P. destruct (C117_tokens _ _ H) as (r & r' & L & E). eapply C23_written_is_assembled; eassumption. Qed.
(** and so is a program. *)
Theorem C23_source_program_is_assembled : forall s ts prog data, source stod s ts -> program_written ts (prog, data) ->
  Forall (fun i => accepted i = true) prog -> no_negative_address ts -> assemble stod s = POk (prog, data).
Proof. intros s ts prog data H W A P. destruct (C117_tokens _ _ H) as (r & r' & L & E). eapply C23_written_program_is_assembled; eassumption. Qed.
End S.

(** ---- the hypotheses can be met ---- *)

Definition text117 : text := str ".data ""a\t\\"" -30 # two" ++ [NL] ++ str ".text" ++ [ascii_of_N 9] ++ str "MOV R0,R1#end".
Definition toks117 : list tok :=
  [TOp KDot; TId (str "data"); TStr [ch 97; ch 9; ch 92]; MINUS; TNum 30; TOp KDot; TId (str "text"); TId (str "MOV"); TId (str "R0"); COMMA; TId (str "R1")].
Ltac apart := try lazymatch goal with |- match ?s with _ => _ end => let v := eval vm_compute in s in change s with v end; cbv beta iota; first [rewrite word_ok_iff; discriminate | rewrite numeral_ok; intros [X|X]; discriminate |
  intros [k X]; cbn in X; repeat (destruct X as [X|X]; [discriminate|]); contradiction | exact (fun X => X)].
Ltac blanks := apply sc_blank; [first [now left|right; split; vm_compute; discriminate]|].
Lemma name_spelled : forall stod c w, is_alpha c || Ascii.eqb c (ch 95) = true -> forallb is_word w = true -> spelled stod (c :: w) (TId (c :: w)) (fun d => alphabetic d \/ numeral d).
Proof. intros stod c w H F. apply so_name; [now apply alpha_ok|]. apply Forall_forall. intros d Hd. apply word_ok_iff. rewrite forallb_forall in F. now apply F. Qed.
Ltac name_ok := apply name_spelled; reflexivity.
Example C117_case : forall stod, source stod text117 toks117 /\ program_written toks117 ([IMov (OReg (R 0)) (OReg (R 1))], [97; 9; 92; 0; -30]) /\ no_negative_address toks117.
Proof.
  intros stod. split; [|split].
  - change text117 with (str "." ++ str "data" ++ [" "%char] ++ (quote :: str "a\t\\" ++ [quote]) ++ [" "%char] ++ str "-" ++ str "30" ++ [" "%char] ++ ("#"%char :: str " two" ++ NL :: (
      str "." ++ str "text" ++ [ascii_of_N 9] ++ str "MOV" ++ [" "%char] ++ str "R0" ++ str "," ++ str "R1" ++ ("#"%char :: str "end")))). unfold toks117.
    eapply sc_token; [apply (so_sign stod "."); cbn; tauto|apart|].
    eapply sc_token; [name_ok|apart|]. blanks.
    eapply sc_token; [apply so_string, qt_char; [discriminate|discriminate|discriminate|apply qt_tab, qt_backslash, qt_nil]|apart|]. blanks.
    eapply sc_token; [apply (so_sign stod "-"); cbn; tauto|apart|].
    eapply sc_token; [apply (so_num stod (str "30") 30); [discriminate| |reflexivity]|apart|].
    { apply (dn_snoc [ch 51] 3 (ch 48) 0); [apply (dn_snoc [] 0 (ch 51) 3 dn_nil); [lia|reflexivity]|lia|reflexivity]. }
    blanks. apply sc_comment; [cbn; intuition discriminate|cbn; intuition discriminate|].
    eapply sc_token; [apply (so_sign stod "."); cbn; tauto|apart|].
    eapply sc_token; [name_ok|apart|]. blanks. eapply sc_token; [name_ok|apart|]. blanks. eapply sc_token; [name_ok|apart|].
    eapply sc_token; [apply (so_sign stod ","); cbn; tauto|apart|]. eapply sc_token; [name_ok|apart|].
    apply sc_last_comment; cbn; intuition discriminate.
  - pose proof (pw_intro [[TOp KDot; TId (str "data"); TStr [ch 97; ch 9; ch 92]; MINUS; TNum 30]; [TOp KDot; TId (str "text")] ++ [TId (str "MOV"); TId (str "R0"); COMMA; TId (str "R1")]]
      [([], [97; 9; 92; 0; -30]); ([IMov (OReg (R 0)) (OReg (R 1))], [])]) as P.
    apply P; [discriminate|]. constructor; [|constructor; [|constructor]].
    + apply (sw_data [[TStr [ch 97; ch 9; ch 92]]; [MINUS; TNum 30]] [[97; 9; 92; 0]; [-30]]). constructor; [exact (dw_str [ch 97; ch 9; ch 92])|]. constructor; [apply dw_int, (iw_neg 30)|constructor].
    + apply (sw_text [[TId (str "MOV"); TId (str "R0"); COMMA; TId (str "R1")]] [IMov (OReg (R 0)) (OReg (R 1))]). constructor; [|constructor].
      apply (iw_instr [] [[TId (str "R0")]; [TId (str "R1")]] (IMov (OReg (R 0)) (OReg (R 1)))); [now left|]. constructor; [|constructor; [|constructor]]; apply ow_reg.
      * apply (rn_num (str "0") 0); [discriminate| |reflexivity]. apply (dn_snoc [] 0 (ch 48) 0 dn_nil); [lia|reflexivity].
      * apply (rn_num (str "1") 1); [discriminate| |reflexivity]. apply (dn_snoc [] 0 (ch 49) 1 dn_nil); [lia|reflexivity].
  - intros a b Q. repeat (destruct a as [|? a]; [discriminate Q|first [discriminate Q|injection Q as _ Q]]).
Qed.

Print Assumptions C117_tokens.
Print Assumptions C117_one_reading.
Print Assumptions C23_source_is_assembled.
Print Assumptions C23_source_program_is_assembled.
