(** C22, C23, C24, C49, C50, C51, C52: the assembler. [stod] stands for std::stod and
    [ftos] for the fmt formatting of a double; both are arbitrary throughout. *)
From Coq Require Import Ascii String ZArith NArith List Bool Lia.
From Verif Require Import Base Text PropText Isa Lexer LexProofs Asm Show AsmSpec AsmSweep AsmRead AsmPrint AsmProg.
Import ListNotations.
Open Scope Z_scope.

Definition NL : ascii := ch 10.
Definition lines (l : list text) : text := concat (map (fun x => x ++ [NL]) l).

(** ---- C24 ---- *)

(** Layout put between two tokens leaves the tokens as they are, *)
Theorem C24_layout_keeps_tokens : forall stod a w b ts e, boundary stod a b -> layout w ->
  (stream stod (a ++ b) ts e <-> stream stod (a ++ w ++ b) ts e).
Proof.
  intros stod a w b ts e B W.
  assert (G : forall s ts e, stream stod s ts e -> forall s', same_in stod s s' -> stream stod s' ts e).
  { clear. intros s ts e H. induction H; intros s' S; pose proof (token_same stod false _ _ S) as T; rewrite H in T.
    - destruct (token_at stod false s') as [[t' r']|] eqn:E; [|contradiction]. destruct T as [<- _]. econstructor; eassumption.
    - destruct (token_at stod false s') as [[t' r']|] eqn:E; [contradiction|]. subst. now constructor.
    - destruct (token_at stod false s') as [[t' r']|] eqn:E; [|contradiction]. destruct T as [<- T]. eapply st_tok; eauto. }
  assert (K : forall s ts e, stream stod s ts e -> forall s', same_in stod s' s -> stream stod s' ts e).
  { clear. intros s ts e H. induction H; intros s' S; pose proof (token_same stod false _ _ S) as T; rewrite H in T;
      (destruct (token_at stod false s') as [[t' r']|] eqn:E; try contradiction).
    - destruct T as [-> _]. econstructor; eassumption.
    - subst. now constructor.
    - destruct T as [-> T]. eapply st_tok; eauto. }
  assert (S : same_in stod (a ++ b) (a ++ w ++ b)) by (right; exists a, b, w; auto).
  split; intros H; eauto.
Qed.
(** ... and so does the whole assembler: same program and data, or same error. *)
Theorem C24_layout_keeps_program : forall stod a w b, boundary stod a b -> layout w ->
  assemble stod (a ++ w ++ b) = assemble stod (a ++ b) /\
  assemble_instr stod (a ++ w ++ b) = assemble_instr stod (a ++ b) /\
  check_instr stod (a ++ w ++ b) = check_instr stod (a ++ b).
Proof.
  intros stod a w b B W. assert (S : same_in stod (a ++ b) (a ++ w ++ b)) by (right; exists a, b, w; auto).
  destruct (assemble_instr_same _ _ _ S) as [-> ->]. now rewrite (assemble_same _ _ _ S).
Qed.
(** Every text has one token sequence. *)
Theorem C24_stream : forall stod s, exists ts e, stream stod s ts e /\ forall ts' e', stream stod s ts' e' -> ts' = ts /\ e' = e.
Proof.
  intros stod.
  assert (G : forall n s, (length s <= n)%nat -> exists ts e, stream stod s ts e).
  { induction n as [|n IH]; intros s L; destruct (token_at stod false s) as [[t r]|e] eqn:T.
    1,3: destruct (token_at_is_here _ _ _ _ _ T) as (s0 & L0 & E); destruct (here_left _ _ _ _ E) as [[-> ->]|[Q N]];
         [exists [], None; econstructor; eassumption|].
    - lia.
    - destruct (IH r ltac:(lia)) as (ts & e & H). exists (t :: ts), e. econstructor; eassumption.
    - exists [], (Some e). now constructor.
    - exists [], (Some e). now constructor. }
  intros s. destruct (G (length s) s (le_n _)) as (ts & e & H). exists ts, e. split; [exact H|]. clear G.
  induction H; intros ts' e' K; (destruct K as [? ? T1|? ? T1|? ? ? ? ? T1 N1 K1]; rewrite H in T1; try discriminate T1).
  - auto.
  - exfalso. apply N1. congruence.
  - split; congruence.
  - exfalso. apply H0. congruence.
  - assert (X : t0 = t /\ r0 = r) by (split; congruence). destruct X as [-> ->]. destruct (IHstream _ _ K1) as [-> ->]. auto.
Qed.

Definition comment : text := str "# sum of both" ++ [NL].
Definition before : text := str ".text" ++ [NL] ++ str "ADD R0".
Definition behind : text := str ", 1" ++ [NL] ++ str "HALT".
Example C24_case : forall stod, boundary stod before behind /\ layout comment /\
  assemble stod (before ++ behind) = POk ([IBin BADD (R 0) (R 0) (OImm 1) false; IHalt], []).
Proof.
  intros stod. split; [|split].
  - apply (bd_token stod (str ".") (str "text" ++ [NL] ++ str "ADD R0") _ (TOp KDot)); [reflexivity|discriminate|].
    apply (bd_token stod (str "text") ([NL] ++ str "ADD R0") _ (TId (str "text"))); [reflexivity|discriminate|].
    apply (bd_layout stod [NL] (str "ADD R0")); [apply ly_space; [reflexivity|apply ly_nil]|].
    apply (bd_token stod (str "ADD") (str " R0") _ (TId (str "ADD"))); [reflexivity|discriminate|].
    apply (bd_layout stod [ch 32] (str "R0")); [apply ly_space; [reflexivity|apply ly_nil]|].
    apply (bd_token stod (str "R0") [] _ (TId (str "R0"))); [reflexivity|discriminate|constructor].
  - apply (ly_comment (str " sum of both") []); [vm_compute; intuition discriminate|vm_compute; intuition discriminate|constructor].
  - reflexivity.
Qed.

(** ---- C22 ---- *)

Lemma show_reads : forall stod ftos i, printable i -> forall r r', ends r -> token_at stod false r = POk (TOp KEnd, r') ->
  assemble_instr stod (show_instr ftos i ++ r) = POk i /\ check_instr stod (show_instr ftos i ++ r) = POk tt.
Proof.
  intros stod ftos i P r r' Hr T. pose proof (prints_instr stod ftos i P r Hr) as Lx. destruct (lexes_run _ _ _ _ _ _ Lx T) as (t & s1 & T1 & Rn).
  destruct (open_stands _ _ _ _ T1) as (p & E & S). destruct (instr_toks_written _ P) as [W Pl]. destruct P as [[A _] _].
  destruct (c_instruction_ops stod i [] _ p t s1 _ _ A (or_introl eq_refl) W Pl S Rn) as (p' & Q & S'); [split; discriminate|].
  unfold assemble_instr, check_instr. rewrite E. cbn [pbind]. rewrite Q. cbn [pbind]. split; [reflexivity|]. unfold check_end. now rewrite (stands_is _ _ _ _ S').
Qed.

(** The printed form of an instruction is read back as the instruction, *)
Theorem C22_printed_form_reads_back : forall stod ftos s i, assemble_instr stod s = POk i ->
  Forall no_float (signature i) -> Forall small_address (signature i) ->
  assemble_instr stod (show_instr ftos i) = POk i /\ check_instr stod (show_instr ftos i) = POk tt.
Proof.
  intros stod ftos s i H F L. pose proof (assemble_instr_good stod s) as G. rewrite H in G.
  pose proof (show_reads stod ftos i (conj G (conj F L)) [] [] I eq_refl) as Q. now rewrite app_nil_r in Q.
Qed.

(** ... and the listing of a program as the program. *)
Theorem C22_listing_reads_back : forall stod ftos s prog data, assemble stod s = POk (prog, data) ->
  (forall i, In i prog -> Forall no_float (signature i) /\ Forall small_address (signature i)) ->
  assemble stod (lines (str ".text" :: map (show_instr ftos) prog)) = POk (prog, []).
Proof.
  intros stod ftos s prog data H F. pose proof (assemble_good stod s) as G. rewrite H in G.
  assert (P : Forall printable prog).
  { apply Forall_forall. intros i Hi. rewrite Forall_forall in G. destruct (F i Hi). split; [exact (G i Hi)|]. split; assumption. }
  clear H F G s data.
  assert (Lx : forall l, Forall printable l -> lexes stod (NL :: lines (map (show_instr ftos) l)) (concat (map instr_toks l)) [NL]).
  { induction l as [|i l IH]; intros Q; [constructor|]. inversion Q as [|? ? Qi Ql]; subst. cbn [map concat].
    change (NL :: lines (show_instr ftos i :: map (show_instr ftos) l)) with ([NL] ++ ((show_instr ftos i ++ [NL]) ++ lines (map (show_instr ftos) l))).
    rewrite <- app_assoc. cbn [app].
    pose proof (prints_instr stod ftos i Qi (NL :: lines (map (show_instr ftos) l)) eq_refl) as Pr. unfold instr_toks in Pr at 1.
    inversion Pr; subst. change (instr_toks i) with (TId (name_of i) :: commas (map op_toks (signature i))). cbn [app].
    eapply lx_cons; [change (ch 10) with NL in *; rewrite token_at_space by reflexivity; eassumption|].
    eapply lexes_app; [eassumption|apply IH; exact Ql]. }
  pose proof (c_program stod [TOp KDot :: TId (str "text") :: concat (map instr_toks prog)] [(prog, [])]
    (lines (str ".text" :: map (show_instr ftos) prog)) [NL] []) as C.
  cbn [concat map app fst snd] in C. rewrite !app_nil_r in C. apply C; [|discriminate| |reflexivity].
  - constructor; [|constructor]. apply pr_text. clear -P. induction P as [|i l P F IH]; [constructor|]. cbn [map]. constructor; [|exact IH].
    destruct (instr_toks_written _ P) as [W Pl]. pose proof (iw_instr [] _ _ (or_introl eq_refl) W) as Q. split; [exact Q|]. split; [apply P|].
    exists [], (map op_toks (signature i)). auto.
  - change (lines (str ".text" :: map (show_instr ftos) prog)) with (str ".text" ++ NL :: lines (map (show_instr ftos) prog)).
    eapply lx_cons; [reflexivity|]. eapply lx_cons; [|apply Lx, P]. reflexivity.
Qed.

(** LEA R3, [BP - 4 + R12 * 8] *)
Definition lea : instr := ILea (R 3) (OMemRegOffRegScaled BP (-4) (R 12) 8).
Example C22_case : forall stod ftos, assemble_instr stod (str "7 LEA R3,[BP-4 + R12*8] # cell") = POk lea /\
  Forall no_float (signature lea) /\ Forall small_address (signature lea) /\ show_instr ftos lea = str "LEA R3, [BP + -4 + R12 * 8]".
Proof. intros stod ftos. repeat split; repeat constructor. Qed.

(** ---- C49: the rest of C22 ---- *)

(** An absolute address written as a negative number is printed as a number the
    assembler does not read: std::stoi throws out_of_range. *)
Theorem C49_negative_address_refuted : forall stod ftos, exists s i, assemble_instr stod s = POk i /\ check_instr stod s = POk tt /\
  Forall no_float (signature i) /\ assemble_instr stod (show_instr ftos i) = PFail PRange.
Proof.
  intros stod ftos. exists (str "ADD R0, [-5]"), (IBin BADD (R 0) (R 0) (OMemImm 18446744073709551611) false).
  split; [vm_compute; reflexivity|]. split; [vm_compute; reflexivity|]. split; [repeat constructor|vm_compute; reflexivity].
Qed.

(** ---- C23 ---- *)

(** Whatever is written down as documented is what is assembled (unless there is a
    minus right behind an opening bracket), *)
Theorem C23_written_is_assembled : forall stod s ts i r r', instr_written ts i -> accepted i = true -> no_negative_address ts ->
  lexes stod s ts r -> token_at stod false r = POk (TOp KEnd, r') ->
  assemble_instr stod s = POk i /\ check_instr stod s = POk tt.
Proof.
  intros stod s ts i r r' W A P Lx T. destruct (lexes_run _ _ _ _ _ _ Lx T) as (t & s1 & T1 & Rn).
  destruct (open_stands _ _ _ _ T1) as (p & E & S). destruct (c_instruction stod i ts p t s1 _ _ A W P S Rn) as (p' & Q & S'); [split; discriminate|].
  unfold assemble_instr, check_instr. rewrite E. cbn [pbind]. rewrite Q. cbn [pbind]. split; [reflexivity|]. unfold check_end. now rewrite (stands_is _ _ _ _ S').
Qed.
(** ... for whole programs too. *)
Theorem C23_written_program_is_assembled : forall stod s ts prog data r r', program_written ts (prog, data) ->
  Forall (fun i => accepted i = true) prog -> no_negative_address ts ->
  lexes stod s ts r -> token_at stod false r = POk (TOp KEnd, r') -> assemble stod s = POk (prog, data).
Proof.
  intros stod s ts prog data r r' W A P Lx T. inversion W as [l parts Ne F E1 E2]. subst. clear W.
  eapply c_program; [|exact Ne|exact Lx|exact T].
  assert (G : forall l0, (exists a b, concat l = a ++ concat l0 ++ b) -> forall parts0, Forall2 section_written l0 parts0 ->
    Forall (fun i => accepted i = true) (concat (map fst parts0)) -> Forall2 part_readable l0 parts0).
  { clear -P. intros l0 Hl parts0 H. induction H as [|x y l0 parts0 Hx H IH]; intros A; constructor.
    - destruct Hx as [lns pr Hl2|items cells Hi]; [|now constructor]. constructor.
      destruct Hl as (a & b & Hl). cbn [concat] in Hl.
      assert (K : exists a b, concat l = a ++ concat lns ++ b).
      { exists (a ++ [TOp KDot; TId (str "text")]), (concat l0 ++ b). rewrite Hl, <- !app_assoc. reflexivity. }
      cbn [map concat fst] in A. apply Forall_app in A. destruct A as [A _]. clear -P K A Hl2.
      induction Hl2 as [|ts i lns pr W Hl2 IH]; constructor.
      + inversion A; subst. apply readable_if; auto. destruct K as (a & b & K). cbn [concat] in K. intros u v Q. subst ts.
        apply (P (a ++ u) (v ++ concat lns ++ b)). rewrite K, <- !app_assoc. reflexivity.
      + inversion A; subst. apply IH; auto. destruct K as (a & b & K). exists (a ++ ts), b. rewrite K. cbn [concat]. now rewrite <- !app_assoc.
    - apply IH.
      + destruct Hl as (a & b & Hl). exists (a ++ x), b. rewrite Hl. cbn [concat]. now rewrite <- !app_assoc.
      + cbn [map concat] in A. apply Forall_app in A. apply A. }
  apply G; auto. exists [], []. now rewrite app_nil_r.
Qed.

(** ---- C52 ---- *)

(** Conversely, what is assembled is what is written, as long as every minus stands
    in front of an integer and every name is that of a register; without these two
    provisos it is false, see below. *)
Theorem C52_assembled_is_written_partial : forall stod s i, assemble_instr stod s = POk i ->
  exists pre ts r, lexes stod s (pre ++ TId (name_of i) :: ts) r /\
    (pre = [] \/ pre = [MINUS] \/ exists n, pre = [TNum n]) /\
    (pre <> [MINUS] -> careful ts -> instr_written (pre ++ TId (name_of i) :: ts) i) /\
    (check_instr stod s = POk tt -> exists r', token_at stod false r = POk (TOp KEnd, r')).
Proof.
  intros stod s i H. unfold assemble_instr, check_instr in *. destruct (open stod s) as [p|] eqn:E; [|discriminate]. cbn [pbind] in *.
  destruct (p_instruction stod p) as [[i' p']|] eqn:Q; [|discriminate]. cbn [pbind] in *. injection H as ->.
  destruct (open_from _ _ _ E) as (t & r0 & T & S). destruct (s_instruction _ _ _ _ _ _ S Q) as (pre & ts & t' & s' & Rn & S' & Hp & W).
  destruct (run_lexes _ _ _ _ _ _ _ T Rn) as (r & Lx & T'). exists pre, ts, r. split; [exact Lx|]. split; [exact Hp|]. split.
  - intros Np C. destruct (W C) as (ops & -> & Ho). constructor; [|exact Ho]. destruct Hp as [->|[->|Hn]]; auto. now elim Np.
  - intros C. unfold check_end in C. rewrite (stands_is _ _ _ _ S') in C. destruct (kind_eqb (kind_of t') KEnd) eqn:K; [|discriminate].
    destruct t'; try discriminate K. destruct k; try discriminate K. eauto.
Qed.

(** FADD F1, [...] is not there, but MOV takes all of these. *)
Definition mov : instr := IMov (OMemRegReg SP (R 2)) (OImm (-7)).
Definition mov_toks : list tok :=
  [TNum 12; TId (str "MOV"); OPEN; TId (str "SP"); PLUS; TId (str "R2"); CLOSE; COMMA; MINUS; TNum 7].
Definition prog_toks : list tok :=
  [TOp KDot; TId (str "data"); TStr (str "AB"); MINUS; TNum 3; TOp KDot; TId (str "text")] ++ mov_toks ++ [TId (str "HALT")].
Definition prog_text : text :=
  str ".data" ++ [NL] ++ str """AB"" - 3 # two" ++ [NL] ++ str ".text 12 MOV [SP+R2], -7" ++ [NL] ++ str "HALT".
Lemma reg2 : reg_name (str "R2") (R 2).
Proof. apply (rn_num (str "2") 2); [discriminate| |reflexivity]. apply (dn_snoc [] 0 (ch 50) 2 dn_nil); [lia|reflexivity]. Qed.
Lemma mov_written : instr_written mov_toks mov.
Proof.
  apply (iw_instr [TNum 12] [[OPEN; TId (str "SP"); PLUS; TId (str "R2"); CLOSE]; [MINUS; TNum 7]] mov).
  - right. now exists 12.
  - constructor; [apply ow_mem_reg_reg; [apply rn_sp|apply reg2]|]. constructor; [|constructor]. apply ow_imm. apply (iw_neg 7).
Qed.
Ltac lex := repeat (eapply lx_cons; [vm_compute; reflexivity|]); apply lx_nil.
Example C23_case : forall stod, instr_written mov_toks mov /\ accepted mov = true /\ no_negative_address mov_toks /\ careful (tl (tl mov_toks)) /\
  lexes stod (str "12 MOV [SP+R2], -7") mov_toks [] /\
  program_written prog_toks ([mov; IHalt], [65; 66; 0; -3]) /\ lexes stod prog_text prog_toks [].
Proof.
  intros stod. split; [exact mov_written|]. split; [reflexivity|]. split.
  { intros a b Q. repeat (destruct a as [|? a]; [discriminate Q|first [discriminate Q|injection Q as _ Q]]). }
  split. { cbn. repeat split; left; [exists SP; apply rn_sp|exists (R 2); apply reg2]. }
  split; [lex|]. split; [|lex].
  pose proof (pw_intro [[TOp KDot; TId (str "data"); TStr (str "AB"); MINUS; TNum 3]; [TOp KDot; TId (str "text")] ++ mov_toks ++ [TId (str "HALT")]]
    [([], [65; 66; 0; -3]); ([mov; IHalt], [])]) as P.
  apply P; [discriminate|]. constructor; [|constructor; [|constructor]].
  - apply (sw_data [[TStr (str "AB")]; [MINUS; TNum 3]] [[65; 66; 0]; [-3]]). constructor; [exact (dw_str (str "AB"))|].
    constructor; [apply dw_int, (iw_neg 3)|constructor].
  - apply (sw_text [mov_toks; [TId (str "HALT")]] [mov; IHalt]). constructor; [exact mov_written|]. constructor; [|constructor].
    exact (iw_instr [] [] IHalt (or_introl eq_refl) (Forall2_nil _)).
Qed.

(** The full converse is false: MOV R0, -R1 is accepted, and assembled to MOV R0, 1,
    and MOV R0, [R2 - R1] is accepted, and assembled to MOV R0, [R2 + R1]. In what is
    documented no minus stands in front of a name. *)
Fixpoint scan (minus : bool) (ts : list tok) : option bool :=
  match ts with
  | [] => Some minus
  | t :: ts' =>
      match t with
      | TId _ => if minus then None else scan false ts'
      | TOp KMinus => scan true ts'
      | _ => scan false ts'
      end
  end.
Lemma scan_app : forall a m b, scan m (a ++ b) = match scan m a with Some m' => scan m' b | None => None end.
Proof. induction a as [|t a IH]; intros m b; [reflexivity|]. cbn [app scan]. destruct t as [| | | |k]; try apply IH; [destruct m; [reflexivity|apply IH]|]. destruct k; apply IH. Qed.
Lemma scan_int : forall ts v m, int_written ts v -> scan m ts = Some false.
Proof. intros ts v m H. destruct H; reflexivity. Qed.
Lemma scan_added : forall ts v m, added ts v -> scan m ts = Some false.
Proof. intros ts v m H. destruct H; cbn [scan]; eapply scan_int; eassumption. Qed.
Lemma scan_op : forall ts o, op_written ts o -> scan false ts = Some false.
Proof.
  intros ts o H. destruct H; cbn [scan]; try reflexivity; try (eapply scan_int; eassumption); try (eapply scan_added; eassumption); rewrite scan_app;
    first [erewrite scan_int by eassumption|erewrite scan_added by eassumption]; cbn [scan]; try reflexivity.
  rewrite scan_app. erewrite scan_int by eassumption. reflexivity.
Qed.
Lemma scan_instr : forall ts i, instr_written ts i -> scan false ts = Some false.
Proof.
  intros ts i [addr ops i' Ha Ho]. rewrite scan_app.
  assert (E : scan false addr = Some false) by (destruct Ha as [->|[n ->]]; reflexivity). rewrite E. cbn [scan]. clear E Ha.
  destruct Ho as [|a o l os W Ho]; [reflexivity|]. cbn [commas]. rewrite scan_app, (scan_op _ _ W). clear W.
  induction Ho as [|b o' l os W Ho IH]; [reflexivity|]. cbn [map concat app scan]. now rewrite scan_app, (scan_op _ _ W).
Qed.

Definition neg_toks : list tok := [TId (str "MOV"); TId (str "R0"); COMMA; MINUS; TId (str "R1")].
Definition sub_toks : list tok := [TId (str "MOV"); TId (str "R0"); COMMA; OPEN; TId (str "R2"); MINUS; TId (str "R1"); CLOSE].
Theorem C52_negated_register_refuted : forall stod, exists s ts i, lexes stod s ts [] /\
  assemble_instr stod s = POk i /\ check_instr stod s = POk tt /\ i = IMov (OReg (R 0)) (OImm 1) /\ forall i', ~ instr_written ts i'.
Proof.
  intros stod. exists (str "MOV R0, -R1"), neg_toks, (IMov (OReg (R 0)) (OImm 1)). split; [lex|]. split; [vm_compute; reflexivity|]. split; [vm_compute; reflexivity|].
  split; [reflexivity|]. intros i W. apply scan_instr in W. discriminate W.
Qed.
Theorem C52_register_difference_refuted : forall stod, exists s ts i, lexes stod s ts [] /\
  assemble_instr stod s = POk i /\ check_instr stod s = POk tt /\ i = IMov (OReg (R 0)) (OMemRegReg (R 2) (R 1)) /\ forall i', ~ instr_written ts i'.
Proof.
  intros stod. exists (str "MOV R0, [R2 - R1]"), sub_toks, (IMov (OReg (R 0)) (OMemRegReg (R 2) (R 1))). split; [lex|]. split; [vm_compute; reflexivity|]. split; [vm_compute; reflexivity|].
  split; [reflexivity|]. intros i W. apply scan_instr in W. discriminate W.
Qed.
(** Any name that begins with an R is taken for a register: RAX for R0. *)
Definition rax_toks : list tok := [TId (str "ADD"); TId (str "RAX"); COMMA; TNum 1].
Theorem C52_unknown_register_refuted : forall stod, exists s ts i, lexes stod s ts [] /\
  assemble_instr stod s = POk i /\ check_instr stod s = POk tt /\ i = IBin BADD (R 0) (R 0) (OImm 1) false /\ ~ instr_written ts i.
Proof.
  intros stod. exists (str "ADD RAX, 1"), rax_toks, (IBin BADD (R 0) (R 0) (OImm 1) false). split; [lex|]. split; [vm_compute; reflexivity|]. split; [vm_compute; reflexivity|].
  split; [reflexivity|]. intros W. inversion W as [addr ops i Ha Ho E1 E2]. subst i. clear W.
  destruct Ha as [->|[n ->]]; [|discriminate E1]. injection E1 as E1. inversion Ho as [|a o l os Wa Wl Q1 Q2]. subst. clear Ho Wl.
  inversion Wa as [| |b r Hr Q1 Q2| | | | | | | | | |]. subst. cbn [commas app] in E1. assert (Eb : b = str "RAX") by (clear -E1; now injection E1).
  clear E1 Wa. inversion Hr as [| | |w m Nw Dw Lw Q1 Q2]. subst. assert (w = str "AX") as -> by (clear -Q1; now injection Q1).
  pose proof (denotes_digits _ _ (ch 65) Dw (or_introl eq_refl)) as D. apply D. reflexivity.
Qed.

(** Documented forms that are rejected: MOV R1, R2 + i (t86-isa.md:33), and negative
    floating-point constants (t86.md:48); MOV R0, -33.1 is accepted with an integer. *)
Example C23_rejected : forall stod,
  assemble_instr stod (str "MOV R1, R2 + 3") = POk (IMov (OReg (R 1)) (OReg (R 2))) /\ check_instr stod (str "MOV R1, R2 + 3") = PFail PSyntax /\
  assemble_instr stod (str "FADD F0, -33.1") = PFail PSyntax.
Proof. intros stod. vm_compute. auto. Qed.

(** ---- C50 ---- *)

(** The assembler always comes to an end, and what it produces is an instruction of
    one of the accepted forms, with its numbers in the range of an int. *)
Theorem C50_assembler_terminates : forall stod s, assemble stod s <> PFail PFuel /\ assemble_instr stod s <> PFail PFuel.
Proof.
  intros stod s. pose proof (assemble_good stod s) as G. pose proof (assemble_instr_good stod s) as K.
  split; intros E; [rewrite E in G; now apply G|rewrite E in K; now apply K].
Qed.
Theorem C50_assembled_is_valid : forall stod s prog data i, assemble stod s = POk (prog, data) -> In i prog ->
  accepted i = true /\ Forall op_ok (signature i).
Proof.
  intros stod s prog data i E H. pose proof (assemble_good stod s) as G. rewrite E in G. rewrite Forall_forall in G. exact (G i H).
Qed.

(** ---- C51 ---- *)

(** Not every rejected text is rejected with a parse error: an uncaught out_of_range,
    a failing assert and undefined behaviour are reachable. *)
Theorem C51_rejected_with_message_refuted : forall stod,
  assemble stod (str ".text MOV R0, 2147483648") = PFail PRange /\
  assemble stod (str ".text MOV R0, [R1 + R2 *]") = PFail PAssert /\
  assemble stod (str ".text MOV R2147483648, 1") = PFail PUndef.
Proof. intros stod. split; [vm_compute; reflexivity|]. split; vm_compute; reflexivity. Qed.

Print Assumptions C22_printed_form_reads_back.
Print Assumptions C22_listing_reads_back.
Print Assumptions C49_negative_address_refuted.
Print Assumptions C23_written_is_assembled.
Print Assumptions C23_written_program_is_assembled.
Print Assumptions C52_assembled_is_written_partial.
Print Assumptions C52_negated_register_refuted.
Print Assumptions C52_register_difference_refuted.
Print Assumptions C52_unknown_register_refuted.
Print Assumptions C24_layout_keeps_tokens.
Print Assumptions C24_layout_keeps_program.
Print Assumptions C24_stream.
Print Assumptions C50_assembler_terminates.
Print Assumptions C50_assembled_is_valid.
Print Assumptions C51_rejected_with_message_refuted.
