(** C77-C80: what an executable file says about the program and its source. *)
From Coq Require Import Ascii String ZArith NArith List Bool Lia.
From Verif Require Import Base Text PropText PropNet StdMap Isa Lexer LexProofs DbgText Asm Show AsmSpec AsmSweep AsmRead AsmPrint AsmProg Src Info InfoSpec InfoRead InfoStop.
Import ListNotations.
Open Scope Z_scope.

(** ---- C77 ---- *)

Section Read.
Variable stod : text -> option Z.

(** The debugger reads off a file what is written in it: *)
Theorem C77_debug_info : forall s ts parts code, file_written stod s ts parts code ->
  exists i, parse_info stod s = POk i /\ i_die i = last_die parts /\ i_code i = code /\
    match last_lines parts with
    | None => i_lines i = None
    | Some es => exists m, i_lines i = Some m /\ forall line, get_address m line = last_entry es line
    end.
Proof.
  intros s ts parts code H. exists (absorb parts (mkInfo None None code)). split; [eapply info_read; eassumption|]. unfold absorb. cbn [i_die i_code i_lines].
  split; [now destruct (last_die parts)|]. split; [reflexivity|]. destruct (last_lines parts) as [es|]; [|reflexivity].
  eexists. split; [reflexivity|]. intros line. rewrite table_get. now destruct (last_entry es line).
Qed.
(** and the assembler takes the program from the same file, whatever the sections with the
    debugging information say. *)
Theorem C77_program : forall s ts parts code, file_written stod s ts parts code -> parts <> [] \/ code <> None ->
  Forall (fun i => accepted i = true) (prog_of parts) -> no_negative_address ts -> assemble stod s = POk (prog_of parts, data_of parts).
Proof. exact (program_read stod). Qed.
End Read.

(** source-info.md:268-328: the entries that describe a type with an ID. *)
Inductive type_die (d : die) (id : Z) : ty -> Prop :=
| td_prim : forall k n, die_tag d = TPrimitive -> at_id d = Some id -> at_name d = Some (of_prim k) -> at_size d = Some n -> type_die d id (TyPrim k n)
| td_ptr : forall t n, die_tag d = TPointer -> at_id d = Some id -> at_type d = Some t -> at_size d = Some n -> type_die d id (TyPtr t n)
| td_arr : forall t n, die_tag d = TArray -> at_id d = Some id -> at_type d = Some t -> at_size d = Some n -> type_die d id (TyArr t n)
| td_struct : forall nm n ms, die_tag d = TStructured -> at_id d = Some id -> at_name d = Some nm -> at_size d = Some n -> at_members d = Some ms ->
    type_die d id (TyStruct nm n ms).
(** A structured type with an ID has a name, a size and members. *)
Definition complete_die (d : die) : Prop :=
  die_tag d = TStructured -> at_id d <> None -> at_name d <> None /\ at_size d <> None /\ at_members d <> None.

Lemma to_prim_spec : forall n k, to_prim n = Some k <-> n = of_prim k.
Proof.
  intros n k. split.
  - unfold to_prim. repeat (destruct (teqb n _) eqn:E; [apply teqb_eq in E; intros [= <-]; exact E|clear E]). discriminate.
  - intros ->. destruct k; vm_compute; reflexivity.
Qed.
Lemma type_of_die_spec : forall d id, at_id d = Some id ->
  match type_of_die d with
  | None => ~ complete_die d
  | Some None => forall t, ~ type_die d id t
  | Some (Some t) => type_die d id t
  end.
Proof.
  intros d id I. unfold type_of_die. destruct (die_tag d) eqn:T; try (intros t H; inversion H; congruence).
  - destruct (at_name d) as [n|] eqn:N; [|intros t H; inversion H; congruence]. destruct (to_prim n) as [k|] eqn:K.
    + apply to_prim_spec in K. subst n. destruct (at_size d) eqn:Sz; [now constructor|intros t H; inversion H; congruence].
    + intros t H. inversion H; try congruence. assert (n = of_prim k) by congruence. apply to_prim_spec in H5. congruence.
  - unfold complete_die. destruct (at_name d) eqn:N; [|intros C; destruct (C T) as (A & _); congruence].
    destruct (at_size d) eqn:Sz; [|intros C; destruct (C T) as (_ & A & _); congruence].
    destruct (at_members d) eqn:M; [|intros C; destruct (C T) as (_ & _ & A); congruence]. now constructor.
  - destruct (at_type d) eqn:A; [destruct (at_size d) eqn:Sz; [now constructor|]|]; intros t H; inversion H; congruence.
  - destruct (at_type d) eqn:A; [destruct (at_size d) eqn:Sz; [now constructor|]|]; intros t H; inversion H; congruence.
Qed.
Lemma type_die_id : forall d id t, type_die d id t -> at_id d = Some id.
Proof. intros d id t []; assumption. Qed.
Lemma type_die_fun : forall d id t t', type_die d id t -> type_die d id t' -> t = t'.
Proof. intros d id t t' H H'. destruct H; inversion H'; try congruence. assert (of_prim k = of_prim k0) by congruence. destruct k, k0; discriminate || congruence. Qed.
Lemma add_types_spec : forall l types, Forall complete_die l -> exists types', add_types l types = Some types' /\
  forall id, zget types' id = match zget types id with Some t => Some t | None => zget types' id end /\
  (zget types id = None -> forall t, zget types' id = Some t <-> exists l1 d l2, l = l1 ++ d :: l2 /\ type_die d id t /\ forall d' t', In d' l1 -> ~ type_die d' id t').
Proof.
  induction l as [|d l IH]; intros types F; inversion F as [|? ? F1 F2]; subst.
  - exists types. split; [reflexivity|]. intros id. split; [now destruct (zget types id)|]. intros N t. rewrite N. split; [discriminate|]. intros (l1 & d & l2 & E & _). destruct l1; discriminate.
  - cbn [add_types].
    assert (KEEP : forall id0, (forall t, ~ type_die d id0 t) -> forall t, (exists l1 x l2, l = l1 ++ x :: l2 /\ type_die x id0 t /\ (forall d' t', In d' l1 -> ~ type_die d' id0 t')) <->
      (exists l1 x l2, d :: l = l1 ++ x :: l2 /\ type_die x id0 t /\ forall d' t', In d' l1 -> ~ type_die d' id0 t')).
    { intros id0 No t. split.
      - intros (l1 & x & l2 & -> & X & Y). exists (d :: l1), x, l2. split; [reflexivity|]. split; [exact X|]. intros d' t' [<-|I]; [apply No|now apply Y].
      - intros (l1 & x & l2 & E & X & Y). destruct l1 as [|y l1]; injection E as -> ->; [now elim (No t)|]. exists l1, x, l2. split; [reflexivity|]. split; [exact X|]. intros d' t' I. apply Y. now right. }
    destruct (at_id d) as [id|] eqn:Id.
    + destruct (zget types id) as [t0|] eqn:G.
      * destruct (IH types F2) as (types' & E & H). exists types'. split; [exact E|]. intros id0. destruct (H id0) as [H1 H2]. split; [exact H1|]. intros N t. rewrite (H2 N t). apply KEEP.
        intros t1 X. apply type_die_id in X. congruence.
      * pose proof (type_of_die_spec d id Id) as TS. destruct (type_of_die d) as [[t0|]|]; [| |now elim TS].
        -- destruct (IH (zput types id t0) F2) as (types' & E & H). exists types'. split; [exact E|]. intros id0. destruct (H id0) as [H1 H2].
           destruct (Z.eq_dec id0 id) as [->|Ne].
           ++ rewrite (mget_put_same Z.eqb Z.ltb Z.eqb_eq) in H1. rewrite H1. split; [now rewrite G|]. intros _ t. split.
              ** intros [= <-]. exists [], d, l. split; [reflexivity|]. split; [exact TS|]. intros d' t' [].
              ** intros (l1 & x & l2 & Q & X & Y). destruct l1 as [|y l1]; injection Q as -> ->; [f_equal; eapply type_die_fun; eassumption|]. exfalso. apply (Y y t0); [now left|exact TS].
           ++ rewrite (mget_put_other Z.eqb Z.ltb Z.eqb_eq) in H1, H2 by exact Ne. split; [exact H1|]. intros N t. rewrite (H2 N t). apply KEEP. intros t1 X. apply type_die_id in X. congruence.
        -- destruct (IH types F2) as (types' & E & H). exists types'. split; [exact E|]. intros id0. destruct (H id0) as [H1 H2]. split; [exact H1|]. intros N t. rewrite (H2 N t). apply KEEP.
           intros t1 X. pose proof (type_die_id _ _ _ X). assert (id0 = id) by congruence. subst. now apply TS in X.
    + destruct (IH types F2) as (types' & E & H). exists types'. split; [exact E|]. intros id0. destruct (H id0) as [H1 H2]. split; [exact H1|]. intros N t. rewrite (H2 N t). apply KEEP.
      intros t1 X. apply type_die_id in X. congruence.
Qed.

(** What the debugger then knows about the source: *)
Theorem C77_source : forall stod s ts parts code, file_written stod s ts parts code ->
  (forall d, last_die parts = Some d -> Forall complete_die (die_children d)) ->
  exists i src, parse_info stod s = POk i /\ source_of i = Some src /\
    (* the address of a line, *)
    (forall line, line_to_addr src line = match last_lines parts with Some es => last_entry es line | None => None end) /\
    (* the lines of the source, counted from 0, *)
    (forall k, source_line src k = match code with Some f => if (0 <=? k) && (k <? Z.of_nat (length f)) then nth_error f (Z.to_nat k) else None | None => None end) /\
    (* the entries, *)
    so_die src = last_die parts /\
    (* and the type that an ID stands for, which the first entry with the ID describes. *)
    (forall id t, get_type src id = Some t <->
      exists d l1 x l2, last_die parts = Some d /\ die_children d = l1 ++ x :: l2 /\ type_die x id t /\ forall y t', In y l1 -> ~ type_die y id t').
Proof.
  intros stod s ts parts code H C. exists (absorb parts (mkInfo None None code)).
  assert (LN : forall src, so_lines src = i_lines (absorb parts (mkInfo None None code)) ->
    forall line, line_to_addr src line = match last_lines parts with Some es => last_entry es line | None => None end).
  { intros src E line. unfold line_to_addr. rewrite E. unfold absorb. cbn [i_lines]. destruct (last_lines parts) as [es|]; [|reflexivity]. rewrite table_get. now destruct (last_entry es line). }
  assert (SR : source_of (absorb parts (mkInfo None None code)) =
    match last_die parts with
    | Some d => register_die (mkSource (i_lines (absorb parts (mkInfo None None code))) code None []) d
    | None => Some (mkSource (i_lines (absorb parts (mkInfo None None code))) code None [])
    end).
  { unfold source_of, absorb. cbn [i_lines i_die i_code]. destruct (last_lines parts), (last_die parts), code; reflexivity. }
  destruct (last_die parts) as [d|] eqn:D.
  - destruct (add_types_spec _ [] (C d eq_refl)) as (types & A & T). eexists. split; [eapply info_read; eassumption|]. rewrite SR. unfold register_die. cbn [so_types so_lines so_file]. rewrite A.
    split; [reflexivity|]. split; [now apply LN|]. split; [intros k; unfold source_line, file_line; cbn [so_file]; now destruct code|]. split; [reflexivity|].
    intros id t. unfold get_type. cbn [so_types]. destruct (T id) as [_ T2]. rewrite (T2 eq_refl t). split.
    + intros (l1 & x & l2 & E & X & Y). exists d, l1, x, l2. auto.
    + intros (d0 & l1 & x & l2 & E0 & E & X & Y). injection E0 as <-. exists l1, x, l2. auto.
  - eexists. split; [eapply info_read; eassumption|]. split; [exact SR|]. split; [now apply LN|]. split; [intros k; unfold source_line, file_line; cbn [so_file]; now destruct code|]. split; [reflexivity|].
    intros id t. split; [discriminate|]. intros (d & _ & _ & _ & E & _). discriminate.
Qed.

(** A file as in the documentation. *)
Definition file1 : text := Eval vm_compute in
  concat (map (fun l => str l ++ [NL])
  [".text"; "0 MOV R0, 5"; "1 HALT"; ".debug_line"; "0: 0 # the first line"; "1: 1"; "0: 1"; ".data"; "-3 7";
   ".debug_info"; "DIE_compilation_unit: {"; "  DIE_primitive_type: { ATTR_name: int, ATTR_id: 0, ATTR_size: 1, },";
   "  DIE_structured_type: { ATTR_id: 2, ATTR_name: ""pair"", ATTR_size: 2, ATTR_members: { 0: {0: a}, 1: {0: b} } },";
   "  DIE_function: { ATTR_name: main, ATTR_begin_addr: 0, ATTR_end_addr: 2,";
   "    DIE_variable: { ATTR_name: x, ATTR_type: 0, ATTR_location: `BASE_REG_OFFSET -2` },";
   "    DIE_variable: { ATTR_name: y, ATTR_type: 2, ATTR_location: [PUSH R0; PUSH 3; ADD; DEREFERENCE] } } }";
   ".debug_source"; "int main() {"; ""; "}"]%string).
Definition int1 : die := Die TPrimitive [AName (str "int"); AId 0; ASize 1] [].
Definition pair1 : die := Die TStructured [AId 2; AName (str "pair"); ASize 2; AMembers [mkMemb (str "a") 0 0; mkMemb (str "b") 0 1]] [].
Definition main1 : die :=
  Die TFunction [AName (str "main"); ABegin 0; AEnd 2]
    [Die TVariable [AName (str "x"); AType 0; ALoc [LBase (-2)]] [];
     Die TVariable [AName (str "y"); AType 2; ALoc [LPush (LReg (str "R0")); LPush (LMem 3); LAdd; LDeref]] []].
Definition parts1 : list part :=
  [PCode [IMov (OReg (R 0)) (OImm 5); IHalt] []; PLines [(0, 0); (1, 1); (0, 1)]; PCode [] [-3; 7]; PDie (Die TUnit [] [int1; pair1; main1])].
Definition code1 : list text := [str "int main() {"; []; str "}"].
Notation ID x := (TId (str x)).
Definition tokens1 : list (list tok) :=
  [DOT :: ID "text" :: concat [[TNum 0] ++ ID "MOV" :: commas [[ID "R0"]; [TNum 5]]; [TNum 1] ++ ID "HALT" :: commas []];
   DOT :: ID "debug_line" :: concat [[TNum 0; COLON; TNum 0]; [TNum 1; COLON; TNum 1]; [TNum 0; COLON; TNum 1]];
   DOT :: ID "data" :: concat [[MINUS; TNum 3]; [TNum 7]];
   DOT :: ID "debug_info" :: ID "DIE_compilation_unit" :: COLON :: LBRACE ::
    (((ID "DIE_primitive_type" :: COLON :: LBRACE ::
       ([ID "ATTR_name"; COLON; ID "int"] ++ COMMA :: [ID "ATTR_id"; COLON; TNum 0] ++ COMMA :: [ID "ATTR_size"; COLON; TNum 1] ++ COMMA :: []) ++ [RBRACE]) ++ COMMA ::
      (ID "DIE_structured_type" :: COLON :: LBRACE ::
       ([ID "ATTR_id"; COLON; TNum 2] ++ COMMA :: [ID "ATTR_name"; COLON; TStr (str "pair")] ++ COMMA :: [ID "ATTR_size"; COLON; TNum 2] ++ COMMA ::
        (ID "ATTR_members" :: COLON :: LBRACE :: ([TNum 0; COLON; LBRACE; TNum 0; COLON; ID "a"; RBRACE] ++ COMMA :: [TNum 1; COLON; LBRACE; TNum 0; COLON; ID "b"; RBRACE]) ++ [RBRACE])) ++ [RBRACE]) ++ COMMA ::
      (ID "DIE_function" :: COLON :: LBRACE ::
       ([ID "ATTR_name"; COLON; ID "main"] ++ COMMA :: [ID "ATTR_begin_addr"; COLON; TNum 0] ++ COMMA :: [ID "ATTR_end_addr"; COLON; TNum 2] ++ COMMA ::
        (ID "DIE_variable" :: COLON :: LBRACE ::
          ([ID "ATTR_name"; COLON; ID "x"] ++ COMMA :: [ID "ATTR_type"; COLON; TNum 0] ++ COMMA ::
           (ID "ATTR_location" :: COLON :: TICK :: (ID "BASE_REG_OFFSET" :: [MINUS; TNum 2]) ++ [TICK])) ++ [RBRACE]) ++ COMMA ::
        (ID "DIE_variable" :: COLON :: LBRACE ::
          ([ID "ATTR_name"; COLON; ID "y"] ++ COMMA :: [ID "ATTR_type"; COLON; TNum 2] ++ COMMA ::
           (ID "ATTR_location" :: COLON :: OPEN ::
             ([ID "PUSH"; ID "R0"] ++ SEMI :: (ID "PUSH" :: [TNum 3]) ++ SEMI :: [ID "ADD"] ++ SEMI :: [ID "DEREFERENCE"]) ++ [CLOSE])) ++ [RBRACE])) ++ [RBRACE]))
      ++ [RBRACE])].
Example C77_written : forall stod, file_written stod file1 (concat tokens1) parts1 (Some code1).
Proof.
  intros stod. eapply (fw_intro stod file1 tokens1 parts1).
  - unfold tokens1, parts1. constructor; [|constructor; [|constructor; [|constructor; [|constructor]]]].
    + apply pw_code, sw_text. constructor; [|constructor; [|constructor]].
      * apply (iw_instr [TNum 0] [[ID "R0"]; [TNum 5]] (IMov (OReg (R 0)) (OImm 5))); [right; now exists 0|]. cbn [signature]. constructor; [|constructor; [|constructor]].
        -- apply ow_reg. apply (rn_num (str "0") 0); [discriminate| |lia]. apply (dn_snoc [] 0 (ch 48) 0); [constructor|lia|reflexivity].
        -- apply ow_imm. constructor.
      * apply (iw_instr [TNum 1] [] IHalt); [right; now exists 1|constructor].
    + apply (pw_lines _ [(0, 0); (1, 1); (0, 1)]). repeat constructor.
    + apply pw_code, (sw_data [[MINUS; TNum 3]; [TNum 7]] [[-3]; [7]]). constructor; [|constructor; [|constructor]]; apply dw_int; [apply (iw_neg 3)|constructor].
    + apply pw_die, dw_die; [constructor|]. apply bw_dies; [|apply bw_dies; [|apply bw_die]].
      * apply dw_die; [constructor|]. do 3 (apply bw_attrs; [constructor|]). constructor.
      * apply dw_die; [constructor|]. do 3 (apply bw_attrs; [constructor|]). apply bw_attr. apply aw_members. apply li_cons; [reflexivity|]. now apply li_last.
      * apply dw_die; [constructor|]. do 3 (apply bw_attrs; [constructor|]). apply bw_dies; [|apply bw_die].
        -- apply dw_die; [constructor|]. do 2 (apply bw_attrs; [constructor|]). apply bw_attr, aw_loc, cw_one, lw_base. apply (iw_neg 2).
        -- apply dw_die; [constructor|]. do 2 (apply bw_attrs; [constructor|]). apply bw_attr, aw_loc, cw_list. apply li_cons; [constructor|]. apply li_cons; [apply lw_push; constructor|]. apply li_cons; [constructor|]. apply li_last. constructor.
  - unfold tokens1. cbn [concat app commas map]. repeat (eapply lx_cons; [vm_compute; reflexivity|]). constructor.
  - apply en_source with (src := concat (map (fun l => str l ++ [NL]) ["int main() {"; ""; "}"]%string)).
    + repeat (eapply lx_cons; [vm_compute; reflexivity|]). constructor.
    + cbn [map concat]. rewrite <- !app_assoc. assert (P : forall a s l, text_lines s l -> forallb (fun c => negb (Ascii.eqb c NL)) a = true -> text_lines (a ++ NL :: s) (a :: l)).
      { intros a s l T B. apply tl_cons; [|exact T]. intros J. rewrite forallb_forall in B. specialize (B _ J). rewrite Ascii.eqb_refl in B. discriminate. }
      apply P; [apply P; [apply P; [constructor|]|]|]; vm_compute; reflexivity.
Qed.

(** The hypotheses of the three theorems hold of it: *)
Example C77_hypotheses : Forall (fun i => accepted i = true) (prog_of parts1) /\ no_negative_address (concat tokens1) /\
  (forall d, last_die parts1 = Some d -> Forall complete_die (die_children d)).
Proof.
  split; [repeat constructor|]. split.
  - unfold no_negative_address, tokens1. cbn [concat app commas map]. intros a b.
    repeat (destruct a as [|? a]; [discriminate|let Q := fresh in intros Q; injection Q as _ Q; revert Q]). destruct a; discriminate.
  - intros d [= <-]. cbn [die_children]. apply Forall_cons; [|apply Forall_cons; [|apply Forall_cons; [|apply Forall_nil]]]; intros H1 H2; try discriminate H1. repeat split; discriminate.
Qed.
(** the debugger is told the lines with the last address given, and the type 2. *)
Example C77_example : forall stod i, parse_info stod file1 = POk i -> exists src, source_of i = Some src /\ line_to_addr src 0 = Some 1 /\ line_to_addr src 2 = None /\
  source_line src 2 = Some (str "}") /\ get_type src 2 = Some (TyStruct (str "pair") 2 [mkMemb (str "a") 0 0; mkMemb (str "b") 0 1]).
Proof.
  intros stod i H. destruct (C77_source _ _ _ _ _ (C77_written stod) (proj2 (proj2 C77_hypotheses))) as (i' & src & E & S & L & F & D & T). rewrite E in H. injection H as <-.
  exists src. split; [exact S|]. rewrite !L, F. repeat split. apply T. exists (Die TUnit [] [int1; pair1; main1]), [int1], pair1, [main1]. repeat split; [now apply td_struct|].
  intros y t' [<-|[]] X. inversion X; discriminate.
Qed.

(** ---- C78 ---- *)

(** Whatever the file, the parser ends: it returns, throws a ParserError or out_of_range,
    or, if the very first token is not one, ends the debugger. *)
Theorem C78_ends : forall stod t,
  (exists i, parse_info stod t = POk i) \/ parse_info stod t = PFail PSyntax \/ parse_info stod t = PFail PRange \/ parse_info stod t = PFail PAssert.
Proof. intros stod t. pose proof (parse_info_stop stod t) as H. destruct (parse_info stod t) as [i|e]; [left; now exists i|right]. destruct H as [->|[->| ->]]; auto. Qed.
(** The last is what happens if and only if the first token is wrong. *)
Theorem C78_terminates_debugger : forall stod t, parse_info stod t = PFail PAssert <-> exists e, token_at stod false t = PFail e.
Proof.
  intros stod t. unfold parse_info. rewrite get_next_token. cbn [new_lexer l_ignore l_in]. destruct (token_at stod false t) as [[k r]|e] eqn:T; cbn [pbind].
  - split; [|intros (e & E); discriminate]. intros H. exfalso.
    assert (G : parse_info stod t = PFail PAssert) by (unfold parse_info; rewrite get_next_token; cbn [new_lexer l_ignore l_in]; rewrite T; exact H).
    assert (N : (m (kind_of k, load k r (new_lexer t)) < S (length t))%nat).
    { pose proof (next_m stod (KEnd, new_lexer t)) as X. unfold Info.next in X. cbn [snd] in X. rewrite get_next_token in X. cbn [new_lexer l_ignore l_in] in X. rewrite T in X. apply le_n_S. exact X. }
    pose proof (sections_stop stod (S (length t)) (S (length t)) (mkInfo None None None) _ N N) as X. rewrite H in X. destruct X; discriminate.
  - split; [intros _; now exists e|reflexivity].
Qed.
Example C78_example : forall stod, parse_info stod (str "~") = PFail PAssert /\ parse_info stod (str ".debug_line 0") = PFail PSyntax /\
  parse_info stod (str ".debug_line 99999999999: 0") = PFail PRange.
Proof. intros stod. repeat split; vm_compute; reflexivity. Qed.

(** ---- C79 ---- *)

Section Malformed.
Variable stod : text -> option Z.
Notation run := (AsmRead.run stod).
Notation next := (Info.next stod).
Notation expect := (Info.expect stod).
Notation is := Info.is.
Ltac go :=
  match goal with
  | H : on ?s ?t ?r, R : run ?t ?r (_ :: _) _ _ |- _ =>
      let s1 := fresh "s" in let t1 := fresh "t" in let r1 := fresh "r" in let N := fresh "N" in let S := fresh "O" in let R' := fresh "R" in
      destruct (step_on _ _ _ _ _ _ _ _ H R) as (-> & s1 & t1 & r1 & N & S & R'); clear R; cbn [app] in R'
  | R : run _ _ [] _ _ |- _ => apply run_end in R; destruct R; subst
  end.
Ltac tq := repeat match goal with
  | |- context [teqb ?a ?b] => let v := eval vm_compute in (teqb a b) in replace (teqb a b) with v by (vm_compute; reflexivity)
  | |- context [is_prefix_of ?a ?b] => let v := eval vm_compute in (is_prefix_of a b) in replace (is_prefix_of a b) with v by (vm_compute; reflexivity)
  | |- context [tag_of ?a] => let v := eval vm_compute in (tag_of a) in replace (tag_of a) with v by (vm_compute; reflexivity)
  end; cbv iota; cbn [pbind].
Ltac ev :=
  repeat (match goal with
  | H : on ?p ?t _ |- context [is _ ?p] => rewrite !(fun k => on_is p t _ k H)
  | H : on ?p (TId ?a) _ |- context [id_of ?p] => rewrite !(on_id p a _ H)
  | H : on ?p (TNum ?a) _ |- context [number_of ?p] => rewrite !(on_num p a _ H)
  | H : on ?p (TStr ?a) _ |- context [l_str (snd ?p)] => rewrite !(on_str p a _ H)
  | N : next ?p = POk _ |- context [next ?p] => rewrite N
  | |- context [expect _ _] => unfold Info.expect
  | H : on ?p ?t _ |- context [fst ?p] => rewrite !(proj1 H)
  end; cbn [kind_of kind_eqb orb andb pbind]).

(** The parser on the first token. *)
Lemma starts : forall s ts r t' r', lexes stod s ts r -> token_at stod false r = POk (t', r') -> Forall (fun t => t <> TOp KEnd) ts ->
  exists s0 t s1, get_next stod (new_lexer s) = POk s0 /\ on s0 t s1 /\ run t s1 ts t' r' /\ (length ts <= length s)%nat.
Proof.
  intros s ts r t' r' L T F. destruct (lexes_run _ _ _ _ _ _ L T) as (t & s1 & T1 & R). pose proof (lexes_start _ _ _ _ _ _ L T F) as Len.
  rewrite get_next_token. cbn [new_lexer l_in l_ignore]. rewrite T1. eexists _, t, s1. split; [reflexivity|]. split; [|auto].
  repeat split; [|eapply token_proper; eassumption]. cbn [snd]. unfold val_of. destruct t; reflexivity || exact I.
Qed.

Lemma keeps_id : forall s s1 t r, next s = POk s1 -> on s1 t r -> kind_of t <> KId -> id_of s1 = id_of s.
Proof.
  intros [k l] s1 t r N O K. unfold Info.next in N. cbn [snd] in N. rewrite get_next_token in N. destruct (token_at stod _ _) as [[t1 r1]|]; [|discriminate]. injection N as <-.
  destruct O as (O & _). cbn [fst] in O. unfold id_of, load. cbn [snd l_id]. destruct t1; try reflexivity. now rewrite <- O in K.
Qed.

(** The name of an attribute may be any number: the name before is taken again. *)
Theorem C79_key_refuted : forall n k s r r', lexes stod s
    [DOT; ID "debug_info"; ID "DIE_variable"; COLON; LBRACE; ID "ATTR_name"; COLON; ID "ATTR_id"; COMMA; TNum n; COLON; TNum k; RBRACE] r ->
  token_at stod false r = POk (TOp KEnd, r') ->
  parse_info stod s = POk (mkInfo None (Some (Die TVariable [AName (str "ATTR_id"); AId k] [])) None).
Proof.
  intros n k s r r' L T. destruct (starts _ _ _ _ _ L T) as (s0 & t & s1 & E & O & R & Len); [repeat constructor; discriminate|].
  unfold parse_info. rewrite E. clear E. cbn [length] in Len. assert (K : (13 < S (length s))%nat) by lia. revert K. generalize (S (length s)). intros x K. clear Len.
  repeat go. destruct x as [|x]; [lia|]. cbn [sections]. ev. tq. unfold debug_info. ev. cbn [parse_die]. ev. tq.
  cbn [die_loop]. ev. tq. unfold parse_attr at 1. ev. tq. ev.
  destruct x as [|x]; [lia|]. cbn [die_loop]. ev.
  assert (I : id_of s10 = str "ATTR_id").
  { rewrite (keeps_id _ _ _ _ N7 O8) by discriminate. rewrite (keeps_id _ _ _ _ N6 O7) by discriminate. exact (on_id _ _ _ O6). }
  rewrite I. tq. unfold parse_attr, number_attr. ev. tq. ev. destruct x as [|x]; [lia|]. cbn [die_loop]. ev. cbn [sections]. ev. reflexivity.
Qed.
(** The backtick that closes a location may be any token, even a brace. *)
Theorem C79_backtick_refuted : forall t s r r', lexes stod s
    [DOT; ID "debug_info"; ID "DIE_variable"; COLON; LBRACE; ID "ATTR_location"; COLON; TICK; ID "ADD"; t; RBRACE] r ->
  token_at stod false r = POk (TOp KEnd, r') -> t <> TOp KEnd ->
  parse_info stod s = POk (mkInfo None (Some (Die TVariable [ALoc [LAdd]] [])) None).
Proof.
  intros t s r r' L T Nt. destruct (starts _ _ _ _ _ L T) as (s0 & t0 & s1 & E & O & R & Len); [repeat constructor; discriminate || exact Nt|].
  unfold parse_info. rewrite E. clear E. cbn [length] in Len. assert (K : (11 < S (length s))%nat) by lia. revert K. generalize (S (length s)). intros x K. clear Len.
  repeat go. destruct x as [|x]; [lia|]. cbn [sections]. ev. tq. unfold debug_info. ev. cbn [parse_die]. ev. tq.
  cbn [die_loop]. ev. tq. unfold parse_attr, parse_loc, parse_one. ev. tq. ev.
  tq. ev.
  destruct x as [|x]; [lia|]. cbn [die_loop]. ev. cbn [sections]. ev. reflexivity.
Qed.
End Malformed.

(** Every file that is written as documented has an even number of backticks outside its
    source; the one read above has not. *)
Fixpoint ticks (ts : list tok) : nat := match ts with [] => 0 | TICK :: ts' => S (ticks ts') | _ :: ts' => ticks ts' end%nat.
Lemma ticks_app : forall a b, ticks (a ++ b) = (ticks a + ticks b)%nat.
Proof. induction a as [|[| | | |[]] a IH]; intros b; cbn [app ticks]; try apply IH; [reflexivity|]. now rewrite IH. Qed.
Lemma ticks_concat : forall (A : Type) (W : list tok -> A -> Prop) l xs, (forall ts x, W ts x -> ticks ts = 0%nat) -> Forall2 W l xs -> ticks (concat l) = 0%nat.
Proof. intros A W l xs H F. induction F as [|ts x l xs Hx F IH]; cbn [concat]; [reflexivity|]. now rewrite ticks_app, IH, (H _ _ Hx). Qed.
Lemma ticks_int : forall i v, int_written i v -> ticks i = 0%nat.
Proof. intros i v []; reflexivity. Qed.
Lemma ticks_added : forall i v, added i v -> ticks i = 0%nat.
Proof. intros i v []; cbn [ticks]; eapply ticks_int; eassumption. Qed.
Lemma ticks_op : forall ts o, op_written ts o -> ticks ts = 0%nat.
Proof.
  intros ts o []; cbn [ticks]; rewrite ?ticks_app; cbn [ticks]; rewrite ?ticks_app; cbn [ticks];
    repeat match goal with H : int_written _ _ |- _ => rewrite (ticks_int _ _ H); clear H | H : added _ _ |- _ => rewrite (ticks_added _ _ H); clear H end; reflexivity.
Qed.
Lemma ticks_commas : forall ops os, Forall2 op_written ops os -> ticks (commas ops) = 0%nat.
Proof.
  intros ops os F. destruct F as [|ts o ops os H F]; [reflexivity|]. cbn [commas]. rewrite ticks_app, (ticks_op _ _ H).
  induction F as [|ts' o' ops os H' F IH]; cbn [map concat]; [reflexivity|]. rewrite ticks_app. cbn [ticks]. rewrite (ticks_op _ _ H'). exact IH.
Qed.
Lemma ticks_instr : forall ts i, instr_written ts i -> ticks ts = 0%nat.
Proof. intros ts i [addr ops i0 A F]. rewrite ticks_app. cbn [ticks]. rewrite (ticks_commas _ _ F). destruct A as [->|[n ->]]; reflexivity. Qed.
Lemma ticks_data : forall ts i, data_written ts i -> ticks ts = 0%nat.
Proof. intros ts i [i0 v H|a]; [eapply ticks_int; eassumption|reflexivity]. Qed.
Lemma ticks_locop : forall ts o, locop_written ts o -> ticks ts = 0%nat.
Proof. intros ts o []; cbn [ticks]; try reflexivity; eapply ticks_int; eassumption. Qed.
Lemma ticks_listed : forall A sep (W : list tok -> A -> Prop), ticks [sep] = 0%nat -> (forall ts x, W ts x -> ticks ts = 0%nat) -> forall ts l, listed sep W ts l -> ticks ts = 0%nat.
Proof.
  intros A sep W Sp H ts l L. induction L as [|ts a X|ts a rest l X L IH]; [reflexivity|eapply H; eassumption|]. change (sep :: rest) with ([sep] ++ rest). now rewrite !ticks_app, Sp, IH, (H _ _ X).
Qed.
Lemma ticks_attr : forall ts a, attr_written ts a -> Nat.even (ticks ts) = true.
Proof.
  intros ts a []; try reflexivity.
  - cbn [ticks]. rewrite ticks_app, (ticks_listed _ COMMA member_written eq_refl (fun ts x (H : member_written ts x) => eq_trans (f_equal ticks H) eq_refl) _ _ H). reflexivity.
  - cbn [ticks]. destruct H as [|ts0 o X|ts0 l0 X].
    + reflexivity.
    + cbn [ticks]. rewrite ticks_app, (ticks_locop _ _ X). reflexivity.
    + cbn [ticks]. rewrite ticks_app, (ticks_listed _ SEMI locop_written eq_refl ticks_locop _ _ X). reflexivity.
Qed.
Scheme dw_ind := Minimality for die_written Sort Prop with bw_ind := Minimality for body_written Sort Prop.
Lemma even_sum : forall a b, Nat.even a = true -> Nat.even b = true -> Nat.even (a + b) = true.
Proof. intros a b A B. now rewrite Nat.even_add, A, B. Qed.
Lemma ticks_die : forall ts d, die_written ts d -> Nat.even (ticks ts) = true.
Proof.
  apply (dw_ind (fun ts _ => Nat.even (ticks ts) = true) (fun ts _ _ => Nat.even (ticks ts) = true)); intros; cbn [ticks]; rewrite ?ticks_app; cbn [ticks]; rewrite ?Nat.add_0_r;
    try apply even_sum; try assumption; try reflexivity; eapply ticks_attr; eassumption.
Qed.
Lemma ticks_part : forall ts p, part_written ts p -> Nat.even (ticks ts) = true.
Proof.
  intros ts p [ts0 prog data []|ls es F|ts0 d H]; cbn [ticks].
  - now rewrite (ticks_concat _ _ _ _ ticks_instr H).
  - now rewrite (ticks_concat _ _ _ _ ticks_data H).
  - rewrite (ticks_concat _ line_written ls es); [reflexivity| |exact F]. intros ts0 x ->. reflexivity.
  - eapply ticks_die; eassumption.
Qed.
Lemma ticks_parts : forall l parts, Forall2 part_written l parts -> Nat.even (ticks (concat l)) = true.
Proof. intros l parts F. induction F as [|ts p l parts H F IH]; cbn [concat]; [reflexivity|]. rewrite ticks_app. apply even_sum; [eapply ticks_part; eassumption|exact IH]. Qed.
Lemma lexes_fork : forall stod s a r b r', lexes stod s a r -> lexes stod s b r' -> (exists c, b = a ++ c /\ lexes stod r c r') \/ (exists c, a = b ++ c /\ lexes stod r' c r).
Proof.
  intros stod s a r b r' H. revert b r'. induction H as [s|s t s1 ts r T H IH]; intros b r' H'.
  - left. exists b. auto.
  - destruct H' as [s|s t' s1' ts' r' T' H'].
    + right. exists (t :: ts). split; [reflexivity|]. econstructor; eassumption.
    + rewrite T in T'. injection T' as <- <-. destruct (IH _ _ H') as [(c & -> & X)|(c & -> & X)]; [left|right]; exists c; auto.
Qed.
Lemma lexes_app : forall stod s a r b r', lexes stod s a r -> lexes stod r b r' -> lexes stod s (a ++ b) r'.
Proof. intros stod s a r b r' H. induction H; intros H'; cbn [app]; [exact H'|]. econstructor; eauto. Qed.

Theorem C79_refuted : forall stod, exists s i, parse_info stod s = POk i /\ forall ts parts code, ~ file_written stod s ts parts code.
Proof.
  intros stod. set (A := [DOT; ID "debug_info"; ID "DIE_variable"; COLON; LBRACE; ID "ATTR_location"; COLON; TICK; ID "ADD"; RBRACE; RBRACE]).
  assert (L : lexes stod (str ".debug_info DIE_variable: { ATTR_location: `ADD} }") A []) by (unfold A; repeat (eapply lx_cons; [vm_compute; reflexivity|]); constructor).
  exists (str ".debug_info DIE_variable: { ATTR_location: `ADD} }"), (mkInfo None (Some (Die TVariable [ALoc [LAdd]] [])) None). split.
  - eapply C79_backtick_refuted; [exact L|reflexivity|discriminate].
  - intros ts parts code W. remember (str ".debug_info DIE_variable: { ATTR_location: `ADD} }") as s eqn:Es. clear Es. destruct W as [s l parts r code F X E]. destruct (parts_dull _ _ F) as [G _]. pose proof (ticks_parts _ _ F) as Ev.
    assert (NE : ~ In (TOp KEnd) A) by (unfold A; cbn [In]; intuition discriminate).
    destruct E as [r r' T|r src ls Y Z].
    + destruct (lexes_fork _ _ _ _ _ _ X L) as [(c & Q & Lc)|(c & Q & Lc)].
      * destruct Lc as [r0|r0 t s1 ts0 r1 T' Lc]; [rewrite app_nil_r in Q; rewrite <- Q in Ev; discriminate Ev|]. rewrite T in T'. injection T' as <- <-. apply NE. rewrite Q. apply in_or_app. right. now left.
      * inversion Lc as [|s0 t s1 ts0 r1 T' Lc']; subst; [rewrite app_nil_r in Q; rewrite Q in Ev; discriminate Ev|]. vm_compute in T'. injection T' as <- <-.
        rewrite Q in G. apply Forall_app in G. destruct G as [_ G]. inversion G as [|? ? G1 G2]; subst. now apply G1.
    + pose proof (lexes_app _ _ _ _ _ _ X Y) as X'. destruct (lexes_fork _ _ _ _ _ _ X' L) as [(c & Q & Lc)|(c & Q & Lc)].
      * assert (I : In (ID "debug_source") A) by (rewrite Q; apply in_or_app; left; apply in_or_app; right; right; now left). unfold A in I. cbn [In] in I. intuition discriminate.
      * inversion Lc as [|s0 t s1 ts0 r1 T' Lc']; subst.
        vm_compute in T'. injection T' as <- <-. assert (I : In (TOp KEnd) (concat l ++ [DOT; ID "debug_source"])) by (rewrite Q; apply in_or_app; right; now left).
        apply in_app_or in I. destruct I as [I|I]; [|cbn [In] in I; intuition discriminate]. rewrite Forall_forall in G. now apply (G _ I).
Qed.

(** ---- C80 ---- *)

(** Debugging information that lacks something: if every structured type has what it needs,
    it is taken, and entries without an ID or without what their kind needs give no type
    (C77_source). *)
Theorem C80_complete_partial : forall i, (forall d, i_die i = Some d -> Forall complete_die (die_children d)) -> exists src, source_of i = Some src.
Proof.
  intros i H. unfold source_of. destruct (i_die i) as [d|]; [|eexists; reflexivity]. unfold register_die.
  match goal with |- context [add_types _ ?t] => destruct (add_types_spec (die_children d) t (H d eq_refl)) as (types & -> & _) end. eexists. reflexivity.
Qed.
(** A structured type with an ID that is the first with it and lacks the name, the size or
    the members makes the debugger use a value that is not there. *)
Lemma add_types_app : forall l1 l2 types, add_types (l1 ++ l2) types = match add_types l1 types with Some t => add_types l2 t | None => None end.
Proof.
  induction l1 as [|d l1 IH]; intros l2 types; cbn [app add_types]; [reflexivity|]. destruct (at_id d) as [id|]; [|apply IH]. destruct (zget types id); [apply IH|].
  destruct (type_of_die d) as [[t|]|]; [apply IH|apply IH|reflexivity].
Qed.
Theorem C80_refuted : forall i tg attrs l1 x l2, i_die i = Some (Die tg attrs (l1 ++ x :: l2)) -> ~ complete_die x -> (forall y, In y l1 -> at_id y <> at_id x) -> source_of i = None.
Proof.
  intros i tg attrs l1 x l2 D C H. unfold source_of. rewrite D. unfold register_die. cbn [die_children].
  assert (B : forall s m, so_types (match m with Some f => register_file s f | None => s end) = so_types s) by (intros s [f|]; reflexivity). rewrite B.
  assert (B' : so_types (match i_lines i with Some m => register_lines no_source m | None => no_source end) = []) by (destruct (i_lines i); reflexivity). rewrite B'. clear B B'.
  assert (T : die_tag x = TStructured /\ exists id, at_id x = Some id).
  { destruct (die_tag x) eqn:T; try (elim C; intros T'; congruence). split; [reflexivity|]. destruct (at_id x) as [id|] eqn:I; [now exists id|]. elim C. intros _ Q. congruence. }
  destruct T as [T [id I]].
  assert (G : forall l types, (forall y, In y l -> at_id y <> at_id x) -> zget types id = None -> match add_types l types with Some t => zget t id = None | None => True end).
  { induction l as [|y l IH]; intros types Hl N; cbn [add_types]; [exact N|]. assert (Hl' : forall z, In z l -> at_id z <> at_id x) by (intros z J; apply Hl; now right).
    destruct (at_id y) as [id'|] eqn:Iy; [|now apply IH]. destruct (zget types id'); [now apply IH|]. destruct (type_of_die y) as [[t|]|]; [|now apply IH|exact Logic.I].
    apply IH; [exact Hl'|]. rewrite (mget_put_other Z.eqb Z.ltb Z.eqb_eq); [exact N|]. intros ->. apply (Hl y (or_introl eq_refl)). congruence. }
  rewrite add_types_app. specialize (G l1 [] H eq_refl). destruct (add_types l1 []) as [types|]; [|reflexivity]. cbn [add_types]. rewrite I, G.
  pose proof (type_of_die_spec x id I) as TS. unfold type_of_die in *. rewrite T in *. unfold complete_die in C.
  destruct (at_name x) eqn:E1; [|reflexivity]. destruct (at_size x) eqn:E2; [|reflexivity]. destruct (at_members x) eqn:E3; [|reflexivity]. elim C. intros _ _. repeat split; discriminate.
Qed.
(** Such a file is written as documented: *)
Example C80_example : forall stod, exists s ts parts i, file_written stod s ts parts None /\ parse_info stod s = POk i /\ source_of i = None.
Proof.
  intros stod. set (ts := DOT :: ID "debug_info" :: ID "DIE_compilation_unit" :: COLON :: LBRACE :: (ID "DIE_structured_type" :: COLON :: LBRACE :: [ID "ATTR_id"; COLON; TNum 1] ++ [RBRACE]) ++ [RBRACE]).
  exists (str ".debug_info DIE_compilation_unit: { DIE_structured_type: { ATTR_id: 1 } }"), (concat [ts]), [PDie (Die TUnit [] [Die TStructured [AId 1] []])].
  assert (W : file_written stod (str ".debug_info DIE_compilation_unit: { DIE_structured_type: { ATTR_id: 1 } }") (concat [ts]) [PDie (Die TUnit [] [Die TStructured [AId 1] []])] None).
  { eapply fw_intro.
    - constructor; [|constructor]. apply pw_die, dw_die; [constructor|]. apply bw_die, dw_die; [constructor|]. apply bw_attr. constructor.
    - unfold ts. cbn [concat app]. repeat (eapply lx_cons; [vm_compute; reflexivity|]). constructor.
    - eapply en_none. reflexivity. }
  eexists. split; [exact W|]. split; [eapply info_read; exact W|].
  eapply (C80_refuted _ TUnit [] [] (Die TStructured [AId 1] []) []); [reflexivity| |intros y []]. intros C. destruct (C eq_refl ltac:(discriminate)) as [X _]. now apply X.
Qed.

Print Assumptions C77_debug_info. Print Assumptions C77_program. Print Assumptions C77_source.
Print Assumptions C78_ends. Print Assumptions C78_terminates_debugger.
Print Assumptions C79_key_refuted. Print Assumptions C79_backtick_refuted. Print Assumptions C79_refuted.
Print Assumptions C80_complete_partial. Print Assumptions C80_refuted.
