(** C118: the help of the debugger's command line. *)
From Coq Require Import Ascii String ZArith NArith List Bool Lia.
From Verif Require Import Base Text PropText PropNet StdMap Isa Alu AluSpec State IsaSpec IsaSame Lexer Asm Show AsmPrint AsmSpec PropAsm Exec Ram Writes Rat Cpu Os DbgText Spaces
  InOrder PipeInv PipeBasics PipeActs PipeMem PipeTick PipeDom PipeRun PipeBoot PipePoke Session IsaRefine DbgSpec Stops PropPipe PropDbg Client Proto PropProto Native PropBreak PropWatch
  LibSpec NatRun NatStop PropStep PropOver Src PropLines PropLineStep Expr Eval Info EvalFacts Cli CliFacts Orderly PropCli.
Import ListNotations.
Open Scope Z_scope.

(** ---- specification ---- *)

(** The page of help on each command; attach, help and print have none of their own, the
    general page speaks of them. *)
Inductive page : string -> usage -> Prop :=
| pg_run : page "run" URun | pg_attach : page "attach" UMain | pg_help : page "help" UMain | pg_bp : page "breakpoint" UBp | pg_istep : page "istep" UIstep
| pg_inext : page "inext" UInext | pg_dis : page "disassemble" UDisassemble | pg_asm : page "assemble" UAssemble | pg_cont : page "continue" UContinue
| pg_reg : page "register" URegister | pg_mem : page "memory" UMemory | pg_watch : page "watchpoint" UWatchpoint | pg_next : page "next" UNext
| pg_step : page "step" UStep | pg_finish : page "finish" UFinish | pg_frame : page "frame" UFrame | pg_source : page "source" USource
| pg_expr : page "expression" UExpression | pg_print : page "print" UMain.
(** The line only has this page printed: nothing else changes. *)
Definition shows (P : front) (l : text) (u : usage) : Prop := forall s, exists s1, command_line P l s = Done tt s1 /\
  cl_out s1 = (cl_out s ++ [Usage u])%list /\ cl_in s1 = cl_in s /\ cl_setup s1 = cl_setup s /\ cl_native s1 = cl_native s /\ cl_active s1 = cl_active s /\
  cl_source s1 = cl_source s /\ cl_values s1 = cl_values s /\ cl_running s1 = cl_running s.

(** ---- proofs ---- *)

Lemma help_line : forall P l h ws s, typed l (h :: ws) -> stands_for command_names h "help" -> Forall PropText.word ws /\ command_line P l s = catching (handle_help (join ws [SPACE])) (put Err) s.
Proof.
  intros P l w more s Ht H1. destruct (typed_squash _ _ Ht) as [Es Hws]. inversion Hws as [|? ? Hw Hm]; subst. split; [exact Hm|]. unfold command_line. rewrite Es.
  pose proof (cut_words w more Hw) as C. destruct (join (w :: more) [SPACE]) as [|x y] eqn:J.
  { exfalso. pose proof (word_nil _ Hw) as X. destruct w; [contradiction|]. destruct more; discriminate J. }
  unfold catching, handle_command. rewrite C. destruct w as [|q w]; [now elim (word_nil _ Hw)|].
  apply stands_skip in H1; [|discriminate]. destruct H1 as [R H1]. apply stands_skip in H1; [|discriminate]. destruct H1 as [R2 H1]. rewrite R, R2. now rewrite (stands_prefix _ _ _ H1).
Qed.
Lemma usage_shown : forall P l u, (forall s, command_line P l s = catching (usage_of u) (put Err) s) -> shows P l u.
Proof. intros P l u H s. rewrite H. eexists. split; [reflexivity|]. repeat split. Qed.

Definition topic (w : text) : usage := match find (fun x => is_prefix_of w (str (fst x))) help_topics with Some (_, u) => u | None => UMain end.
Lemma help_topic : forall w s, w <> [] -> handle_help w s = usage_of (topic w) s.
Proof. intros [|a w] s H; [congruence|]. unfold handle_help, topic. now destruct (find _ _) as [[]|]. Qed.

(** The words that stand for a name are its beginnings. *)
Lemma begins_firstn : forall w n, begins_with w n -> exists k, (k <= length (str n))%nat /\ w = firstn k (str n).
Proof.
  intros w n [r E]. exists (length w). rewrite E. split; [rewrite app_length; lia|]. rewrite firstn_app, Nat.sub_diag, firstn_O, app_nil_r. now rewrite firstn_all.
Qed.
Lemma stands_in : forall l w n, stands_for l w n -> find (fun b => is_prefix_of w (str b)) l = Some n.
Proof.
  intros l w n (_ & H2 & bf & af & -> & H3). induction bf as [|b bf IH]; cbn [app find].
  - apply begins_prefix in H2. now rewrite H2.
  - rewrite (not_prefix _ _ (H3 _ (or_introl eq_refl))). apply IH. intros c I. apply H3. now right.
Qed.

Lemma topic_page : forall w n u, stands_for command_names w n -> page n u -> w <> str "a" -> topic w = u.
Proof.
  intros w n u H G N. pose proof (stands_in _ _ _ H) as F. destruct H as (W & B & _). destruct (begins_firstn _ _ B) as (k & K & ->).
  destruct G; cbn in K; do 12 (destruct k as [|k]; [first [now elim W | now elim N | vm_compute in F; discriminate F | reflexivity]|]); lia.
Qed.
Lemma topic_other : forall w, (forall n, In n command_names -> ~ begins_with w n) -> topic w = UMain.
Proof.
  intros w H. unfold topic. destruct (find _ help_topics) as [[n u]|] eqn:F; [|reflexivity]. apply find_some in F. destruct F as [F1 F2]. exfalso. apply (H n).
  - cbn in F1. repeat (destruct F1 as [F1|F1]; [injection F1 as <- _; cbn; tauto|]). destruct F1.
  - now apply begins_prefix.
Qed.

(** C118. `help` and a word shows the page on the command the word stands for when it is
    typed as a command, in any state, and does nothing else. *)
Theorem C118_help : forall P l h w n u, typed l [h; w] -> stands_for command_names h "help" -> stands_for command_names w n -> page n u -> w <> str "a" -> shows P l u.
Proof.
  intros P l h w n u Ht Hh Hw Hp N. apply usage_shown. intro s. destruct (help_line P l h _ s Ht Hh) as [_ ->]. unfold catching. cbn [join]. rewrite app_nil_r.
  rewrite help_topic by apply Hw. now rewrite (topic_page _ _ _ Hw Hp N).
Qed.
(** Alone, or with a word that stands for nothing, it shows the general page. *)
Theorem C118_alone : forall P l h, typed l [h] -> stands_for command_names h "help" -> shows P l UMain.
Proof. intros P l h Ht Hh. apply usage_shown. intro s. now destruct (help_line P l h _ s Ht Hh) as [_ ->]. Qed.
Theorem C118_other : forall P l h w, typed l [h; w] -> stands_for command_names h "help" -> (forall n, In n command_names -> ~ begins_with w n) -> shows P l UMain.
Proof.
  intros P l h w Ht Hh Hw. apply usage_shown. intro s. destruct (help_line P l h _ s Ht Hh) as [Hm ->]. unfold catching. cbn [join]. rewrite app_nil_r.
  rewrite help_topic by (apply word_nil; now inversion Hm). now rewrite (topic_other _ Hw).
Qed.
(** The exception: `a` attaches, but `help a` is the help on assembling. *)
Theorem C118_a_refuted : forall P l h, typed l [h; str "a"] -> stands_for command_names h "help" -> stands_for command_names (str "a") "attach" /\ shows P l UAssemble.
Proof.
  intros P l h Ht Hh. split; [now apply stands_dec|]. apply usage_shown. intro s. now destruct (help_line P l h _ s Ht Hh) as [_ ->].
Qed.

(** `h st` *)
Example C118_case : forall P, shows P (str "  h st ") UStep.
Proof.
  intro P. apply (C118_help P _ (str "h") (str "st") "step").
  - exists (str "  "), [(str "h", str " "); (str "st", str " ")], (str "h st "). split; [reflexivity|]. split; [repeat constructor|]. split; [|split; [reflexivity|repeat constructor]].
    apply (lo_more (str "h") (str " ") [(str "st", str " ")] (str "st ")); try discriminate; try (repeat constructor; discriminate).
  - now apply stands_dec.
  - now apply stands_dec.
  - constructor.
  - discriminate.
Qed.

Print Assumptions C118_help.
Print Assumptions C118_alone.
Print Assumptions C118_other.
Print Assumptions C118_a_refuted.
