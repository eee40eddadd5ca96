(** C84, C85: a session at the debugger's command line. *)
From Coq Require Import Ascii String ZArith NArith List Bool Lia.
From Verif Require Import Base Text PropText PropNet StdMap Isa Alu AluSpec State IsaSpec IsaSame Lexer Asm Show AsmPrint AsmSpec PropAsm Exec Ram Writes Rat Cpu Os DbgText Spaces
  InOrder PipeInv PipeBasics PipeActs PipeMem PipeTick PipeDom PipeRun PipeBoot PipePoke Session IsaRefine DbgSpec Stops PropPipe PropDbg Client Proto PropProto Native PropBreak PropWatch
  LibSpec NatRun NatStop PropStep PropOver Src PropLines PropLineStep Expr Eval Info EvalFacts Cli CliFacts.
Import ListNotations.
Open Scope Z_scope.

(** ---- specification: what a line of input asks for ---- *)

(** The line consists of these words, with blanks before, between and behind them; the
    first blank of each gap between words is a space. *)
Definition typed (line : text) (ws : list text) : Prop := exists b l s, line = b ++ s /\ PropText.blank b /\ laid_out l s /\ ws = map fst l /\
  Forall (fun x => firstn 1 (snd x) = [SPACE]) (removelast l).

(** A word stands for the first name in a list that it is a prefix of. *)
Definition begins_with (w : text) (name : string) : Prop := exists rest, str name = w ++ rest.
Definition stands_for (names : list string) (w : text) (name : string) : Prop :=
  w <> [] /\ begins_with w name /\ exists before after, names = before ++ name :: after /\ forall b, In b before -> ~ begins_with w b.

Definition command_names : list string :=
  ["run"; "attach"; "help"; "breakpoint"; "istep"; "inext"; "disassemble"; "assemble"; "continue"; "register"; "memory";
   "watchpoint"; "next"; "step"; "finish"; "frame"; "source"; "expression"; "print"]%string.
Definition breakpoint_names : list string := ["iset"; "set"; "remove"; "enable"; "disable"; "idisable"; "ienable"; "iremove"; "list"]%string.
Definition watchpoint_names : list string := ["iset"; "irem"; "list"]%string.
Definition register_names : list string := ["set"; "get"; "fget"; "fset"]%string.
Definition memory_names : list string := ["set"; "setstr"; "get"; "getstr"]%string.

(** A line asks for a deed of C81, or to display something. Lines are counted from 1 by
    the user, and from 0 by the library. *)
Inductive order : Type := ODo (d : deed) | OLook.
Inductive reads : list text -> order -> Prop :=
| rd_istep : forall w, stands_for command_names w "istep" -> reads [w] (ODo (DCall KStep))
| rd_inext : forall w, stands_for command_names w "inext" -> reads [w] (ODo (DCall KOver))
| rd_step : forall w, stands_for command_names w "step" -> reads [w] (ODo DInto)
| rd_next : forall w, stands_for command_names w "next" -> reads [w] (ODo DOver)
| rd_finish : forall w, stands_for command_names w "finish" -> reads [w] (ODo (DCall KOut))
| rd_continue : forall w more, stands_for command_names w "continue" -> reads (w :: more) (ODo (DCall KContinue))
| rd_at : forall w x a more n o, stands_for command_names w "breakpoint" -> stands_for breakpoint_names x n ->
    In (n, o) [("iset", OpSet a); ("iremove", OpUnset a); ("ienable", OpEnable a); ("idisable", OpDisable a)]%string ->
    0 <= a < 2 ^ 63 -> reads (w :: x :: show_Z a :: more) (ODo (DCall (KBp o)))
| rd_line : forall w x line more n o, stands_for command_names w "breakpoint" -> stands_for breakpoint_names x n ->
    In (n, o) [("set", LSet); ("remove", LUnset); ("enable", LEnable); ("disable", LDisable)]%string ->
    0 <= line < 2 ^ 64 - 1 -> reads (w :: x :: show_Z (line + 1) :: more) (ODo (DLine o line))
| rd_watch : forall w x a more, stands_for command_names w "watchpoint" -> stands_for watchpoint_names x "iset" ->
    0 <= a < 2 ^ 63 -> reads (w :: x :: show_Z a :: more) (ODo (DCall (KWatch a)))
| rd_show : forall w n more, stands_for command_names w n -> In n ["help"; "disassemble"; "source"]%string -> reads (w :: more) OLook
| rd_registers : forall w, stands_for command_names w "register" -> reads [w] OLook
| rd_register : forall w x n more, stands_for command_names w "register" -> stands_for register_names x n -> In n ["get"; "fget"]%string -> reads (w :: x :: more) OLook
| rd_memory : forall w x n more, stands_for command_names w "memory" -> stands_for memory_names x n -> In n ["get"; "getstr"]%string -> reads (w :: x :: more) OLook
| rd_breakpoints : forall w x more, stands_for command_names w "breakpoint" -> stands_for breakpoint_names x "list" -> reads (w :: x :: more) OLook
| rd_watchpoints : forall w x more, stands_for command_names w "watchpoint" -> stands_for watchpoint_names x "list" -> reads (w :: x :: more) OLook
| rd_unknown : forall w more, (forall n, In n command_names -> ~ begins_with w n) -> reads (w :: more) OLook.

(** ---- specification: what happens, and what the user is told ---- *)

(** The announcement of an event; a line is announced as the user counts. *)
Inductive announced (s : source) : devent -> text -> Prop :=
| an_line : forall a l, line_to_addr s l = Some a -> (forall l', line_to_addr s l' = Some a -> l' <= l) ->
    announced s (EvBreakpoint a) (str "Software breakpoint hit at line " ++ show_Z (l + 1))
| an_break : forall a, (forall l, line_to_addr s l <> Some a) -> announced s (EvBreakpoint a) (str "Software breakpoint hit at address " ++ show_Z a)
| an_watch : forall a, announced s (EvWatchpoint a) (str "Watchpoint triggered at memory address " ++ show_Z a)
| an_single : announced s EvSinglestep (str "Singlestep done")
| an_begin : announced s EvBegin (str "Execution started")
| an_end : announced s EvEnd (str "The program finished execution").
(** What is told after a move: nothing if an ordinary step is done. *)
Inductive told (s : source) (d : deed) : devent -> list shown -> Prop :=
| tl_step : d <> DCall KContinue -> told s d EvSinglestep []
| tl_told : forall e t, e <> EvSinglestep \/ d = DCall KContinue -> announced s e t -> told s d e [Say DarkRed t].

Definition moves (d : deed) : Prop := match d with DCall (KBp _) | DCall (KWatch _) | DLine _ _ => False | _ => True end.
(** [news]: the announcements and error messages among what is printed. *)
Definition news (o : list shown) : list shown := filter (fun x => match x with Say DarkRed _ | Err => true | _ => false end) o.

Section Spec.
Variable F : fops.
Variable p : list instr.
Variable s : source.
(** The state of the program and its breakpoints, whether the program has ended, and the
    news. A program that has ended is not moved again. *)
Inductive order_spec : order -> view * bool -> list shown -> view * bool -> Prop :=
| os_look : forall x ns, ns = [] \/ ns = [Err] -> order_spec OLook x ns x
| os_done : forall d v b v', ~ moves d -> deed_spec F p s d v Fine v' -> order_spec (ODo d) (v, b) [] (v', b)
| os_refused : forall d v b v', ~ moves d -> deed_spec F p s d v Refused v' -> order_spec (ODo d) (v, b) [Err] (v', b)
| os_move : forall d v e v' ns, moves d -> deed_spec F p s d v (Saw e) v' -> told s d e ns -> order_spec (ODo d) (v, false) ns (v', is_end e)
| os_ended : forall d v, moves d -> order_spec (ODo d) (v, true) [Err] (v, true).
Inductive orders_spec : list order -> view * bool -> list shown -> view * bool -> Prop :=
| ol_nil : forall x, orders_spec [] x [] x
| ol_cons : forall o os x ns x1 ns1 x2, order_spec o x ns x1 -> orders_spec os x1 ns1 x2 -> orders_spec (o :: os) x (ns ++ ns1) x2.
End Spec.

(** ---- what the front end does ---- *)

(** A VM that runs in another process has not ended. *)
Definition still_there (s : cli) : Prop := u_local (cl_setup s) = true \/ k_host (n_link (cl_native s)) <> None.
(** Lines in a row: the debugger comes back from each, the CPU has not failed, the VM is
    still there, and the debugger does not report an error when a running program is moved. *)
Inductive went (P : front) : list text -> cli -> list order -> cli -> Prop :=
| wn_nil : forall s, went P [] s [] s
| wn_cons : forall l ls ws o os s s1 s2, typed l ws -> reads ws o -> command_line P l s = Done tt s1 -> ~ cpu_failed (cl_native s1) -> still_there s1 ->
    (forall d, o = ODo d -> moves d -> cl_running s = true -> exists t, cl_out s1 = cl_out s ++ t /\ ~ In Err t) ->
    went P ls s1 os s2 -> went P (l :: ls) s (o :: os) s2.

Definition order_usable (U : setup) (p : list instr) (s : source) (o : order) : Prop := match o with ODo d => usable_deed U p s d | OLook => True end.
Definition order_no_over (o : order) : Prop := match o with ODo d => deed_no_over d | OLook => True end.
Definition order_no_watch (o : order) : Prop := match o with ODo d => deed_no_watch d | OLook => True end.

(** ---- proofs: the words of a line ---- *)

Lemma typed_squash : forall line ws, typed line ws -> squash_strip_whitespace line = join ws [SPACE] /\ Forall PropText.word ws.
Proof.
  intros line ws (b & l & s & -> & Hb & Hl & -> & Hg). rewrite (C43_squash b l s Hb Hl). split.
  - clear Hb. induction Hl as [|w g Hw _|w g l s Hw _ Hn Hl1 Hl IH]; [reflexivity|cbn; now rewrite app_nil_r|].
    destruct l as [|[w2 g2] l]; [congruence|]. cbn [removelast] in Hg. inversion Hg as [|? ? G1 G2]; subst. cbn [snd] in G1.
    change (squashed ((w, g) :: (w2, g2) :: l)) with (w ++ firstn 1 g ++ squashed ((w2, g2) :: l)). rewrite G1, (IH G2). reflexivity.
  - clear Hg. induction Hl as [|w g Hw _|w g l s Hw _ Hn Hl1 Hl IH]; repeat constructor; auto; apply Hw.
Qed.
Lemma word_space : forall w, PropText.word w -> ~ In SPACE w.
Proof. intros w [_ H] I. rewrite Forall_forall in H. specialize (H _ I). discriminate. Qed.
Lemma word_nil : forall w, PropText.word w -> w <> [].
Proof. intros w H. apply H. Qed.
Lemma words_split : forall ws, Forall PropText.word ws -> split_v (join ws [SPACE]) SPACE = ws.
Proof. intros ws H. apply C27_join_split. intros w I. rewrite Forall_forall in H. split; [apply word_nil|apply word_space]; auto. Qed.
Lemma cut_words : forall w ws, PropText.word w -> cut_command (join (w :: ws) [SPACE]) = (w, join ws [SPACE]).
Proof.
  intros w ws Hw. unfold cut_command. destruct ws as [|x ws].
  - cbn [join]. rewrite app_nil_r. replace (find_char SPACE w) with (@None nat); [reflexivity|]. symmetry. apply find_char_none. now apply word_space.
  - change (join (w :: x :: ws) [SPACE]) with (w ++ SPACE :: join (x :: ws) [SPACE]).
    assert (F : forall w t, ~ In SPACE w -> find_char SPACE (w ++ SPACE :: t) = Some (length w)).
    { clear. induction w as [|c w IH]; intros t H; [reflexivity|]. cbn [app find_char length]. destruct (Ascii.eqb_spec SPACE c) as [<-|N]; [elim H; now left|].
      rewrite IH by (intros X; apply H; now right). destruct (Ascii.eqb_spec c SPACE); [congruence|reflexivity]. }
    rewrite F by now apply word_space. rewrite firstn_app, Nat.sub_diag, firstn_all, firstn_O, app_nil_r.
    replace (skipn (length w + 1) (w ++ SPACE :: join (x :: ws) [SPACE])) with (join (x :: ws) [SPACE]); [reflexivity|].
    rewrite skipn_app, skipn_all2 by lia. replace (length w + 1 - length w)%nat with 1%nat by lia. reflexivity.
Qed.

Lemma begins_prefix : forall w n, begins_with w n <-> is_prefix_of w (str n) = true.
Proof. intros w n. symmetry. apply C43_prefix. Qed.
Lemma not_prefix : forall w n, ~ begins_with w n -> is_prefix_of w (str n) = false.
Proof. intros w n H. rewrite begins_prefix in H. now apply not_true_is_false. Qed.
Lemma stands_skip : forall a l w n, stands_for (a :: l) w n -> a <> n -> is_prefix_of w (str a) = false /\ stands_for l w n.
Proof.
  intros a l w n (H1 & H2 & [|b before] & after & E & H3) N; [injection E as -> _; congruence|]. injection E as <- E. split; [apply not_prefix, H3; now left|].
  split; [exact H1|]. split; [exact H2|]. exists before, after. split; [exact E|]. intros b I. apply H3. now right.
Qed.
Lemma stands_find : forall A (l : list (string * A)) w n, stands_for (map fst l) w n -> exists h, find (fun x => is_prefix_of w (str (fst x))) l = Some (n, h) /\ In (n, h) l.
Proof.
  intros A l w n (_ & H2 & before & after & E & H3). revert before E H3. induction l as [|[m h] l IH]; intros before E H3; [destruct before; discriminate|].
  cbn [map fst] in E. destruct before as [|b before].
  - injection E as <- E. exists h. cbn [find fst]. apply begins_prefix in H2. rewrite H2. split; [reflexivity|now left].
  - injection E as <- E. cbn [find fst]. rewrite (not_prefix _ _ (H3 _ (or_introl eq_refl))). destruct (IH before E) as (h' & F1 & F2); [intros b I; apply H3; now right|]. exists h'. split; [exact F1|now right].
Qed.

Section P.
Variable P : front.

Lemma dispatch : forall w ws n, PropText.word w -> stands_for command_names w n -> In n (map fst (commands P)) -> exists h, In (n, h) (commands P) /\
  forall s, cl_active s = true -> handle_command P (join (w :: ws) [SPACE]) s = h (join ws [SPACE]) s.
Proof.
  intros w ws n Hw Hn Hi. change command_names with ("run" :: "attach" :: "help" :: map fst (commands P))%string in Hn.
  assert (N : (n <> "run" /\ n <> "attach" /\ n <> "help")%string) by (cbn in Hi; repeat destruct Hi as [<-|Hi]; try contradiction; repeat split; discriminate).
  apply stands_skip in Hn; [|intros E; now elim (proj1 N)]. destruct Hn as [R1 Hn]. apply stands_skip in Hn; [|intros E; now elim (proj1 (proj2 N))]. destruct Hn as [R2 Hn].
  apply stands_skip in Hn; [|intros E; now elim (proj2 (proj2 N))]. destruct Hn as [R3 Hn].
  destruct (stands_find _ _ _ _ Hn) as (h & F1 & F2). exists h. split; [exact F2|]. intros s A. unfold handle_command. rewrite cut_words by exact Hw. rewrite R1, R2, R3.
  destruct w as [|c w]; [now destruct Hw|]. unfold with_process, then_, here. now rewrite A, F1.
Qed.

(** Which command a word stands for. *)
Ltac which H w ws Hw :=
  let h := fresh "h" in let I := fresh "I" in let E := fresh "E" in
  destruct (dispatch w ws _ Hw H ltac:(cbn; auto 20)) as (h & I & E);
  repeat (destruct I as [I|I]; [try discriminate I; injection I as <-|]); try contradiction.

(** ---- proofs: commands that display ---- *)

Lemma looks_still : forall ws, Forall PropText.word ws -> reads ws OLook -> forall s, cl_active s = true ->
  exists m, still m /\ handle_command P (join ws [SPACE]) s = m s.
Proof.
  intros ws Hws H s A. inversion H as [| | | | | | | | |w n more H1 H2|w H1|w x n more H1 H2 H3|w x n more H1 H2 H3|w x more H1 H2|w x more H1 H2|w more H1]; subst; clear H; inversion Hws as [|? ? Hw Hm]; subst.
  - destruct (string_dec n "help") as [->|Nh].
    + exists (handle_help (join more [SPACE])). split; [apply still_help|]. unfold handle_command. rewrite cut_words by exact Hw.
      apply stands_skip in H1; [|discriminate]. destruct H1 as [R1 H1]. apply stands_skip in H1; [|discriminate]. destruct H1 as [R2 H1].
      destruct H1 as (_ & R3 & _). apply begins_prefix in R3. rewrite R1, R2, R3. destruct w; [now destruct Hw|reflexivity].
    + destruct H2 as [<-|[<-|[<-|[]]]]; [congruence| |].
      * which H1 w more Hw. eexists. split; [|apply E, A]. apply still_disassemble.
      * which H1 w more Hw. eexists. split; [|apply E, A]. apply still_source.
  - which H1 w (@nil text) Hw. eexists. split; [|apply E, A]. apply still_registers.
  - which H1 w (x :: more) Hw. eexists. split; [|apply E, A]. eapply still_register; [now apply words_split| |].
    + apply stands_skip in H2; [apply H2|]. destruct H3 as [<-|[<-|[]]]; discriminate.
    + destruct H3 as [<-|[<-|[]]]; [left|right].
      * destruct H2 as (Q1 & [r Q2] & _). apply not_prefix. intros [r2 Q3]. destruct x as [|c x]; [congruence|]. injection Q2 as <- _. discriminate Q3.
      * destruct H2 as (_ & Q2 & _). now apply begins_prefix.
  - which H1 w (x :: more) Hw. eexists. split; [|apply E, A]. destruct H2 as (Q1 & [r Q2] & _).
    eapply still_memory; [now apply words_split| |]; apply not_prefix; intros [r2 Q3]; (destruct x as [|c x]; [congruence|]); destruct H3 as [<-|[<-|[]]]; injection Q2 as <- _; discriminate Q3.
  - which H1 w (x :: more) Hw. eexists. split; [|apply E, A]. destruct H2 as (Q1 & [r Q2] & _).
    eapply still_breakpoints; [now apply words_split|]. intros n I. apply not_prefix. intros [r2 Q3]. destruct x as [|c x]; [congruence|]. injection Q2 as <- _.
    cbn [In] in I. repeat (destruct I as [<-|I]; [discriminate Q3|]). contradiction.
  - which H1 w (x :: more) Hw. eexists. split; [|apply E, A]. destruct H2 as (Q1 & [r Q2] & _).
    eapply still_watchpoints; [now apply words_split| |]; apply not_prefix; intros [r2 Q3]; (destruct x as [|c x]; [congruence|]); injection Q2 as <- _; discriminate Q3.
  - exists (usage_of UMain). split; [apply still_usage|]. unfold handle_command. rewrite cut_words by exact Hw.
    rewrite (not_prefix w "run"), (not_prefix w "attach"), (not_prefix w "help") by (apply H1; cbn; auto 5). destruct w as [|c w]; [now destruct Hw|].
    unfold with_process, then_, here. rewrite A. replace (find _ (commands P)) with (@None (string * (text -> act cli unit))); [reflexivity|]. symmetry.
    destruct (find _ (commands P)) as [[n h]|] eqn:F; [|reflexivity]. apply find_some in F. destruct F as [F1 F2]. cbn [fst] in F2. apply begins_prefix in F2. elim (H1 n); [|exact F2].
    change command_names with (["run"; "attach"; "help"]%string ++ map fst (commands P)). apply in_or_app. right. now apply (in_map fst) in F1.
Qed.

(** ---- proofs: moves ---- *)

Lemma news_app : forall a b, news (a ++ b) = news a ++ news b.
Proof. intros a b. unfold news. induction a as [|x a IH]; [reflexivity|]. cbn [filter app]. destruct x as [[]| |]; cbn; now rewrite IH. Qed.
Lemma news_plain : forall o, plain_out o -> news o = [].
Proof. intros o H. induction H as [|x o H _ IH]; [reflexivity|]. unfold news in *. cbn [filter]. rewrite IH. destruct x as [[]| |]; try contradiction; reflexivity. Qed.
Lemma still_done : forall A (m : act cli A) a s s1, still m -> m s = Done a s1 -> exists o, s1 = cset_out s (cl_out s ++ o) /\ news o = [].
Proof. intros A m a s s1 H E. specialize (H s). rewrite E in H. destruct H as (o & -> & H). exists o. split; [reflexivity|now apply news_plain]. Qed.

Definition is_cpu (e : devent) : bool := match e with EvCpuError _ => true | _ => false end.
Lemma report_ok : forall e s s1, report_event e s = Done tt s1 ->
  exists o, s1 = cset_out (if is_cpu e then cset_running s false else s) (cl_out s ++ o) /\ news o = [Say DarkRed (event_text (cl_source s) e)].
Proof.
  intros e s s1 H. unfold report_event in H. unfold then_ at 1, here in H. set (m := match e with EvCpuError _ => _ | _ => _ end) in H.
  unfold then_ at 1, say at 1, put at 1, change at 1 in H. unfold then_ at 1, put at 1, change at 1 in H. unfold then_ at 1, say at 1, put at 1, change at 1 in H.
  set (s2 := cset_out _ _) in H. assert (E2 : s2 = cset_out s (cl_out s ++ [Say Plain (str "Process stopped, reason: "); Say DarkRed (event_text (cl_source s) e); Say Plain [NL]])) by (unfold s2; cbn; now rewrite <- !app_assoc).
  clearbody s2. assert (G : exists o, s1 = cset_out (if is_cpu e then cset_running s2 false else s2) (cl_out s2 ++ o) /\ news o = []).
  { subst m. destruct e; cbn [is_cpu]; try (unfold ret in H; injection H as <-; exists []; split; [destruct s2; unfold cset_out; cbn; now rewrite app_nil_r|reflexivity]).
    unfold then_ at 1 in H. destruct (lib get_ip s2) as [ip s3| | |] eqn:E; try discriminate. destruct (still_done _ _ _ _ _ (still_lib _ _ keeps_ip) E) as (o & -> & No).
    unfold then_, say, put, change in H. injection H as <-. eexists. split; [cbn; rewrite <- app_assoc; reflexivity|]. rewrite news_app, No. reflexivity. }
  destruct G as (o & -> & No). subst s2. eexists. split; [cbn [cl_out cset_out]; rewrite <- app_assoc; destruct (is_cpu e); reflexivity|]. rewrite news_app, No. reflexivity.
Qed.
Lemma after_ok : forall e place s s1, still place -> after_move e place s = Done tt s1 ->
  exists o, s1 = cset_out (cset_running s (if is_end e || is_cpu e then false else cl_running s)) (cl_out s ++ o) /\ news o = (if is_single e then [] else [Say DarkRed (event_text (cl_source s) e)]).
Proof.
  intros e place s s1 Hp H. unfold after_move, then_ in H. destruct (when (negb (is_single e)) (report_event e) s) as [[] s2| | |] eqn:E; try discriminate.
  assert (G : exists o, s2 = cset_out (if is_cpu e then cset_running s false else s) (cl_out s ++ o) /\ news o = (if is_single e then [] else [Say DarkRed (event_text (cl_source s) e)])).
  { destruct (is_single e) eqn:Es; cbn [negb when] in E.
    - destruct e; try discriminate. unfold ret in E. injection E as <-. exists []. split; [destruct s; unfold cset_out; cbn; now rewrite app_nil_r|reflexivity].
    - now apply report_ok. }
  destruct G as (o & -> & No). destruct (is_end e) eqn:Ee.
  - destruct e; try discriminate. unfold change in H. injection H as <-. exists o. split; [reflexivity|exact No].
  - destruct (still_done _ _ _ _ _ Hp H) as (o2 & -> & No2). exists (o ++ o2). rewrite news_app, No, No2, app_nil_r. split; [|reflexivity]. cbn [orb]. destruct s. unfold cset_out, cset_running.
    destruct (is_cpu e); cbn; now rewrite app_assoc.
Qed.
(** What a command that moves comes to. *)
Definition moved (m : setup -> act native devent) (always : bool) (s s1 : cli) : Prop := exists e N1 o,
  m (cl_setup s) (cl_native s) = Done e N1 /\ s1 = cset_out (cset_running (cset_native s N1) (if is_end e || is_cpu e then false else cl_running s)) (cl_out s ++ o) /\
  news o = (if is_single e && negb always then [] else [Say DarkRed (event_text (cl_source s) e)]).
Lemma move_then : forall m place s s1, (forall e, still (place e)) -> (let* e := lib m in after_move e (place e)) s = Done tt s1 -> moved m false s s1.
Proof.
  intros m place s s1 Hp H. unfold then_, lib in H. destruct (m (cl_setup s) (cl_native s)) as [e N1| | |] eqn:E; try discriminate.
  destruct (after_ok _ _ _ _ (Hp e) H) as (o & -> & No). exists e, N1, o. split; [exact E|]. split; [reflexivity|]. cbn [cl_source cset_native] in No. destruct (is_single e); exact No.
Qed.
Lemma still_break : forall e, still (report_break P e).
Proof. intros e. unfold report_break. destruct (is_end e); [apply still_ret|]. apply still_place. intros. apply still_pretty_text. Qed.
Lemma running_then : forall A (m : act cli A) s a s1, (running;; m) s = Done a s1 -> cl_running s = true /\ m s = Done a s1.
Proof. intros A m s a s1 H. unfold running, then_, here in H. destruct (cl_running s); [now split|discriminate]. Qed.
Lemma running_failed : forall A (m : act cli A) s, cl_running s = false -> (running;; m) s = Failed s.
Proof. intros A m s H. unfold running, then_, here. now rewrite H. Qed.
Lemma continue_then : forall t s s1, handle_continue P t s = Done tt s1 -> moved (fun U => continue_ U (fr_fuel P);; wait_event U (fr_fuel P)) true s s1.
Proof.
  intros t s s1 H. unfold handle_continue in H. apply running_then in H. destruct H as [R H].
  unfold then_ at 1, lib at 1 in H. destruct (continue_ (cl_setup s) (fr_fuel P) (cl_native s)) as [[] N0| | |] eqn:E0; try discriminate.
  unfold then_ at 1, lib at 1 in H. cbn [cset_native cl_setup cl_native] in H. destruct (wait_event (cl_setup s) (fr_fuel P) N0) as [e N1| | |] eqn:E1; try discriminate.
  unfold then_ at 1 in H. set (s2 := cset_native _ N1) in H.
  assert (G : when (is_end e) (change (fun s => cset_running s false)) s2 = Done tt (cset_running s2 (if is_end e then false else cl_running s2))) by (destruct (is_end e); [reflexivity|now destruct s2]).
  rewrite G in H. clear G. unfold then_ at 1 in H. set (s3 := cset_running s2 _) in H. destruct (report_event e s3) as [[] s4| | |] eqn:E4; try discriminate.
  destruct (report_ok _ _ _ E4) as (o & -> & No). destruct (still_done _ _ _ _ _ (still_break e) H) as (o2 & -> & No2).
  exists e, N1, (o ++ o2). split; [unfold then_; now rewrite E0|]. rewrite news_app, No, No2, app_nil_r, andb_false_r. split; [|reflexivity].
  subst s3 s2. destruct s. unfold cset_out, cset_running, cset_native. cbn. destruct e; cbn; now rewrite app_assoc.
Qed.
Lemma native_then : forall over_ s s1, native_step P over_ s = Done tt s1 -> moved (fun U => if over_ then step_over U (fr_fuel P) true else single_step U (fr_fuel P)) false s s1.
Proof. intros over_ s s1 H. apply (move_then _ _ _ _) in H; [exact H|]. intros e. apply still_then; [apply still_lib, keeps_ip|intros; apply still_pretty_text]. Qed.
Lemma source_then : forall over_ s s1, source_step P over_ s = Done tt s1 -> moved (fun U => if over_ then source_step_over U (fr_fuel P) (cl_source s) else source_step_in U (fr_fuel P) (cl_source s)) false s s1.
Proof. intros over_ s s1 H. unfold source_step in H. unfold then_ at 1, here in H. apply (move_then _ _ _ _) in H; [exact H|]. intros e. apply still_place. intros. apply still_ret. Qed.
Lemma finish_then : forall s s1, (let* e := lib (fun U => step_out U (fr_fuel P)) in after_move e (show_place P (pretty_text P))) s = Done tt s1 -> moved (fun U => step_out U (fr_fuel P)) false s s1.
Proof. intros s s1 H. apply (move_then _ _ _ _) in H; [exact H|]. intros e. apply still_place. intros. apply still_pretty_text. Qed.

(** Every command that moves: refused when the program has ended; otherwise as above. *)
Lemma moves_ok : forall ws d, Forall PropText.word ws -> reads ws (ODo d) -> moves d -> forall s, cl_active s = true ->
  (cl_running s = false -> handle_command P (join ws [SPACE]) s = Failed s) /\
  forall s1, handle_command P (join ws [SPACE]) s = Done tt s1 -> cl_running s = true /\ exists m,
    (forall N e N', m (cl_setup s) N = Done e N' -> deed_did (cl_setup s) (fr_fuel P) (cl_source s) d N (Saw e) N') /\ moved m (match d with DCall KContinue => true | _ => false end) s s1.
Proof.
  intros ws d Hws H Hd s A.
  inversion H as [w H1|w H1|w H1|w H1|w H1|w more H1|w x a more n o H1 H2 H3 H4|w x line more n o H1 H2 H3 H4|w x a more H1 H2 H3| | | | | | |]; subst; clear H; inversion Hws as [|? ? Hw Hm]; subst; try contradiction.
  - which H1 w (@nil text) Hw. rewrite E by exact A. split; [intros R; now apply running_failed|]. intros s1 G. apply running_then in G. destruct G as [R G]. split; [exact R|].
    eexists. split; [|exact (native_then false _ _ G)]. intros N e N' Q. now apply dd_call, di_step.
  - which H1 w (@nil text) Hw. rewrite E by exact A. split; [intros R; now apply running_failed|]. intros s1 G. apply running_then in G. destruct G as [R G]. split; [exact R|].
    eexists. split; [|exact (native_then true _ _ G)]. intros N e N' Q. now apply dd_call, di_over.
  - which H1 w (@nil text) Hw. rewrite E by exact A. split; [intros R; now apply running_failed|]. intros s1 G. apply running_then in G. destruct G as [R G]. split; [exact R|].
    eexists. split; [|exact (source_then false _ _ G)]. intros N e N' Q. now apply dd_into.
  - which H1 w (@nil text) Hw. rewrite E by exact A. split; [intros R; now apply running_failed|]. intros s1 G. apply running_then in G. destruct G as [R G]. split; [exact R|].
    eexists. split; [|exact (source_then true _ _ G)]. intros N e N' Q. now apply dd_over.
  - which H1 w (@nil text) Hw. rewrite E by exact A. split; [intros R; now apply running_failed|]. intros s1 G. apply running_then in G. destruct G as [R G]. split; [exact R|].
    eexists. split; [|exact (finish_then _ _ G)]. intros N e N' Q. now apply dd_call, di_out.
  - which H1 w more Hw. rewrite E by exact A. split; [intros R; now apply running_failed|]. intros s1 G. pose proof G as G1. apply running_then in G1. destruct G1 as [R _]. split; [exact R|].
    eexists. split; [|exact (continue_then _ _ _ G)]. intros N e N' Q. now apply dd_call, di_continue.
Qed.

(** ---- proofs: breakpoints and watchpoints ---- *)

(** The command has changed the native state as the library did, and printed no news. *)
Definition effected (d : deed) (s : cli) (r : out cli unit) : Prop :=
  match r with
  | Done _ s1 => exists N1 o, deed_did (cl_setup s) (fr_fuel P) (cl_source s) d (cl_native s) Fine N1 /\ s1 = cset_out (cset_native s N1) (cl_out s ++ o) /\ news o = []
  | Failed s1 => exists N1, deed_did (cl_setup s) (fr_fuel P) (cl_source s) d (cl_native s) Refused N1 /\ s1 = cset_native s N1
  | _ => True
  end.
Lemma parse_shown : forall a, 0 <= a < 2 ^ 63 -> parse_address (show_Z a) = ret a.
Proof. intros a H. unfold parse_address. rewrite svtoi64_show by (unfold fits; lia). destruct (Z.leb_spec 0 a); [reflexivity|lia]. Qed.
Lemma address_ok : forall what o a s, 0 <= op_addr o < 2 ^ 63 -> a = op_addr o ->
  effected (DCall (KBp o)) s (by_address what (fun U b => run_op U (match o with OpSet _ => OpSet b | OpUnset _ => OpUnset b | OpEnable _ => OpEnable b | OpDisable _ => OpDisable b end)) (show_Z a) s).
Proof.
  intros what o a s H ->. unfold by_address. rewrite parse_shown by exact H. unfold then_ at 1, ret. unfold then_, lib.
  replace (match o with OpSet _ => OpSet (op_addr o) | OpUnset _ => OpUnset (op_addr o) | OpEnable _ => OpEnable (op_addr o) | OpDisable _ => OpDisable (op_addr o) end) with o by (destruct o; reflexivity).
  destruct (run_op (cl_setup s) o (cl_native s)) as [[] N1|N1| |] eqn:E; try exact I.
  - exists N1. eexists. split; [now apply dd_call, di_done|]. split; [reflexivity|reflexivity].
  - exists N1. split; [now apply dd_call, di_refused|reflexivity].
Qed.
Lemma location_ok : forall what o line s, mapped (cl_source s) -> 0 <= line < 2 ^ 64 - 1 ->
  effected (DLine o line) s (by_location what (fun U b => run_op U (op_at o b)) (show_Z (line + 1)) s).
Proof.
  intros what o line s M H. unfold by_location, address_of_string. unfold then_ at 1, here. rewrite svtou64_show by lia.
  destruct (Z.eqb_spec (line + 1) 0); [lia|]. cbn [andb]. replace (line + 1 - 1) with line by lia.
  assert (D : forall N x N', match line_to_addr (cl_source s) line with None => x = Refused /\ N' = N | Some a => match x with Fine => run_op (cl_setup s) (op_at o a) N = Done tt N' | Refused => run_op (cl_setup s) (op_at o a) N = Failed N' | _ => False end end ->
    deed_did (cl_setup s) (fr_fuel P) (cl_source s) (DLine o line) N x N').
  { intros N x N' D. destruct (line_to_addr (cl_source s) line) as [a|] eqn:El.
    - destruct x; [apply dd_line with (a := a)|apply dd_refused|contradiction];
        destruct o; cbn [op_at run_op] in D; unfold line_op, set_source_breakpoint, unset_source_breakpoint, enable_source_breakpoint, disable_source_breakpoint, at_line; rewrite El; unfold then_; rewrite D; reflexivity.
    - destruct D as [-> ->]. apply dd_refused. destruct o; unfold line_op, set_source_breakpoint, unset_source_breakpoint, enable_source_breakpoint, disable_source_breakpoint, at_line; now rewrite El. }
  destruct (line_to_addr (cl_source s) line) as [a|] eqn:El.
  - unfold then_ at 1, lib. destruct (run_op (cl_setup s) (op_at o a) (cl_native s)) as [[] N1|N1| |] eqn:E; try exact I.
    + pose proof (C34_addr_to_line (cl_source s) a M) as L. destruct (addr_to_line (cl_source s) a) as [l|]; [|now elim (L line)].
      unfold then_, say, put, change. exists N1. eexists. split; [now apply D|]. split; [cbn [cset_out cset_native cl_out]; rewrite <- app_assoc; reflexivity|reflexivity].
    + exists N1. split; [now apply D|reflexivity].
  - exists (cl_native s). split; [now apply D|now destruct s].
Qed.

Lemma set_watch_kind : forall U a N x N', set_watchpoint U a N = Done x N' -> set_watchpoint U a N = Done tt N'.
Proof. now intros U a N [] N' ->. Qed.
Ltac skips H := repeat (apply stands_skip in H; [|discriminate]; let R := fresh "R" in destruct H as [R H]; rewrite (check_no _ _ _ _ R); clear R).
Lemma stands_prefix : forall l w n, stands_for l w n -> is_prefix_of w (str n) = true.
Proof. intros l w n (_ & H & _). now apply begins_prefix. Qed.

Lemma ops_ok : forall ws d, Forall PropText.word ws -> reads ws (ODo d) -> ~ moves d -> forall s, cl_active s = true -> mapped (cl_source s) ->
  (forall a, d = DCall (KBp (OpSet a)) -> exists t, nread_text (cl_setup s) a 1 (cl_native s) = Done [t] (cl_native s)) ->
  effected d s (handle_command P (join ws [SPACE]) s).
Proof.
  intros ws d Hws H Hd s A M T.
  inversion H as [w H1|w H1|w H1|w H1|w H1|w more H1|w x a more n o H1 H2 H3 H4|w x line more n o H1 H2 H3 H4|w x a more H1 H2 H3| | | | | | |]; subst; clear H; inversion Hws as [|? ? Hw Hm]; subst; try (now elim Hd); clear Hws.
  - which H1 w (x :: show_Z a :: more) Hw. rewrite E by exact A. clear E. unfold handle_breakpoint. rewrite words_split by exact Hm. cbn [nth].
    destruct H3 as [H3|[H3|[H3|[H3|[]]]]]; injection H3 as <- <-; skips H2; rewrite (check_yes _ _ _ _ (stands_prefix _ _ _ H2)) by (cbn; lia).
    + rewrite parse_shown by exact H4. unfold then_ at 1, ret. destruct (T a eq_refl) as [t Et]. unfold then_ at 1, lib at 1. rewrite Et.
      unfold then_, lib. cbn [cset_native cl_setup cl_native]. destruct (set_breakpoint (cl_setup s) a (cl_native s)) as [[] N1|N1| |] eqn:E; try exact I.
      * exists N1. eexists. split; [now apply dd_call, di_done|]. split; [reflexivity|reflexivity].
      * exists N1. split; [now apply dd_call, di_refused|reflexivity].
    + apply (address_ok "removed from" (OpUnset a)); auto.
    + apply (address_ok "enabled at" (OpEnable a)); auto.
    + apply (address_ok "disabled at" (OpDisable a)); auto.
  - which H1 w (x :: show_Z (line + 1) :: more) Hw. rewrite E by exact A. clear E. unfold handle_breakpoint. rewrite words_split by exact Hm. cbn [nth].
    destruct H3 as [H3|[H3|[H3|[H3|[]]]]]; injection H3 as <- <-; skips H2; rewrite (check_yes _ _ _ _ (stands_prefix _ _ _ H2)) by (cbn; lia).
    + apply (location_ok "set on" LSet); auto.
    + apply (location_ok "removed from" LUnset); auto.
    + apply (location_ok "enabled on" LEnable); auto.
    + apply (location_ok "disabled on" LDisable); auto.
  - which H1 w (x :: show_Z a :: more) Hw. rewrite E by exact A. clear E. unfold handle_watchpoint. rewrite words_split by exact Hm. cbn [nth].
    rewrite (check_yes _ _ _ _ (stands_prefix _ _ _ H2)) by (cbn; lia). rewrite parse_shown by exact H3. unfold then_, ret, lib.
    destruct (set_watchpoint (cl_setup s) a (cl_native s)) as [u N1|N1| |] eqn:E; try exact I.
    + exists N1, []. split; [apply dd_call, di_watch; now apply set_watch_kind in E|]. split; [destruct s; unfold cset_out; cbn; now rewrite app_nil_r|reflexivity].
    + exists N1. split; [now apply dd_call, di_watch_refused|reflexivity].
Qed.

(** What has been printed stays. *)
Definition grows {A} (m : act cli A) : Prop := forall s, match m s with Done _ s' | Failed s' => exists a, cl_out s' = cl_out s ++ a | _ => True end.
Lemma grows_then : forall A B (m : act cli A) (f : A -> act cli B), grows m -> (forall a, grows (f a)) -> grows (then_ m f).
Proof.
  intros A B m f H G s. unfold then_. specialize (H s). destruct (m s) as [a s1|s1| |]; auto. specialize (G a s1). destruct H as [o H].
  destruct (f a s1) as [b s2|s2| |]; auto; destruct G as [o2 G]; exists (o ++ o2); now rewrite G, H, app_assoc.
Qed.
Lemma grows_still : forall A (m : act cli A), still m -> grows m.
Proof. intros A m H s. specialize (H s). destruct (m s) as [a s1|s1| |]; auto; [destruct H as (o & -> & _); now exists o|]. destruct H as [(o & -> & _)|[_ (o & -> & _)]]; now exists o. Qed.
Lemma grows_lib : forall A (m : setup -> act native A), grows (lib m).
Proof. intros A m s. unfold lib. destruct (m _ _); auto; exists []; cbn; now rewrite app_nil_r. Qed.
Lemma grows_put : forall x, grows (put x).
Proof. intros x s. now exists [x]. Qed.
Lemma grows_running : forall b, grows (change (fun s => cset_running s b)).
Proof. intros b s. exists []. cbn. now rewrite app_nil_r. Qed.
Lemma grows_report : forall e, grows (report_event e).
Proof.
  intros e. unfold report_event. apply grows_then; [apply grows_still, still_here|intros s0]. repeat (apply grows_then; [apply grows_put|intros]).
  destruct e; try (apply grows_still, still_ret). apply grows_then; [apply grows_lib|intros]. apply grows_then; [apply grows_put|intros]. apply grows_running.
Qed.
Lemma grows_after : forall e place, still place -> grows (after_move e place).
Proof.
  intros e place H. unfold after_move. apply grows_then; [destruct (is_single e); cbn [negb when]; [apply grows_still, still_ret|apply grows_report]|intros].
  destruct (is_end e); [apply grows_running|now apply grows_still].
Qed.
Lemma grows_lib_after : forall m place, (forall e, still (place e)) -> grows (let* e := lib m in after_move e (place e)).
Proof. intros m place H. apply grows_then; [apply grows_lib|intros; now apply grows_after]. Qed.
Lemma grows_run : forall A (m : act cli A), grows m -> grows (running;; m).
Proof. intros A m H. apply grows_then; [|intros; exact H]. intros s. unfold running, then_, here. destruct (cl_running s); exists []; now rewrite app_nil_r. Qed.
Lemma moves_grow : forall ws d, Forall PropText.word ws -> reads ws (ODo d) -> moves d -> forall s, cl_active s = true ->
  match handle_command P (join ws [SPACE]) s with Done _ s' | Failed s' => exists a, cl_out s' = cl_out s ++ a | _ => True end.
Proof.
  intros ws d Hws H Hd s A.
  inversion H as [w H1|w H1|w H1|w H1|w H1|w more H1|w x a more n o H1 H2 H3 H4|w x line more n o H1 H2 H3 H4|w x a more H1 H2 H3| | | | | | |]; subst; clear H; inversion Hws as [|? ? Hw Hm]; subst; try contradiction.
  - which H1 w (@nil text) Hw. rewrite E by exact A. apply grows_run, (grows_lib_after _ (fun _ => _)). intros e. apply still_then; [apply still_lib, keeps_ip|intros; apply still_pretty_text].
  - which H1 w (@nil text) Hw. rewrite E by exact A. apply grows_run, (grows_lib_after _ (fun _ => _)). intros e. apply still_then; [apply still_lib, keeps_ip|intros; apply still_pretty_text].
  - which H1 w (@nil text) Hw. rewrite E by exact A. apply grows_run, grows_then; [apply grows_still, still_here|intros]. apply (grows_lib_after _ (fun _ => _)). intros e. apply still_place. intros. apply still_ret.
  - which H1 w (@nil text) Hw. rewrite E by exact A. apply grows_run, grows_then; [apply grows_still, still_here|intros]. apply (grows_lib_after _ (fun _ => _)). intros e. apply still_place. intros. apply still_ret.
  - which H1 w (@nil text) Hw. rewrite E by exact A. apply grows_run, (grows_lib_after _ (fun _ => _)). intros e. apply still_place. intros. apply still_pretty_text.
  - which H1 w more Hw. rewrite E by exact A. apply grows_run. apply grows_then; [apply grows_lib|intros]. apply grows_then; [apply grows_lib|intros e].
    apply grows_then; [destruct (is_end e); cbn [when]; [apply grows_running|apply grows_still, still_ret]|intros]. apply grows_then; [apply grows_report|intros]. apply grows_still, still_break.
Qed.

(** ---- one line ---- *)

Lemma event_announced : forall src e, mapped src -> is_cpu e = false -> announced src e (event_text src e).
Proof.
  intros src e M H. destruct e as [a|a| | | |a]; try discriminate; try constructor. unfold event_text. pose proof (C34_addr_to_line src a M) as L. unfold num.
  destruct (addr_to_line src a) as [l|]; constructor; apply L.
Qed.

Lemma steps_no_cpu : forall F p w S e S', steps F p w S e S' -> is_cpu e = false.
Proof. now destruct 1. Qed.
Lemma continues_no_cpu : forall F p m w S e S', continues F p m w S e S' -> is_cpu e = false.
Proof. induction 1 as [S S' e H1 H2|]; auto. now destruct H2. Qed.
Lemma over_no_cpu : forall F p m w f S e S', over F p m w f S e S' -> is_cpu e = false.
Proof.
  intros F p m w f S e S'. assert (B : forall a bp S e S', comes_back F p m w a bp S e S' -> is_cpu e = false) by (induction 1; auto; eapply continues_no_cpu; eauto).
  destruct 1; eauto. now apply steps_no_cpu in H1.
Qed.
Lemma out_no_cpu : forall F p m w f S e S', steps_out F p m w f S e S' -> is_cpu e = false.
Proof. induction 1; auto; eapply over_no_cpu; eauto. Qed.
Lemma line_no_cpu : forall L (one : bool -> arch -> devent -> arch -> Prop), (forall f S e S', one f S e S' -> is_cpu e = false) -> forall f S e S', to_line L one f S e S' -> is_cpu e = false.
Proof. intros L one Z. induction 1; eauto. Qed.
Lemma spec_no_cpu : forall F p s d v e v', deed_spec F p s d v (Saw e) v' -> is_cpu e = false.
Proof.
  intros F p s d v e v' H. inversion H as [k v0 x v0' Y|o line a0 v0 x v0' Y1 Y| |m ws S l e' S' l' Y|m S l e' S' l' Y]; subst.
  - inversion Y; subst; try (eapply steps_no_cpu; eassumption); try (eapply continues_no_cpu; eassumption); try (eapply over_no_cpu; eassumption).
    eapply out_no_cpu; eassumption.
  - inversion Y.
  - eapply line_no_cpu; [|exact Y]. intros f A e0 A' Z. destruct Z as [A e0 A' _ Z|]; [|reflexivity]. eapply steps_no_cpu; eauto.
  - eapply line_no_cpu; [|exact Y]. intros f A e0 A' Z. eapply over_no_cpu; eauto.
Qed.

Section Viewed.
Variable p : list instr.
Variable src : source.
Variable U : setup.
Hypothesis PL : prints_lines U.
Hypothesis TF : typed_fops (e_fops (u_env U)).
Hypothesis p_typed : Forall typed_instr p.
Hypothesis p_ip : Forall IsaSpec.keeps_ip p.
Hypothesis p_len : Z.of_nat (length p) < 2 ^ 63.
Hypothesis p_bkpt : Forall (fun i => i <> IBkpt) p.
Hypothesis SM : mapped src.

Record session (v : view) (ended : bool) (s : cli) : Prop := mkSession {
  se_setup : cl_setup s = U;
  se_active : cl_active s = true;
  se_source : cl_source s = src;
  se_running : cl_running s = negb ended;
  se_viewed : exists r c, viewed U p v (cl_native s) r c
}.

Lemma line_ok : forall l ws o v ended s s1, session v ended s -> typed l ws -> reads ws o -> order_usable U p src o -> v_watch v = [] \/ order_no_over o ->
  command_line P l s = Done tt s1 -> ~ cpu_failed (cl_native s1) -> still_there s1 ->
  (forall d, o = ODo d -> moves d -> cl_running s = true -> exists t, cl_out s1 = cl_out s ++ t /\ ~ In Err t) ->
  exists v1 ended1 t, order_spec (e_fops (u_env U)) p src o (v, ended) (news t) (v1, ended1) /\ session v1 ended1 s1 /\ cl_out s1 = cl_out s ++ t.
Proof.
  intros l ws o v ended s s1 [S1 S2 S3 S4 (r & c & S5)] Ht Hr Hu Hw H Hf Hst He. destruct (typed_squash _ _ Ht) as [Es Hws]. unfold command_line in H. rewrite Es in H.
  assert (G : catching (handle_command P (join ws [SPACE])) (put Err) s = Done tt s1).
  { destruct (join ws [SPACE]) eqn:Ej; [|exact H]. exfalso. destruct ws as [|w ws]; [inversion Hr|]. inversion Hws as [|? ? [W _] _]; subst. destruct w; [congruence|discriminate]. }
  clear H Es Ht l. unfold catching in G. destruct o as [d|].
  - assert (Hd : fit_deed U p src d).
    { assert (Q : Forall (fit_deed U p src) [d]) by (apply deeds_fit; repeat constructor; exact Hu). now inversion Q. }
    assert (DO : forall x N', deed_did U (fr_fuel P) src d (cl_native s) x N' -> ~ cpu_failed N' -> exists v' r' c', deed_spec (e_fops (u_env U)) p src d v x v' /\ viewed U p v' N' r' c').
    { intros x N' Q1 Q2. apply (deed_ok U (fr_fuel P) PL TF p p_typed p_ip p_len p_bkpt src SM d v (cl_native s) r c x N' S5 Hd Hw Q1 Q2). }
    assert (MD : moves d \/ ~ moves d) by (destruct d as [[]| | |]; cbn; auto).
    destruct MD as [MD|MD].
    + destruct (moves_ok ws d Hws Hr MD s S2) as [M1 M2]. destruct ended; cbn [negb] in S4.
      * rewrite (M1 S4) in G. unfold put, change in G. injection G as <-. exists v, true, [Err]. split; [now apply os_ended|]. split; [|reflexivity]. constructor; auto. now exists r, c.
      * destruct (He d eq_refl MD S4) as (t & T1 & T2). destruct (handle_command P (join ws [SPACE]) s) as [[] s2|s2| |] eqn:E; try discriminate.
        -- injection G as <-. destruct (M2 _ eq_refl) as (_ & m & D1 & e & N1 & o & D2 & -> & No). rewrite S1, S3 in D1. rewrite S1 in D2. rewrite S3 in No. cbn [cset_out cset_running cset_native cl_out] in T1.
           cbn [cset_out cset_running cset_native cl_native] in Hf. apply app_inv_head in T1. subst t. destruct (DO _ _ (D1 _ _ _ D2) Hf) as (v' & r' & c' & Q1 & Q2).
           assert (C : is_cpu e = false).
           { eapply spec_no_cpu. exact Q1. }
           exists v', (is_end e), o. split; [|split; [|reflexivity]].
           ++ apply os_move; [exact MD|exact Q1|]. rewrite No. destruct (is_single e) eqn:Es; cbn [andb].
              ** destruct e; try discriminate. destruct d as [[]| | |]; cbn [negb]; try (apply tl_step; discriminate). apply tl_told; [now right|apply (event_announced src EvSinglestep); auto].
              ** apply tl_told; [left; intros ->; discriminate|now apply event_announced].
           ++ constructor; cbn [cset_out cset_running cset_native cl_setup cl_active cl_source cl_running cl_native]; auto.
              ** rewrite C, orb_false_r, S4. destruct (is_end e); reflexivity.
              ** now exists r', c'.
        -- exfalso. unfold put, change in G. injection G as <-. cbn [cset_out cl_out] in T1.
           assert (Q : exists a, cl_out s2 = cl_out s ++ a).
           { pose proof (moves_grow ws d Hws Hr MD s S2) as Q. rewrite E in Q. exact Q. }
           destruct Q as [a Q]. rewrite Q, <- app_assoc in T1. apply app_inv_head in T1. subst t. apply T2. apply in_or_app. right. now left.
    + assert (OK : effected d s (handle_command P (join ws [SPACE]) s)).
      { apply (ops_ok ws d Hws Hr MD s S2); [now rewrite S3|]. intros a ->. cbn [order_usable usable_deed usable op_addr] in Hu. destruct Hu as [Hu _]. pose proof (rs_holds _ _ _ _ _ _ _ (vw_rested _ _ _ _ _ _ S5)) as HH.
        rewrite S1. eexists. rewrite (read_ok U _ PL (fun _ => True) r c p _ _ a 1 p_len HH) by lia. reflexivity. }
      unfold effected in OK. rewrite S1, S3 in OK. destruct (handle_command P (join ws [SPACE]) s) as [[] s2|s2| |]; try discriminate.
      * injection G as <-. destruct OK as (N1 & o & D1 & -> & No). cbn [cset_out cset_native cl_native] in Hf. destruct (DO _ _ D1 Hf) as (v' & r' & c' & Q1 & Q2).
        exists v', ended, o. split; [rewrite No; now apply os_done|]. split; [|reflexivity]. constructor; auto. now exists r', c'.
      * unfold put, change in G. injection G as <-. destruct OK as (N1 & D1 & ->). cbn [cset_out cset_native cl_native] in Hf. destruct (DO _ _ D1 Hf) as (v' & r' & c' & Q1 & Q2).
        exists v', ended, [Err]. split; [now apply os_refused|]. split; [|reflexivity]. constructor; auto. now exists r', c'.
  - destruct (looks_still ws Hws Hr s S2) as (m & Sm & Em). rewrite Em in G. specialize (Sm s). clear Em.
    assert (Q : exists o, s1 = cset_out s (cl_out s ++ o) /\ (news o = [] \/ news o = [Err])).
    { destruct (m s) as [[] s2|s2| |]; try discriminate.
      - injection G as <-. destruct Sm as (o & -> & No). exists o. split; [reflexivity|left; now apply news_plain].
      - destruct Sm as [(o & -> & No)|[X (o & -> & _)]]; [|exfalso; unfold put, change in G; injection G as <-; destruct Hst as [Y|Y]; [cbn in Y; congruence|now apply Y]]. unfold put, change in G. injection G as <-. exists (o ++ [Err]). split; [cbn; now rewrite <- app_assoc|]. right. now rewrite news_app, news_plain. }
    destruct Q as (o & -> & No). exists v, ended, o. split; [now apply os_look|]. split; [|reflexivity]. constructor; auto. now exists r, c.
Qed.

Lemma lines_ok : forall ls s os s1, went P ls s os s1 -> forall v ended, session v ended s -> Forall (order_usable U p src) os ->
  Forall order_no_over os \/ v_watch v = [] /\ Forall order_no_watch os ->
  exists v1 ended1 t, orders_spec (e_fops (u_env U)) p src os (v, ended) (news t) (v1, ended1) /\ session v1 ended1 s1 /\ cl_out s1 = cl_out s ++ t.
Proof.
  intros ls s os s1 H. induction H as [s|l ls ws o os s s1 s2 H1 H2 H3 H4 Hst H5 H6 IH]; intros v ended HS Hu Hw.
  - exists v, ended, []. split; [constructor|]. split; [exact HS|now rewrite app_nil_r].
  - inversion Hu as [|? ? U1 U2]; subst.
    assert (Hw1 : v_watch v = [] \/ order_no_over o) by (destruct Hw as [Hw|[Hw _]]; [right; now inversion Hw|now left]).
    destruct (line_ok l ws o v ended s s1 HS H1 H2 U1 Hw1 H3 H4 Hst H5) as (v1 & e1 & t1 & A1 & A2 & A3).
    destruct (IH v1 e1 A2 U2) as (v2 & e2 & t2 & B1 & B2 & B3).
    { destruct Hw as [Hw|[Hw Hw2]]; [left; now inversion Hw|right]. inversion Hw2 as [|? ? X1 X2]; subst. split; [|exact X2]. clear - A1 X1 Hw.
      assert (G : forall d x, deed_no_watch d -> deed_spec (e_fops (u_env U)) p src d v x v1 -> v_watch v1 = []).
      { intros d x Hd D. destruct D as [k v x v' A|o' line a v x v' _ A| | |]; try exact Hw; try reflexivity; inversion A; subst; try exact Hw; try reflexivity; elim Hd. }
      inversion A1; subst; eauto. }
    exists v2, e2, (t1 ++ t2). rewrite news_app. split; [econstructor; eauto|]. split; [exact B2|]. now rewrite B3, A3, app_assoc.
Qed.
End Viewed.
End P.

(** ---- C84 ---- *)

(** The debugger is at the start of the program, no breakpoints have been set, and the
    front end believes the program to run. *)
Record at_begin (U : setup) (src : source) (c0 : cpu) (s : cli) : Prop := mkAtBegin {
  ab_setup : cl_setup s = U;
  ab_native : cl_native s = connected c0;
  ab_active : cl_active s = true;
  ab_source : cl_source s = src;
  ab_running : cl_running s = true
}.

(** C84. Any lines of the kind described by [reads], in any order and any number. *)
Theorem C84_session : forall P U g p data input c0 src ls s os s1, debuggee U g p data input c0 -> mapped src -> at_begin U src c0 s ->
  went P ls s os s1 -> Forall (order_usable U p src) os -> Forall order_no_over os \/ Forall order_no_watch os ->
  exists v ended t, orders_spec (e_fops (u_env U)) p src os (mkView no_marks [] (isa_boot (g_ram g) data input) false, false) (news t) (v, ended) /\
    cl_out s1 = cl_out s ++ t /\ holds_view (v_marks v) (v_state v) (cl_native s1) /\ (forall a, In a (map fst (n_wps (cl_native s1))) <-> In a (v_watch v)).
Proof.
  intros P U g p data input c0 src ls s os s1 HD SM [B1 B2 B3 B4 B5] H Hu Hw. pose proof HD as [PL [Hip Hty Hb] Hl Hbk R1 R2].
  destruct (lines_ok P p src U PL (ty_fops _ _ _ _ _ Hty) (ty_prog _ _ _ _ _ Hty) Hip Hl Hbk SM ls s os s1 H (mkView no_marks [] (isa_boot (g_ram g) data input) false) false) as (v & e & t & A1 & A2 & A3); auto.
  - constructor; auto. rewrite B2. exists RBegin, c0. now apply at_start.
  - destruct Hw as [Hw|Hw]; [now left|right; now split].
  - exists v, e, t. split; [exact A1|]. split; [exact A3|]. destruct (se_viewed _ _ _ _ _ _ A2) as (r & c & V). split; [eapply viewed_holds; exact V|exact (vw_listed _ _ _ _ _ _ V)].
Qed.

(** C84, after the end of the program: whatever the state, a line that asks to move is
    refused and changes nothing. *)
Theorem C84_ended : forall P l ws d s, cl_active s = true -> cl_running s = false -> typed l ws -> reads ws (ODo d) -> moves d ->
  command_line P l s = Done tt (cset_out s (cl_out s ++ [Err])).
Proof.
  intros P l ws d s A R Ht Hr Hd. destruct (typed_squash _ _ Ht) as [Es Hws]. destruct (moves_ok P ws d Hws Hr Hd s A) as [M _]. specialize (M R).
  unfold command_line. rewrite Es. destruct (join ws [SPACE]) as [|c j] eqn:E; [|unfold catching; rewrite M; reflexivity].
  exfalso. inversion Hr; subst; inversion Hws as [|? ? X Y]; subst; destruct (word_nil _ X); destruct w; try reflexivity; cbn [join app] in E; destruct more || idtac; discriminate.
Qed.

(** ---- C85 ---- *)

(** C85. A line that asks to display something: whatever the state of the debugger, the
    debuggee, the breakpoints and everything else is as before; only the output has grown.
    A VM in another process may be lost (C53). *)
Theorem C85_display : forall P l ws s, cl_active s = true -> typed l ws -> reads ws OLook ->
  match command_line P l s with
  | Done _ s1 => exists t, s1 = cset_out s (cl_out s ++ t) \/ u_local (cl_setup s) = false /\ s1 = cset_out (cset_native s (lost (cl_native s))) (cl_out s ++ t)
  | Failed _ => False
  | _ => True
  end.
Proof.
  intros P l ws s A Ht Hr. destruct (typed_squash _ _ Ht) as [Es Hws]. unfold command_line. rewrite Es. destruct (looks_still P ws Hws Hr s A) as (m & Sm & Em). specialize (Sm s). rewrite <- Em in Sm. clear m Em.
  destruct (join ws [SPACE]) as [|c j]; [exists []; left; destruct s; unfold cset_out; cbn; now rewrite app_nil_r|]. unfold catching. destruct (handle_command P (c :: j) s) as [[] s2|s2| |]; auto.
  - destruct Sm as (o & -> & _). eexists. left. reflexivity.
  - unfold put, change. destruct Sm as [(o & -> & _)|[X (o & -> & _)]]; exists (o ++ [Err]); [left|right; split; [exact X|]]; cbn; now rewrite <- app_assoc.
Qed.

(** ---- a session ---- *)

Lemma stands_dec : forall l w n, find (fun b => is_prefix_of w (str b)) l = Some n -> w <> [] -> stands_for l w n.
Proof.
  intros l w n H Hw. split; [exact Hw|]. split; [apply begins_prefix; now apply find_some in H|]. induction l as [|a l IH]; [discriminate|]. cbn [find] in H.
  destruct (is_prefix_of w (str a)) eqn:E; [injection H as ->; exists [], l; split; [reflexivity|intros b []]|]. destruct (IH H) as (bf & af & -> & K). exists (a :: bf), af. split; [reflexivity|].
  intros b [<-|I]; [|now apply K]. rewrite begins_prefix, E. discriminate.
Qed.
Lemma typed_words : forall ws, Forall PropText.word ws -> typed (join ws [SPACE]) ws.
Proof.
  intros ws H. destruct ws as [|w ws]; [exists [], [], []; repeat split; constructor|].
  assert (G : exists l, laid_out l (join (w :: ws) [SPACE]) /\ w :: ws = map fst l /\ Forall (fun x => firstn 1 (snd x) = [SPACE]) (removelast l) /\ l <> []).
  { revert w H. induction ws as [|x ws IH]; intros w H; inversion H as [|? ? H1 H2]; subst.
    - exists [(w, [])]. split; [apply lo_last; [exact H1|constructor]|]. split; [reflexivity|]. split; [constructor|discriminate].
    - destruct (IH x H2) as (l & L1 & L2 & L3 & L4). exists ((w, [SPACE]) :: l). split; [apply (lo_more w [SPACE] l); auto; [repeat constructor|discriminate]|].
      split; [cbn [map fst]; now rewrite L2|]. split; [|discriminate]. destruct l; [congruence|]. cbn [removelast]. constructor; [reflexivity|exact L3]. }
  destruct G as (l & L1 & L2 & L3 & _). exists [], l, (join (w :: ws) [SPACE]). split; [reflexivity|]. split; [constructor|]. auto.
Qed.
Definition wordb (w : text) : bool := match w with [] => false | _ => forallb (fun c => negb (Text.is_space c)) w end.
Lemma wordb_ok : forall w, wordb w = true -> PropText.word w.
Proof.
  intros w H. destruct w; [discriminate|]. split; [discriminate|]. unfold wordb in H. rewrite forallb_forall in H. apply Forall_forall. intros c I. specialize (H c I). now destruct (Text.is_space c).
Qed.
Section Go.
Variable P : front.
Definition quiet_since (s s1 : cli) : bool := forallb (fun x => match x with Err => false | _ => true end) (skipn (length (cl_out s)) (cl_out s1)).
Definition movesb (d : deed) : bool := match d with DCall (KBp _) | DCall (KWatch _) | DLine _ _ => false | _ => true end.
Definition thereb (s : cli) : bool := u_local (cl_setup s) || match k_host (n_link (cl_native s)) with Some _ => true | None => false end.
Fixpoint go (ls : list text) (os : list order) (s : cli) : option cli :=
  match ls, os with
  | l :: ls', o :: os' =>
      match command_line P l s with
      | Done _ s1 => if cl_active s && (fine (cl_native s1) && thereb s1) && (match o with ODo d => negb (movesb d) || negb (cl_running s) || quiet_since s s1 | OLook => true end) then go ls' os' s1 else None
      | _ => None
      end
  | [], [] => Some s
  | _, _ => None
  end.
Lemma go_went : forall ls os s s1, Forall2 (fun l o => exists ws, typed l ws /\ reads ws o) ls os -> go ls os s = Some s1 -> went P ls s os s1.
Proof.
  intros ls os s s1 H. revert s. induction H as [|l o ls os (ws & H1 & H2) H IH]; intros s G; cbn [go] in G; [injection G as <-; constructor|].
  destruct (command_line P l s) as [[] s2| | |] eqn:E; try discriminate. destruct (cl_active s && (fine (cl_native s2) && thereb s2) && _) eqn:B; [|discriminate].
  apply andb_true_iff in B. destruct B as [B B3]. apply andb_true_iff in B. destruct B as [B1 B2]. apply andb_true_iff in B2. destruct B2 as [B2 B4]. econstructor; eauto.
  - unfold cpu_failed. unfold fine in B2. destruct (k_host (n_link (cl_native s2))) as [[[]| |]|]; try discriminate; auto.
  - unfold thereb in B4. apply orb_true_iff in B4. destruct B4 as [B4|B4]; [now left|right]. destruct (k_host _); [discriminate|discriminate B4].
  - intros d -> Hd R. assert (M : movesb d = true) by (destruct d as [[]| | |]; try contradiction; reflexivity). rewrite M, R in B3. cbn [negb orb] in B3.
    destruct (typed_squash _ _ H1) as [Es Hws]. pose proof (moves_grow P ws d Hws H2 Hd s B1) as Q. unfold command_line in E. rewrite Es in E.
    assert (K : exists t, cl_out s2 = cl_out s ++ t).
    { destruct (join ws [SPACE]) as [|c j]; [unfold ret in E; injection E as <-; exists []; now rewrite app_nil_r|]. unfold catching in E. destruct (handle_command P (c :: j) s) as [[] s3|s3| |]; try discriminate.
      - injection E as <-. exact Q.
      - destruct Q as [t Q]. unfold put, change in E. injection E as <-. exists (t ++ [Err]). cbn [cset_out cl_out]. now rewrite Q, app_assoc. }
    destruct K as [t K]. exists t. split; [exact K|]. unfold quiet_since in B3. rewrite K, skipn_app, skipn_all2, Nat.sub_diag in B3 by lia. cbn [app skipn] in B3.
    rewrite forallb_forall in B3. intros I. now specialize (B3 _ I).
Qed.
End Go.

Definition U84 : setup := mkSetup (u_stod U1) (u_ftos U1) (u_gtos U1) (u_stof U1) 4 1 16 (u_env U1) (u_cfg U1) true.
Definition ops84 : dops := mkDops Z.ltb Z.leb Z.eqb (fun _ => None) (fun _ => str "0").
Definition front84 : front := mkFront ops84 (fun _ => str "0") (fun _ => Some 0) (Some (str "prog")) None (fun _ => None) [] 100.
Definition cli84 : cli := mkCli U84 (connected (booted cfg1 prog81 [7; 8] [65; 10])) true source81 [] true [] [].
Definition lines84 : list (string * order) :=
  [("b iset 4", ODo (DCall (KBp (OpSet 4)))); ("c", ODo (DCall KContinue)); ("  register   get R0 ", OLook); ("breakpoint disable 3", ODo (DLine LDisable 2));
   ("is", ODo (DCall KStep)); ("step", ODo DInto); ("disas from 100", OLook); ("c", ODo (DCall KContinue)); ("n", ODo DOver); ("b set 9", ODo (DLine LSet 8))]%string.
Definition deeds_of (os : list order) : list deed := flat_map (fun o => match o with ODo d => [d] | OLook => [] end) os.
Lemma usable_of : forall U p s os, Forall (usable_deed U p s) (deeds_of os) -> Forall (order_usable U p s) os.
Proof. intros U p s os H. induction os as [|[d|] os IH]; constructor; auto; [now inversion H|apply IH; now inversion H|exact I]. Qed.
Lemma no_watch_of : forall os, Forall deed_no_watch (deeds_of os) -> Forall order_no_watch os.
Proof. intros os H. induction os as [|[d|] os IH]; constructor; auto; [now inversion H|apply IH; now inversion H|exact I]. Qed.

(** A breakpoint in the function, line 3 of the source, is hit; a register is displayed
    although the line has blanks in odd places; after two steps and the end of the program,
    a step and a breakpoint on a line that does not exist are refused. *)
Example C84_case : u_local U84 = true /\ debuggee U84 cfg1 prog81 [7; 8] [65; 10] (booted cfg1 prog81 [7; 8] [65; 10]) /\ mapped source81 /\
  at_begin U84 source81 (booted cfg1 prog81 [7; 8] [65; 10]) cli84 /\ Forall (order_usable U84 prog81 source81) (map snd lines84) /\ Forall order_no_watch (map snd lines84) /\
  exists s1, went front84 (map (fun x => str (fst x)) lines84) cli84 (map snd lines84) s1 /\
    news (cl_out s1) = [Say DarkRed (str "Software breakpoint hit at line 3"); Err; Say DarkRed (str "The program finished execution"); Err; Err] /\ cl_running s1 = false.
Proof.
  destruct (case81 (deeds_of (map snd lines84))) as (D1 & D2 & D3 & D4); [repeat constructor; cbn; lia|].
  split; [reflexivity|]. split; [destruct D1; constructor; assumption|]. split; [exact D2|]. split; [constructor; reflexivity|]. split; [apply usable_of; exact D3|]. split; [now apply no_watch_of|].
  destruct (go front84 (map (fun x => str (fst x)) lines84) (map snd lines84) cli84) as [s1|] eqn:E.
  - exists s1. split; [apply go_went; [|exact E]|].
    + unfold lines84. cbn [map fst snd].
      assert (T : forall ws o, Forall PropText.word ws -> reads ws o -> exists ws', typed (join ws [SPACE]) ws' /\ reads ws' o) by (intros ws o A B; exists ws; split; [now apply typed_words|exact B]).
      assert (W : forall ws, forallb wordb ws = true -> Forall PropText.word ws) by (intros ws A; rewrite forallb_forall in A; apply Forall_forall; intros w I; now apply wordb_ok, A).
      constructor; [apply (T [str "b"; str "iset"; str "4"]); [apply W; reflexivity|]|].
      { eapply (rd_at (str "b") (str "iset") 4 [] "iset"); [apply stands_dec; [reflexivity|discriminate]|apply stands_dec; [reflexivity|discriminate]|now left|lia]. }
      constructor; [apply (T [str "c"]); [apply W; reflexivity|]|].
      { apply rd_continue, stands_dec; [reflexivity|discriminate]. }
      constructor.
      { exists [str "register"; str "get"; str "R0"]. split.
        - exists (str "  "), [(str "register", str "   "); (str "get", str " "); (str "R0", str " ")], (str "register   get R0 ").
          split; [reflexivity|]. split; [repeat constructor|]. split; [|split; [reflexivity|repeat constructor]].
          apply (lo_more (str "register") (str "   ") _ (str "get R0 ")); [now apply wordb_ok|repeat constructor|discriminate|discriminate|].
          apply (lo_more (str "get") (str " ") _ (str "R0 ")); [now apply wordb_ok|repeat constructor|discriminate|discriminate|].
          apply (lo_last (str "R0") (str " ")); [now apply wordb_ok|repeat constructor].
        - eapply rd_register; [apply stands_dec; [reflexivity|discriminate]|apply stands_dec; [reflexivity|discriminate]|now left]. }
      constructor; [apply (T [str "breakpoint"; str "disable"; str "3"]); [apply W; reflexivity|]|].
      { eapply (rd_line (str "breakpoint") (str "disable") 2 [] "disable"); [apply stands_dec; [reflexivity|discriminate]|apply stands_dec; [reflexivity|discriminate]|cbn; auto|lia]. }
      constructor; [apply (T [str "is"]); [apply W; reflexivity|]|].
      { apply rd_istep, stands_dec; [reflexivity|discriminate]. }
      constructor; [apply (T [str "step"]); [apply W; reflexivity|]|].
      { apply rd_step, stands_dec; [reflexivity|discriminate]. }
      constructor; [apply (T [str "disas"; str "from"; str "100"]); [apply W; reflexivity|]|].
      { eapply (rd_show (str "disas") "disassemble"); [apply stands_dec; [reflexivity|discriminate]|cbn; auto]. }
      constructor; [apply (T [str "c"]); [apply W; reflexivity|]|].
      { apply rd_continue, stands_dec; [reflexivity|discriminate]. }
      constructor; [apply (T [str "n"]); [apply W; reflexivity|]|].
      { apply rd_next, stands_dec; [reflexivity|discriminate]. }
      constructor; [apply (T [str "b"; str "set"; str "9"]); [apply W; reflexivity|]|constructor].
      { eapply (rd_line (str "b") (str "set") 8 [] "set"); [apply stands_dec; [reflexivity|discriminate]|apply stands_dec; [reflexivity|discriminate]|cbn; auto|lia]. }
    + assert (K : option_map (fun s => (news (cl_out s), cl_running s)) (go front84 (map (fun x => str (fst x)) lines84) (map snd lines84) cli84) =
        Some ([Say DarkRed (str "Software breakpoint hit at line 3"); Err; Say DarkRed (str "The program finished execution"); Err; Err], false)) by (vm_compute; reflexivity).
      rewrite E in K. cbn [option_map] in K. split; congruence.
  - exfalso. assert (K : option_map (fun s => cl_running s) (go front84 (map (fun x => str (fst x)) lines84) (map snd lines84) cli84) = Some false) by (vm_compute; reflexivity).
    rewrite E in K. discriminate.
Qed.
Example C85_case : cl_active cli84 = true /\ typed (str "disas from 0") [str "disas"; str "from"; str "0"] /\ reads [str "disas"; str "from"; str "0"] OLook /\
  match command_line front84 (str "disas from 0") cli84 with Done _ s1 => length (cl_out s1) = 12%nat | _ => False end.
Proof.
  split; [reflexivity|]. split; [apply (typed_words [str "disas"; str "from"; str "0"]); repeat constructor; discriminate|].
  split; [eapply (rd_show (str "disas") "disassemble"); [apply stands_dec; [reflexivity|discriminate]|cbn; auto]|]. vm_compute. reflexivity.
Qed.

Definition over84 : cli := cset_running cli84 false.
Example C84_ended_case : cl_active over84 = true /\ cl_running over84 = false /\ typed (str "conti") [str "conti"] /\ reads [str "conti"] (ODo (DCall KContinue)) /\ moves (DCall KContinue).
Proof.
  split; [reflexivity|]. split; [reflexivity|]. split; [change (str "conti") with (join [str "conti"] [SPACE]); apply typed_words; constructor; [apply wordb_ok; vm_compute; reflexivity|constructor]|].
  split; [|exact I]. constructor. apply stands_dec; [vm_compute; reflexivity|discriminate].
Qed.

Print Assumptions C84_session.
Print Assumptions C85_display.
Print Assumptions C84_ended.
