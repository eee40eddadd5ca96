(** C93: a whole run of the debugger, from its start to the end of its input. *)
From Coq Require Import Ascii String ZArith NArith List Bool Lia.
From Verif Require Import Base Text PropText PropNet StdMap Isa Alu AluSpec State IsaSpec IsaSame Lexer Asm Show AsmPrint AsmSpec PropAsm Exec Ram Writes Rat Cpu Os DbgText Spaces
  InOrder PipeInv PipeBasics PipeActs PipeMem PipeTick PipeDom PipeRun PipeBoot PipePoke Session IsaRefine DbgSpec Stops PropPipe PropDbg Client Proto PropProto Native PropBreak PropWatch
  LibSpec NatRun NatStop PropStep PropOver Src PropLines PropLineStep SrcFacts SetReg Expr Eval Info EvalFacts PropAssign Cli CliFacts PropCli PropRun.
Import ListNotations.
Open Scope Z_scope.

(** ---- commands that do not read the input ---- *)

Definition with_in {A} (i : list text) (r : out cli A) : out cli A :=
  match r with Done a s => Done a (cset_in s i) | Failed s => Failed (cset_in s i) | Dead => Dead | Blocked => Blocked end.
Definition blind {A} (m : act cli A) : Prop := forall s i, m (cset_in s i) = with_in i (m s).

Lemma blind_ret : forall A (a : A), blind (ret a).
Proof. intros A a s i. reflexivity. Qed.
Lemma blind_fail : forall A, blind (@fail cli A).
Proof. intros A s i. reflexivity. Qed.
Lemma blind_dead : forall A, blind (@dead cli A).
Proof. intros A s i. reflexivity. Qed.
Lemma blind_then : forall A B (m : act cli A) (f : A -> act cli B), blind m -> (forall a, blind (f a)) -> blind (then_ m f).
Proof. intros A B m f H G s i. unfold then_. rewrite H. destruct (m s) as [a s1|s1| |]; cbn [with_in]; try reflexivity. apply G. Qed.
(** The state is looked at, but not its input. *)
Lemma blind_here : forall B (f : cli -> act cli B), (forall s i, f (cset_in s i) = f s) -> (forall s, blind (f s)) -> blind (then_ here f).
Proof. intros B f H G s i. unfold then_, here. rewrite H. apply G. Qed.
Lemma blind_lib : forall A (m : setup -> act native A), blind (lib m).
Proof. intros A m s i. unfold lib. cbn [cset_in cl_setup cl_native]. destruct (m (cl_setup s) (cl_native s)); reflexivity. Qed.
Lemma blind_change : forall f, (forall s i, f (cset_in s i) = cset_in (f s) i) -> blind (change f).
Proof. intros f H s i. unfold change. now rewrite H. Qed.
Lemma blind_put : forall x, blind (put x).
Proof. intros x s i. reflexivity. Qed.
Lemma blind_say : forall x, blind (say x).
Proof. intros x s i. reflexivity. Qed.
Lemma blind_usage : forall x, blind (usage_of x).
Proof. intros x s i. reflexivity. Qed.
Lemma blind_catching : forall A (m h : act cli A), blind m -> blind h -> blind (catching m h).
Proof. intros A m h H G s i. unfold catching. rewrite H. destruct (m s); cbn [with_in]; try reflexivity. apply G. Qed.
Lemma blind_when : forall b m, blind m -> blind (when b m).
Proof. intros [] m H; [exact H|apply blind_ret]. Qed.
Lemma blind_each : forall A (f : A -> act cli unit) l, (forall a, blind (f a)) -> blind (each f l).
Proof. intros A f l H. induction l as [|x l IH]; [apply blind_ret|]. cbn [each]. apply blind_then; auto. Qed.
Lemma blind_opt : forall A (e : act cli A) o, blind e -> blind (opt_or e o).
Proof. intros A e [a|] H; [apply blind_ret|exact H]. Qed.

Create HintDb blind.
Ltac bl1 :=
  lazymatch goal with
  | |- blind (ret _) => apply blind_ret
  | |- blind fail => apply blind_fail
  | |- blind dead => apply blind_dead
  | |- blind (say _) => apply blind_say
  | |- blind (usage_of _) => apply blind_usage
  | |- blind (put _) => apply blind_put
  | |- blind (lib _) => apply blind_lib
  | |- blind (opt_or _ _) => apply blind_opt
  | |- blind (when _ _) => apply blind_when
  | |- blind (change _) => apply blind_change; reflexivity
  | |- blind (catching _ _) => apply blind_catching
  | |- blind (each _ _) => apply blind_each; intros
  | |- blind (then_ here _) => apply blind_here; [reflexivity|intros]
  | |- blind (then_ _ _) => apply blind_then; [|intros]
  | |- blind (match ?x with _ => _ end) => destruct x
  | |- blind (let _ := _ in _) => cbv zeta
  end.
Ltac bl := repeat first [bl1 | solve [auto 2 with blind nocore]].

Lemma find_none_all : forall A (f : A -> bool) l, (forall x, In x l -> f x = false) -> find f l = None.
Proof. intros A f l H. induction l as [|x l IH]; [reflexivity|]. cbn [find]. rewrite (H x) by now left. apply IH. intros y I. apply H. now right. Qed.

Section P.
Variable P : front.
Lemma blind_address : forall t, blind (parse_address t).
Proof. intros t. unfold parse_address. bl. Qed.
Hint Resolve blind_address : blind.
Lemma blind_function : forall a, blind (print_function P a false).
Proof. intros a. unfold print_function. cbn [when]. bl. Qed.
Hint Resolve blind_function : blind.
Lemma blind_text : forall a l, blind (print_text a l).
Proof. intros a l. unfold print_text, text_line. bl. Qed.
Lemma blind_code : forall a b, blind (print_code a b).
Proof. intros a b. unfold print_code, code_line. bl. Qed.
Hint Resolve blind_text blind_code : blind.
Lemma blind_pretty_text : forall a, blind (pretty_text P a).
Proof. intros a. unfold pretty_text. bl. Qed.
Lemma blind_pretty_code : forall a, blind (pretty_code P a).
Proof. intros a. unfold pretty_code. bl. Qed.
Hint Resolve blind_pretty_text blind_pretty_code : blind.
Lemma blind_place : forall f, (forall a, blind (f a)) -> blind (show_place P f).
Proof. intros f H. unfold show_place. bl. Qed.
Lemma blind_chars : forall l, blind (print_chars l).
Proof.
  intros l. induction l as [|x [|y l] IH]; [apply blind_ret|cbn [print_chars]; bl|]. change (blind (say [as_char x];; print_chars (y :: l))). apply blind_then; [apply blind_say|intros; exact IH].
Qed.
Hint Resolve blind_chars : blind.
Lemma blind_report : forall e, blind (report_event e).
Proof. intros e. unfold report_event. bl. Qed.
Hint Resolve blind_report : blind.
Lemma blind_move : forall e m, blind m -> blind (after_move e m).
Proof. intros e m H. unfold after_move. bl. Qed.
Lemma blind_moving : forall t u m, blind m -> blind (moving t u m).
Proof. intros t u m H. unfold moving, running. bl. Qed.

(** The commands of a session *)
Lemma blind_handler : forall n h t, In (n, h) (commands P) -> ~ In n ["assemble"; "frame"; "expression"; "print"]%string -> blind (h t).
Proof.
  intros n h t H N. cbn [commands In] in H.
  destruct H as [H|[H|[H|[H|[H|[H|[H|[H|[H|[H|[H|[H|[H|[H|[H|[H|H]]]]]]]]]]]]]]]]; try contradiction; injection H as <- <-; try (exfalso; apply N; cbn; tauto).
  - unfold handle_breakpoint, by_location, by_address, list_breakpoint. bl.
  - apply blind_moving. unfold native_step. bl. apply blind_move. bl.
  - apply blind_moving. unfold native_step. bl. apply blind_move. bl.
  - unfold handle_disassemble. bl.
  - unfold handle_continue, running, report_break. bl. apply blind_place. intros; bl.
  - unfold handle_register. bl.
  - unfold handle_memory. bl.
  - unfold handle_watchpoint. bl.
  - apply blind_moving. unfold source_step. bl. apply blind_move, blind_place. intros; bl.
  - apply blind_moving. unfold source_step. bl. apply blind_move, blind_place. intros; bl.
  - apply blind_moving. bl. apply blind_move, blind_place. intros; bl.
  - unfold handle_source. bl.
Qed.
Lemma blind_run : forall t, blind (exit_process P;; handle_run P t).
Proof. intros t. unfold exit_process, handle_run. bl. Qed.

Lemma blind_reads : forall l ws o s i, typed l ws -> reads ws o -> cl_active s = true -> command_line P l (cset_in s i) = with_in i (command_line P l s).
Proof.
  intros l ws o s i Ht Hr A. destruct (typed_squash _ _ Ht) as [Es Hws]. unfold command_line. rewrite Es.
  assert (G : handle_command P (join ws [SPACE]) (cset_in s i) = with_in i (handle_command P (join ws [SPACE]) s)).
  { assert (D : forall w more n, ws = w :: more -> stands_for command_names w n -> In n (map fst (commands P)) -> ~ In n ["assemble"; "frame"; "expression"; "print"]%string ->
      handle_command P (join ws [SPACE]) (cset_in s i) = with_in i (handle_command P (join ws [SPACE]) s)).
    { intros w more n -> Hn In1 In2. pose proof (Forall_inv Hws) as Hw. destruct (dispatch P w more n Hw Hn In1) as (h & I & E). rewrite !E by exact A. now apply (blind_handler n h). }
    destruct Hr; try (eapply D; [reflexivity|eassumption|cbn; tauto|cbn; intuition discriminate]).
    - assert (In1 : In n ["disassemble"; "source"]%string \/ n = "help"%string) by (cbn in *; intuition).
      destruct In1 as [In1|E1]; [eapply D; [reflexivity|eassumption|cbn in *; intuition|cbn in *; intuition subst; discriminate]|].
      subst n. pose proof (Forall_inv Hws) as Hw. unfold handle_command. rewrite cut_words by exact Hw. destruct w as [|x w]; [now elim (word_nil _ Hw)|].
      match goal with H : stands_for _ _ _ |- _ => apply stands_skip in H; [|discriminate]; destruct H as [R1 H]; apply stands_skip in H; [|discriminate]; destruct H as [R2 H]; pose proof (stands_prefix _ _ _ H) as R3 end.
      rewrite R1, R2, R3. unfold handle_help. assert (B : blind (match join more [SPACE] with [] => usage_of UMain | _ :: _ => match find (fun x => is_prefix_of (join more [SPACE]) (str (fst x))) help_topics with Some (_, u) => usage_of u | None => usage_of UMain end end)) by bl. apply B.
    - pose proof (Forall_inv Hws) as Hw. match goal with H : forall n, In n command_names -> _ |- _ => rename H into H1 end. unfold handle_command. rewrite cut_words by exact Hw.
      rewrite (not_prefix w "run"), (not_prefix w "attach"), (not_prefix w "help") by (apply H1; cbn; auto 5). destruct w as [|x w]; [now destruct Hw|].
      unfold with_process, then_, here. cbn [cset_in cl_active]. rewrite A.
      assert (F : find (fun y : string * (text -> act cli unit) => is_prefix_of (x :: w) (str (fst y))) (commands P) = None).
      { apply find_none_all. intros [n h] I. cbn [fst]. apply not_prefix. apply H1. right. right. right. apply (in_map fst) in I. exact I. }
      rewrite F. reflexivity. }
  destruct (join ws [SPACE]) as [|x y]; [reflexivity|]. unfold catching. rewrite G. destruct (handle_command P (x :: y) s); reflexivity.
Qed.

(** ---- the loop over the lines ---- *)

Lemma in_in : forall s i j, cset_in (cset_in s i) j = cset_in s j.
Proof. reflexivity. Qed.
Lemma loop_went : forall ls s os s1, went P ls s os s1 -> (forall k s', went P (firstn k ls) s (firstn k os) s' -> cl_active s' = true) ->
  forall rest n, run_loop P (length ls + n) (cset_in s (ls ++ rest)) = run_loop P n (cset_in s1 rest).
Proof.
  intros ls s os s1 H. induction H as [s|l ls ws o os s s1 s2 H1 H2 H3 H4 Hst H5 H6 IH]; intros K rest n; [reflexivity|].
  pose proof (K 0%nat s (wn_nil P s)) as A.
  assert (I1 : run_loop P (length ls + n) (cset_in s1 (ls ++ rest)) = run_loop P n (cset_in s2 rest)).
  { apply IH. intros k s' G. apply (K (Datatypes.S k)). cbn [firstn]. eapply wn_cons; eassumption. }
  rewrite <- I1. clear IH I1. cbn [length app Nat.add run_loop]. unfold then_ at 1, here. cbn [cset_in cl_in]. unfold then_ at 1, change. rewrite in_in.
  change (mkCli (cl_setup s) (cl_native s) (cl_active s) (cl_source s) (cl_values s) (cl_running s) (ls ++ rest) (cl_out s)) with (cset_in s (ls ++ rest)).
  unfold then_ at 1. rewrite (blind_reads _ _ _ _ _ H1 H2 A), H3. reflexivity.
Qed.
End P.

(** The VM that is told to end has ended when the debugger goes on. *)
Lemma ended_at_last : forall U fuel r c N, u_local U = true -> n_link N = stopped r c -> c_rs c = [] -> c_decode c = None -> (c_halted c = true <-> r = RHalted) -> (c_halted c = false -> c_single c = false) ->
  exists ok c' told, (nterminate U;; (if u_local U then proc (vm_end (Datatypes.S fuel) (u_env U)) else ret tt)) N = Done tt (set_link N (mkLink (Some (Ended ok c')) told)).
Proof.
  intros U fuel r c N HL HN H1 H2 H3 H4. unfold nterminate, proc, then_. rewrite HN, HL.
  assert (T : terminate U (stopped r c) = Done tt (mkLink (Some (leave r true c)) false)) by reflexivity.
  rewrite T. destruct r; cbn [leave vm_end k_host n_link set_link]; try (do 3 eexists; reflexivity).
  assert (Hh : c_halted c = false) by (destruct (c_halted c); [exfalso; assert (RBegin = RHalted) by (now apply H3); discriminate|reflexivity]).
  destruct (rest_tick (u_env U) c H1 H2 Hh (H4 Hh)) as (c' & T1 & T2 & T3). unfold os_tick. rewrite T1, T2, T3. cbn. destruct fuel; do 3 eexists; reflexivity.
Qed.

Lemma Forall_firstn : forall A (Q : A -> Prop) l k, Forall Q l -> Forall Q (firstn k l).
Proof. intros A Q l k H. revert k. induction H; intros [|k]; cbn; constructor; auto. Qed.

(** ---- C93 ---- *)

(** C93. The debugger is started with a program, is told to run it and then reads lines: it
    comes to the end of its input, has done what the lines ask for and printed nothing else,
    and the machine it started has ended. *)
Theorem C93_run : forall P U l regs fregs size p data src c0 ls os s1 s2, run_line l regs fregs size -> executable P U p data src -> mapped src ->
  debuggee (sized U regs fregs size true) (machine U regs fregs size) p data (fr_input P) c0 -> (0 < fr_fuel P)%nat ->
  command_line P l (new_cli U []) = Done tt s1 -> went P ls s1 os s2 -> Forall (order_usable (sized U regs fregs size true) p src) os ->
  Forall order_no_over os \/ Forall order_no_watch os ->
  exists s3 v ended t, run_cli P (new_cli U (l :: ls)) = Done tt s3 /\
    orders_spec (e_fops (u_env U)) p src os (mkView no_marks [] (isa_boot (Z.to_nat size) data (fr_input P)) false, false) (news t) (v, ended) /\
    cl_out s3 = Say Plain (started_text P) :: t /\ exists ok c, k_host (n_link (cl_native s3)) = Some (Ended ok c).
Proof.
  intros P U l regs fregs size p data src c0 ls os s1 s2 HR HE SM HD HF H1 H2 H3 H4. set (U' := sized U regs fregs size true) in *.
  destruct (C86_run P l regs fregs size p data src c0 (new_cli U []) eq_refl eq_refl eq_refl HR HE (st_boot _ _ _ _ _ _ (de_started _ _ _ _ _ _ HD))) as (s1' & Q1 & Q2 & Q3).
  assert (s1' = s1) as -> by congruence. clear Q1. change (at_begin U' src c0 s1) in Q2. pose proof HD as [PL [Hip Hty Hb] Hl Hbk R1 R2]. destruct Q2 as [B1 B2 B3 B4 B5].
  assert (SS : forall ls os s, went P ls s1 os s -> Forall (order_usable U' p src) os -> Forall order_no_over os \/ Forall order_no_watch os ->
    exists v ended t, orders_spec (e_fops (u_env U)) p src os (mkView no_marks [] (isa_boot (Z.to_nat size) data (fr_input P)) false, false) (news t) (v, ended) /\ session p src U' v ended s /\ cl_out s = cl_out s1 ++ t).
  { intros ls0 os0 s W X1 X2. apply (lines_ok P p src U' PL (ty_fops _ _ _ _ _ Hty) (ty_prog _ _ _ _ _ Hty) Hip Hl Hbk SM ls0 s1 os0 s W); auto.
    - constructor; auto. rewrite B2. exists RBegin, c0. now apply (at_start U' (machine U regs fregs size) p data (fr_input P)).
    - destruct X2 as [X2|X2]; [now left|right; now split]. }
  destruct (SS ls os s2 H2 H3 H4) as (v & ended & t & A1 & [S1 S2 S3 S4 (r & c & S5)] & A3).
  pose proof (vw_rested _ _ _ _ _ _ S5) as [X1 X2 [X3 X3' X4] X5 X6 X7 X8 X9 X12 X13 X14].
  destruct (fr_fuel P) as [|fuel] eqn:Ef; [lia|].
  destruct (ended_at_last U' fuel r c (cl_native s2) eq_refl X1) as (ok & c' & told & Q); auto; try apply X4; [apply (proj1 (proj2 (proj2 X3)))|].
  exists (cset_in (cset_native s2 (set_link (cl_native s2) (mkLink (Some (Ended ok c')) told))) []), v, ended, t.
  split; [|split; [exact A1|split; [cbn [cset_in cset_native cl_out]; rewrite A3, Q3; reflexivity|exists ok, c'; reflexivity]]].
  unfold run_cli, then_ at 1, here. cbn [new_cli cl_in length run_loop]. unfold then_ at 1, here. cbn [cl_in].
  unfold then_, change. cbn [new_cli cl_in].
  assert (C : command_line P l (cset_in (new_cli U []) ls) = Done tt (cset_in s1 ls)).
  { destruct HR as [w opts Ht Hr W1 W2 W3]. destruct (run_dispatch P l w opts (cset_in (new_cli U []) ls) Ht Hr) as [_ ->]. destruct (run_dispatch P l w opts (new_cli U []) Ht Hr) as [_ E]. rewrite E in H1.
    rewrite (blind_catching _ _ _ (blind_run P _) (blind_put Err) (new_cli U []) ls), H1. reflexivity. }
  change (cset_in (new_cli U (l :: ls)) ls) with (cset_in (new_cli U []) ls). rewrite C. rewrite <- (Nat.add_0_r (length ls)). rewrite <- (app_nil_r ls) at 2.
  rewrite (loop_went P ls s1 os s2 H2) by (intros k s' W; destruct (SS _ _ _ W) as (? & ? & ? & _ & Y & _); [now apply Forall_firstn|destruct H4; [left|right]; now apply Forall_firstn|apply Y]).
  cbn [run_loop]. unfold then_ at 1, here. cbn [cset_in cl_in]. unfold catching, exit_process, then_ at 1, here. cbn [cset_in cl_active]. rewrite S2, Ef.
  unfold then_, lib in *. cbn [cset_in cl_setup cl_native]. rewrite S1. change (u_local U') with true in *. destruct (nterminate U' (cl_native s2)) as [[] N1|N1| |]; try discriminate. cbn [cset_native cset_in cl_setup cl_native]. rewrite S1. change (u_local U') with true.
  cbv iota in *. destruct (proc _ N1) as [[] N2|N2| |]; try discriminate. injection Q as ->. reflexivity.
Qed.

(** Six lines from the start of the debugger: the program is started, runs into a breakpoint,
    is looked at and runs to its end. *)
Definition lines93 : list (string * order) := [("b iset 4", ODo (DCall (KBp (OpSet 4)))); ("c", ODo (DCall KContinue)); ("disas", OLook); ("is", ODo (DCall KStep)); ("c", ODo (DCall KContinue))]%string.
Definition input93 : list text := line86 :: map (fun x => str (fst x)) lines93.
Notation after93 := (match command_line front86 line86 (new_cli U84 []) with Done _ s1 => go front86 (map (fun x => str (fst x)) lines93) (map snd lines93) s1 | _ => None end).
Example C93_case : exists s1 s2, run_line line86 4 1 16 /\ executable front86 U84 prog81 [7; 8] source81 /\ mapped source81 /\
  debuggee (sized U84 4 1 16 true) (machine U84 4 1 16) prog81 [7; 8] (fr_input front86) (booted cfg1 prog81 [7; 8] [65; 10]) /\ (0 < fr_fuel front86)%nat /\
  command_line front86 line86 (new_cli U84 []) = Done tt s1 /\ went front86 (map (fun x => str (fst x)) lines93) s1 (map snd lines93) s2 /\
  Forall (order_usable (sized U84 4 1 16 true) prog81 source81) (map snd lines93) /\ Forall order_no_watch (map snd lines93) /\
  match run_cli front86 (new_cli U84 input93) with Done _ s3 => news (cl_out s3) = [Say DarkRed (str "Software breakpoint hit at line 3"); Say DarkRed (str "The program finished execution")] | _ => False end.
Proof.
  destruct (case81 (deeds_of (map snd lines93))) as (D1 & D2 & D3 & D4); [repeat constructor; cbn; lia|].
  assert (K : match after93 with Some _ => true | None => false end = true) by (vm_compute; reflexivity).
  destruct (command_line front86 line86 (new_cli U84 [])) as [[] s1| | |] eqn:E1; [|discriminate K|discriminate K|discriminate K].
  destruct (go front86 (map (fun x => str (fst x)) lines93) (map snd lines93) s1) as [s2|] eqn:E2; [|discriminate K]. exists s1, s2.
  split; [exact run_line86|]. split; [exact executable86|]. split; [exact mapped81|]. split; [exact debuggee86|]. split; [cbn; lia|]. split; [reflexivity|]. split.
  { refine (go_went front86 _ _ _ _ _ E2). clear E1 E2 K. unfold lines93. cbn [map fst snd].
    assert (T : forall ws o, forallb wordb ws = true -> reads ws o -> exists ws', typed (join ws [SPACE]) ws' /\ reads ws' o) by (intros ws o A B; exists ws; split; [now apply typed_words, words_ok|exact B]).
    constructor; [apply (T [str "b"; str "iset"; str "4"]); [reflexivity|]|].
    { eapply (rd_at (str "b") (str "iset") 4 [] "iset"); [apply stands_dec; [reflexivity|discriminate]|apply stands_dec; [reflexivity|discriminate]|now left|lia]. }
    constructor; [apply (T [str "c"]); [reflexivity|]; apply rd_continue, stands_dec; [reflexivity|discriminate]|].
    constructor; [apply (T [str "disas"]); [reflexivity|]; eapply (rd_show (str "disas") "disassemble"); [apply stands_dec; [reflexivity|discriminate]|cbn; auto]|].
    constructor; [apply (T [str "is"]); [reflexivity|]; apply rd_istep, stands_dec; [reflexivity|discriminate]|].
    constructor; [apply (T [str "c"]); [reflexivity|]; apply rd_continue, stands_dec; [reflexivity|discriminate]|constructor]. }
  split; [apply usable_of; exact D3|]. split; [now apply no_watch_of|]. vm_compute. reflexivity.
Qed.

Print Assumptions C93_run.
