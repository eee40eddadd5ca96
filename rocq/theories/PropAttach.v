(** C98, C99: attaching to a VM from the command line. *)
From Coq Require Import Ascii String ZArith NArith List Bool Lia.
From Verif Require Import Base Text PropText PropNet StdMap Isa Alu AluSpec State IsaSpec IsaSame Lexer Asm Show AsmPrint AsmSpec PropAsm Exec Ram Writes Rat Cpu Os DbgText Spaces
  InOrder PipeInv PipeBasics PipeActs PipeMem PipeTick PipeDom PipeRun PipeBoot PipePoke Session IsaRefine DbgSpec Stops PropPipe PropDbg Client Proto PropProto Native PropBreak PropWatch
  LibSpec NatRun NatStop PropStep PropOver Src PropLines PropLineStep Expr Eval Info EvalFacts Cli CliFacts Orderly PropCli PropRun PropStore PropShow.
Import ListNotations.
Open Scope Z_scope.

(** ---- specification ---- *)

(** The line is `attach`, or an abbreviation, and a port. *)
Inductive attach_line (l : text) (port : Z) : Prop :=
| at_line : forall w more, typed l (w :: show_Z port :: more) -> stands_for command_names w "attach" -> 0 <= port < 2 ^ 31 -> attach_line l port.
(** A VM that has just been started with a program waits for a debugger at the port. *)
Definition waiting (P : front) (port : Z) (c0 : cpu) : Prop := fr_remote P port = Some (mkLink (Some (os_start true c0)) false).
(** The debugging information: that of the file, if the debugger was given one. *)
Definition information (P : front) (s : cli) (src : source) : Prop :=
  match fr_name P with None => src = cl_source s | Some _ => exists t, fr_file P = Some t /\ read_info (cl_setup s) t = Some src end.
(** What the debugger takes the machine to be (T86Process.h:18-19). *)
Definition attached (U : setup) : setup := sized U 10 4 1024 false.

(** ---- proofs ---- *)

(** Whatever was debugged is ended. *)
Lemma exit_ok : forall P p src U v ended s, session p src U v ended s -> (0 < fr_fuel P)%nat -> exists h, exit_process P s = Done tt (cset_native s (set_link (cl_native s) h)).
Proof.
  intros P p src U v ended s [S1 S2 S3 S4 (r & c & S5)] HF. pose proof (vw_rested _ _ _ _ _ _ S5) as [X1 X2 [X3 X3' X4] X5 X6 X7 X8 [X9 X10 X11] X12 X13 X14].
  unfold exit_process, here, then_ at 1. rewrite S2. destruct (fr_fuel P) as [|fuel] eqn:Ef; [lia|].
  destruct (ended_ok U fuel r c (cl_native s) X1) as (h & Q); auto; try apply X4.
  - apply (proj1 (proj2 (proj2 X3))).
  - exists h. unfold lib, then_ in *. rewrite S1. destruct (nterminate U (cl_native s)) as [[] N1|N1| |]; try discriminate. unfold cset_native in *. cbn [cl_setup cl_native] in *. rewrite S1.
    destruct (_ N1) as [[] N2|N2| |]; try discriminate. injection Q as ->. reflexivity.
Qed.

Lemma attach_ok : forall P s0 s port more src c0, Forall PropText.word (show_Z port :: more) -> 0 <= port < 2 ^ 31 -> waiting P port c0 -> information P s src -> cl_setup s0 = cl_setup s -> cl_source s0 = cl_source s ->
  cl_out s0 = cl_out s -> exists s1, handle_attach P (join (show_Z port :: more) [SPACE]) s0 = Done tt s1 /\ at_begin (attached (cl_setup s)) src c0 s1 /\ cl_out s1 = cl_out s /\ cl_in s1 = cl_in s0.
Proof.
  intros P s0 s port more src c0 Hm Hp Hw Hi E1 E2 E3. unfold handle_attach, attach_to. rewrite words_split by exact Hm.
  unfold then_ at 1. unfold svtoint. rewrite svtoi64_show by (unfold fits; lia). destruct (Z.leb_spec (- 2 ^ 31) port), (Z.ltb_spec port (2 ^ 31)); try lia. cbn [andb]. rewrite Hw.
  unfold information in Hi. unfold then_ at 1, change. destruct (fr_name P) as [n|].
  - destruct Hi as (t & F1 & F2). rewrite F1. unfold then_, here, change, lib. cbn [cl_setup]. rewrite E1. change (read_info (sized (cl_setup s) 10 4 1024 false) t) with (read_info (cl_setup s) t). rewrite F2.
    cbn [cl_setup cl_native cl_active cl_source cl_values cl_running cl_in cl_out cset_running]. fold (fresh c0). rewrite wait_start. unfold ret. eexists. split; [reflexivity|].
    split; [constructor; reflexivity|]. split; [exact E3|reflexivity].
  - unfold ret, then_, here, change, lib. cbn [cl_setup cl_native cl_active cl_source cl_values cl_running cl_in cl_out cset_running]. fold (fresh c0). rewrite wait_start. rewrite E1. eexists. split; [reflexivity|].
    split; [constructor; try reflexivity; cbn; congruence|]. split; [exact E3|reflexivity].
Qed.

Lemma attach_dispatch : forall P l w more s, typed l (w :: more) -> stands_for command_names w "attach" ->
  Forall PropText.word more /\ command_line P l s = catching (exit_process P;; handle_attach P (join more [SPACE])) (put Err) s.
Proof.
  intros P l w more s Ht H1. destruct (typed_squash _ _ Ht) as [Es Hws]. inversion Hws as [|? ? Hw Hm]; subst. split; [exact Hm|]. unfold command_line. rewrite Es.
  pose proof (cut_words w more Hw) as C. destruct (join (w :: more) [SPACE]) as [|x y] eqn:J.
  { exfalso. pose proof (word_nil _ Hw) as X. destruct w; [contradiction|]. destruct more; discriminate J. }
  unfold catching, handle_command. rewrite C. destruct w as [|q w]; [now elim (word_nil _ Hw)|]. apply stands_skip in H1; [|discriminate]. destruct H1 as [R H1]. rewrite R. now rewrite (stands_prefix _ _ _ H1).
Qed.

(** C98. Attaching, in a new debugger or after any session: whatever was debugged is left,
    the debugger is in front of the first instruction of the program the VM has, no
    breakpoints are set and nothing is printed. *)
Theorem C98_attach : forall P l port src c0 s, attach_line l port -> waiting P port c0 -> information P s src ->
  cl_active s = false \/ (0 < fr_fuel P)%nat /\ (exists p src0 U v ended, session p src0 U v ended s) ->
  exists s1, command_line P l s = Done tt s1 /\ at_begin (attached (cl_setup s)) src c0 s1 /\ cl_out s1 = cl_out s /\ cl_in s1 = cl_in s.
Proof.
  intros P l port src c0 s [w more Ht Hw Hp] Hwt Hi Ha. destruct (attach_dispatch P l w _ s Ht Hw) as [Hm ->].
  assert (X : exists s0, exit_process P s = Done tt s0 /\ cl_setup s0 = cl_setup s /\ cl_source s0 = cl_source s /\ cl_out s0 = cl_out s /\ cl_in s0 = cl_in s).
  { destruct Ha as [A|(HF & p & src0 & U & v & e & HS)].
    - exists s. split; [|auto]. unfold exit_process, then_, here. now rewrite A.
    - destruct (exit_ok P p src0 U v e s HS HF) as (h & E). eexists. split; [exact E|]. repeat split. }
  destruct X as (s0 & E & X1 & X2 & X3 & X4). unfold catching. unfold then_ at 1. rewrite E. destruct (attach_ok P s0 s port more src c0 Hm Hp Hwt Hi X1 X2 X3) as (s1 & Q1 & Q2 & Q3 & Q4).
  rewrite Q1. exists s1. split; [reflexivity|]. split; [exact Q2|]. split; [exact Q3|congruence].
Qed.

(** ... and the lines that follow do what they ask for (C84), with at most ten registers in
    the VM (C99), and as long as the VM does not end. *)
Theorem C98_session : forall P l port g p data input src c0 s ls os s1 s2, attach_line l port -> waiting P port c0 -> information P s src ->
  cl_active s = false \/ (0 < fr_fuel P)%nat /\ (exists p src0 U v ended, session p src0 U v ended s) ->
  mapped src -> debuggee (attached (cl_setup s)) g p data input c0 ->
  command_line P l s = Done tt s1 -> went P ls s1 os s2 -> Forall (order_usable (attached (cl_setup s)) p src) os -> Forall order_no_over os \/ Forall order_no_watch os ->
  exists v ended t, orders_spec (e_fops (u_env (cl_setup s))) p src os (mkView no_marks [] (isa_boot (g_ram g) data input) false, false) (news t) (v, ended) /\
    cl_out s2 = cl_out s ++ t /\ holds_view (v_marks v) (v_state v) (cl_native s2) /\
    (forall a, In a (map fst (n_wps (cl_native s2))) <-> In a (v_watch v)).
Proof.
  intros P l port g p data input src c0 s ls os s1 s2 H1 H2 H3 H4 SM HD HC HW Hu Hn.
  destruct (C98_attach P l port src c0 s H1 H2 H3 H4) as (s1' & Q1 & Q2 & Q3 & _). assert (s1' = s1) as -> by congruence.
  destruct (C84_session P _ g p data input c0 src ls s1 os s2 HD SM Q2 HW Hu Hn) as (v & ended & t & V1 & V2 & V3 & V4). exists v, ended, t. split; [exact V1|]. rewrite V2, Q3. now split.
Qed.

(** ---- C99 ---- *)

Section More.
Variable U : setup.
Lemma set_unknown : forall regs name x s u s', In (name, x) regs -> valid_reg U name = false -> set_registers U regs s <> Done u s'.
Proof.
  unfold set_registers, set_with. induction regs as [|[n y] regs IH]; intros name x s u s' I V H; [elim I|]. cbn [each fst snd] in H. unfold then_ in H. destruct I as [I|I].
  - injection I as -> ->. rewrite V in H. discriminate H.
  - match type of H with match ?e with _ => _ end = _ => destruct e as [[] s1| | |]; try discriminate H end. exact (IH name x s1 u s' I V H).
Qed.
Lemma unknown_name : forall n, u_regs U <= Z.of_N n < 2 ^ 63 -> valid_reg U (show_reg (R n)) = false.
Proof.
  intros n H. unfold valid_reg. cbn [show_reg]. change (str "R" ++ show_nat (Z.of_N n)) with (ch 82 :: show_nat (Z.of_N n)). cbn [indexed teqb str list_ascii_of_string].
  assert (E : svtou64 (show_nat (Z.of_N n)) = Some (Z.of_N n)) by (rewrite <- show_nat_Z by lia; apply svtou64_show; lia). rewrite E.
  destruct (Z.ltb_spec (Z.of_N n) (u_regs U)); [lia|]. change (Ascii.eqb (ch 82) "I") with false. change (Ascii.eqb (ch 82) "B") with false.
  change (Ascii.eqb (ch 82) "S") with false. change (Ascii.eqb (ch 82) "F") with false. cbn [andb orb]. now rewrite andb_false_r.
Qed.
Lemma fetched_more : forall r c m l, readable c -> u_regs U < Z.of_nat (g_reg (c_cfg c)) < 2 ^ 63 -> 0 <= u_regs U -> fetch_registers U (stopped r c) = Done m l ->
  exists v, In (show_reg (R (Z.to_N (u_regs U))), v) m.
Proof.
  intros r c m l Rd H H0 E. destruct (C33_fetch_registers U r c Rd) as (m1 & E1 & F1 & F2). assert (m1 = m) as -> by congruence.
  set (k := Z.to_N (u_regs U)). assert (I : In (LR (R k)) (reg_list (c_cfg c))).
  { unfold reg_list. apply in_or_app. right. apply in_map_iff. exists (N.to_nat k). split; [now rewrite N2Nat.id|]. apply in_seq. lia. }
  specialize (F1 _ I). change (lreg_name (LR (R k))) with (show_reg (R k)) in F1.
  destruct (rd_reg c Rd (LR (R k))) as (v & V & _); [cbn; apply N.ltb_lt; lia|]. exists v. rewrite V in F1. exact (mget_in _ teqb_eq _ _ _ F1).
Qed.
Lemma more_kept : forall r c m l name x, readable c -> u_regs U < Z.of_nat (g_reg (c_cfg c)) < 2 ^ 63 -> 0 <= u_regs U -> fetch_registers U (stopped r c) = Done m l ->
  forall s u s', set_registers U (tput m name x) s <> Done u s'.
Proof.
  intros r c m l name x Rd H H0 E s u s' Q. destruct (fetched_more r c m l Rd H H0 E) as (v & I). set (k := show_reg (R (Z.to_N (u_regs U)))) in *.
  assert (K : In k (map fst (tput m name x))) by (apply (mput_keys _ _ teqb_eq); right; change k with (fst (k, v)); now apply in_map).
  apply in_map_iff in K. destruct K as ([k' y] & Ek & K). cbn [fst] in Ek. subst k'. exact (set_unknown _ _ y s u s' K (unknown_name (Z.to_N (u_regs U)) ltac:(lia)) Q).
Qed.
End More.

(** C99, refuted: in a VM with more registers than the debugger counts, which for an
    attached one are ten, no register can be written ... *)
Theorem C99_register_refuted : forall U r c N, readable c -> 0 <= u_regs U < Z.of_nat (g_reg (c_cfg c)) -> Z.of_nat (g_reg (c_cfg c)) < 2 ^ 63 -> n_link N = stopped r c ->
  forall name v u N', set_register U name v N <> Done u N'.
Proof.
  intros U r c N Rd [H0 H] H63 L name v u N' Q. unfold set_register, then_, proc in Q. rewrite L in Q. destruct (fetch_registers U (stopped r c)) as [m l| | |] eqn:E; try discriminate Q.
  destruct (tget m name); [|discriminate Q]. destruct (set_registers U (tput m name v) (n_link (set_link N l))) as [[] l'| | |] eqn:E2; try discriminate Q.
  exact (more_kept U r c m l name v Rd (conj H H63) H0 E _ _ _ E2).
Qed.

(** ... and a breakpoint that is hit is never reported: waiting for the VM that has stopped
    at one fails. *)
Theorem C99_breakpoint_refuted : forall U fuel c N, readable c -> 0 <= u_regs U < Z.of_nat (g_reg (c_cfg c)) -> Z.of_nat (g_reg (c_cfg c)) < 2 ^ 63 ->
  n_link N = mkLink (Some (At RSwBkpt c)) false -> n_cache N = None -> forall e N', wait_event U fuel N <> Done e N'.
Proof.
  intros U fuel c N Rd [H0 H] H63 L C e N' Q. unfold wait_event in Q. unfold then_ at 1, get in Q. rewrite C in Q.
  assert (W : proc (wait U fuel) N = Done tt (set_link N (stopped RSwBkpt c))) by (unfold proc; rewrite L; destruct fuel; reflexivity).
  unfold then_ at 1 2 in Q. rewrite W in Q. unfold then_ at 1 in Q. unfold proc at 1 in Q. cbn [set_link n_link] in Q. rewrite C33_reason in Q. cbn [event_of] in Q.
  unfold get_ip, get_register, then_, proc in Q. cbn [set_link n_link] in Q. destruct (fetch_registers U (stopped RSwBkpt c)) as [m l| | |] eqn:E; try discriminate Q.
  destruct (C33_fetch_registers U RSwBkpt c Rd) as (m1 & E1 & _). assert (m1 = m /\ l = stopped RSwBkpt c) as [-> ->] by (split; congruence).
  destruct (tget m (str "IP")) as [ip|] eqn:T; cbn [opt_or ret fail] in Q; [|discriminate Q]. unfold ret in Q. unfold step_back, then_, proc in Q. cbn [set_link n_link] in Q. rewrite E, T in Q.
  cbn [set_link n_link] in Q. destruct (ip =? - 2 ^ 63); [discriminate Q|].
  match type of Q with context [set_registers U ?m ?s] => destruct (set_registers U m s) as [[] l'| | |] eqn:E2; try discriminate Q end.
  exact (more_kept U RSwBkpt c m _ _ _ Rd (conj H H63) H0 E _ _ _ E2).
Qed.

(** ---- cases ---- *)

(** A VM with four registers waits at a port. The debugger, which has the file of the
    program, attaches to it; a breakpoint is set and hit. Attaching once more begins again. *)
Definition front98 : front := mkFront ops84 (fun _ => str "0") (fun _ => Some 0) (Some (str "prog")) (Some file86)
  (fun port => if port =? 9110 then Some (mkLink (Some (os_start true (booted cfg1 prog81 [7; 8] [65; 10]))) false) else None) [] 100.
Definition line98 : text := str "att 9110".
Definition begun98 : cli := mkCli (attached U84) (connected (booted cfg1 prog81 [7; 8] [65; 10])) true source81 [] true [] [].
Notation end98 := (go front98 (map (fun x => str (fst x)) lines91) (map snd lines91) begun98).
Lemma attach98 : attach_line line98 9110.
Proof.
  apply (at_line line98 9110 (str "att") []); [|apply stands_dec; [reflexivity|discriminate]|lia]. apply (typed_words [str "att"; str "9110"]). apply words_ok. reflexivity.
Qed.
Lemma information98 : forall s, cl_setup s = U84 \/ cl_setup s = attached U84 -> information front98 s source81.
Proof. intros s H. exists file86. split; [reflexivity|]. destruct H as [-> | ->]; vm_compute; reflexivity. Qed.
Example C98_case : attach_line line98 9110 /\ waiting front98 9110 (booted cfg1 prog81 [7; 8] [65; 10]) /\ information front98 (new_cli U84 []) source81 /\ cl_active (new_cli U84 []) = false /\
  mapped source81 /\ debuggee (attached U84) cfg1 prog81 [7; 8] [65; 10] (booted cfg1 prog81 [7; 8] [65; 10]) /\ command_line front98 line98 (new_cli U84 []) = Done tt begun98 /\
  exists s2, went front98 (map (fun x => str (fst x)) lines91) begun98 (map snd lines91) s2 /\ Forall (order_usable (attached U84) prog81 source81) (map snd lines91) /\ Forall order_no_watch (map snd lines91) /\
    cl_out s2 <> [] /\ still_there s2 /\ (exists v ended, session prog81 source81 (attached U84) v ended s2) /\ information front98 s2 source81 /\
    exists s3, command_line front98 line98 s2 = Done tt s3 /\ at_begin (attached (attached U84)) source81 (booted cfg1 prog81 [7; 8] [65; 10]) s3.
Proof.
  destruct (case81 (deeds_of (map snd lines91))) as (D1 & D2 & D3 & D4); [repeat constructor; cbn; lia|].
  assert (D : debuggee (attached U84) cfg1 prog81 [7; 8] [65; 10] (booted cfg1 prog81 [7; 8] [65; 10])) by (destruct D1; constructor; try assumption; cbn; lia).
  assert (B : at_begin (attached U84) source81 (booted cfg1 prog81 [7; 8] [65; 10]) begun98) by (constructor; reflexivity).
  assert (Us : Forall (order_usable (attached U84) prog81 source81) (map snd lines91)) by (apply usable_of; eapply Forall_impl; [|exact D3]; intros [[]| | |] X; exact X).
  split; [exact attach98|]. split; [reflexivity|]. split; [apply information98; now left|]. split; [reflexivity|]. split; [exact mapped81|]. split; [exact D|]. split; [vm_compute; reflexivity|].
  destruct end98 as [s2|] eqn:E.
  - exists s2. assert (W : went front98 (map (fun x => str (fst x)) lines91) begun98 (map snd lines91) s2).
    { refine (go_went front98 _ _ _ _ _ E). clear E. unfold lines91. cbn [map fst snd]. constructor; [|constructor; [|constructor]].
      - exists [str "b"; str "iset"; str "4"]. split; [apply (typed_words [str "b"; str "iset"; str "4"]); now apply words_ok|].
        eapply (rd_at (str "b") (str "iset") 4 [] "iset"); [apply stands_dec; [reflexivity|discriminate]|apply stands_dec; [reflexivity|discriminate]|now left|lia].
      - exists [str "c"]. split; [apply (typed_words [str "c"]); now apply words_ok|]. apply rd_continue, stands_dec; [reflexivity|discriminate]. }
    assert (K : option_map (fun s => (length (cl_out s), thereb s)) end98 = Some (4%nat, true)) by (vm_compute; reflexivity).
    assert (K2 : option_map cl_setup end98 = Some (attached U84)) by (vm_compute; reflexivity).
    rewrite E in K, K2. cbn [option_map] in K, K2. assert (K1 : length (cl_out s2) = 4%nat /\ thereb s2 = true) by (split; congruence). assert (K3 : cl_setup s2 = attached U84) by congruence. clear K K2.
    pose proof D as [PL [Hip Hty Hb] Hl Hbk R1 R2].
    split; [exact W|]. split; [exact Us|]. split; [apply no_watch_of; exact D4|]. split; [destruct K1 as [K1 _]; intros X; rewrite X in K1; discriminate|]. split.
    { destruct K1 as [_ K1]. unfold thereb in K1. apply orb_true_iff in K1. destruct K1 as [K1|K1]; [now left|right]. destruct (k_host _); [discriminate|discriminate K1]. }
    assert (Ss : exists v ended, session prog81 source81 (attached U84) v ended s2).
    { destruct B as [B1 B2 B3 B4 B5]. destruct (lines_ok front98 prog81 source81 (attached U84) PL (ty_fops _ _ _ _ _ Hty) (ty_prog _ _ _ _ _ Hty) Hip Hl Hbk mapped81 _ _ _ _ W
        (mkView no_marks [] (isa_boot (g_ram cfg1) [7; 8] [65; 10]) false) false) as (v & e & t & _ & A & _); auto.
      - constructor; auto. rewrite B2. exists RBegin, (booted cfg1 prog81 [7; 8] [65; 10]). now apply at_start.
      - right. split; [reflexivity|]. now apply no_watch_of.
      - now exists v, e. }
    split; [exact Ss|]. assert (I2 : information front98 s2 source81) by (apply information98; now right). split; [exact I2|].
    destruct (C98_attach front98 line98 9110 source81 (booted cfg1 prog81 [7; 8] [65; 10]) s2 attach98 eq_refl I2) as (s3 & Q1 & Q2 & _).
    { right. split; [cbn; lia|]. destruct Ss as (v & e & Ss). now exists prog81, source81, (attached U84), v, e. }
    exists s3. split; [exact Q1|]. rewrite K3 in Q2. exact Q2.
  - exfalso. assert (K : option_map (fun s => cl_running s) end98 = Some true) by (vm_compute; reflexivity). rewrite E in K. discriminate.
Qed.

(** The VM has stopped at a breakpoint; it has twelve registers. *)
Definition cfg99 : cfg := mkCfg 12 1 1 2 16 4.
Definition events99 : list event := [ECmd (CPokeText 2 IBkpt); ECmd CContinue] ++ ticks_of 10.
Definition cpu99 : cpu := host_cpu (after_pplay (pplay env0 cfg99 true events99 (os_start true (booted cfg99 prog0 [7; 8] [65; 10])))).
Lemma cpu99_stopped : psession env0 cfg99 true events99 (os_start true (booted cfg99 prog0 [7; 8] [65; 10])) (At RSwBkpt cpu99).
Proof.
  set (h := after_pplay (pplay env0 cfg99 true events99 (os_start true (booted cfg99 prog0 [7; 8] [65; 10])))).
  assert (Hh : pplay env0 cfg99 true events99 (os_start true (booted cfg99 prog0 [7; 8] [65; 10])) = Some h) by (vm_compute; reflexivity).
  replace (At RSwBkpt cpu99) with h by (vm_compute; reflexivity). now apply pplay_psession.
Qed.
Lemma started99 : started env0 cfg99 prog0 [7; 8] [65; 10] (booted cfg99 prog0 [7; 8] [65; 10]).
Proof. destruct started1 as [H1 [T1 T2 T3 T4 T5] H3]. constructor; [exact H1|constructor; assumption|vm_compute; reflexivity]. Qed.
Definition front99 : front := mkFront ops84 (fun _ => str "0") (fun _ => Some 0) None None (fun _ => Some (mkLink (Some (os_start true (booted cfg99 prog0 [7; 8] [65; 10]))) false)) [] 100.
Definition tell99 (ls : list string) : option (list bool) :=
  match fold_left (fun o l => match o with Done _ s => command_line front99 (str l) s | _ => Dead end) ls (Done tt (new_cli U84 [])) with
  | Done _ s => Some (map (fun x => match x with Err => true | _ => false end) (cl_out s)) | _ => None end.
Example C99_case : readable cpu99 /\ Z.of_nat (g_reg (c_cfg cpu99)) = 12 /\ u_regs (attached U84) = 10 /\
  tell99 ["attach 9110"; "register get R11"; "b iset 2"; "register set R1 5"; "c"]%string = Some [false; false; true; true].
Proof.
  assert (C : c_cfg cpu99 = cfg99) by (vm_compute; reflexivity). rewrite C. split; [|split; [reflexivity|split; [reflexivity|vm_compute; reflexivity]]].
  apply (C33_stopped_readable _ _ _ _ _ _ _ _ _ _ started99 cpu99_stopped); [discriminate|]. repeat constructor; cbn; unfold fits; try lia.
Qed.

Print Assumptions C98_attach.
Print Assumptions C98_session.
Print Assumptions C99_register_refuted.
Print Assumptions C99_breakpoint_refuted.
