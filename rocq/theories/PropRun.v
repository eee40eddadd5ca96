(** C86, C87: starting and restarting the program from the command line. *)
From Coq Require Import Ascii String ZArith NArith List Bool Lia.
From Verif Require Import Base Text PropText PropNet StdMap Isa Alu AluSpec State IsaSpec IsaSame Lexer Asm Show AsmPrint AsmSpec PropAsm Exec Ram Writes Rat Cpu Os DbgText Spaces
  InOrder PipeInv PipeBasics PipeActs PipeMem PipeTick PipeDom PipeRun PipeBoot PipePoke Session IsaRefine DbgSpec Stops PropPipe PropDbg Client Proto PropProto Native PropBreak PropWatch
  LibSpec NatRun NatStop PropStep PropOver Src PropLines PropLineStep Expr Eval Info EvalFacts Cli CliFacts Orderly PropCli.
Import ListNotations.
Open Scope Z_scope.

(** ---- specification ---- *)

(** The value of an option among the words of the line: the first word that begins with
    the option's name gives it, as a decimal number; otherwise it is the default. *)
Definition other_than (name : string) (w : text) : Prop := ~ exists t, w = str name ++ t.
Inductive wanted (name : string) (default : Z) : list text -> Z -> Prop :=
| wa_default : forall ws, Forall (other_than name) ws -> wanted name default ws default
| wa_given : forall bf n af, Forall (other_than name) bf -> 0 <= n < 2 ^ 64 -> wanted name default (bf ++ (str name ++ show_Z n) :: af) n.

(** The line is `run`, or a prefix of it, with options that ask for a machine with so many
    registers, float registers and cells of memory. *)
Inductive run_line (l : text) (regs fregs size : Z) : Prop :=
| rl_line : forall w opts, typed l (w :: opts) -> begins_with w "run" ->
    wanted "--reg-count=" 8 opts regs -> wanted "--float-reg-count=" 4 opts fregs -> wanted "--data-size=" 1024 opts size ->
    run_line l regs fregs size.

(** The file given to the debugger is an executable that is read as the program [p], the
    data [data] and the debugging information [src] (C22, C77). *)
Record executable (P : front) (U : setup) (p : list instr) (data : list Z) (src : source) : Prop := mkExecutable {
  ex_named : fr_name P <> None;
  ex_file : exists t, fr_file P = Some t /\ assemble (u_stod U) t = POk (p, data) /\ read_info U t = Some src
}.
Definition started_text (P : front) : text := str "Started process '" ++ match fr_name P with Some n => n | None => [] end ++ str "'" ++ [NL].

(** ---- the options ---- *)

Lemma wanted_ok : forall name d ws n, wanted name d ws n -> or_else (option_value ws name) d = n.
Proof.
  intros name d ws n H. unfold option_value. destruct H as [ws H|bf n af H R].
  - assert (F : find (is_prefix_of (str name)) ws = None); [|now rewrite F].
    induction H as [|w ws H _ IH]; [reflexivity|]. cbn [find]. destruct (is_prefix_of (str name) w) eqn:E; [|exact IH]. apply C43_prefix in E. contradiction.
  - assert (F : find (is_prefix_of (str name)) (bf ++ (str name ++ show_Z n) :: af) = Some (str name ++ show_Z n)).
    { induction H as [|w bf H _ IH]; cbn [app find].
      - assert (E : is_prefix_of (str name) (str name ++ show_Z n) = true) by (apply C43_prefix; now eexists). now rewrite E.
      - destruct (is_prefix_of (str name) w) eqn:E; [apply C43_prefix in E; contradiction|exact IH]. }
    rewrite F, skipn_app, Nat.sub_diag, skipn_all. cbn [skipn app]. now rewrite svtou64_show.
Qed.

(** ---- the VM is started ---- *)

Definition fresh (c : cpu) : native := mkNative [] [] None (mkLink (Some (os_start true c)) false).
Lemma wait_start : forall U fuel c, wait_event U fuel (fresh c) = Done EvBegin (connected c).
Proof. intros U fuel c. destruct fuel; reflexivity. Qed.

(** The VM that is told to end does so. *)
Lemma rest_tick : forall E c, c_rs c = [] -> c_decode c = None -> c_halted c = false -> c_single c = false ->
  exists c', tick E c = Ok c' /\ c_halted c' = false /\ c_int c' = 0.
Proof.
  intros E c H1 H2 H3 H4. unfold tick, tick_retire. cbn [set_stop set_mem c_regs c_wm c_alus c_rs c_single c_halted]. rewrite H1. cbn [exec_loop lift bind length].
  unfold set_exec, set_stop, set_mem. cbn. rewrite H3, H4. cbn. unfold tick_decode. cbn. rewrite H2. cbn. eexists. split; [reflexivity|].
  unfold tick_front. cbn. destruct (c_fetch c); cbn; unfold Cpu.fetch; cbn; destruct (jump_dest _); cbn; auto.
Qed.
Lemma ended_ok : forall U fuel r c N, n_link N = stopped r c -> c_rs c = [] -> c_decode c = None -> (c_halted c = true <-> r = RHalted) -> (c_halted c = false -> c_single c = false) ->
  exists h, (nterminate U;; (if u_local U then proc (vm_end (Datatypes.S fuel) (u_env U)) else ret tt)) N = Done tt (set_link N h).
Proof.
  intros U fuel r c N HN H1 H2 H3 H4. unfold nterminate, proc, then_. rewrite HN.
  assert (T : terminate U (stopped r c) = Done tt (mkLink (Some (leave r true c)) false)) by reflexivity.
  rewrite T. destruct (u_local U); [|eexists; reflexivity]. destruct r; cbn [leave vm_end k_host n_link set_link]; try (eexists; reflexivity).
  assert (Hh : c_halted c = false) by (destruct (c_halted c); [exfalso; assert (RBegin = RHalted) by (now apply H3); discriminate|reflexivity]).
  destruct (rest_tick (u_env U) c H1 H2 Hh (H4 Hh)) as (c' & T1 & T2 & T3). unfold os_tick. rewrite T1, T2, T3. cbn. destruct fuel; eexists; reflexivity.
Qed.

(** ---- breakpoints and watchpoints are set again ---- *)

Section Again.
Variable U : setup.
Variable p : list instr.
Hypothesis PL : prints_lines U.
Hypothesis p_len : Z.of_nat (length p) < 2 ^ 63.
Hypothesis p_ip : Forall IsaSpec.keeps_ip p.

Lemma again_bps : forall bps m S N r c, viewed U p (mkView m [] S false) N r c -> NoDup (map fst bps) -> (forall a, In a (map fst bps) -> m a = None) ->
  (forall a, In a (map fst bps) -> 0 <= a < Z.of_nat (length p) /\ restorable U (prog_at p a)) -> (forall a b, In (a, b) bps -> bp_on b = true) ->
  exists N' r' c' m', each (fun x => if bp_on (snd x) then set_breakpoint U (fst x) else put_bp (fst x) (mkBp [] false)) bps N = Done tt N' /\
    viewed U p (mkView m' [] S false) N' r' c' /\ (forall a, In a (map fst bps) -> m' a = Some true) /\ (forall a, ~ In a (map fst bps) -> m' a = m a).
Proof.
  induction bps as [|[a b] bps IH]; intros m S N r c V ND Hm Ht Hb.
  - exists N, r, c, m. split; [reflexivity|]. split; [exact V|]. split; [intros a []|auto].
  - cbn [map fst] in *. inversion ND as [|? ? N1 N2]; subst.
    pose proof (Hm a (or_introl eq_refl)) as Ma. pose proof (Ht a (or_introl eq_refl)) as Ta.
    destruct V as [V1 V2 V3 V4 V5 V6]. cbn [v_marks v_watch v_state v_left] in *.
    pose proof (op_ok U _ (Q_ok U) PL _ (OpSet a) r c p m N (fits_T U p p_len) (rs_holds _ _ _ _ _ _ _ V1) Ta) as K.
    cbn [op_spec] in K. rewrite Ma in K. destruct K as (N3 & K1 & K2 & K3 & K4). cbn [run_op] in K1.
    destruct (holds_rested U p p_ip _ (mark m a (Some true)) S N N3 r c V1 K2 K3 K4) as (q & HP).
    destruct (IH (mark m a (Some true)) S N3 r (set_prog c q)) as (N' & r' & c' & m' & E1 & E2 & E3 & E4).
    { constructor; cbn [v_marks v_watch v_state v_left]; auto; try (unfold listed; rewrite K3); auto. }
    { exact N2. }
    { intros x Hx. unfold mark. destruct (Z.eqb_spec x a) as [->|Nx]; [contradiction|]. apply Hm. now right. }
    { intros x Hx. apply Ht. now right. }
    { intros x y Hx. apply (Hb x y). now right. }
    exists N', r', c', m'. split.
    + cbn [each]. unfold then_. cbn [fst snd]. rewrite (Hb a b (or_introl eq_refl)), K1. exact E1.
    + split; [exact E2|]. split.
      * intros x [<-|Hx]; [|now apply E3]. rewrite E4 by exact N1. unfold mark. now rewrite Z.eqb_refl.
      * intros x Hx. rewrite E4 by (intros Y; apply Hx; now right). unfold mark. destruct (Z.eqb_spec x a) as [->|Nx]; [elim Hx; now left|reflexivity].
Qed.

Lemma again_wps : forall (wps : list (Z * nat)) m ws S N r c, viewed U p (mkView m ws S false) N r c -> NoDup (map fst wps) -> (forall a, In a (map fst wps) -> ~ In a ws /\ word64 a) ->
  (length wps + length ws <= 4)%nat ->
  exists N' r' c' ws', each (fun x => set_watchpoint U (fst x)) wps N = Done tt N' /\
    viewed U p (mkView m ws' S false) N' r' c' /\ (forall a, In a ws' <-> In a (map fst wps) \/ In a ws).
Proof.
  induction wps as [|[a i] wps IH]; intros m ws S N r c V ND Hm Hl.
  - exists N, r, c, ws. split; [reflexivity|]. split; [exact V|]. intros a. cbn. tauto.
  - cbn [map fst length] in *. inversion ND as [|? ? N1 N2]; subst. destruct (Hm a (or_introl eq_refl)) as [Ma Wa].
    destruct V as [V1 V2 V3 V4 V5 V6]. cbn [v_marks v_watch v_state v_left] in *.
    destruct (watch_ok U p m S N r c a V1 V2 Wa) as [_ W2].
    destruct W2 as (N3 & c3 & K1 & K2 & K3 & K4 & K5 & K6); [now rewrite V3|lia|].
    destruct (IH m (a :: ws) S N3 r c3) as (N' & r' & c' & ws' & E1 & E2 & E3).
    { constructor; cbn [v_marks v_watch v_state v_left]; auto; try now rewrite K4.
      - intros b. rewrite K5, V3. cbn [In]. intuition congruence.
      - cbn [length]. lia. }
    { exact N2. }
    { intros x Hx. destruct (Hm x (or_intror Hx)) as [M1 M2]. split; [|exact M2]. intros [->|Y]; contradiction. }
    { cbn [length]. lia. }
    exists N', r', c', ws'. split; [|split; [exact E2|]].
    + cbn [each]. unfold then_. cbn [fst]. now rewrite K1.
    + intros x. rewrite E3. cbn [In]. tauto.
Qed.
End Again.

(** The breakpoints of a front end that can be set again in the program [p]: all are
    enabled, and at addresses of the program where they can be set (as for C30). *)
Record again (U : setup) (p : list instr) (N : native) : Prop := mkAgain {
  ag_bps : NoDup (map fst (n_bps N));
  ag_on : forall a b, In (a, b) (n_bps N) -> bp_on b = true /\ 0 <= a < Z.of_nat (length p) /\ restorable U (prog_at p a);
  ag_wps : NoDup (map fst (n_wps N));
  ag_watch : forall a, In a (map fst (n_wps N)) -> word64 a;
  ag_count : (length (n_wps N) <= 4)%nat
}.
Definition marks_of (N : native) : marks := fun a => option_map bp_on (zget (n_bps N) a).

Lemma zget_in : forall V (l : list (Z * V)) a v, NoDup (map fst l) -> In (a, v) l -> zget l a = Some v.
Proof.
  induction l as [|[k w] l IH]; intros a v ND [].
  - injection H as -> ->. unfold zget. cbn [mget]. now rewrite Z.eqb_refl.
  - cbn [map fst] in ND. inversion ND as [|? ? N1 N2]; subst. unfold zget. cbn [mget]. destruct (Z.eqb_spec a k) as [->|X]; [elim N1; apply in_map_iff; now exists (k, v)|now apply IH].
Qed.

Section Run.
Variable P : front.

Lemma run_ok : forall s opts regs fregs size p data src c0, Forall PropText.word opts ->
  wanted "--reg-count=" 8 opts regs -> wanted "--float-reg-count=" 4 opts fregs -> wanted "--data-size=" 1024 opts size ->
  executable P (cl_setup s) p data src -> debuggee (sized (cl_setup s) regs fregs size true) (machine (cl_setup s) regs fregs size) p data (fr_input P) c0 ->
  again (sized (cl_setup s) regs fregs size true) p (cl_native s) ->
  exists s1 m ws, handle_run P (join opts [SPACE]) s = Done tt s1 /\
    session p src (sized (cl_setup s) regs fregs size true) (mkView m ws (isa_boot (Z.to_nat size) data (fr_input P)) false) false s1 /\
    (forall a, m a = marks_of (cl_native s) a) /\ (forall a, In a ws <-> In a (map fst (n_wps (cl_native s)))) /\
    cl_out s1 = cl_out s ++ [Say Plain (started_text P)] /\ cl_in s1 = cl_in s.
Proof.
  intros s opts regs fregs size p data src c0 Hw W1 W2 W3 [E1 (t & E2 & E3 & E4)] HD [A1 A2 A3 A4 A5].
  unfold handle_run, started_text. destruct (fr_name P) as [name|]; [|congruence]. rewrite E2, (words_split _ Hw). unfold here, then_ at 1.
  rewrite E3, E4, (wanted_ok _ _ _ _ W1), (wanted_ok _ _ _ _ W2), (wanted_ok _ _ _ _ W3). pose proof HD as [PL [Hip Hty Hb] Hl Hbk R1 R2].
  set (U' := sized (cl_setup s) regs fregs size true) in *. rewrite Hb. unfold change, then_, lib. cbn [cl_setup cl_native].
  fold (fresh c0). rewrite wait_start. unfold cset_native. cbn [cl_setup cl_native].
  pose proof (at_start U' _ p data (fr_input P) c0 HD) as V0. cbn [machine g_ram] in V0.
  unfold set_all_breakpoints, get, then_ at 1. change (n_bps (connected c0)) with (@nil (Z * bpoint)). cbn [each]. unfold ret, then_ at 1.
  destruct (again_bps U' p PL Hl Hip (n_bps (cl_native s)) no_marks _ _ _ _ V0 A1) as (N1 & r1 & c1 & m1 & B1 & B2 & B3 & B4).
  { reflexivity. }
  { intros a Ha. apply in_map_iff in Ha. destruct Ha as ([x y] & <- & Ha). exact (proj2 (A2 _ _ Ha)). }
  { intros a b Ha. exact (proj1 (A2 _ _ Ha)). }
  rewrite B1. cbn [cl_setup cl_native]. unfold set_all_watchpoints, get, then_.
  assert (Wn : n_wps N1 = []).
  { pose proof (vw_count _ _ _ _ _ _ B2) as X. cbn [v_watch length] in X. destruct (n_wps N1); [reflexivity|discriminate X]. }
  rewrite Wn. destruct (again_wps U' p (n_wps (cl_native s)) m1 [] _ _ _ _ B2 A3) as (N2 & r2 & c2 & ws & D1 & D2 & D3).
  { intros a Ha. split; [intros []|now apply A4]. }
  { cbn [length]. lia. }
  rewrite D1. unfold say, put, change. eexists. exists m1, ws. split; [reflexivity|]. split.
  { constructor; cbn [cset_out cl_setup cl_active cl_source cl_running cl_native]; auto. now exists r2, c2. }
  split.
  - intros a. unfold marks_of. destruct (zget (n_bps (cl_native s)) a) as [b|] eqn:G; cbn [option_map].
    + assert (I : In (a, b) (n_bps (cl_native s))) by (apply (mget_in Z.eqb zeqb_eq); exact G).
      rewrite (proj1 (A2 _ _ I)). apply B3. apply in_map_iff. now exists (a, b).
    + apply B4. intros I. apply in_map_iff in I. destruct I as ([x y] & X & I). cbn [fst] in X. subst x. rewrite (zget_in _ _ _ _ A1 I) in G. discriminate.
  - split; [intros a; rewrite D3; cbn [In]; tauto|]. split; reflexivity.
Qed.

Lemma run_dispatch : forall l w opts s, typed l (w :: opts) -> begins_with w "run" ->
  Forall PropText.word opts /\ command_line P l s = catching (exit_process P;; handle_run P (join opts [SPACE])) (put Err) s.
Proof.
  intros l w opts s Ht Hr. destruct (typed_squash _ _ Ht) as [Es Hws]. inversion Hws as [|? ? Hw Ho]; subst. split; [exact Ho|].
  unfold command_line. rewrite Es. pose proof (cut_words w opts Hw) as C. apply begins_prefix in Hr.
  destruct (join (w :: opts) [SPACE]) as [|x y] eqn:J.
  { exfalso. pose proof (word_nil _ Hw) as X. destruct w; [contradiction|]. destruct opts; discriminate J. }
  unfold catching, handle_command. rewrite C. destruct w as [|x' w]; [now elim (word_nil _ Hw)|]. rewrite Hr. reflexivity.
Qed.
End Run.

(** ---- C86 ---- *)

(** C86. The line `run` in a new front end starts the program on a machine of the wanted
    size, in front of its first instruction. *)
Theorem C86_run : forall P l regs fregs size p data src c0 s, cl_active s = false -> n_bps (cl_native s) = [] -> n_wps (cl_native s) = [] ->
  run_line l regs fregs size -> executable P (cl_setup s) p data src -> boot (machine (cl_setup s) regs fregs size) p data (fr_input P) = Ok c0 ->
  exists s1, command_line P l s = Done tt s1 /\ at_begin (sized (cl_setup s) regs fregs size true) src c0 s1 /\ cl_out s1 = cl_out s ++ [Say Plain (started_text P)].
Proof.
  intros P l regs fregs size p data src c0 s HA HB HW [w opts Ht Hr W1 W2 W3] [E1 (t & E2 & E3 & E4)] Hb. destruct (run_dispatch P l w opts s Ht Hr) as [Ho ->].
  unfold catching, exit_process, here, then_ at 1 2. rewrite HA. unfold ret.
  unfold handle_run, started_text. destruct (fr_name P) as [name|]; [|congruence]. rewrite E2, (words_split _ Ho). unfold here, then_ at 1.
  rewrite E3, E4, (wanted_ok _ _ _ _ W1), (wanted_ok _ _ _ _ W2), (wanted_ok _ _ _ _ W3), Hb, HB, HW. unfold change, then_, lib. cbn [cl_setup cl_native].
  fold (fresh c0). rewrite wait_start. unfold cset_native. cbn [cl_setup cl_native]. eexists. split; [reflexivity|]. split; [|reflexivity]. constructor; reflexivity.
Qed.

(** ... and the lines that follow do what they ask for (C84). *)
Theorem C86_session : forall P l regs fregs size p data src c0 s ls os s1 s2, cl_active s = false -> n_bps (cl_native s) = [] -> n_wps (cl_native s) = [] ->
  run_line l regs fregs size -> executable P (cl_setup s) p data src -> mapped src ->
  debuggee (sized (cl_setup s) regs fregs size true) (machine (cl_setup s) regs fregs size) p data (fr_input P) c0 ->
  command_line P l s = Done tt s1 -> went P ls s1 os s2 -> Forall (order_usable (sized (cl_setup s) regs fregs size true) p src) os ->
  Forall order_no_over os \/ Forall order_no_watch os ->
  exists v ended t, orders_spec (e_fops (u_env (cl_setup s))) p src os (mkView no_marks [] (isa_boot (Z.to_nat size) data (fr_input P)) false, false) (news t) (v, ended) /\
    cl_out s2 = cl_out s ++ [Say Plain (started_text P)] ++ t /\ holds_view (v_marks v) (v_state v) (cl_native s2) /\
    (forall a, In a (map fst (n_wps (cl_native s2))) <-> In a (v_watch v)).
Proof.
  intros P l regs fregs size p data src c0 s ls os s1 s2 HA HB HW HR HE SM HD H1 H2 H3 H4.
  destruct (C86_run P l regs fregs size p data src c0 s HA HB HW HR HE (st_boot _ _ _ _ _ _ (de_started _ _ _ _ _ _ HD))) as (s1' & Q1 & Q2 & Q3).
  assert (s1' = s1) as -> by congruence.
  destruct (C84_session P (sized (cl_setup s) regs fregs size true) _ p data (fr_input P) c0 src ls s1 os s2 HD SM Q2 H2 H3 H4) as (v & ended & t & V1 & V2 & V3 & V4).
  exists v, ended, t. split; [exact V1|]. split; [|now split]. now rewrite V2, Q3, <- app_assoc.
Qed.

(** ---- C87 ---- *)

Lemma went_order : forall P ls s os s', went P ls s os s' -> in_order s -> in_order s'.
Proof. intros P ls s os s' H. induction H as [|l ls ws o os s s1 s2 _ _ H _ _ _ _ IH]; intros K; [exact K|]. apply IH. pose proof (neat_line P l s K) as Q. now rewrite H in Q. Qed.
Lemma begin_order : forall U src c0 s, at_begin U src c0 s -> in_order s.
Proof. intros U src c0 s []. unfold in_order. match goal with H : cl_native s = _ |- _ => rewrite H end. split; constructor. Qed.
Lemma went_nodup : forall P U src c0 ls s os s', at_begin U src c0 s -> went P ls s os s' -> NoDup (map fst (n_bps (cl_native s'))).
Proof. intros P U src c0 ls s os s' H G. apply rising_nodup, (went_order _ _ _ _ _ G), (begin_order _ _ _ _ H). Qed.

(** C87. After any session at the command line, `run` ends the old debuggee and starts the
    program of the file from its beginning, with the enabled breakpoints and the watchpoints
    there were: they are shown as before, and the lines that follow find them set. *)
Theorem C87_rerun : forall P U g p data input c0 src ls s0 os s l regs fregs size p' data' src' c0', debuggee U g p data input c0 -> mapped src -> at_begin U src c0 s0 ->
  went P ls s0 os s -> Forall (order_usable U p src) os -> Forall order_no_over os \/ Forall order_no_watch os ->
  (0 < fr_fuel P)%nat -> run_line l regs fregs size -> executable P U p' data' src' -> mapped src' ->
  debuggee (sized U regs fregs size true) (machine U regs fregs size) p' data' (fr_input P) c0' ->
  (forall a b, In (a, b) (n_bps (cl_native s)) -> bp_on b = true /\ 0 <= a < Z.of_nat (length p') /\ restorable (sized U regs fregs size true) (prog_at p' a)) ->
  exists s1, command_line P l s = Done tt s1 /\ cl_out s1 = cl_out s ++ [Say Plain (started_text P)] /\ cl_source s1 = src' /\
    holds_view (marks_of (cl_native s)) (isa_boot (Z.to_nat size) data' (fr_input P)) (cl_native s1) /\
    (forall a, In a (map fst (n_wps (cl_native s1))) <-> In a (map fst (n_wps (cl_native s)))) /\
    forall ls' os' s2, went P ls' s1 os' s2 -> Forall (order_usable (sized U regs fregs size true) p' src') os' ->
      Forall order_no_over os' \/ n_wps (cl_native s) = [] /\ Forall order_no_watch os' ->
      exists m ws v ended t, (forall a, m a = marks_of (cl_native s) a) /\ (forall a, In a ws <-> In a (map fst (n_wps (cl_native s)))) /\
        orders_spec (e_fops (u_env U)) p' src' os' (mkView m ws (isa_boot (Z.to_nat size) data' (fr_input P)) false, false) (news t) (v, ended) /\
        cl_out s2 = cl_out s1 ++ t /\ holds_view (v_marks v) (v_state v) (cl_native s2) /\ (forall a, In a (map fst (n_wps (cl_native s2))) <-> In a (v_watch v)).
Proof.
  intros P U g p data input c0 src ls s0 os s l regs fregs size p' data' src' c0' HD SM HB HW Hu Hn HF [w opts Ht Hr W1 W2 W3] HE SM' HD' Hon.
  pose proof (went_nodup P U src c0 ls s0 os s HB HW) as ND.
  pose proof HD as [PL [Hip Hty Hb] Hl Hbk R1 R2]. destruct HB as [B1 B2 B3 B4 B5].
  destruct (lines_ok P p src U PL (ty_fops _ _ _ _ _ Hty) (ty_prog _ _ _ _ _ Hty) Hip Hl Hbk SM ls s0 os s HW (mkView no_marks [] (isa_boot (g_ram g) data input) false) false) as (v & e & t & V1 & [S1 S2 S3 S4 (r & c & S5)] & V3); auto.
  { constructor; auto. rewrite B2. exists RBegin, c0. now apply at_start. }
  { destruct Hn as [Hn|Hn]; [now left|right; now split]. }
  destruct (run_dispatch P l w opts s Ht Hr) as [Ho ->]. pose proof (vw_rested _ _ _ _ _ _ S5) as [X1 X2 [X3 X3' X4] X5 X6 X7 X8 [X9 X10 X11] X12 X13 X14].
  unfold catching, exit_process, here, then_ at 1 2. rewrite S2.
  destruct (fr_fuel P) as [|fuel] eqn:Ef; [lia|].
  assert (Q : exists h, (lib nterminate;; lib (fun U => if u_local U then proc (vm_end (Datatypes.S fuel) (u_env U)) else ret tt)) s = Done tt (cset_native s (set_link (cl_native s) h))).
  { destruct (ended_ok U fuel r c (cl_native s) X1) as (h & Q); auto; try apply X4.
    - apply (proj1 (proj2 (proj2 X3))).
    - exists h. unfold lib, then_ in *. rewrite S1. destruct (nterminate U (cl_native s)) as [[] N1|N1| |]; try discriminate. unfold cset_native in *. cbn [cl_setup cl_native] in *. rewrite S1.
      destruct (_ N1) as [[] N2|N2| |]; try discriminate. injection Q as ->. reflexivity. }
  destruct Q as (h & ->). set (s' := cset_native s (set_link (cl_native s) h)).
  assert (L : (length (n_wps (cl_native s)) <= 4)%nat).
  { rewrite <- (map_length snd). change 4%nat with (length (seq 0 4)). apply NoDup_incl_length; [exact X10|]. intros i Hi. apply in_map_iff in Hi. destruct Hi as ([a j] & <- & Hi).
    destruct (X11 a j Hi) as [Y _]. apply in_seq. cbn [snd]. lia. }
  assert (WW : forall a, In a (map fst (n_wps (cl_native s))) -> word64 a).
  { intros a Ha. apply in_map_iff in Ha. destruct Ha as ([x i] & <- & Hi). destruct (X11 x i Hi) as (Y1 & _ & Y2). cbn [fst]. rewrite <- Y2. rewrite Forall_forall in X8. apply X8. apply nth_In. lia. }
  destruct (run_ok P s' opts regs fregs size p' data' src' c0' Ho W1 W2 W3) as (s1 & m & ws & K1 & K2 & K3 & K4 & K5 & _).
  { change (cl_setup s') with (cl_setup s). now rewrite S1. }
  { change (cl_setup s') with (cl_setup s). now rewrite S1. }
  { change (cl_setup s') with (cl_setup s). rewrite S1. constructor; cbn [s' cset_native cl_native set_link n_bps n_wps]; auto. }
  change (cl_setup s') with (cl_setup s) in K2. rewrite S1 in K2. change (forall a, m a = marks_of (cl_native s) a) in K3. change (n_wps (cl_native s')) with (n_wps (cl_native s)) in K4.
  change (cl_out s') with (cl_out s) in K5. rewrite K1. exists s1. split; [reflexivity|]. split; [exact K5|]. pose proof K2 as [T1 T2 T3 T4 (r1 & c1 & T5)]. split; [exact T3|].
  pose proof HD' as [PL' [Hip' Hty' Hb'] Hl' Hbk' R1' R2'].
  assert (Lst : forall a, In a (map fst (n_wps (cl_native s1))) <-> In a (map fst (n_wps (cl_native s)))).
  { intros a. rewrite <- K4. exact (vw_listed _ _ _ _ _ _ T5 a). }
  split; [|split; [exact Lst|]].
  - destruct (viewed_holds _ _ _ _ _ _ T5) as [Z1 Z2]. cbn [v_marks v_state] in *. constructor; [exact Z1|]. intros a. rewrite <- K3. apply Z2.
  - intros ls' os' s2 G1 G2 G3.
    destruct (lines_ok P p' src' (sized U regs fregs size true) PL' (ty_fops _ _ _ _ _ Hty') (ty_prog _ _ _ _ _ Hty') Hip' Hl' Hbk' SM' ls' s1 os' s2 G1 _ _ K2 G2) as (v2 & e2 & t2 & A1 & A2 & A3).
    { destruct G3 as [G3|[G3 G4]]; [now left|right]. split; [|exact G4]. cbn [v_watch]. destruct ws as [|x ws]; [reflexivity|]. exfalso. rewrite G3 in K4. apply (proj1 (K4 x)). now left. }
    exists m, ws, v2, e2, t2. split; [exact K3|]. split; [exact K4|]. split; [exact A1|]. split; [exact A3|].
    destruct (se_viewed _ _ _ _ _ _ A2) as (r2 & c2 & V). split; [eapply viewed_holds; exact V|exact (vw_listed _ _ _ _ _ _ V)].
Qed.

(** ---- cases ---- *)

Definition file86 : text := Eval vm_compute in
  concat (map (fun l => str l ++ [NL]) [".debug_line"; "0: 0"; "1: 3"; "2: 4"; ".data"; "7 8"; ".text"; "0 MOV R0, 3"; "1 CALL 4"; "2 NOP"; "3 HALT"; "4 NOP"; "5 RET"]%string).
Definition front86 : front := mkFront ops84 (fun _ => str "0") (fun _ => Some 0) (Some (str "prog")) (Some file86) (fun _ => None) [65; 10] 100.
Definition line86 : text := str "ru --reg-count=4 --data-size=16 --float-reg-count=1".

Lemma words_ok : forall ws, forallb wordb ws = true -> Forall PropText.word ws.
Proof. intros ws A. rewrite forallb_forall in A. apply Forall_forall. intros w I. now apply wordb_ok, A. Qed.
Lemma other_dec : forall name ws, forallb (fun w => negb (is_prefix_of (str name) w)) ws = true -> Forall (other_than name) ws.
Proof. intros name ws A. rewrite forallb_forall in A. apply Forall_forall. intros w I E. apply C43_prefix in E. specialize (A w I). rewrite E in A. discriminate. Qed.
Lemma run_line86 : run_line line86 4 1 16.
Proof.
  apply (rl_line line86 4 1 16 (str "ru") [str "--reg-count=4"; str "--data-size=16"; str "--float-reg-count=1"]).
  - apply (typed_words [str "ru"; str "--reg-count=4"; str "--data-size=16"; str "--float-reg-count=1"]). apply words_ok. reflexivity.
  - now exists (str "n").
  - apply (wa_given "--reg-count=" 8 [] 4 [str "--data-size=16"; str "--float-reg-count=1"]); [constructor|lia].
  - apply (wa_given "--float-reg-count=" 4 [str "--reg-count=4"; str "--data-size=16"] 1 []); [apply other_dec; vm_compute; reflexivity|lia].
  - apply (wa_given "--data-size=" 1024 [str "--reg-count=4"] 16 [str "--float-reg-count=1"]); [apply other_dec; vm_compute; reflexivity|lia].
Qed.
Lemma executable86 : executable front86 U84 prog81 [7; 8] source81.
Proof. constructor; [discriminate|]. exists file86. split; [reflexivity|]. split; vm_compute; reflexivity. Qed.
Lemma debuggee86 : debuggee (sized U84 4 1 16 true) (machine U84 4 1 16) prog81 [7; 8] [65; 10] (booted cfg1 prog81 [7; 8] [65; 10]).
Proof. destruct (case81 [] (Forall_nil _)) as (D & _). destruct D. constructor; assumption. Qed.

Example C86_case : cl_active (new_cli U84 []) = false /\ n_bps (cl_native (new_cli U84 [])) = [] /\ n_wps (cl_native (new_cli U84 [])) = [] /\
  run_line line86 4 1 16 /\ executable front86 U84 prog81 [7; 8] source81 /\ mapped source81 /\
  debuggee (sized U84 4 1 16 true) (machine U84 4 1 16) prog81 [7; 8] [65; 10] (booted cfg1 prog81 [7; 8] [65; 10]).
Proof. repeat (split; [reflexivity|]). split; [exact run_line86|]. split; [exact executable86|]. split; [exact mapped81|exact debuggee86]. Qed.

(** The program is restarted in the middle, with one breakpoint, and runs into it again. *)
Example C87_case : exists s, u_local U84 = true /\ debuggee U84 cfg1 prog81 [7; 8] [65; 10] (booted cfg1 prog81 [7; 8] [65; 10]) /\ at_begin U84 source81 (booted cfg1 prog81 [7; 8] [65; 10]) cli84 /\
  went front86 [str "b iset 4"; str "c"] cli84 [ODo (DCall (KBp (OpSet 4))); ODo (DCall KContinue)] s /\
  Forall (order_usable U84 prog81 source81) [ODo (DCall (KBp (OpSet 4))); ODo (DCall KContinue)] /\ (0 < fr_fuel front86)%nat /\
  (forall a b, In (a, b) (n_bps (cl_native s)) -> bp_on b = true /\ 0 <= a < Z.of_nat (length prog81) /\ restorable (sized U84 4 1 16 true) (prog_at prog81 a)) /\ n_bps (cl_native s) <> [] /\
  match command_line front86 line86 s with Done _ s1 => match command_line front86 (str "c") s1 with Done _ s2 => cl_out s2 <> [] | _ => False end | _ => False end.
Proof.
  destruct (case81 [DCall (KBp (OpSet 4)); DCall KContinue]) as (D1 & D2 & D3 & D4); [repeat constructor; cbn; lia|].
  destruct (go front86 [str "b iset 4"; str "c"] [ODo (DCall (KBp (OpSet 4))); ODo (DCall KContinue)] cli84) as [s|] eqn:E.
  - assert (K : option_map (fun s => n_bps (cl_native s)) (go front86 [str "b iset 4"; str "c"] [ODo (DCall (KBp (OpSet 4))); ODo (DCall KContinue)] cli84) = Some [(4, mkBp (str "NOP") true)]) by (vm_compute; reflexivity).
    rewrite E in K. cbn [option_map] in K. exists s. split; [reflexivity|]. split; [destruct D1; constructor; assumption|]. split; [constructor; reflexivity|]. split.
    { apply go_went; [|exact E]. constructor; [|constructor; [|constructor]].
      - exists [str "b"; str "iset"; str "4"]. split; [apply (typed_words [str "b"; str "iset"; str "4"]); now apply words_ok|].
        eapply (rd_at (str "b") (str "iset") 4 [] "iset"); [apply stands_dec; [reflexivity|discriminate]|apply stands_dec; [reflexivity|discriminate]|now left|lia].
      - exists [str "c"]. split; [apply (typed_words [str "c"]); now apply words_ok|]. apply rd_continue, stands_dec; [reflexivity|discriminate]. }
    assert (G : n_bps (cl_native s) = [(4, mkBp (str "NOP") true)]) by congruence. rewrite G.
    split; [apply usable_of; exact D3|]. split; [cbn; lia|]. split.
    { intros a b [X|[]]. injection X as <- <-. split; [reflexivity|]. inversion D3 as [|? ? Y _]; subst. exact Y. }
    split; [discriminate|].
    assert (B : match go front86 [str "b iset 4"; str "c"] [ODo (DCall (KBp (OpSet 4))); ODo (DCall KContinue)] cli84 with
      | Some s => match command_line front86 line86 s with Done _ s1 => match command_line front86 (str "c") s1 with Done _ s2 => negb (Nat.eqb (length (cl_out s2)) 0) | _ => false end | _ => false end | None => false end = true) by (vm_compute; reflexivity).
    rewrite E in B. destruct (command_line front86 line86 s) as [x s1|s1| |]; [|discriminate B|discriminate B|discriminate B]. destruct (command_line front86 (str "c") s1) as [y s2|s2| |]; [|discriminate B|discriminate B|discriminate B]. destruct (cl_out s2); [discriminate B|discriminate].
  - exfalso. assert (K : option_map (fun s => n_bps (cl_native s)) (go front86 [str "b iset 4"; str "c"] [ODo (DCall (KBp (OpSet 4))); ODo (DCall KContinue)] cli84) = Some [(4, mkBp (str "NOP") true)]) by (vm_compute; reflexivity).
    rewrite E in K. discriminate.
Qed.

Print Assumptions C86_run.
Print Assumptions C86_session.
Print Assumptions C87_rerun.
