(** C97: a session at the command line in which the program is changed, too. *)
From Coq Require Import Ascii String ZArith NArith List Bool Lia.
From Verif Require Import Base Text PropText PropNet StdMap Isa Alu AluSpec State IsaSpec IsaSame Lexer Asm Show AsmPrint AsmSpec PropAsm Exec Ram Writes Rat Cpu Os DbgText Spaces
  InOrder PipeInv PipeBasics PipeActs PipeMem PipeTick PipeDom PipeRun PipeBoot PipePoke Session IsaRefine DbgSpec Stops PropPipe PropDbg Client Proto PropProto Native PropBreak PropWatch
  LibSpec NatRun NatStop PropStep PropOver Src PropLines PropLineStep SrcFacts SetReg Expr Eval Info EvalFacts PropAssign Cli CliFacts PropCli PropRun PropStore PropShow Change.
Import ListNotations.
Open Scope Z_scope.

(** ---- specification ---- *)

(** A register, consecutive cells of the memory or consecutive instructions get new
    contents; an instruction is given as the text that stands for it. *)
Inductive change : Type := XReg (rg : reg) (v : Z) | XMem (a : Z) (vs : list Z) | XText (a : Z) (l : list (text * instr)).

Definition assemble_names : list string := ["interactive"]%string.
(** How changes are asked for; the instructions follow on lines of their own (below). *)
Inductive alters : list text -> change -> Prop :=
| al_memory : forall w x a v vs, stands_for command_names w "memory" -> stands_for memory_names x "set" -> 0 <= a -> a + Z.of_nat (length (v :: vs)) < 2 ^ 63 -> Forall fits (v :: vs) ->
    alters (w :: x :: show_Z a :: map show_Z (v :: vs)) (XMem a (v :: vs))
| al_string : forall w x a more body t, stands_for command_names w "memory" -> stands_for memory_names x "setstr" -> 0 <= a -> a + Z.of_nat (length t) + 1 < 2 ^ 63 ->
    join more [SPACE] = QUOTE :: body ++ [QUOTE] -> spells body t -> alters (w :: x :: show_Z a :: more) (XMem a (map PropStore.code t ++ [0]))
| al_register : forall w x rg v more, stands_for command_names w "register" -> stands_for register_names x "set" -> fits v ->
    alters (w :: x :: show_reg rg :: show_Z v :: more) (XReg rg v)
| al_text : forall w x a l more, stands_for command_names w "assemble" -> stands_for assemble_names x "interactive" -> 0 <= a < 2 ^ 63 ->
    alters (w :: x :: show_Z a :: more) (XText a l).

(** What a change does to the program and its state. *)
Inductive change_spec : change -> list instr * view -> list instr * view -> Prop :=
| ch_reg : forall rg x p v S, same S (reg_to (v_state v) rg x) -> change_spec (XReg rg x) (p, v) (p, with_state v S)
| ch_mem : forall a vs p v, change_spec (XMem a vs) (p, v) (p, with_state v (cells_to (v_state v) a vs))
| ch_text : forall a l p v, change_spec (XText a l) (p, v) (text_to p a (map snd l), v).

Inductive task : Type := TOrder (o : order) | TChange (x : change).
Section Spec.
Variable F : fops.
Variable src : source.
(** Orders are as in C84, for the program as it is now. Nothing is told of a change. *)
Inductive task_spec : task -> list instr * (view * bool) -> list shown -> list instr * (view * bool) -> Prop :=
| ts_order : forall o p x ns x', order_spec F p src o x ns x' -> task_spec (TOrder o) (p, x) ns (p, x')
| ts_change : forall x p v b p' v', change_spec x (p, v) (p', v') -> task_spec (TChange x) (p, (v, b)) [] (p', (v', b)).
Inductive tasks_spec : list task -> list instr * (view * bool) -> list shown -> list instr * (view * bool) -> Prop :=
| tk_nil : forall x, tasks_spec [] x [] x
| tk_cons : forall t ts x ns x1 ns1 x2, task_spec t x ns x1 -> tasks_spec ts x1 ns1 x2 -> tasks_spec (t :: ts) x (ns ++ ns1) x2.
End Spec.

(** The orders are as C84 asks for, with the program as it is by then. Instructions are
    written inside the program, and are such as C30 asks for. *)
Fixpoint tasks_usable (U : setup) (src : source) (ts : list task) (p : list instr) : Prop :=
  match ts with
  | [] => True
  | TOrder o :: ts' => order_usable U p src o /\ tasks_usable U src ts' p
  | TChange (XText a l) :: ts' => 0 <= a /\ a + Z.of_nat (length l) <= Z.of_nat (length p) /\ Forall (fun x => writes_as U (fst x) (snd x)) l /\ Forall decent_instr (map snd l) /\
      tasks_usable U src ts' (text_to p a (map snd l))
  | TChange _ :: ts' => tasks_usable U src ts' p
  end.
Definition task_no_over (t : task) : Prop := match t with TOrder o => order_no_over o | _ => True end.
Definition task_no_watch (t : task) : Prop := match t with TOrder o => order_no_watch o | _ => True end.

(** The instructions are the next lines of the input, up to an empty line. *)
Definition entered (x : change) (s : cli) (rest : list text) : Prop :=
  match x with XText a l => cl_in s = map fst l ++ [] :: rest /\ ~ In [] (map fst l) | _ => cl_in s = rest end.
(** No access to the cells is under way in the VM (C19), and there are no disabled
    breakpoints where instructions are written (C55); under enabled ones the text is written
    as the debugger shows it. *)
Definition ready (U : setup) (x : change) (N : native) : Prop :=
  match x with
  | XReg _ _ => True
  | XMem a vs => forall r c k, n_link N = stopped r c -> (k < length vs)%nat -> DbgSpec.quiet c (a + Z.of_nat k)
  | XText a l => forall b t i, In (b, (t, i)) (places a l) -> match zget (n_bps N) b with None => True | Some bp => bp_on bp = true /\ t = show_instr (u_ftos U) i end
  end.

(** Lines in a row, as for C84; a change is not refused. *)
Inductive worked (P : front) : list text -> cli -> list task -> cli -> Prop :=
| wk_nil : forall s, worked P [] s [] s
| wk_order : forall l ls ws o ts s s1 s2, typed l ws -> reads ws o -> command_line P l s = Done tt s1 -> ~ cpu_failed (cl_native s1) -> still_there s1 ->
    (forall d, o = ODo d -> moves d -> cl_running s = true -> exists t, cl_out s1 = cl_out s ++ t /\ ~ In Err t) ->
    worked P ls s1 ts s2 -> worked P (l :: ls) s (TOrder o :: ts) s2
| wk_change : forall l ls ws x rest ts s s1 s2, typed l ws -> alters ws x -> entered x s rest -> ready (cl_setup s) x (cl_native s) ->
    command_line P l s = Done tt s1 -> ~ In Err (skipn (length (cl_out s)) (cl_out s1)) ->
    worked P ls s1 ts s2 -> worked P (l :: ls) s (TChange x :: ts) s2.

(** ---- proofs ---- *)

Definition perform (U : setup) (x : change) : act native unit :=
  match x with XReg rg v => set_register U (show_reg rg) v | XMem a vs => set_memory U a vs | XText a l => nwrite_text U a (map fst l) end.

Lemma interactive_ok : forall l k acc s rest, (length l < k)%nat -> cl_in s = l ++ [] :: rest -> ~ In [] l -> interactive k acc s = Done (acc ++ l) (cset_in s rest).
Proof.
  induction l as [|t l IH]; intros k acc s rest K H N; (destruct k as [|k]; [lia|]); cbn [interactive]; unfold then_, here, Cli.change; rewrite H; cbn [app].
  - unfold ret. now rewrite app_nil_r.
  - destruct t as [|x t]; [elim N; now left|]. cbn [length] in K. etransitivity; [apply (IH k (acc ++ [x :: t]) (cset_in s (l ++ [] :: rest)) rest); [lia|reflexivity|intros I; apply N; now right]|].
    rewrite <- app_assoc. reflexivity.
Qed.

Section P.
Variable P : front.
Ltac which H w ws Hw :=
  let h := fresh "h" in let I := fresh "I" in let E := fresh "E" in
  destruct (dispatch P w ws _ Hw H ltac:(cbn; auto 20)) as (h & I & E);
  repeat (destruct I as [I|I]; [try discriminate I; injection I as <-|]); try contradiction.
Ltac skips H := repeat (apply stands_skip in H; [|discriminate]; let R := fresh "R" in destruct H as [R H]; rewrite (check_no _ _ _ _ R); clear R).

Lemma change_handled : forall ws x s rest, cl_active s = true -> Forall PropText.word ws -> alters ws x -> entered x s rest ->
  handle_command P (join ws [SPACE]) s = lib (fun U => perform U x) (cset_in s rest).
Proof.
  intros ws x s rest A Hws H En. destruct H as [w x a v vs H1 H2 Ha Hb F|w x a more body t H1 H2 Ha Hb J Sp|w x rg v more H1 H2 F|w x a l more H1 H2 Ha]; inversion Hws as [|? ? Hw Hm]; subst;
    try (cbn [entered] in En; assert (cset_in s rest = s) as -> by (rewrite <- En; now destruct s)).
  - which H1 w (x :: show_Z a :: map show_Z (v :: vs)) Hw. rewrite E by exact A. unfold handle_memory. cbn [length] in Hb.
    rewrite words_split by exact Hm. rewrite (check_yes _ _ _ _ (stands_prefix _ _ _ H2)) by (cbn [length map]; lia). cbn [skipn nth]. rewrite numbers_ok by exact F. rewrite svtou64_show by lia. reflexivity.
  - which H1 w (x :: show_Z a :: more) Hw. rewrite E by exact A. unfold handle_memory. assert (Lm : more <> []) by (intros ->; discriminate J).
    rewrite words_split by exact Hm. skips H2. rewrite (check_yes _ _ _ _ (stands_prefix _ _ _ H2)) by (destruct more; [congruence|cbn [length map]; lia]). cbn [skipn nth]. rewrite svtou64_show by lia.
    rewrite J, (spells_ok _ _ Sp). rewrite (map_ext char_cell PropStore.code) by (intros; apply PropStore.code_ok). reflexivity.
  - which H1 w (x :: show_reg rg :: show_Z v :: more) Hw. rewrite E by exact A. unfold handle_register.
    rewrite words_split by exact Hm. rewrite (check_yes _ _ _ _ (stands_prefix _ _ _ H2)) by (cbn [length map]; lia). cbn [nth]. rewrite svtoi64_show by exact F. reflexivity.
  - which H1 w (x :: show_Z a :: more) Hw. rewrite E by exact A. unfold handle_assemble.
    rewrite words_split by exact Hm. rewrite (check_yes _ _ _ _ (stands_prefix _ _ _ H2)) by (cbn [length map]; lia). cbn [nth]. rewrite svtou64_show by lia.
    destruct En as [E1 E2]. unfold then_, here. rewrite (interactive_ok (map fst l) _ [] s rest); [reflexivity| |exact E1|exact E2]. rewrite E1. etransitivity; [|apply Nat.lt_succ_diag_r]. rewrite app_length. cbn [length]. fold text. lia.
Qed.

Lemma change_runs : forall l ws x rest s s1, cl_active s = true -> typed l ws -> alters ws x -> entered x s rest -> command_line P l s = Done tt s1 ->
  ~ In Err (skipn (length (cl_out s)) (cl_out s1)) -> exists N', perform (cl_setup s) x (cl_native s) = Done tt N' /\ s1 = cset_native (cset_in s rest) N'.
Proof.
  intros l ws x rest s s1 A Ht H En C Ne. destruct (typed_squash _ _ Ht) as [Es Hws]. pose proof (change_handled ws x s rest A Hws H En) as E. unfold command_line in C. rewrite Es in C.
  destruct (join ws [SPACE]) as [|y z] eqn:J; [exfalso; destruct H; inversion Hws as [|? ? [W _] _]; subst; destruct w; (congruence || discriminate)|].
  unfold catching in C. rewrite E in C. unfold lib in C. cbn [cset_in cl_setup cl_native] in C. destruct (perform (cl_setup s) x (cl_native s)) as [[] N'|N'| |]; try discriminate.
  - exists N'. split; [reflexivity|congruence].
  - exfalso. unfold put, Cli.change in C. apply Ne. assert (s1 = cset_out (cset_native (cset_in s rest) N') (cl_out s ++ [Err])) as -> by (cbn in C; cbn; congruence). cbn [cset_out cl_out].
    rewrite skipn_app, skipn_all, Nat.sub_diag. now left.
Qed.

Section Viewed.
Variable src : source.
Variable U : setup.
Hypothesis PL : prints_lines U.
Hypothesis TF : typed_fops (e_fops (u_env U)).
Hypothesis SM : mapped src.
Notation session p := (session p src U).

Lemma change_ok : forall l ws x rest p v ended s s1 ts, decent p -> session p v ended s -> typed l ws -> alters ws x -> entered x s rest -> ready U x (cl_native s) ->
  tasks_usable U src (TChange x :: ts) p -> command_line P l s = Done tt s1 -> ~ In Err (skipn (length (cl_out s)) (cl_out s1)) ->
  exists p1 v1, change_spec x (p, v) (p1, v1) /\ v_watch v1 = v_watch v /\ decent p1 /\ session p1 v1 ended s1 /\ cl_out s1 = cl_out s /\ tasks_usable U src ts p1.
Proof.
  intros l ws x rest p v ended s s1 ts HD [S1 S2 S3 S4 (r & c & V)] Ht H En Rd Us C Ne. destruct (change_runs l ws x rest s s1 S2 Ht H En C Ne) as (N' & E & ->). rewrite S1 in E.
  assert (OUT : cl_out (cset_native (cset_in s rest) N') = cl_out s) by reflexivity.
  assert (SES : forall p1 v1 r1 c1, viewed U p1 v1 N' r1 c1 -> session p1 v1 ended (cset_native (cset_in s rest) N')) by (intros; constructor; eauto).
  destruct x as [rg z|a vs|a tl]; cbn [perform] in E.
  - assert (Fz : fits z) by (now inversion H). destruct (view_reg U p v (cl_native s) r c rg z tt N' V Fz E) as (c' & A' & V' & Sm). exists p, (with_state v A').
    split; [now constructor|]. split; [reflexivity|]. split; [exact HD|]. split; [eapply SES; exact V'|]. split; [exact OUT|exact Us].
  - assert (B : 0 <= a /\ a + Z.of_nat (length vs) < 2 ^ 63 /\ Forall fits vs).
    { inversion H; subst; [auto|]. split; [assumption|]. rewrite app_length, map_length. cbn [length]. split; [lia|]. apply Forall_app. split; [|repeat constructor; unfold fits; lia].
      apply Forall_forall. intros y Hy. apply in_map_iff in Hy. destruct Hy as (ch & <- & _). apply PropStore.code_ok. }
    destruct B as (B1 & B2 & B3). destruct (view_cells U p v (cl_native s) r c a vs tt N' V B1 B2 B3) as (c' & V'); [|exact E|].
    { intros k Hk. apply (Rd r c k); [exact (rs_link _ _ _ _ _ _ _ (vw_rested _ _ _ _ _ _ V))|exact Hk]. }
    exists p, (with_state v (cells_to (v_state v) a vs)). split; [constructor|]. split; [reflexivity|]. split; [exact HD|]. split; [eapply SES; exact V'|]. split; [exact OUT|exact Us].
  - cbn [tasks_usable] in Us. destruct Us as (U1 & U2 & U3 & U4 & U5).
    destruct (view_text U p v (cl_native s) r c a tl HD V U1 U2) as (N2 & c' & E2 & V'); [|exact U4|].
    { apply Forall_forall. intros [b [t i]] I. split.
      - rewrite Forall_forall in U3. apply (U3 (t, i)). unfold places in I. now apply in_combine_r in I.
      - rewrite (h_marks _ _ _ _ _ _ (rs_holds _ _ _ _ _ _ _ (vw_rested _ _ _ _ _ _ V)) b). specialize (Rd b t i I). destruct (zget (n_bps (cl_native s)) b) as [bp|]; [|exact Logic.I].
        cbn [option_map]. destruct Rd as [-> ->]. reflexivity. }
    rewrite E2 in E. assert (N2 = N') as -> by congruence. exists (text_to p a (map snd tl)), v. split; [constructor|]. split; [reflexivity|]. split; [now apply decent_to|].
    split; [eapply SES; exact V'|]. split; [exact OUT|exact U5].
Qed.

Lemma tasks_ok : forall ls s ts s1, worked P ls s ts s1 -> forall p v ended, decent p -> session p v ended s -> tasks_usable U src ts p ->
  Forall task_no_over ts \/ v_watch v = [] /\ Forall task_no_watch ts ->
  exists p1 v1 ended1 t, tasks_spec (e_fops (u_env U)) src ts (p, (v, ended)) (news t) (p1, (v1, ended1)) /\ decent p1 /\ session p1 v1 ended1 s1 /\ cl_out s1 = cl_out s ++ t.
Proof.
  intros ls s ts s1 H. induction H as [s|l ls ws o ts s s1 s2 H1 H2 H3 H4 Hst H5 H6 IH|l ls ws x rest ts s s1 s2 H1 H2 H3 H4 H5 H6 H7 IH]; intros p v ended HD HS Hu Hw.
  - exists p, v, ended, []. split; [constructor|]. split; [exact HD|]. split; [exact HS|now rewrite app_nil_r].
  - destruct Hu as [U1 U2].
    assert (Hw1 : v_watch v = [] \/ order_no_over o) by (destruct Hw as [Hw|[Hw _]]; [right; inversion Hw; assumption|now left]). pose proof HD as [D1 D2 D3 D4].
    destruct (line_ok P p src U PL TF D1 D2 D3 D4 SM l ws o v ended s s1 HS H1 H2 U1 Hw1 H3 H4 Hst H5) as (v1 & e1 & t1 & A1 & A2 & A3).
    destruct (IH p v1 e1 HD A2 U2) as (p2 & v2 & e2 & t2 & B1 & B0 & B2 & B3).
    { destruct Hw as [Hw|[Hw Hw2]]; [left; now inversion Hw|right]. inversion Hw2 as [|? ? X1 X2]; subst. split; [|exact X2]. cbn [task_no_watch] in X1. clear - A1 X1 Hw.
      assert (G : forall d x, deed_no_watch d -> deed_spec (e_fops (u_env U)) p src d v x v1 -> v_watch v1 = []).
      { intros d x Hd D. destruct D as [k v x v' A|o' line a v x v' _ A| | |]; try exact Hw; try reflexivity; inversion A; subst; try exact Hw; try reflexivity; elim Hd. }
      inversion A1; subst; eauto. }
    exists p2, v2, e2, (t1 ++ t2). rewrite news_app. split; [econstructor; [apply ts_order; exact A1|exact B1]|]. split; [exact B0|]. split; [exact B2|]. now rewrite B3, A3, app_assoc.
  - rewrite (se_setup _ _ _ _ _ _ HS) in H4.
    destruct (change_ok l ws x rest p v ended s s1 ts HD HS H1 H2 H3 H4 Hu H5 H6) as (p1 & v1 & A1 & A2 & A3 & A4 & A5 & A6).
    destruct (IH p1 v1 ended A3 A4 A6) as (p2 & v2 & e2 & t2 & B1 & B0 & B2 & B3).
    { rewrite A2. destruct Hw as [Hw|[Hw Hw2]]; [left; now inversion Hw|right; split; [exact Hw|now inversion Hw2]]. }
    exists p2, v2, e2, t2. split; [change (news t2) with ([] ++ news t2); econstructor; [apply ts_change; exact A1|exact B1]|]. split; [exact B0|]. split; [exact B2|]. now rewrite B3, A5.
Qed.
End Viewed.
End P.

(** C97. Any lines as in C84, and among them lines that change registers, memory and
    instructions, in any order and any number. *)
Theorem C97_session : forall P U g p data input c0 src ls s ts s1, debuggee U g p data input c0 -> mapped src -> at_begin U src c0 s ->
  worked P ls s ts s1 -> tasks_usable U src ts p -> Forall task_no_over ts \/ Forall task_no_watch ts ->
  exists p1 v ended t, tasks_spec (e_fops (u_env U)) src ts (p, (mkView no_marks [] (isa_boot (g_ram g) data input) false, false)) (news t) (p1, (v, ended)) /\
    cl_out s1 = cl_out s ++ t /\ holds_view (v_marks v) (v_state v) (cl_native s1) /\ (forall a, In a (map fst (n_wps (cl_native s1))) <-> In a (v_watch v)) /\
    forall l ws k, typed l ws -> wants p1 src ws k -> (exists ip N, get_register U (str "IP") (cl_native s1) = Done ip N) ->
    exists o, displayed U p1 src v k o /\ command_line P l s1 = Done tt (cset_out s1 (cl_out s1 ++ o)).
Proof.
  intros P U g p data input c0 src ls s ts s1 HD SM [B1 B2 B3 B4 B5] H Hu Hw. pose proof HD as [PL [Hip Hty Hb] Hl Hbk R1 R2]. pose proof (ty_fops _ _ _ _ _ Hty) as TF.
  destruct (tasks_ok P src U PL TF SM ls s ts s1 H p (mkView no_marks [] (isa_boot (g_ram g) data input) false) false) as (p1 & v & e & t & A1 & [D1 D2 D3 D4] & A2 & A3); auto.
  - constructor; auto. exact (ty_prog _ _ _ _ _ Hty).
  - constructor; auto. rewrite B2. exists RBegin, c0. now apply at_start.
  - destruct Hw as [Hw|Hw]; [now left|right; now split].
  - exists p1, v, e, t. split; [exact A1|]. split; [exact A3|]. destruct (se_viewed _ _ _ _ _ _ A2) as (r & c & V). split; [eapply viewed_holds; exact V|]. split; [exact (vw_listed _ _ _ _ _ _ V)|].
    intros l ws k Ht Hk (ip & N & Hi).
    assert (I : lib get_ip s1 = Done (u64 ip) (cset_native s1 N)) by (unfold lib, get_ip, then_; rewrite (se_setup _ _ _ _ _ _ A2), Hi; reflexivity).
    eapply display_shown; try eassumption.
Qed.

(** A change of instructions that C97 speaks of is carried out: all lines up to the empty
    one are taken and nothing is told. *)
Theorem C97_assembled : forall P U p src v ended l ws a tl rest s, prints_lines U -> decent p -> session p src U v ended s -> typed l ws -> alters ws (XText a tl) -> entered (XText a tl) s rest ->
  ready U (XText a tl) (cl_native s) -> tasks_usable U src [TChange (XText a tl)] p ->
  exists N', command_line P l s = Done tt (cset_native (cset_in s rest) N').
Proof.
  intros P U p src v ended l ws a tl rest s PL HD [S1 S2 S3 S4 (r & c & V)] Ht H En Rd (U1 & U2 & U3 & U4 & _).
  destruct (view_text U p v (cl_native s) r c a tl HD V U1 U2) as (N2 & c' & E2 & V'); [|exact U4|].
  { apply Forall_forall. intros [b [t i]] I. split.
    - rewrite Forall_forall in U3. apply (U3 (t, i)). unfold places in I. now apply in_combine_r in I.
    - rewrite (h_marks _ _ _ _ _ _ (rs_holds _ _ _ _ _ _ _ (vw_rested _ _ _ _ _ _ V)) b). specialize (Rd b t i I). destruct (zget (n_bps (cl_native s)) b) as [bp|]; [|exact Logic.I].
      cbn [option_map]. destruct Rd as [-> ->]. reflexivity. }
  exists N2. destruct (typed_squash _ _ Ht) as [Es Hws]. unfold command_line. rewrite Es. destruct (join ws [SPACE]) as [|y z] eqn:J;
    [exfalso; inversion H; subst; inversion Hws as [|? ? [W _] _]; subst; destruct w; (congruence || discriminate)|].
  unfold catching. rewrite <- J, (change_handled P ws _ s rest S2 Hws H En). unfold lib, perform. cbn [cset_in cl_setup cl_native]. rewrite S1, E2. reflexivity.
Qed.

(** ---- a case ---- *)

Section Work.
Variable P : front.
Definition readyb (U : setup) (x : change) (N : native) : bool :=
  match x with
  | XReg _ _ => true
  | XMem a vs => match k_host (n_link N) with
      | Some (At _ c) => forallb (fun k => match mws_vec (wm_get (c_wm c) (a + Z.of_nat k)), aget (ram_reads (c_ram c)) (a + Z.of_nat k) with [], None => true | _, _ => false end) (seq 0 (length vs))
      | _ => true
      end
  | XText a l => forallb (fun y => match zget (n_bps N) (fst y) with None => true | Some bp => bp_on bp && teqb (fst (snd y)) (show_instr (u_ftos U) (snd (snd y))) end) (places a l)
  end.
Definition rest_of (x : change) (s : cli) : list text := match x with XText a l => skipn (S (length l)) (cl_in s) | _ => cl_in s end.
Definition enteredb (x : change) (s : cli) : bool :=
  match x with
  | XText a l => forallb (fun t => match t with [] => false | _ => true end) (map fst l) && forallb (fun q => teqb (fst q) (snd q)) (combine (firstn (S (length l)) (cl_in s)) (map fst l ++ [[]])) &&
      (length l <? length (cl_in s))%nat
  | _ => true
  end.
Fixpoint work (l : list (text * task)) (s : cli) : option cli :=
  match l with
  | [] => Some s
  | (t, TOrder o) :: l' => match go P [t] [o] s with Some s1 => work l' s1 | None => None end
  | (t, TChange x) :: l' => match command_line P t s with Done _ s1 => if readyb (cl_setup s) x (cl_native s) && enteredb x s && quiet_since s s1 then work l' s1 else None | _ => None end
  end.
Definition written (x : text * task) : Prop := exists ws, typed (fst x) ws /\ match snd x with TOrder o => reads ws o | TChange y => alters ws y end.
Lemma ready_dec : forall U x N, readyb U x N = true -> ready U x N.
Proof.
  intros U [rg z|a vs|a l] N H; cbn [ready readyb] in *; [exact I| |].
  - intros r c k E Hk. rewrite E in H. cbn [stopped k_host] in H. rewrite forallb_forall in H. specialize (H k). rewrite in_seq in H. specialize (H ltac:(lia)). unfold DbgSpec.quiet.
    destruct (mws_vec _); [|discriminate]. destruct (aget _ _); [discriminate|]. now split.
  - intros b t i Hi. rewrite forallb_forall in H. specialize (H _ Hi). cbn [fst snd] in H. destruct (zget (n_bps N) b) as [bp|]; [|exact I].
    apply andb_true_iff in H. destruct H as [H1 H2]. split; [exact H1|now apply teqb_eq].
Qed.
Lemma same_texts : forall u w : list text, length u = length w -> forallb (fun q => teqb (fst q) (snd q)) (combine u w) = true -> u = w.
Proof.
  intros u. induction u as [|a u IH]; intros [|b w] L H; try discriminate; [reflexivity|].
  cbn [combine forallb fst snd] in H. apply andb_true_iff in H. destruct H as [H1 H2]. f_equal; [now apply teqb_eq|apply IH; [now injection L|exact H2]].
Qed.
Lemma entered_dec : forall x s, enteredb x s = true -> entered x s (rest_of x s).
Proof.
  intros [rg z|a vs|a l] s H; cbn [entered enteredb rest_of] in *; [reflexivity|reflexivity|]. apply andb_true_iff in H. destruct H as [H H3]. apply andb_true_iff in H. destruct H as [H1 H2]. split.
  - rewrite <- (firstn_skipn (S (length l)) (cl_in s)) at 1. change (?a ++ [] :: ?b) with (a ++ [[]] ++ b). rewrite app_assoc. f_equal.
    assert (L : length (firstn (S (length l)) (cl_in s)) = length (map fst l ++ [[]])) by (rewrite firstn_length, app_length, map_length; cbn [length]; apply Nat.ltb_lt in H3; fold text; lia).
    exact (same_texts _ _ L H2).
  - intros I. rewrite forallb_forall in H1. now specialize (H1 _ I).
Qed.
Lemma work_worked : forall l s s1, Forall written l -> work l s = Some s1 -> worked P (map fst l) s (map snd l) s1.
Proof.
  intros l. induction l as [|[t [o|x]] l IH]; intros s s1 H W; cbn [work map fst snd] in *; [injection W as <-; constructor| |]; inversion H as [|? ? (ws & H1 & H2) H3]; subst; cbn [fst snd] in *.
  - destruct (go P [t] [o] s) as [s2|] eqn:G; [|discriminate]. apply go_went in G; [|constructor; [now exists ws|constructor]]. inversion G; subst. match goal with K : went P [] _ [] _ |- _ => inversion K; subst end.
    econstructor; eauto.
  - destruct (command_line P t s) as [[] s2| | |] eqn:C; try discriminate. destruct (_ && _) eqn:B; [|discriminate]. apply andb_true_iff in B. destruct B as [B B3]. apply andb_true_iff in B. destruct B as [B1 B2].
    econstructor; [exact H1|exact H2|now apply entered_dec|now apply ready_dec|exact C| |now apply IH].
    unfold quiet_since in B3. rewrite forallb_forall in B3. intros I. now specialize (B3 _ I).
Qed.
End Work.

(** The program of C91 in the function: R0 becomes 41, two cells are filled, and the
    instruction at the breakpoint becomes an addition. A step then adds 1 to the 41, and the
    listing has the new instruction, still with its breakpoint. *)
Definition i97 : instr := IBin BADD (R 0) (R 0) (OImm 1) false.
Definition lines97 : list (string * task) := [("b iset 4", TOrder (ODo (DCall (KBp (OpSet 4))))); ("c", TOrder (ODo (DCall KContinue))); ("register set R0 41", TChange (XReg (R 0) 41));
  ("memory set 0 9 10", TChange (XMem 0 [9; 10])); ("assemble inter 4", TChange (XText 4 [(str "ADD R0, 1", i97)])); ("is", TOrder (ODo (DCall KStep)))]%string.
Definition typed97 : list (text * task) := map (fun x => (str (fst x), snd x)) lines97.
Definition cli97 : cli := cset_in cli91 [str "ADD R0, 1"; []; str "quit"].
Notation at97 := (work front84 typed97 cli97).
Example C97_case : u_local U84 = true /\ debuggee U84 cfg1 prog81 [7; 8] [65; 10] (booted cfg1 prog81 [7; 8] [65; 10]) /\ mapped source91 /\
  at_begin U84 source91 (booted cfg1 prog81 [7; 8] [65; 10]) cli97 /\ tasks_usable U84 source91 (map snd typed97) prog81 /\ Forall task_no_watch (map snd typed97) /\
  exists s1, worked front84 (map fst typed97) cli97 (map snd typed97) s1 /\ cl_in s1 = [str "quit"] /\
    new_since s1 (command_line front84 (str "register get R0") s1) = Some (screen ["42"%string]) /\
    new_since s1 (command_line front84 (str "disas function f") s1) = Some (screen ["@     4:  ADD R0, 1"; " ->   5:  RET"]%string).
Proof.
  destruct (case81 [DCall (KBp (OpSet 4)); DCall KContinue]) as (D1 & D2 & D3 & D4); [repeat constructor; cbn; lia|].
  split; [reflexivity|]. split; [destruct D1; constructor; assumption|]. split; [exact D2|]. split; [constructor; reflexivity|].
  split.
  { cbn [typed97 lines97 map fst snd tasks_usable order_usable]. split; [exact (Forall_inv D3)|]. split; [exact (Forall_inv (Forall_inv_tail D3))|]. split; [lia|]. split; [cbn; lia|].
    split; [apply Forall_cons; [cbn [fst snd]; split; [reflexivity|split; [reflexivity|]]; intros I; cbn in I; repeat (destruct I as [I|I]; [discriminate I|]); exact I|apply Forall_nil]|].
    split; [constructor; [|constructor]; cbn [snd]; split; [cbn; unfold fits; lia|]; split; [cbn; discriminate|discriminate]|]. split; [exact I|exact I]. }
  split; [repeat constructor|].
  assert (T : forall ws, forallb wordb ws = true -> typed (join ws [SPACE]) ws) by (intros ws A; apply typed_words; rewrite forallb_forall in A; apply Forall_forall; intros w I; now apply wordb_ok, A).
  assert (W : Forall written typed97).
  { unfold typed97, lines97. cbn [map fst snd].
    constructor; [exists [str "b"; str "iset"; str "4"]; split; [apply (T [str "b"; str "iset"; str "4"]); reflexivity|]|].
    { eapply (rd_at (str "b") (str "iset") 4 [] "iset"); [apply stands_dec; [reflexivity|discriminate]|apply stands_dec; [reflexivity|discriminate]|now left|lia]. }
    constructor; [exists [str "c"]; split; [apply (T [str "c"]); reflexivity|apply rd_continue, stands_dec; [reflexivity|discriminate]]|].
    constructor; [exists [str "register"; str "set"; str "R0"; str "41"]; split; [apply (T [str "register"; str "set"; str "R0"; str "41"]); reflexivity|]|].
    { apply (al_register (str "register") (str "set") (R 0) 41 []); [apply stands_dec; [reflexivity|discriminate]|apply stands_dec; [reflexivity|discriminate]|unfold fits; lia]. }
    constructor; [exists [str "memory"; str "set"; str "0"; str "9"; str "10"]; split; [apply (T [str "memory"; str "set"; str "0"; str "9"; str "10"]); reflexivity|]|].
    { apply (al_memory (str "memory") (str "set") 0 9 [10]); [apply stands_dec; [reflexivity|discriminate]|apply stands_dec; [reflexivity|discriminate]|lia|cbn; lia|repeat constructor; unfold fits; lia]. }
    constructor; [exists [str "assemble"; str "inter"; str "4"]; split; [apply (T [str "assemble"; str "inter"; str "4"]); reflexivity|]|].
    { apply (al_text (str "assemble") (str "inter") 4 _ []); [apply stands_dec; [reflexivity|discriminate]|apply stands_dec; [reflexivity|discriminate]|lia]. }
    constructor; [exists [str "is"]; split; [apply (T [str "is"]); reflexivity|apply rd_istep, stands_dec; [reflexivity|discriminate]]|constructor]. }
  assert (K : option_map (fun s => (cl_in s, new_since s (command_line front84 (str "register get R0") s), new_since s (command_line front84 (str "disas function f") s))) at97 =
    Some ([str "quit"], Some (screen ["42"%string]), Some (screen ["@     4:  ADD R0, 1"; " ->   5:  RET"]%string))) by (vm_compute; reflexivity).
  destruct at97 as [s1|] eqn:E; [|discriminate K]. exists s1. cbn [option_map] in K. split; [exact (work_worked front84 typed97 cli97 s1 W E)|]. split; [congruence|]. split; congruence.
Qed.

Print Assumptions C97_session.
Print Assumptions C97_assembled.
