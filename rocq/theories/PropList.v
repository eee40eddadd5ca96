(** C94 - C96: lists of breakpoints and watchpoints, and what the help texts promise. *)
From Coq Require Import Ascii String ZArith NArith List Bool Lia Sorted.
From Verif Require Import Base Text PropText PropNet StdMap Isa Alu AluSpec State IsaSpec IsaSame Lexer Asm Show AsmPrint AsmSpec PropAsm Exec Ram Writes Rat Cpu Os DbgText Spaces
  InOrder PipeInv PipeBasics PipeActs PipeMem PipeTick PipeDom PipeRun PipeBoot PipePoke Session IsaRefine DbgSpec Stops PropPipe PropDbg Client Proto PropProto Native PropBreak PropWatch
  LibSpec NatRun NatStop PropStep PropOver Src PropLines PropLineStep SrcFacts SetReg Expr Eval Info EvalFacts PropAssign Cli CliFacts PropCli Orderly PropRun PropStore PropShow.
Import ListNotations.
Open Scope Z_scope.

(** ---- specification ---- *)

(** A breakpoint is listed with its address, the source line that begins there (the last one,
    counted from 0), whether it is enabled and the function around it. *)
Inductive line_note (src : source) (a : Z) : text -> Prop :=
| ln_line : forall l, last_line src a l -> line_note src a (str ", line: " ++ show_Z l)
| ln_none : (forall l, line_to_addr src l <> Some a) -> line_note src a [].
Definition state_note (on : bool) : text := if on then str "; enabled" else str "; disabled".
Definition function_note (src : source) (a : Z) : list shown := match function_name src a with Some f => [Say Plain (str "; function: " ++ f)] | None => [] end.
Inductive entries (src : source) : list (Z * bool) -> list shown -> Prop :=
| en_nil : entries src [] []
| en_cons : forall a on bs t o, line_note src a t -> entries src bs o ->
    entries src ((a, on) :: bs) (Say Plain (str "addr: " ++ show_Z a ++ t ++ state_note on) :: function_note src a ++ Say Plain [NL] :: o).
(** The breakpoints of [m], each once, in the order of their addresses. *)
Definition all_of (m : marks) (bs : list (Z * bool)) : Prop := StronglySorted (fun x y => fst x < fst y) bs /\ forall a on, In (a, on) bs <-> m a = Some on.

(** The watched addresses, each once, in order. *)
Definition watch_list (ws : list Z) : list shown :=
  match ws with
  | [] => [Say Plain (str "No active watchpoints" ++ [NL])]
  | _ => Say Plain (str "Active watchpoints:" ++ [NL]) :: map (fun a => Say Plain (str " - address " ++ show_Z a ++ [NL])) ws
  end.

(** ---- proofs ---- *)

Lemma entries_ok : forall src bps s, mapped src -> exists o, entries src (map (fun x => (fst x, bp_on (snd x))) bps) o /\ each (list_breakpoint src) bps s = Done tt (cset_out s (cl_out s ++ o)).
Proof.
  intros src bps s SM. revert s. induction bps as [|[a b] bps IH]; intros s; [exists []; split; [constructor|cbn [each]; unfold ret; now rewrite out_nil]|].
  assert (LN : exists t, line_note src a t /\ t = match addr_to_line src a with Some l => str ", line: " ++ Cli.num l | None => [] end).
  { pose proof (C34_addr_to_line src a SM) as L. destruct (addr_to_line src a) as [l|]; eexists; (split; [|reflexivity]); [now apply ln_line|now apply ln_none]. }
  destruct LN as (t & L1 & L2).
  assert (Q : list_breakpoint src (a, b) s = Done tt (cset_out s (cl_out s ++ Say Plain (str "addr: " ++ show_Z a ++ t ++ state_note (bp_on b)) :: function_note src a ++ [Say Plain [NL]]))).
  { unfold list_breakpoint. rewrite L2. replace (str "; " ++ (if bp_on b then str "enabled" else str "disabled")) with (state_note (bp_on b)) by (now destruct (bp_on b)). unfold function_note.
    destruct (function_name src a) as [f|]; unfold then_, say, put, change, ret; cbn [cset_out cl_out]; rewrite <- !app_assoc; reflexivity. }
  cbn [each]. unfold then_ at 1. rewrite Q. destruct (IH (cset_out s (cl_out s ++ Say Plain (str "addr: " ++ show_Z a ++ t ++ state_note (bp_on b)) :: function_note src a ++ [Say Plain [NL]]))) as (o & O1 & O2). rewrite O2, out_out. cbn [cset_out cl_out].
  eexists. split; [cbn [map fst snd]; apply en_cons; [exact L1|exact O1]|]. do 2 f_equal. rewrite <- !app_assoc. cbn [app]. now rewrite <- app_assoc.
Qed.
Lemma all_ok : forall bps m, rising bps -> (forall a, m a = option_map bp_on (zget bps a)) -> all_of m (map (fun x => (fst x, bp_on (snd x))) bps).
Proof.
  intros bps m R M. split.
  - clear M. induction R as [|x l R IH F]; [constructor|]. cbn [map]. constructor; [exact IH|]. apply Forall_map. eapply Forall_impl; [|exact F]. intros y H. exact H.
  - intros a on. rewrite M. split.
    + intros I. apply in_map_iff in I. destruct I as ([k b] & E & I). injection E as <- <-. rewrite (mget_distinct Z.eqb Z.eqb_eq bps k b (rising_nodup _ _ R) I). reflexivity.
    + intros E. destruct (zget bps a) as [b|] eqn:G; [|discriminate]. injection E as <-. apply (mget_in Z.eqb Z.eqb_eq) in G. apply in_map_iff. exists (a, b). now split.
Qed.
Lemma each_say : forall A (f : A -> text) l s, each (fun x => say (f x)) l s = Done tt (cset_out s (cl_out s ++ map (fun x => Say Plain (f x)) l)).
Proof.
  intros A f l. induction l as [|x l IH]; intros s; [cbn [each map]; unfold ret; now rewrite out_nil|]. cbn [each map]. unfold then_, say at 1, put, change.
  rewrite IH, out_out. cbn [cset_out cl_out]. now rewrite <- app_assoc.
Qed.
Lemma shown_line : forall P l ws s s1, typed l ws -> ws <> [] -> handle_command P (join ws [SPACE]) s = Done tt s1 -> command_line P l s = Done tt s1.
Proof. intros P l ws s s1 Ht Hn H. now apply (line_command P l ws s (Done tt s1) Ht Hn H). Qed.

Ltac names H := repeat (apply stands_skip in H; [|discriminate]; let R := fresh "R" in destruct H as [R H]; rewrite (check_no _ _ _ _ R); clear R).
Ltac handler H w ws Hw P :=
  let h := fresh "h" in let I := fresh "I" in let E := fresh "E" in
  destruct (dispatch P w ws _ Hw H ltac:(cbn; auto 20)) as (h & I & E);
  repeat (destruct I as [I|I]; [try discriminate I; injection I as <-|]); try contradiction.

(** C94. After a session, `breakpoint list` shows exactly the breakpoints there are, with
    their states, and `watchpoint list` exactly the watched addresses; nothing else happens. *)
Theorem C94_lists : forall P U g p data input c0 src ls s os s1, debuggee U g p data input c0 -> mapped src -> at_begin U src c0 s ->
  went P ls s os s1 -> Forall (order_usable U p src) os -> Forall order_no_over os \/ Forall order_no_watch os ->
  exists v ended t, orders_spec (e_fops (u_env U)) p src os (mkView no_marks [] (isa_boot (g_ram g) data input) false, false) (news t) (v, ended) /\ cl_out s1 = cl_out s ++ t /\
    (forall l w x more, typed l (w :: x :: more) -> stands_for command_names w "breakpoint" -> stands_for breakpoint_names x "list" ->
      exists bs o, all_of (v_marks v) bs /\ entries src bs o /\ command_line P l s1 = Done tt (cset_out s1 (cl_out s1 ++ o))) /\
    (forall l w x more, typed l (w :: x :: more) -> stands_for command_names w "watchpoint" -> stands_for watchpoint_names x "list" ->
      exists ws, StronglySorted Z.lt ws /\ (forall a, In a ws <-> In a (v_watch v)) /\ command_line P l s1 = Done tt (cset_out s1 (cl_out s1 ++ watch_list ws))).
Proof.
  intros P U g p data input c0 src ls s os s1 HD SM HB H Hu Hw. pose proof HD as [PL [Hip Hty Hb] Hl Hbk R1 R2].
  pose proof (went_order _ _ _ _ _ H (begin_order _ _ _ _ HB)) as [O1 O2]. destruct HB as [B1 B2 B3 B4 B5].
  destruct (lines_ok P p src U PL (ty_fops _ _ _ _ _ Hty) (ty_prog _ _ _ _ _ Hty) Hip Hl Hbk SM ls s os s1 H (mkView no_marks [] (isa_boot (g_ram g) data input) false) false) as (v & e & t & A1 & A2 & A3); auto.
  - constructor; auto. rewrite B2. exists RBegin, c0. now apply at_start.
  - destruct Hw as [Hw|Hw]; [now left|right; now split].
  - exists v, e, t. split; [exact A1|]. split; [exact A3|]. destruct A2 as [S1 S2 S3 S4 (r & c & V)]. split.
    + intros l w x more Ht H1 H2. destruct (typed_squash _ _ Ht) as [_ Hws]. pose proof (Forall_inv Hws) as Hw1. apply Forall_inv_tail in Hws.
      destruct (entries_ok src (n_bps (cl_native s1)) s1 SM) as (o & Q1 & Q2). exists (map (fun x => (fst x, bp_on (snd x))) (n_bps (cl_native s1))), o.
      split; [apply all_ok; [exact O1|]; exact (h_marks _ _ _ _ _ _ (rs_holds _ _ _ _ _ _ _ (vw_rested _ _ _ _ _ _ V)))|]. split; [exact Q1|].
      eapply shown_line; [exact Ht|discriminate|]. handler H1 w (x :: more) Hw1 P. rewrite E by exact S2. unfold handle_breakpoint. rewrite words_split by exact Hws. names H2.
      rewrite (check_yes _ _ _ _ (stands_prefix _ _ _ H2)) by (cbn [length]; lia). unfold then_, here. rewrite S3. exact Q2.
    + intros l w x more Ht H1 H2. destruct (typed_squash _ _ Ht) as [_ Hws]. pose proof (Forall_inv Hws) as Hw1. apply Forall_inv_tail in Hws.
      exists (map fst (n_wps (cl_native s1))). split; [|split].
      * clear - O2. induction O2 as [|x l R IH F]; [constructor|]. cbn [map]. constructor; [exact IH|]. now apply Forall_map.
      * exact (vw_listed _ _ _ _ _ _ V).
      * eapply shown_line; [exact Ht|discriminate|]. handler H1 w (x :: more) Hw1 P. rewrite E by exact S2. unfold handle_watchpoint. rewrite words_split by exact Hws. names H2.
        rewrite (check_yes _ _ _ _ (stands_prefix _ _ _ H2)) by (cbn [length]; lia). unfold then_ at 1, here. destruct (n_wps (cl_native s1)) as [|y l'] eqn:W; [reflexivity|].
        unfold then_. unfold say at 1, put, change. rewrite (each_say _ (fun x : Z * nat => str " - address " ++ Cli.num (fst x) ++ [NL])), out_out. cbn [cset_out cl_out]. rewrite <- app_assoc.
        cbn [watch_list map app]. now rewrite map_map.
Qed.

(** C95, refuted. In every session, the line at which a breakpoint is listed is one less than
    the number by which the user sets it, and than the one that is announced when it is hit. *)
Theorem C95_line_refuted : forall P U g p data input c0 src ls s os s1, debuggee U g p data input c0 -> mapped src -> at_begin U src c0 s ->
  went P ls s os s1 -> Forall (order_usable U p src) os -> Forall order_no_over os \/ Forall order_no_watch os ->
  exists v ended t, orders_spec (e_fops (u_env U)) p src os (mkView no_marks [] (isa_boot (g_ram g) data input) false, false) (news t) (v, ended) /\ cl_out s1 = cl_out s ++ t /\
    forall l w x more a k on, typed l (w :: x :: more) -> stands_for command_names w "breakpoint" -> stands_for breakpoint_names x "list" ->
      v_marks v a = Some on -> last_line src a k -> 0 <= k < 2 ^ 64 - 1 ->
      (exists o, command_line P l s1 = Done tt (cset_out s1 (cl_out s1 ++ o)) /\ In (Say Plain (str "addr: " ++ show_Z a ++ str ", line: " ++ show_Z k ++ state_note on)) o) /\
      reads [w; str "set"; show_Z (k + 1)] (ODo (DLine LSet k)) /\ announced src (EvBreakpoint a) (str "Software breakpoint hit at line " ++ show_Z (k + 1)).
Proof.
  intros P U g p data input c0 src ls s os s1 HD SM HB H Hu Hw. destruct (C94_lists P U g p data input c0 src ls s os s1 HD SM HB H Hu Hw) as (v & e & t & A1 & A2 & A3 & _).
  exists v, e, t. split; [exact A1|]. split; [exact A2|]. intros l w x more a k on Ht H1 H2 M L K. split; [|split].
  - destruct (A3 l w x more Ht H1 H2) as (bs & o & [_ B] & E & C). exists o. split; [exact C|]. apply B in M. clear - M L E.
    induction E as [|a' on' bs t o N E IH]; [destruct M|]. destruct M as [M|M].
    + injection M as -> ->. left. inversion N as [k' N'|N']; subst; [|elim (N' k); apply L]. assert (k' = k) as -> by (apply Z.le_antisymm; [apply L, N'|apply N', L]). now rewrite <- app_assoc.
    + right. apply in_or_app. right. right. now apply IH.
  - apply (rd_line w (str "set") k [] "set" LSet); [exact H1|apply stands_dec; [reflexivity|discriminate]|now left|exact K].
  - apply an_line; apply L.
Qed.

(** C96, refuted. What the help says about `disassemble range` and `breakpoint unset` is wrong
    in every session: the last instruction of a range is missing, and nothing is unset. *)
Lemma listing_length : forall U p m pc a k, length (listing U p m pc a k) = (2 * k)%nat.
Proof. intros U p m pc a k. unfold listing. rewrite <- (seq_length k 0) at 2. generalize (seq 0 k). intros l. induction l as [|x l IH]; [reflexivity|]. cbn [flat_map app length] in *. rewrite IH. lia. Qed.
Theorem C96_range_refuted : forall P U g p data input c0 src ls s os s1, debuggee U g p data input c0 -> mapped src -> at_begin U src c0 s ->
  went P ls s os s1 -> Forall (order_usable U p src) os -> Forall order_no_over os \/ Forall order_no_watch os ->
  exists v ended t, orders_spec (e_fops (u_env U)) p src os (mkView no_marks [] (isa_boot (g_ram g) data input) false, false) (news t) (v, ended) /\ cl_out s1 = cl_out s ++ t /\
    forall l w x a b more s2, typed l (w :: x :: show_Z a :: show_Z b :: more) -> stands_for command_names w "disassemble" -> stands_for disassemble_names x "range" -> 0 <= a <= b -> b < Z.of_nat (length p) ->
      (exists ip N, get_register U (str "IP") (cl_native s1) = Done ip N) -> command_line P l s1 = Done tt s2 ->
      cl_out s2 <> cl_out s1 ++ listing U p (v_marks v) (a_pc (v_state v)) a (Z.to_nat (b - a + 1)).
Proof.
  intros P U g p data input c0 src ls s os s1 HD SM HB H Hu Hw. destruct (C91_displayed P U g p data input c0 src ls s os s1 HD SM HB H Hu Hw) as (v & e & t & A1 & A2 & A3).
  exists v, e, t. split; [exact A1|]. split; [exact A2|]. intros l w x a b more s2 Ht H1 H2 Hab Hb Hi Hc E.
  destruct (A3 l _ (LText a (b - a)) Ht (wa_text p src _ a (b - a) (li_range p src w x a b more H1 H2 (proj1 Hab) (proj2 Hab) (Z.lt_le_incl _ _ Hb))) Hi) as (o & D & C).
  rewrite C in Hc. injection Hc as <-. cbn [cset_out cl_out] in E. apply app_inv_head in E. cbn [displayed] in D. rewrite D in E. apply (f_equal (@length shown)) in E. rewrite !listing_length in E. lia.
Qed.
Theorem C96_unset_refuted : forall P l w loc more s, cl_active s = true -> typed l (w :: str "unset" :: loc :: more) -> stands_for command_names w "breakpoint" ->
  command_line P l s = Done tt (cset_out s (cl_out s ++ [Usage UBp])).
Proof.
  intros P l w loc more s A Ht H1. destruct (typed_squash _ _ Ht) as [_ Hws]. pose proof (Forall_inv Hws) as Hw1. apply Forall_inv_tail in Hws.
  eapply shown_line; [exact Ht|discriminate|]. handler H1 w (str "unset" :: loc :: more) Hw1 P. rewrite E by exact A. unfold handle_breakpoint. rewrite words_split by exact Hws.
  rewrite !(check_no (str "unset")) by reflexivity. reflexivity.
Qed.

(** ---- cases ---- *)

(** The session of C91: a breakpoint is set in the last line and has been hit. *)
Example C94_case : exists s1, at91 = Some s1 /\
  typed (str "b l") [str "b"; str "l"] /\ stands_for command_names (str "b") "breakpoint" /\ stands_for breakpoint_names (str "l") "list" /\
  new_since s1 (command_line front84 (str "b l") s1) = Some (screen ["addr: 4, line: 2; enabled; function: f"]%string) /\
  typed (str "watch list") [str "watch"; str "list"] /\ stands_for command_names (str "watch") "watchpoint" /\ stands_for watchpoint_names (str "list") "list" /\
  new_since s1 (command_line front84 (str "watch list") s1) = Some (screen ["No active watchpoints"]%string) /\ last_line source91 4 2.
Proof.
  destruct case91 as (_ & _ & _ & _ & _ & _ & s1 & E & _). exists s1. split; [exact E|].
  assert (K : option_map (fun s => (new_since s (command_line front84 (str "b l") s), new_since s (command_line front84 (str "watch list") s))) at91 =
    Some (Some (screen ["addr: 4, line: 2; enabled; function: f"]%string), Some (screen ["No active watchpoints"]%string))) by (vm_compute; reflexivity).
  rewrite E in K. cbn [option_map] in K.
  split; [apply (typed_words [str "b"; str "l"]); repeat constructor; discriminate|]. split; [apply stands_dec; [reflexivity|discriminate]|]. split; [apply stands_dec; [reflexivity|discriminate]|].
  split; [congruence|]. split; [apply (typed_words [str "watch"; str "list"]); repeat constructor; discriminate|]. split; [apply stands_dec; [reflexivity|discriminate]|]. split; [apply stands_dec; [reflexivity|discriminate]|].
  split; [congruence|]. assert (M : mapped source91) by (apply case91). pose proof (C34_addr_to_line source91 4 M) as Q. change (addr_to_line source91 4) with (Some 2) in Q. exact Q.
Qed.
Example C96_case : exists s1, at91 = Some s1 /\
  typed (str "disas range 1 3") [str "disas"; str "range"; str "1"; str "3"] /\ stands_for command_names (str "disas") "disassemble" /\ stands_for disassemble_names (str "range") "range" /\ 0 <= 1 <= 3 /\ 3 < Z.of_nat (length prog81) /\
  new_since s1 (command_line front84 (str "disas range 1 3") s1) = Some (screen ["      1:  CALL 4"; "      2:  NOP"]%string) /\
  typed (str "break unset 3") [str "break"; str "unset"; str "3"] /\ stands_for command_names (str "break") "breakpoint" /\ cl_active s1 = true.
Proof.
  destruct case91 as (_ & _ & _ & _ & _ & _ & s1 & E & _). exists s1. split; [exact E|].
  assert (K : option_map (fun s => (new_since s (command_line front84 (str "disas range 1 3") s), cl_active s)) at91 =
    Some (Some (screen ["      1:  CALL 4"; "      2:  NOP"]%string), true)) by (vm_compute; reflexivity).
  rewrite E in K. cbn [option_map] in K.
  split; [apply (typed_words [str "disas"; str "range"; str "1"; str "3"]); repeat constructor; discriminate|]. split; [apply stands_dec; [reflexivity|discriminate]|]. split; [apply stands_dec; [reflexivity|discriminate]|].
  split; [lia|]. split; [cbn; lia|]. split; [congruence|]. split; [apply (typed_words [str "break"; str "unset"; str "3"]); repeat constructor; discriminate|]. split; [apply stands_dec; [reflexivity|discriminate]|congruence].
Qed.

Print Assumptions C94_lists.
Print Assumptions C95_line_refuted.
Print Assumptions C96_range_refuted.
Print Assumptions C96_unset_refuted.
