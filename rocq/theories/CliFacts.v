(** Commands that only display: they change nothing. *)
From Coq Require Import Ascii String ZArith NArith List Bool Lia.
From Verif Require Import Base Text PropText PropNet StdMap Isa Lexer Asm Show Exec Ram Writes Rat Cpu Os DbgText Client Proto PropProto Native PropBreak Src Expr Eval Info EvalFacts Cli.
Import ListNotations.
Open Scope Z_scope.

(** ---- calls of the library ---- *)

(** Nothing changes, unless the VM is lost. *)
Definition keeps {A} (m : setup -> act native A) : Prop := forall U N,
  match m U N with Done _ N' => N' = N | Failed N' => N' = N \/ u_local U = false /\ N' = lost N | _ => True end.
Definition lkeeps {A} (m : setup -> act link A) : Prop := forall U l,
  match m U l with Done _ l' => l' = l | Failed l' => l' = l \/ u_local U = false /\ l' = mkLink None true | _ => True end.

Lemma keeps_proc : forall A (m : setup -> act link A), lkeeps m -> keeps (fun U => proc (m U)).
Proof.
  intros A m H U N. unfold proc. specialize (H U (n_link N)). destruct (m U (n_link N)) as [a l|l| |]; auto.
  - subst. now rewrite set_link_same.
  - destruct H as [ -> |[H -> ]]; [left; now rewrite set_link_same|right; now split].
Qed.
Lemma keeps_then : forall A B (m : setup -> act native A) (f : setup -> A -> act native B), keeps m -> (forall a, keeps (fun U => f U a)) -> keeps (fun U => then_ (m U) (f U)).
Proof.
  intros A B m f H G U N. unfold then_. specialize (H U N). destruct (m U N) as [a N1|N1| |]; auto. subst. exact (G a U N).
Qed.
Lemma keeps_ret : forall A (a : A), keeps (fun _ => ret a).
Proof. intros A a U N. reflexivity. Qed.
Lemma keeps_fail : forall A, keeps (fun _ => @fail native A).
Proof. intros A U N. now left. Qed.
Lemma keeps_dead : forall A, keeps (fun _ => @dead native A).
Proof. intros A U N. exact I. Qed.
Lemma keeps_get : keeps (fun _ => get).
Proof. intros U N. reflexivity. Qed.
Lemma keeps_opt : forall A (o : option A) e, keeps e -> keeps (fun U => opt_or (e U) o).
Proof. intros A [a|] e H; [apply keeps_ret|exact H]. Qed.

(** Messages that ask: what they mean does not change the machine. *)
Definition asks (k : cmd) : Prop :=
  match k with CReason | CPeekText _ _ | CPeekData _ _ | CPeekRegs | CPeekFloatRegs | CPeekDebugRegs | CRegCount | CTextSize | CDataSize | CUnknown => True | _ => False end.
Definition question (t : text) : Prop := forall a b k, decode a b t = DCmd k -> asks k.
Lemma asked : forall t, question t -> forall U l,
  (exists x, ask U t l = Done x l) \/ u_local U = false /\ ask U t l = Done None (mkLink None true) \/ ask U t l = Dead \/ ask U t l = Blocked.
Proof.
  intros t Q U [h told]. unfold ask. cbn [k_host k_told]. destruct h as [[r c|stop c|ok c]|]; [|auto|destruct (u_local U); [auto|left; eexists; reflexivity]|left; eexists; reflexivity].
  destruct told; [|auto]. unfold serve. pose proof (Q (u_stod U) (u_stof U)) as Q1.
  destruct (decode (u_stod U) (u_stof U) t) as [k| |].
  - specialize (Q1 k eq_refl). destruct k; try contradiction; cbn [do_cmd bind]; try (left; eexists; reflexivity);
      match goal with |- context [match ?x with Some _ => _ | None => _ end] => destruct x end; try (left; eexists; reflexivity);
      right; destruct (u_local U); auto.
  - right. destruct (u_local U); auto.
  - right. destruct (u_local U); auto.
Qed.
Lemma lkeeps_ask : forall A t (f : setup -> option text -> act link A), question t ->
  (forall x, lkeeps (fun U => f U (Some x))) -> (forall U l, f U None l = Failed l \/ f U None l = Dead) -> lkeeps (fun U => then_ (ask U t) (f U)).
Proof.
  intros A t f Q H1 H2 U l. unfold then_. destruct (asked t Q U l) as [[[x|] -> ]|[[L -> ]|[ -> | -> ]]]; [apply H1| | |exact I|exact I].
  - destruct (H2 U l) as [ -> | -> ]; [now left|exact I].
  - destruct (H2 U (mkLink None true)) as [ -> | -> ]; [right; now split|exact I].
Qed.
Lemma lkeeps_ret : forall A (a : A), lkeeps (fun _ => ret a).
Proof. intros A a U l. reflexivity. Qed.
Lemma lkeeps_fail : forall A, lkeeps (fun _ => @fail link A).
Proof. intros A U l. now left. Qed.
Lemma lkeeps_dead : forall A, lkeeps (fun _ => @dead link A).
Proof. intros A U l. exact I. Qed.
Lemma lkeeps_opt : forall A (o : option A), lkeeps (fun U => opt_or dead o).
Proof. intros A [a|]; [apply lkeeps_ret|apply lkeeps_dead]. Qed.
Lemma lkeeps_each : forall A B (f : A -> option B) l, lkeeps (fun U => each_map (fun s => opt_or dead (f s)) l).
Proof.
  intros A B f l U L0. induction l as [|x l IH]; [reflexivity|]. cbn [each_map]. unfold then_ at 1. destruct (f x) as [y|]; cbn [opt_or]; [|exact I]. unfold ret at 1.
  unfold then_. destruct (each_map _ l L0) as [ys L|L| |]; auto.
Qed.

Lemma range_asks : forall mk args k, decode_range mk args = DCmd k -> (forall i j, asks (mk i j)) -> asks k.
Proof.
  intros mk args k E A. unfold decode_range in E. destruct args as [|a1 [|a2 args]]; try discriminate. destruct (svtoidx a1), (svtoidx a2); try discriminate. injection E as <-. apply A.
Qed.
Lemma question_text : forall a n, question (str "PEEKTEXT " ++ show_Z a ++ [SPACE] ++ show_Z n).
Proof.
  intros a n x y k. change (str "PEEKTEXT " ++ show_Z a ++ [SPACE] ++ show_Z n) with (str "PEEKTEXT" ++ SPACE :: (show_Z a ++ SPACE :: show_Z n)).
  rewrite decode_arg by (apply split_cmd; [discriminate|cbn; intuition discriminate]). intros D. apply (range_asks CPeekText _ _ D). intros; exact I.
Qed.
Lemma question_data : forall a n, question (str "PEEKDATA " ++ show_Z a ++ [SPACE] ++ show_Z n).
Proof.
  intros a n x y k. change (str "PEEKDATA " ++ show_Z a ++ [SPACE] ++ show_Z n) with (str "PEEKDATA" ++ SPACE :: (show_Z a ++ SPACE :: show_Z n)).
  rewrite decode_arg by (apply split_cmd; [discriminate|cbn; intuition discriminate]). intros D. apply (range_asks CPeekData _ _ D). intros; exact I.
Qed.
Lemma question_word : forall w, In w [str "PEEKREGS"; str "PEEKFLOATREGS"; str "PEEKDEBUGREGS"; str "TEXTSIZE"] -> question w.
Proof.
  intros w H x y k D. destruct H as [<-|[<-|[<-|[<-|[]]]]];
    [change (DCmd CPeekRegs = DCmd k) in D|change (DCmd CPeekFloatRegs = DCmd k) in D|change (DCmd CPeekDebugRegs = DCmd k) in D|change (DCmd CTextSize = DCmd k) in D]; injection D as <-; exact I.
Qed.

Lemma lkeeps_fetch : forall num t, In t [str "PEEKREGS"; str "PEEKFLOATREGS"; str "PEEKDEBUGREGS"] -> lkeeps (fun U => fetch U (num U) t).
Proof.
  intros num t H U l. unfold fetch. apply (lkeeps_ask _ t (fun U (r : option text) => match r with None => dead | Some t => opt_or dead (fetch_lines (num U) [] (split_v t NL)) end)).
  - apply question_word. cbn in *. intuition auto.
  - intros x U' l'. destruct (fetch_lines (num U') [] (split_v x NL)); [reflexivity|exact I].
  - intros. now right.
Qed.
Lemma keeps_registers : keeps (fun U => proc (fetch_registers U)).
Proof. apply keeps_proc. apply (lkeeps_fetch (fun _ => svtoi64)). cbn. auto. Qed.
Lemma keeps_float_registers : keeps (fun U => proc (fetch_float_registers U)).
Proof. apply keeps_proc. apply (lkeeps_fetch u_stof). cbn. auto. Qed.
Lemma keeps_register : forall n, keeps (fun U => get_register U n).
Proof. intros n. apply (keeps_then _ _ (fun U => proc (fetch_registers U)) (fun U regs => opt_or fail (tget regs n))); [apply keeps_registers|]. intros a. apply (keeps_opt _ _ (fun _ => fail)), keeps_fail. Qed.
Lemma keeps_float_register : forall n, keeps (fun U => get_float_register U n).
Proof. intros n. apply (keeps_then _ _ (fun U => proc (fetch_float_registers U)) (fun U regs => opt_or fail (tget regs n))); [apply keeps_float_registers|]. intros a. apply (keeps_opt _ _ (fun _ => fail)), keeps_fail. Qed.
Lemma keeps_ip : keeps get_ip.
Proof. apply (keeps_then _ _ (fun U => get_register U (str "IP")) (fun U v => ret (u64 v))); [apply keeps_register|]. intros. apply keeps_ret. Qed.
Lemma keeps_size : keeps (fun U => proc (text_size U)).
Proof.
  apply keeps_proc. intros U l. apply (lkeeps_ask _ _ (fun U (r : option text) => match r with None => fail | Some t => opt_or dead (svtou64 (skipn 9 t)) end)).
  - apply question_word. cbn. auto.
  - intros x. apply lkeeps_opt.
  - intros. now left.
Qed.
Lemma keeps_text : forall a n, keeps (fun U => nread_text U a n).
Proof.
  intros a n. apply (keeps_then _ _ (fun U => proc (text_size U)) (fun U size => if size <? u64 (a + n) then fail else let* l := proc (read_text U a n) in let* N := get in ret (covered (n_bps N) a l))); [apply keeps_size|].
  intros z U N. destruct (z <? _); [now left|]. revert U N.
  apply (keeps_then _ _ (fun U => proc (read_text U a n)) (fun U l => let* N := get in ret (covered (n_bps N) a l))).
  - apply keeps_proc. intros U l. apply (lkeeps_ask _ _ (fun U (r : option text) => match r with Some t => ret (split_v t NL) | None => fail end)).
    + apply question_text.
    + intros x. apply lkeeps_ret.
    + intros. now left.
  - intros l U N. reflexivity.
Qed.
Lemma keeps_memory : forall a n, keeps (fun U => get_memory U a n).
Proof.
  intros a n. apply (keeps_proc _ (fun U => read_memory U a n)). intros U l. unfold read_memory. destruct (u_data U <? _); [now left|]. revert U l.
  apply (lkeeps_ask _ _ (fun U (r : option text) => match r with Some t => each_map (fun s => opt_or dead (stoll s)) (split_v t NL) | None => fail end)).
  - apply question_data.
  - intros x. apply lkeeps_each.
  - intros. now left.
Qed.

(** ---- the front end ---- *)

(** Neither an error nor a stop of the debuggee is announced. *)
Definition plain_out (o : list shown) : Prop := Forall (fun x => match x with Say DarkRed _ | Err => False | _ => True end) o.
(** The same state, with more output. *)
Definition only_out (s s' : cli) : Prop := exists o, s' = cset_out s (cl_out s ++ o) /\ plain_out o.
Definition vm_lost (s s' : cli) : Prop := u_local (cl_setup s) = false /\ only_out (cset_native s (lost (cl_native s))) s'.
Definition still {A} (m : act cli A) : Prop := forall s,
  match m s with Done _ s' => only_out s s' | Failed s' => only_out s s' \/ vm_lost s s' | _ => True end.

Lemma only_refl : forall s, only_out s s.
Proof. intros s. exists []. split; [destruct s; unfold cset_out; cbn; now rewrite app_nil_r|constructor]. Qed.
Lemma only_trans : forall s1 s2 s3, only_out s1 s2 -> only_out s2 s3 -> only_out s1 s3.
Proof.
  intros s1 s2 s3 (o1 & -> & P1) (o2 & -> & P2). exists (o1 ++ o2). split; [cbn; now rewrite app_assoc|]. unfold plain_out. apply Forall_app. now split.
Qed.
Lemma only_native : forall s s', only_out s s' -> cl_native s' = cl_native s /\ cl_setup s' = cl_setup s.
Proof. intros s s' (o & -> & _). split; reflexivity. Qed.
Lemma still_then : forall A B (m : act cli A) (f : A -> act cli B), still m -> (forall a, still (f a)) -> still (then_ m f).
Proof.
  intros A B m f H G s. unfold then_. specialize (H s). destruct (m s) as [a s1|s1| |]; auto.
  destruct (only_native _ _ H) as [N1 U1]. specialize (G a s1). destruct (f a s1) as [b s2|s2| |]; auto.
  - eapply only_trans; eauto.
  - destruct G as [G|[G1 G2]]; [left; eapply only_trans; eauto|right]. rewrite U1 in G1. split; [exact G1|].
    destruct H as (o1 & -> & P1), G2 as (o2 & -> & P2). exists (o1 ++ o2). split; [cbn; now rewrite app_assoc|]. unfold plain_out. apply Forall_app. now split.
Qed.
Lemma still_ret : forall A (a : A), still (ret a).
Proof. intros A a s. apply only_refl. Qed.
Lemma still_fail : forall A, still (@fail cli A).
Proof. intros A s. left. apply only_refl. Qed.
Lemma still_dead : forall A, still (@dead cli A).
Proof. intros A s. exact I. Qed.
Lemma still_here : still here.
Proof. intros s. apply only_refl. Qed.
Lemma still_put : forall x, plain_out [x] -> still (put x).
Proof. intros x H s. exists [x]. now split. Qed.
Lemma still_say : forall t, still (say t).
Proof. intros t. apply still_put. repeat constructor. Qed.
Lemma still_usage : forall u, still (usage_of u).
Proof. intros t. apply still_put. repeat constructor. Qed.
Lemma still_lib : forall A (m : setup -> act native A), keeps m -> still (lib m).
Proof.
  intros A m H s. unfold lib. specialize (H (cl_setup s) (cl_native s)).
  assert (E : cset_native s (cl_native s) = s) by now destruct s.
  destruct (m (cl_setup s) (cl_native s)) as [a n|n| |]; auto.
  - subst. rewrite E. apply only_refl.
  - destruct H as [ -> |[H1 ->]]; [left; rewrite E; apply only_refl|right]. split; [exact H1|apply only_refl].
Qed.
Lemma still_each : forall A (f : A -> act cli unit) l, (forall a, still (f a)) -> still (each f l).
Proof. intros A f l H. induction l as [|x l IH]; [apply still_ret|]. cbn [each]. apply still_then; auto. Qed.
Lemma still_each_in : forall A (f : A -> act cli unit) l, (forall a, In a l -> still (f a)) -> still (each f l).
Proof. intros A f l H. induction l as [|x l IH]; [apply still_ret|]. cbn [each]. apply still_then; [apply H; now left|]. intros. apply IH. intros b Hb. apply H. now right. Qed.
Lemma still_when : forall b m, still m -> still (when b m).
Proof. intros [] m H; [exact H|apply still_ret]. Qed.
Lemma still_opt : forall A (e : act cli A) o, still e -> still (opt_or e o).
Proof. intros A e [a|] H; [apply still_ret|exact H]. Qed.

Create HintDb still.
Ltac st := repeat first
  [ solve [auto 2 with still nocore]
  | apply still_ret | apply still_fail | apply still_dead | apply still_here | apply still_say | apply still_usage
  | apply still_opt | apply still_when
  | apply still_lib; first [apply keeps_ip | apply keeps_text | apply keeps_size | apply keeps_memory | apply keeps_register | apply keeps_float_register | apply keeps_registers]
  | solve [apply still_put; repeat constructor]
  | apply still_each; intros
  | apply still_then; [|intros]
  | progress cbv zeta
  | match goal with |- still (match ?x with _ => _ end) => destruct x end
  | match goal with |- still (if ?x then _ else _) => destruct x end ].
Lemma mark_plain : forall bps a, plain_out [mark_of bps a].
Proof. intros bps a. unfold mark_of. destruct (zget bps a) as [b|]; [destruct (bp_on b)|]; repeat constructor. Qed.
Lemma line_mark_plain : forall src bps a, plain_out [mark_of_line src bps a].
Proof. intros src bps a. unfold mark_of_line. destruct (line_to_addr src a) as [x|]; [|repeat constructor]. destruct (addr_to_line src x); [|repeat constructor]. destruct (a =? z); [apply mark_plain|repeat constructor]. Qed.

Section P.
Variable P : front.
Lemma still_address : forall t, still (parse_address t).
Proof. intros t. unfold parse_address. st. Qed.
Hint Resolve still_address : still.
Lemma still_mark : forall bps a, still (put (mark_of bps a)).
Proof. intros. apply still_put, mark_plain. Qed.
Lemma still_line_mark : forall src bps a, still (put (mark_of_line src bps a)).
Proof. intros. apply still_put, line_mark_plain. Qed.
Hint Resolve still_mark still_line_mark : still.
Lemma still_function : forall a, still (print_function P a false).
Proof. intros a. unfold print_function. cbn [when]. st. Qed.
Hint Resolve still_function : still.
Lemma still_text : forall a l, still (print_text a l).
Proof. intros a l. unfold print_text, text_line. st. Qed.
Lemma still_code : forall a b, still (print_code a b).
Proof. intros a b. unfold print_code, code_line. st. Qed.
Hint Resolve still_text still_code : still.
Lemma still_pretty_text : forall a, still (pretty_text P a).
Proof. intros a. unfold pretty_text. st. Qed.
Lemma still_pretty_code : forall a, still (pretty_code P a).
Proof. intros a. unfold pretty_code. st. Qed.
Hint Resolve still_pretty_text still_pretty_code : still.
Lemma still_place : forall f, (forall a, still (f a)) -> still (show_place P f).
Proof. intros f H. unfold show_place. st. Qed.
Lemma still_chars : forall l, still (print_chars l).
Proof. intros l. induction l as [|x [|y l] IH]; [apply still_ret| |]; cbn [print_chars] in *; st. Qed.
Hint Resolve still_chars : still.

Lemma still_disassemble : forall t, still (handle_disassemble P t).
Proof. intros t. unfold handle_disassemble. st. Qed.
Lemma still_source : forall t, still (handle_source t).
Proof. intros t. unfold handle_source. st. Qed.
Lemma still_help : forall t, still (handle_help t).
Proof. intros t. unfold handle_help. st. Qed.

Lemma check_no : forall x l n k, is_prefix_of x (str n) = false -> check_command (x :: l) n k = false.
Proof. intros x l n k H. unfold check_command. rewrite H. apply andb_false_r. Qed.
Lemma check_yes : forall x l n k, is_prefix_of x (str n) = true -> (k <= length (x :: l))%nat -> check_command (x :: l) n k = true.
Proof. intros x l n k H L. unfold check_command. rewrite H, andb_true_r. now apply Nat.leb_le. Qed.

(** The commands that ask, by the words behind the command *)
Lemma still_register : forall t x l, split_v t SPACE = x :: l -> is_prefix_of x (str "set") = false -> is_prefix_of x (str "fset") = false \/ is_prefix_of x (str "fget") = true -> still (handle_register P t).
Proof.
  intros t x l E H1 H2. unfold handle_register. rewrite E. rewrite check_no by exact H1. destruct (check_command (x :: l) "get" 2); [st|]. destruct (check_command (x :: l) "fget" 2) eqn:E1; [st|].
  destruct H2 as [H2|H2]; [rewrite check_no by exact H2; st|]. unfold check_command in E1 |- *. rewrite H2, andb_true_r in E1.
  replace (3 <=? length (x :: l))%nat with false; [st|]. symmetry. apply Nat.leb_gt. apply Nat.leb_gt in E1. lia.
Qed.
Lemma still_registers : still (handle_register P []).
Proof. unfold handle_register. change (split_v [] SPACE) with (@nil text). st. Qed.
Lemma still_memory : forall t x l, split_v t SPACE = x :: l -> is_prefix_of x (str "set") = false -> is_prefix_of x (str "setstr") = false -> still (handle_memory t).
Proof. intros t x l E H1 H2. unfold handle_memory. rewrite E. rewrite !check_no by assumption. st. Qed.
Lemma still_breakpoints : forall t x l, split_v t SPACE = x :: l -> (forall n, In n ["iset"; "set"; "remove"; "enable"; "disable"; "idisable"; "ienable"; "iremove"]%string -> is_prefix_of x (str n) = false) -> still (handle_breakpoint t).
Proof.
  intros t x l E H. unfold handle_breakpoint. rewrite E. rewrite !check_no by (apply H; cbn; auto 10). unfold list_breakpoint. st.
Qed.
Lemma still_watchpoints : forall t x l, split_v t SPACE = x :: l -> is_prefix_of x (str "iset") = false -> is_prefix_of x (str "irem") = false -> still (handle_watchpoint t).
Proof. intros t x l E H1 H2. unfold handle_watchpoint. rewrite E. rewrite !check_no by assumption. st. Qed.
End P.
