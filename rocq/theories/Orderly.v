(** The debugger's tables of breakpoints and watchpoints are in order of addresses, whatever
    lines are typed. *)
From Coq Require Import Ascii String ZArith NArith List Bool Lia Sorted.
From Verif Require Import Base Text StdMap Isa Lexer Asm Show Exec Ram Writes Rat Cpu Os DbgText Client Native Src Expr Eval Info Cli.
Import ListNotations.
Open Scope Z_scope.

(** ---- tables ---- *)

Definition rising {V} (m : list (Z * V)) : Prop := StronglySorted (fun x y => fst x < fst y) m.

Lemma rising_put : forall V (m : list (Z * V)) k v, rising m -> rising (zput m k v).
Proof.
  unfold rising. induction m as [|[k' v'] m IH]; intros k v H; cbn [mput]; [repeat constructor|]. apply StronglySorted_inv in H. destruct H as [H1 H2].
  destruct (Z.eqb_spec k k') as [->|N]; [now constructor|]. destruct (Z.ltb_spec k k') as [L|L].
  - constructor; [now constructor|]. constructor; [exact L|]. eapply Forall_impl; [|exact H2]. intros [] ?. cbn [fst] in *. lia.
  - constructor; [now apply IH|]. apply Forall_forall. intros [x w] I.
    assert (K : In x (map fst (zput m k v))) by (apply in_map_iff; now exists (x, w)). apply (proj1 (mput_keys Z.eqb Z.ltb Z.eqb_eq m k v x)) in K.
    cbn [fst]. destruct K as [->|K]; [lia|]. apply in_map_iff in K. destruct K as ([y u] & <- & K). rewrite Forall_forall in H2. exact (H2 _ K).
Qed.
Lemma rising_filter : forall V f (m : list (Z * V)), rising m -> rising (filter f m).
Proof.
  unfold rising. induction m as [|x m IH]; intros H; [constructor|]. apply StronglySorted_inv in H. destruct H as [H1 H2]. cbn [filter].
  destruct (f x); [|now apply IH]. constructor; [now apply IH|]. apply Forall_forall. intros y I. apply filter_In in I. rewrite Forall_forall in H2. now apply H2.
Qed.
Lemma rising_erase : forall V (m : list (Z * V)) k, rising m -> rising (zerase m k).
Proof. intros V m k H. now apply rising_filter. Qed.
Lemma rising_nodup : forall V (m : list (Z * V)), rising m -> NoDup (map fst m).
Proof.
  unfold rising. induction m as [|[k v] m IH]; intros H; [constructor|]. apply StronglySorted_inv in H. destruct H as [H1 H2]. cbn [map fst]. constructor; [|now apply IH].
  intros I. apply in_map_iff in I. destruct I as ([x w] & E & I). rewrite Forall_forall in H2. specialize (H2 _ I). cbn [fst] in *. lia.
Qed.
Lemma rising_uncover : forall l m a, rising m -> rising (fst (uncover m a l)).
Proof.
  induction l as [|t l IH]; intros m a H; [exact H|]. cbn [uncover]. destruct (zget m a) as [b|].
  - specialize (IH (zput m a (mkBp t (bp_on b))) (u64 (a + 1)) (rising_put _ _ _ _ H)). now destruct (uncover _ (u64 (a + 1)) l).
  - specialize (IH m (u64 (a + 1)) H). now destruct (uncover m (u64 (a + 1)) l).
Qed.

Definition orderly (N : native) : Prop := rising (n_bps N) /\ rising (n_wps N).

(** ---- calls that keep a property ---- *)

Definition kept {S A} (I : S -> Prop) (m : act S A) : Prop := forall s, I s -> match m s with Done _ s' => I s' | Failed s' => I s' | _ => True end.

Section Kept.
Context {S : Type} (I : S -> Prop).
Lemma kept_ret : forall A (a : A), kept I (ret a).
Proof. intros A a s H. exact H. Qed.
Lemma kept_fail : forall A, kept I (@fail S A).
Proof. intros A s H. exact H. Qed.
Lemma kept_dead : forall A, kept I (@dead S A).
Proof. intros A s H. exact Logic.I. Qed.
Lemma kept_blocked : forall A, kept I (fun _ => @Blocked S A).
Proof. intros A s H. exact Logic.I. Qed.
Lemma kept_then : forall A B (m : act S A) (f : A -> act S B), kept I m -> (forall a, kept I (f a)) -> kept I (then_ m f).
Proof. intros A B m f H G s HI. unfold then_. specialize (H s HI). destruct (m s) as [a s1|s1| |]; auto. apply (G a s1 H). Qed.
Lemma kept_opt : forall A (e : act S A) o, kept I e -> kept I (opt_or e o).
Proof. intros A e [a|] H; [apply kept_ret|exact H]. Qed.
Lemma kept_each : forall A (f : A -> act S unit) l, (forall a, kept I (f a)) -> kept I (each f l).
Proof. intros A f l H. induction l as [|x l IH]; [apply kept_ret|]. cbn [each]. apply kept_then; auto. Qed.
End Kept.

Create HintDb kept.
Ltac ke1 :=
  lazymatch goal with
  | |- kept _ (ret _) => apply kept_ret
  | |- kept _ fail => apply kept_fail
  | |- kept _ dead => apply kept_dead
  | |- kept _ (fun _ => Blocked) => apply kept_blocked
  | |- kept _ (opt_or _ _) => apply kept_opt
  | |- kept _ (each _ _) => apply kept_each; intros
  | |- kept _ (then_ _ _) => apply kept_then; [|intros]
  | |- kept _ (match ?x with _ => _ end) => destruct x
  | |- kept _ (let _ := _ in _) => cbv zeta
  end.
Ltac ke := repeat first [ke1 | solve [auto 2 with kept nocore]].

(** ---- the library ---- *)

Notation tidy := (kept orderly).

Lemma tidy_get : tidy get.
Proof. intros N H. exact H. Qed.
Lemma tidy_proc : forall A (m : act link A), tidy (proc m).
Proof. intros A m N H. unfold proc. destruct (m (n_link N)); try exact I; exact H. Qed.
Lemma tidy_cache : forall e, tidy (update (fun N => set_cache N e)).
Proof. intros e N H. exact H. Qed.
Lemma tidy_put_bp : forall a b, tidy (put_bp a b).
Proof. intros a b N [H1 H2]. split; [now apply rising_put|exact H2]. Qed.
Lemma tidy_erase_bp : forall a, tidy (update (fun N => set_bps N (zerase (n_bps N) a))).
Proof. intros a N [H1 H2]. split; [now apply rising_erase|exact H2]. Qed.
Lemma tidy_put_wp : forall a i, tidy (update (fun N => set_wps N (zput (n_wps N) a i))).
Proof. intros a i N [H1 H2]. split; [exact H1|now apply rising_put]. Qed.
Lemma tidy_erase_wp : forall a, tidy (update (fun N => set_wps N (zerase (n_wps N) a))).
Proof. intros a N [H1 H2]. split; [exact H1|now apply rising_erase]. Qed.
#[global] Hint Resolve tidy_get tidy_proc tidy_cache tidy_put_bp tidy_erase_bp tidy_put_wp tidy_erase_wp : kept.

Section Native.
Variable U : setup.
Variable fuel : nat.
Lemma tidy_read_one : forall a, tidy (read_one U a).
Proof. intros a. unfold read_one. ke. Qed.
Hint Resolve tidy_read_one : kept.
Lemma tidy_create : forall a, tidy (create_breakpoint U a).
Proof. intros a. unfold create_breakpoint. ke. Qed.
Lemma tidy_the_bp : forall a, tidy (the_bp a).
Proof. intros a. unfold the_bp. ke. Qed.
Hint Resolve tidy_create tidy_the_bp : kept.
Lemma tidy_disable : forall a, tidy (disable U a).
Proof. intros a. unfold disable. ke. Qed.
Lemma tidy_enable : forall a, tidy (enable U a).
Proof. intros a. unfold enable. ke. Qed.
Lemma tidy_set : forall a, tidy (set_breakpoint U a).
Proof. intros a. unfold set_breakpoint. ke. Qed.
Hint Resolve tidy_disable tidy_enable tidy_set : kept.
Lemma tidy_unset : forall a, tidy (unset_breakpoint U a).
Proof. intros a. unfold unset_breakpoint. ke. Qed.
Lemma tidy_read_text : forall a n, tidy (nread_text U a n).
Proof. intros a n. unfold nread_text. ke. Qed.
Lemma tidy_write_text : forall a l, tidy (nwrite_text U a l).
Proof.
  intros a l. unfold nwrite_text. apply kept_then; [auto with kept|]. intros z. destruct (z <? _); [apply kept_fail|]. intros N H. unfold then_ at 1, get.
  pose proof (rising_uncover l (n_bps N) a (proj1 H)) as R. destruct (uncover (n_bps N) a l) as [m l']. cbn [fst] in R.
  unfold then_, update. apply tidy_proc. split; [exact R|apply H].
Qed.
Lemma tidy_get_register : forall n, tidy (get_register U n).
Proof. intros n. unfold get_register. ke. Qed.
Lemma tidy_set_register : forall n v, tidy (set_register U n v).
Proof. intros n v. unfold set_register. ke. Qed.
Lemma tidy_get_float : forall n, tidy (get_float_register U n).
Proof. intros n. unfold get_float_register. ke. Qed.
Lemma tidy_set_float : forall n v, tidy (set_float_register U n v).
Proof. intros n v. unfold set_float_register. ke. Qed.
Lemma tidy_get_memory : forall a n, tidy (get_memory U a n).
Proof. intros a n. unfold get_memory. ke. Qed.
Lemma tidy_set_memory : forall a l, tidy (set_memory U a l).
Proof. intros a l. unfold set_memory. ke. Qed.
Hint Resolve tidy_unset tidy_read_text tidy_write_text tidy_get_register tidy_set_register tidy_get_float tidy_set_float tidy_get_memory tidy_set_memory : kept.
Lemma tidy_ip : tidy (get_ip U).
Proof. unfold get_ip. ke. Qed.
Hint Resolve tidy_ip : kept.
Lemma tidy_event_of : forall r, tidy (event_of U r).
Proof. intros r. unfold event_of. ke. Qed.
Lemma tidy_step_back : tidy (step_back U).
Proof. unfold step_back. ke. Qed.
Hint Resolve tidy_event_of tidy_step_back : kept.
Lemma tidy_wait : tidy (wait_event U fuel).
Proof. unfold wait_event. ke. Qed.
Hint Resolve tidy_wait : kept.
Lemma tidy_raw_step : tidy (raw_step U fuel).
Proof. unfold raw_step. ke. Qed.
Hint Resolve tidy_raw_step : kept.
Lemma tidy_single_d : forall d, tidy (single_step_d U fuel d).
Proof. induction d as [|d IH]; cbn [single_step_d]; ke. Qed.
Hint Resolve tidy_single_d : kept.
Lemma tidy_single : tidy (single_step U fuel).
Proof. apply tidy_single_d. Qed.
Lemma tidy_over_breakpoint : forall a, tidy (over_breakpoint U fuel a).
Proof. intros a. unfold over_breakpoint. ke. Qed.
Hint Resolve tidy_single tidy_over_breakpoint : kept.
Lemma tidy_continue : tidy (continue_ U fuel).
Proof. unfold continue_. ke. Qed.
Hint Resolve tidy_continue : kept.
Lemma tidy_run_to : forall k a b, tidy (run_to U fuel k a b).
Proof. induction k as [|k IH]; intros a b; cbn [run_to]; ke. Qed.
Hint Resolve tidy_run_to : kept.
Lemma tidy_step_over : forall b, tidy (step_over U fuel b).
Proof. intros b. unfold step_over. ke. Qed.
Hint Resolve tidy_step_over : kept.
Lemma tidy_step_out : tidy (step_out U fuel).
Proof. unfold step_out. generalize true, fuel at 2. intros b k. revert b. induction k as [|k IH]; intros b; cbn [step_out_loop]; ke. Qed.
Lemma tidy_set_watch : forall a, tidy (set_watchpoint U a).
Proof. intros a. unfold set_watchpoint. ke. Qed.
Lemma tidy_remove_watch : forall a, tidy (remove_watchpoint U a).
Proof. intros a. unfold remove_watchpoint. ke. Qed.
Hint Resolve tidy_set_watch tidy_remove_watch : kept.
Lemma tidy_set_all : forall l, tidy (set_all_breakpoints U l).
Proof. intros l. unfold set_all_breakpoints. ke. Qed.
Lemma tidy_watch_all : forall l, tidy (set_all_watchpoints U l).
Proof. intros l. unfold set_all_watchpoints. ke. Qed.
Lemma tidy_terminate : tidy (nterminate U).
Proof. unfold nterminate. ke. Qed.

(** ---- source and values ---- *)

Lemma tidy_cell : forall a, tidy (read_cell U a).
Proof. intros a. unfold read_cell. ke. Qed.
Hint Resolve tidy_cell : kept.
Lemma tidy_loc_step : forall o s, tidy (loc_step U o s).
Proof. intros o s. unfold loc_step, add_operands, operand_value, checked. ke. Qed.
Hint Resolve tidy_loc_step : kept.
Lemma tidy_interpret : forall l, tidy (interpret U l).
Proof. intros l. unfold interpret. apply kept_then; [|intros; ke]. generalize (@nil loc). induction l as [|o l IH]; intros s; cbn [loc_run]; ke. Qed.
Hint Resolve tidy_interpret : kept.
Lemma tidy_location : forall s n, tidy (variable_location U s n).
Proof. intros s n. unfold variable_location. ke. Qed.
Lemma tidy_type : forall s n, tidy (variable_type U s n).
Proof. intros s n. unfold variable_type. ke. Qed.
Hint Resolve tidy_location tidy_type : kept.
Lemma tidy_step_in : forall s, tidy (source_step_in U fuel s).
Proof. intros s. unfold source_step_in. apply kept_then; [ke|]. generalize fuel at 2. intros k. induction k as [|k IH]; intros e; cbn [step_in_loop]; ke. Qed.
Lemma tidy_steps_over : forall s, tidy (source_step_over U fuel s).
Proof. intros s. unfold source_step_over. apply kept_then; [ke|]. generalize fuel at 2. intros k. induction k as [|k IH]; intros e; cbn [step_over_loop]; ke. Qed.
Lemma tidy_size : forall k s id, tidy (type_size k s id).
Proof. induction k as [|k IH]; intros s id; cbn [type_size]; ke. Qed.
Hint Resolve tidy_size : kept.

Variable D : dops.
Variable src : source.
Lemma tidy_raw : forall l, tidy (raw_value U l).
Proof. intros l. unfold raw_value. ke. Qed.
Hint Resolve tidy_raw : kept.
Lemma tidy_eval_type : forall k l t, tidy (eval_type U src k l t).
Proof.
  induction k as [|k IH]; intros l t; cbn [eval_type]; [ke|]. destruct t as [p n|id n|id cnt|n sz ms]; [ke|ke| |].
  - destruct l as [|v]; [ke|]. apply kept_then; [ke|]. intros mt. apply kept_then; [|intros; ke]. generalize (Z.to_nat cnt), 0. intros j. induction j as [|j IHj]; intros i; ke.
  - apply kept_then; [|intros; ke]. generalize (@nil (text * tvalue)). induction ms as [|x ms IHm]; intros acc; ke.
Qed.
Hint Resolve tidy_eval_type : kept.
Lemma tidy_deref : forall v, tidy (dereference U fuel src v).
Proof. intros v. unfold dereference. ke. Qed.
Lemma tidy_add : forall a b, tidy (add_values U fuel src a b).
Proof. intros a b. unfold add_values, checked. ke. Qed.
Lemma tidy_sub : forall a b, tidy (sub_values U fuel src a b).
Proof. intros a b. unfold sub_values, checked. ke. Qed.
Lemma tidy_arith : forall f g a b, tidy (arithmetic f g a b).
Proof. intros f g a b. unfold arithmetic, checked. ke. Qed.
Lemma tidy_compare : forall f g a b, tidy (compare_values f g a b).
Proof. intros f g a b. unfold compare_values. ke. Qed.
Lemma tidy_bits : forall f g a b, tidy (bit_values f g a b).
Proof. intros f g a b. unfold bit_values. ke. Qed.
Lemma tidy_unary : forall f a, tidy (unary_value f a).
Proof. intros f a. unfold unary_value, checked. ke. Qed.
Lemma tidy_set_raw : forall l v, tidy (set_raw U l v).
Proof. intros l v. unfold set_raw. ke. Qed.
Hint Resolve tidy_deref tidy_add tidy_sub tidy_arith tidy_compare tidy_bits tidy_unary tidy_set_raw : kept.
Lemma tidy_assign : forall a b, tidy (assign U D a b).
Proof.
  fix IH 1. intros a b. destruct a as [id sz v l|v l|v l|v l|n sz ms l|id cnt first ms l]; cbn [assign value_loc]; try (clear IH; ke; fail).
  - destruct l; [|clear IH; ke]. destruct b; try (clear IH; ke; fail). destruct (teqb _ _); [|clear IH; ke]. apply kept_then; [|clear IH; intros; ke].
    induction ms as [|[x v] ms IHm]; [apply kept_ret|]. apply kept_then; [clear; ke|]. intros y. apply kept_then; [apply IH|]. intros z. apply kept_then; [exact IHm|clear; intros; ke].
  - destruct l; [|clear IH; ke]. destruct b as [| | | | |id' cnt' first' ms' l']; try (clear IH; ke; fail). destruct (_ =? _); [|clear IH; ke]. destruct (Nat.eqb _ _); [|clear IH; ke]. apply kept_then; [|clear IH; intros; ke].
    revert ms'. induction ms as [|x ms IHm]; intros ms'; [apply kept_ret|]. destruct ms' as [|y ms']; [apply kept_ret|]. apply kept_then; [apply IH|]. intros z. apply kept_then; [apply IHm|clear; intros; ke].
Qed.
Hint Resolve tidy_assign : kept.
Lemma tidy_binary : forall op a b, tidy (binary U D fuel src op a b).
Proof. intros op a b. unfold binary. ke. Qed.
Hint Resolve tidy_binary : kept.
Lemma tidy_index : forall a b, tidy (index_value U fuel src a b).
Proof. intros a b. unfold index_value. ke. Qed.
Lemma tidy_member : forall a b, tidy (access_member a b).
Proof. intros a b. unfold access_member. ke. Qed.
Hint Resolve tidy_index tidy_member : kept.
Lemma tidy_eval : forall vs e, tidy (eval U D fuel src vs e).
Proof. intros vs e. induction e; cbn [eval]; ke. Qed.
Hint Resolve tidy_eval : kept.
Lemma tidy_evaluate : forall vs t, tidy (evaluate U D fuel src vs t).
Proof. intros vs t. unfold evaluate. ke. Qed.
End Native.
#[global] Hint Resolve tidy_disable tidy_enable tidy_set tidy_unset tidy_read_text tidy_write_text tidy_get_register tidy_set_register tidy_get_float tidy_set_float tidy_get_memory tidy_set_memory
  tidy_ip tidy_wait tidy_single tidy_continue tidy_step_over tidy_step_out tidy_set_watch tidy_remove_watch tidy_set_all tidy_watch_all tidy_terminate tidy_step_in tidy_steps_over tidy_type tidy_evaluate : kept.

(** ---- the front end ---- *)

Definition in_order (s : cli) : Prop := orderly (cl_native s).
Notation neat := (kept in_order).

Lemma neat_here : neat here.
Proof. intros s H. exact H. Qed.
Lemma neat_lib : forall A (m : setup -> act native A), (forall U, tidy (m U)) -> neat (lib m).
Proof. intros A m H s I. unfold lib. specialize (H (cl_setup s) (cl_native s) I). destruct (m (cl_setup s) (cl_native s)); exact H. Qed.
Lemma neat_change : forall f, (forall s, in_order s -> in_order (f s)) -> neat (change f).
Proof. intros f H s I. exact (H s I). Qed.
Lemma neat_put : forall x, neat (put x).
Proof. intros x s H. exact H. Qed.
Lemma neat_say : forall x, neat (say x).
Proof. intros x s H. exact H. Qed.
Lemma neat_usage : forall x, neat (usage_of x).
Proof. intros x s H. exact H. Qed.
Lemma neat_catching : forall A (m h : act cli A), neat m -> neat h -> neat (catching m h).
Proof. intros A m h H G s I. unfold catching. specialize (H s I). destruct (m s); auto. apply (G s0 H). Qed.
Lemma neat_when : forall b m, neat m -> neat (when b m).
Proof. intros [] m H; [exact H|apply kept_ret]. Qed.
#[global] Hint Resolve neat_here neat_put neat_say neat_usage : kept.

Ltac ne1 :=
  lazymatch goal with
  | |- neat (lib _) => apply neat_lib; intros; ke
  | |- neat (when _ _) => apply neat_when
  | |- neat (catching _ _) => apply neat_catching
  | |- neat (change _) => apply neat_change; intros; first [assumption | now repeat constructor]
  end.
Ltac ne := repeat first [ne1 | ke1 | solve [auto 2 with kept nocore]].

Section P.
Variable P : front.
Lemma neat_address : forall t, neat (parse_address t).
Proof. intros t. unfold parse_address. ne. Qed.
Lemma neat_type_text : forall src t, neat (type_text src t).
Proof. intros src t. unfold type_text. ne. Qed.
Lemma neat_string : forall k a, neat (memory_string k a).
Proof. induction k as [|k IH]; intros a; cbn [memory_string]; ne. Qed.
Hint Resolve neat_address neat_type_text neat_string : kept.
Lemma neat_value_type : forall src v, neat (value_type_text src v).
Proof. intros src v. unfold value_type_text. ne. Qed.
Lemma neat_value : forall src v, neat (value_text P src v).
Proof.
  intros src. fix IH 1. intros v. destruct v as [id sz a l|a l|a l|a l|n sz ms l|id cnt first ms l]; cbn [value_text]; try (clear IH; ne; fail).
  - apply kept_then; [|clear IH; intros; ne]. induction ms as [|[x v] ms IHm]; [apply kept_ret|]. apply kept_then; [apply IH|]. intros t. apply kept_then; [exact IHm|]. clear; intros; ne.
  - assert (K : neat (let* l0 := (fix all (l : list tvalue) : act cli (list text) := match l with [] => ret [] | x :: l' => let* t := value_text P src x in let* ts := all l' in ret (t :: ts) end) ms in ret (str "[" ++ join l0 comma ++ str "]"))).
    { apply kept_then; [|clear IH; intros; ne]. induction ms as [|x ms IHm]; [apply kept_ret|]. apply kept_then; [apply IH|]. intros t. apply kept_then; [exact IHm|]. clear; intros; ne. }
    destruct (last ms _); [exact K|exact K|exact K| |exact K|exact K]. clear IH. ne.
Qed.
Hint Resolve neat_value_type neat_value : kept.
Lemma neat_variable : forall src n, neat (print_variable P src n).
Proof. intros src n. unfold print_variable. ne. Qed.
Hint Resolve neat_variable : kept.
Lemma neat_function : forall a d, neat (print_function P a d).
Proof. intros a d. unfold print_function. ne. Qed.
Lemma neat_text : forall a l, neat (print_text a l).
Proof. intros a l. unfold print_text, text_line. ne. Qed.
Lemma neat_code : forall a b, neat (print_code a b).
Proof. intros a b. unfold print_code, code_line. ne. Qed.
Hint Resolve neat_function neat_text neat_code : kept.
Lemma neat_pretty_text : forall a, neat (pretty_text P a).
Proof. intros a. unfold pretty_text. ne. Qed.
Lemma neat_pretty_code : forall a, neat (pretty_code P a).
Proof. intros a. unfold pretty_code. ne. Qed.
Lemma neat_report : forall e, neat (report_event e).
Proof. intros e. unfold report_event. ne. Qed.
Lemma neat_chars : forall l, neat (print_chars l).
Proof. intros l. induction l as [|x [|y l] IH]; [apply kept_ret|cbn [print_chars]; ne|]. change (neat (say [as_char x];; print_chars (y :: l))). apply kept_then; [auto with kept|intros; exact IH]. Qed.
Hint Resolve neat_pretty_text neat_pretty_code neat_report neat_chars : kept.
Lemma neat_lines : forall k acc, neat (interactive k acc).
Proof. induction k as [|k IH]; intros acc; cbn [interactive]; ne. Qed.
Hint Resolve neat_lines : kept.
Lemma neat_handler : forall n h t, In (n, h) (commands P) -> neat (h t).
Proof.
  intros n h t H. cbn [commands In] in H.
  destruct H as [H|[H|[H|[H|[H|[H|[H|[H|[H|[H|[H|[H|[H|[H|[H|[H|H]]]]]]]]]]]]]]]]; try contradiction; injection H as <- <-;
    unfold handle_breakpoint, by_location, by_address, list_breakpoint, handle_istep, handle_inext, native_step, handle_disassemble, handle_assemble, handle_continue, report_break,
      handle_register, handle_memory, handle_watchpoint, handle_next, handle_step, source_step, handle_finish, handle_frame, handle_source, handle_expression, evaluate_keep, moving, after_move, show_place, running; ne.
Qed.
Lemma neat_with_process : forall w t, neat (with_process P w t).
Proof.
  intros w t. unfold with_process. apply kept_then; [ne|]. intros s. destruct (cl_active s); [|ne].
  destruct (find _ (commands P)) as [[n f]|] eqn:E; [|ne]. apply find_some in E. eapply neat_handler. apply (proj1 E).
Qed.
Hint Resolve neat_with_process : kept.
Lemma neat_exit : neat (exit_process P).
Proof. unfold exit_process. ne. Qed.
Lemma neat_run : forall t, neat (handle_run P t).
Proof. intros t. unfold handle_run. ne. Qed.
Lemma neat_attach : forall t, neat (handle_attach P t).
Proof. intros t. unfold handle_attach, attach_to. ne. Qed.
Lemma neat_help : forall t, neat (handle_help t).
Proof. intros t. unfold handle_help. ne. Qed.
Hint Resolve neat_exit neat_run neat_attach neat_help : kept.
(** Whatever is typed, the tables stay in order. *)
Lemma neat_line : forall l, neat (command_line P l).
Proof. intros l. unfold command_line, handle_command. destruct (squash_strip_whitespace l); ne. Qed.
End P.
Lemma neat_new : forall U i, in_order (new_cli U i).
Proof. intros. split; constructor. Qed.
