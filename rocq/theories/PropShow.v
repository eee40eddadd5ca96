(** C91, C92: what the debugger shows of the program. *)
From Coq Require Import Ascii String ZArith NArith List Bool Lia.
From Verif Require Import Base Text PropText PropNet StdMap Isa Alu AluSpec State IsaSpec IsaSame Lexer Asm Show AsmPrint AsmSpec PropAsm Exec Ram Writes Rat Cpu Os DbgText Spaces
  InOrder PipeInv PipeBasics PipeActs PipeMem PipeTick PipeDom PipeRun PipeBoot PipePoke Session IsaRefine DbgSpec Stops PropPipe PropDbg Client Proto PropProto Native PropBreak PropWatch
  LibSpec NatRun NatStop PropStep PropOver Src PropLines PropLineStep SrcFacts SetReg Expr Eval Info EvalFacts PropAssign Cli CliFacts PropCli PropRun PropStore.
Import ListNotations.
Open Scope Z_scope.

(** ---- specification ---- *)

(** A breakpoint is marked with an @, which is red if the breakpoint is enabled. *)
Definition mark (o : option bool) : shown :=
  match o with None => Say Plain [SPACE] | Some true => Say Red (str "@") | Some false => Say Gray (str "@") end.
(** Numbers are at the right of four columns; an arrow points to the place where the
    program stands. *)
Definition wide (z : Z) : text := repeat SPACE (4 - length (show_Z z)) ++ show_Z z.
Definition pointed (here : bool) (t : text) : shown := if here then Say DarkBlue (str "->" ++ t) else Say Plain (str "  " ++ t).

(** The [k] instructions of [p] from [a] on, the program standing at [pc]. *)
Definition listing (U : setup) (p : list instr) (m : marks) (pc a : Z) (k : nat) : list shown :=
  flat_map (fun j => let b := a + Z.of_nat j in
    [mark (m b); pointed (b =? pc) (wide b ++ str ":  " ++ show_instr (u_ftos U) (prog_at p b) ++ [NL])]) (seq 0 k).

(** Lines are counted from 0. The mark of an address is at the last of the lines that begin
    there. *)
Definition line_text (src : source) (i : Z) (t : text) : Prop := exists f, so_file src = Some f /\ 0 <= i /\ nth_error f (Z.to_nat i) = Some t.
Definition last_line (src : source) (a l : Z) : Prop := line_to_addr src l = Some a /\ forall l', line_to_addr src l' = Some a -> l' <= l.
Inductive marked (src : source) (m : marks) (i : Z) : shown -> Prop :=
| mk_mark : forall a, last_line src a i -> marked src m i (mark (m a))
| mk_none : (forall a, ~ last_line src a i) -> marked src m i (mark None).
(** The lines from [i] to [i + k - 1] of the source that exist, the program standing in
    line [l]. *)
Inductive code (src : source) (m : marks) (l : option Z) : Z -> nat -> list shown -> Prop :=
| co_end : forall i, code src m l i 0 []
| co_line : forall i k t x o, line_text src i t -> marked src m i x -> code src m l (i + 1) k o ->
    code src m l i (Datatypes.S k) (x :: pointed (match l with Some c => i =? c | None => false end) (wide (i + 1) ++ str ":" ++ t ++ [NL]) :: o)
| co_none : forall i k o, (forall t, ~ line_text src i t) -> code src m l (i + 1) k o -> code src m l i (Datatypes.S k) o.

(** The function around an address, if one is known, with the variables active there. *)
Definition variables_text (names : list text) : text :=
  match names with [] => [] | _ => str "; active variables: " ++ join names (str ", ") end.
Inductive heading (src : source) (a : Z) : list shown -> Prop :=
| hd_function : forall f b e, function_name src a = Some f -> function_addr src f = Some (b, e) ->
    heading src a [Say Plain (str "function "); Say DarkGreen f; Say Plain (str " at " ++ show_Z b ++ str "-" ++ show_Z e ++ variables_text (map fst (active_variables src a)) ++ [NL])]
| hd_none : (forall f, function_name src a = Some f -> function_addr src f = None) -> heading src a [].

(** The lines around the one where the program stands, or the instructions around [pc]. *)
Inductive code_place (src : source) (m : marks) (pc : Z) : list shown -> Prop :=
| cp_line : forall l h o, last_line src pc l -> heading src pc h -> code src m (Some l) (Z.max (l - 2) 0) (Z.to_nat (l + 3 - Z.max (l - 2) 0)) o -> code_place src m pc (h ++ o).
Inductive text_place (U : setup) (p : list instr) (src : source) (m : marks) (pc : Z) : list shown -> Prop :=
| tp_text : forall h, pc < Z.of_nat (length p) -> heading src pc h ->
    text_place U p src m pc (h ++ listing U p m pc (Z.max 0 (pc - 2)) (Z.to_nat (Z.min (Z.of_nat (length p)) (pc + 3) - Z.max 0 (pc - 2))))
| tp_out : Z.of_nat (length p) <= pc -> text_place U p src m pc [].

(** What is shown after a move: instructions after a step by instructions, lines or nothing
    after a step by lines, lines or instructions after the others. *)
Definition place_of (src : source) (v : view) (other : list shown -> Prop) (o : list shown) : Prop :=
  code_place src (v_marks v) (a_pc (v_state v)) o \/ (forall l, line_to_addr src l <> Some (a_pc (v_state v))) /\ other o.
Definition place_shown (U : setup) (p : list instr) (src : source) (d : deed) (v : view) : list shown -> Prop :=
  match d with
  | DCall KStep | DCall KOver => text_place U p src (v_marks v) (a_pc (v_state v))
  | DInto | DOver => place_of src v (fun o => o = [])
  | _ => place_of src v (text_place U p src (v_marks v) (a_pc (v_state v)))
  end.
(** Why the program has stopped; completed steps are not announced. *)
Inductive stop_shown (src : source) (d : deed) : devent -> list shown -> Prop :=
| ss_step : d <> DCall KContinue -> stop_shown src d EvSinglestep []
| ss_told : forall e t, e <> EvSinglestep \/ d = DCall KContinue -> announced src e t -> stop_shown src d e [Say Plain (str "Process stopped, reason: "); Say DarkRed t; Say Plain [NL]].

(** What a line asks to be listed: [k] instructions from [a] on. *)
Definition disassemble_names : list string := ["range"; "from"; "function"]%string.
Inductive lists (p : list instr) (src : source) : list text -> Z -> Z -> Prop :=
| li_range : forall w x a b more, stands_for command_names w "disassemble" -> stands_for disassemble_names x "range" -> 0 <= a -> a <= b -> b <= Z.of_nat (length p) ->
    lists p src (w :: x :: show_Z a :: show_Z b :: more) a (b - a)
| li_from : forall w x a k more, stands_for command_names w "disassemble" -> stands_for disassemble_names x "from" -> 0 <= a -> 0 <= k -> a < Z.of_nat (length p) -> a + k <= Z.of_nat (length p) ->
    lists p src (w :: x :: show_Z a :: show_Z k :: more) a k
| li_rest : forall w x a, stands_for command_names w "disassemble" -> stands_for disassemble_names x "from" -> 0 <= a -> a < Z.of_nat (length p) ->
    lists p src [w; x; show_Z a] a (Z.of_nat (length p) - a)
| li_function : forall w x f a b more, stands_for command_names w "disassemble" -> stands_for disassemble_names x "function" ->
    function_addr src f = Some (a, b) -> 0 <= a -> a <= b -> b <= Z.of_nat (length p) -> lists p src (w :: x :: f :: more) a (b - a).

(** What a line asks to be displayed: instructions, the place in the instructions, the place
    in the source, or [k] lines of the source from the line [i] on (counted from 0). *)
Inductive look := LText (a k : Z) | LPlace | LSource | LLines (i k : Z).
Inductive wants (p : list instr) (src : source) : list text -> look -> Prop :=
| wa_text : forall ws a k, lists p src ws a k -> wants p src ws (LText a k)
| wa_place : forall w, stands_for command_names w "disassemble" -> wants p src [w] LPlace
| wa_source : forall w, stands_for command_names w "source" -> wants p src [w] LSource
| wa_lines : forall w x l k more, stands_for command_names w "source" -> stands_for ["from"%string] x "from" -> 1 <= l -> 0 <= k -> l + k < 2 ^ 63 ->
    wants p src (w :: x :: show_Z l :: show_Z k :: more) (LLines (l - 1) k)
| wa_rest : forall w x l f, stands_for command_names w "source" -> stands_for ["from"%string] x "from" -> so_file src = Some f -> 1 <= l -> l - 1 <= Z.of_nat (length f) -> Z.of_nat (length f) + 1 < 2 ^ 63 ->
    wants p src [w; x; show_Z l] (LLines (l - 1) (Z.of_nat (length f) - (l - 1))).

(** The line in which the program stands, if there is one. *)
Definition stands_in (src : source) (pc : Z) (l : option Z) : Prop :=
  match l with Some i => last_line src pc i | None => forall i, line_to_addr src i <> Some pc end.
Definition displayed (U : setup) (p : list instr) (src : source) (v : view) (k : look) (o : list shown) : Prop :=
  let m := v_marks v in let pc := a_pc (v_state v) in
  match k with
  | LText a n => o = listing U p m pc a (Z.to_nat n)
  | LPlace => text_place U p src m pc o
  | LSource => exists l, stands_in src pc l /\ match l with
      | Some i => code src m l (Z.max (i - 2) 0) (Z.to_nat (i + 3 - Z.max (i - 2) 0)) o
      | None => o = [Err]
      end
  | LLines i n => exists l, stands_in src pc l /\ code src m l i (Z.to_nat n) o
  end.

(** ---- proofs ---- *)

Section P.
Variable P : front.
Variable p : list instr.
Variable src : source.
Variable U : setup.
Hypothesis PL : prints_lines U.
Hypothesis TF : typed_fops (e_fops (u_env U)).
Hypothesis p_typed : Forall typed_instr p.
Hypothesis p_ip : Forall IsaSpec.keeps_ip p.
Hypothesis p_len : Z.of_nat (length p) < 2 ^ 63.
Hypothesis p_bkpt : Forall (fun i => i <> IBkpt) p.
Hypothesis SM : mapped src.
Notation session := (PropCli.session p src U).

Lemma out_nil : forall s, cset_out s (cl_out s ++ []) = s.
Proof. intros []. unfold cset_out. cbn. now rewrite app_nil_r. Qed.
Lemma out_out : forall s x y, cset_out (cset_out s x) y = cset_out s y.
Proof. reflexivity. Qed.
Lemma session_out : forall v e s x, session v e s -> session v e (cset_out s x).
Proof. intros v e s x []. now constructor. Qed.

Lemma lib_ip : forall v e s ip s', session v e s -> lib get_ip s = Done ip s' -> s' = s /\ ip = a_pc (v_state v) /\ 0 <= ip.
Proof.
  intros v e s ip s' [S1 _ _ _ (r & c & V)] H. unfold lib in H. rewrite S1 in H. destruct (get_ip U (cl_native s)) as [x N1|N1| |] eqn:E; try discriminate. injection H as <- <-.
  pose proof (vw_rested _ _ _ _ _ _ V) as R.
  destruct (NatRun.get_ip_ok U (cl_native s) r c (v_state v) x N1 (rs_link _ _ _ _ _ _ _ R) (rs_rests _ _ _ _ _ _ _ R) (rs_wordy _ _ _ _ _ _ _ R) E) as [-> ->].
  split; [now destruct s|]. split; [reflexivity|]. pose proof (rests_shows _ _ _ (rs_rests _ _ _ _ _ _ _ R)) as Sh. destruct (sh_pc _ _ Sh) as (v0 & _ & <-). unfold address. apply Z.mod_pos_bound. lia.
Qed.

Lemma mark_ok : forall v e s a, session v e s -> mark_of (n_bps (cl_native s)) a = mark (v_marks v a).
Proof.
  intros v e s a [_ _ _ _ (r & c & V)]. pose proof (h_marks _ _ _ _ _ _ (rs_holds _ _ _ _ _ _ _ (vw_rested _ _ _ _ _ _ V)) a) as M. unfold mark_of, mark. rewrite M.
  destruct (zget (n_bps (cl_native s)) a) as [b|]; [|reflexivity]. cbn. now destruct (bp_on b).
Qed.
Lemma reads_ok : forall v e s a k, session v e s -> 0 <= a -> 0 <= k -> a + k <= Z.of_nat (length p) ->
  lib (fun U => nread_text U a k) s = Done (map (fun j => show_instr (u_ftos U) (prog_at p (a + Z.of_nat j))) (seq 0 (Z.to_nat k))) s.
Proof.
  intros v e s a k [S1 _ _ _ (r & c & V)] A K L. pose proof (rs_holds _ _ _ _ _ _ _ (vw_rested _ _ _ _ _ _ V)) as HH. unfold lib. rewrite S1.
  rewrite (read_ok U _ PL (fun _ => True) r c p _ _ a k p_len HH) by lia. replace (cset_native s (cl_native s)) with s by (now destruct s). f_equal. unfold range. rewrite map_map. apply map_ext_in.
  intros j Hj. apply in_seq in Hj. unfold reads_at. destruct (zget (n_bps (cl_native s)) (a + Z.of_nat j)) as [b|] eqn:Z; [|reflexivity]. destruct (h_data _ _ _ _ _ _ HH _ _ Z) as [_ [X _]]. exact X.
Qed.

Lemma print_text_ok : forall v e s a k s1, session v e s -> 0 <= a -> 0 <= k -> a + k <= Z.of_nat (length p) ->
  print_text a (map (fun j => show_instr (u_ftos U) (prog_at p (a + Z.of_nat j))) (seq 0 (Z.to_nat k))) s = Done tt s1 ->
  s1 = cset_out s (cl_out s ++ listing U p (v_marks v) (a_pc (v_state v)) a (Z.to_nat k)).
Proof.
  intros v e s a k s1 HS A K L H. unfold print_text, then_ in H. destruct (lib get_ip s) as [ip s'|s'| |] eqn:E; try discriminate. destruct (lib_ip _ _ _ _ _ HS E) as (-> & -> & _). unfold here in H.
  assert (Q : forall n i s0, a + Z.of_nat (i + n) < 2 ^ 63 ->
    each (fun x => text_line (n_bps (cl_native s)) (a_pc (v_state v)) (fst x) (snd x)) (combine (map (fun k => u64 (a + Z.of_nat k)) (seq i n)) (map (fun j => show_instr (u_ftos U) (prog_at p (a + Z.of_nat j))) (seq i n))) s0 =
    Done tt (cset_out s0 (cl_out s0 ++ flat_map (fun j => let b := a + Z.of_nat j in
      [mark (v_marks v b); pointed (b =? a_pc (v_state v)) (wide b ++ str ":  " ++ show_instr (u_ftos U) (prog_at p b) ++ [NL])]) (seq i n)))).
  { clear H. induction n as [|n IH]; intros i s0 B; [cbn; now rewrite out_nil|]. cbn [seq map combine each fst snd].
    assert (u64 (a + Z.of_nat i) = a + Z.of_nat i) as -> by (unfold u64, two64; rewrite Z.mod_small; lia).
    unfold then_ at 1, text_line. rewrite (mark_ok _ _ _ _ HS). unfold put at 1, change, then_. unfold pointed, wide, pad4, num.
    destruct (a + Z.of_nat i =? a_pc (v_state v)) eqn:Ei; unfold say, put, change; rewrite IH by lia; rewrite out_out; f_equal; unfold cset_out; cbn [cl_setup cl_native cl_active cl_source cl_values cl_running cl_in cl_out]; f_equal; cbn [flat_map]; rewrite Ei; unfold pointed, wide; rewrite <- !app_assoc; reflexivity. }
  rewrite map_length, seq_length in H. unfold addresses in H. rewrite Q in H by lia. injection H as <-. reflexivity.
Qed.

Lemma done_eq : forall (s s1 : cli), Done tt s = Done tt s1 -> s = s1.
Proof. intros s s1 H. now injection H. Qed.
Lemma heading_ok : forall s a s1, cl_source s = src -> print_function P a false s = Done tt s1 -> exists h, heading src a h /\ s1 = cset_out s (cl_out s ++ h).
Proof.
  intros s a s1 S3 H. unfold print_function, then_, here in H. rewrite S3 in H. destruct (function_name src a) as [f|] eqn:F.
  2: { injection H as <-. exists []. split; [|now rewrite out_nil]. apply hd_none. congruence. }
  destruct (function_addr src f) as [[b e0]|] eqn:B.
  2: { injection H as <-. exists []. split; [|now rewrite out_nil]. apply hd_none. congruence. }
  eexists. split; [eapply hd_function; [exact F|exact B]|]. change (match map fst (active_variables src a) with [] => [] | _ :: _ => _ end) with (variables_text (map fst (active_variables src a))) in H. generalize dependent (variables_text (map fst (active_variables src a))). intros t H.
  unfold say, put, change, when, ret in H. unfold num in H. generalize dependent (show_Z b). generalize dependent (show_Z e0). intros t1 t2 H. apply done_eq in H. rewrite <- H. rewrite !out_out. cbn [cset_out cl_out]. rewrite <- !app_assoc. reflexivity.
Qed.

Lemma size_ok : forall v e s, session v e s -> lib (fun U => proc (text_size U)) s = Done (Z.of_nat (length p)) s.
Proof.
  intros v e s [S1 _ _ _ (r & c & V)]. pose proof (vw_rested _ _ _ _ _ _ V) as R. destruct (h_prog _ _ _ _ _ _ (rs_holds _ _ _ _ _ _ _ R)) as (p' & L & Lp & _).
  unfold lib, proc. rewrite S1, L, C33_text_size by (cbn [set_prog c_prog]; rewrite Lp; lia). cbn [set_prog c_prog]. rewrite Lp, <- L, set_link_same. now destruct s.
Qed.

Lemma text_place_ok : forall v e s s1, session v e s -> pretty_text P (a_pc (v_state v)) s = Done tt s1 -> 0 <= a_pc (v_state v) ->
  exists o, text_place U p src (v_marks v) (a_pc (v_state v)) o /\ s1 = cset_out s (cl_out s ++ o).
Proof.
  intros v e s s1 HS H A. set (pc := a_pc (v_state v)) in *. unfold pretty_text, then_ at 1 in H. rewrite (size_ok _ _ _ HS) in H. destruct (Z.leb_spec (Z.of_nat (length p)) pc) as [Q|Q].
  - injection H as <-. exists []. split; [now apply tp_out|now rewrite out_nil].
  - assert (B : (if 2 >? pc then 0 else pc - 2) = Z.max 0 (pc - 2)) by (destruct (Z.gtb_spec 2 pc); lia). rewrite B in H.
    assert (u64 (pc + 3) = pc + 3) as X by (unfold u64, two64; rewrite Z.mod_small; lia). rewrite X in H. set (k := Z.min (Z.of_nat (length p)) (pc + 3) - Z.max 0 (pc - 2)) in *.
    assert (u64 k = k) as X2 by (unfold u64, two64; rewrite Z.mod_small; unfold k; lia). rewrite X2 in H. unfold then_ at 1 in H. rewrite (reads_ok _ _ _ _ _ HS) in H by (unfold k; lia).
    unfold then_ in H. destruct (print_function P pc false s) as [[] s2|s2| |] eqn:E; try discriminate. destruct (heading_ok _ _ _ (se_source _ _ _ _ _ _ HS) E) as (h & Hh & ->).
    apply (print_text_ok v e) in H; [|now apply session_out|lia|unfold k; lia|unfold k; lia]. subst s1. eexists. split; [apply tp_text; [exact Q|exact Hh]|]. rewrite out_out. cbn [cset_out cl_out]. now rewrite app_assoc.
Qed.

Lemma line_text_ok : forall i, match source_line src i with Some t => line_text src i t | None => forall t, ~ line_text src i t end.
Proof.
  intros i. unfold source_line. destruct (so_file src) as [f|] eqn:F.
  2: { intros t (g & G & _). congruence. }
  unfold file_line. destruct (Z.leb_spec 0 i) as [A|A]; cbn [andb]; [|intros t (g & _ & G & _); lia]. destruct (Z.ltb_spec i (Z.of_nat (length f))) as [B|B].
  - destruct (nth_error f (Z.to_nat i)) as [t|] eqn:E; [now exists f|]. apply nth_error_None in E. lia.
  - intros t (g & G & _ & E). assert (g = f) as -> by congruence. assert (X : nth_error f (Z.to_nat i) <> None) by congruence. apply nth_error_Some in X. lia.
Qed.
Lemma last_line_ok : forall a, match addr_to_line src a with Some l => last_line src a l | None => forall l, line_to_addr src l <> Some a end.
Proof. intros a. pose proof (C34_addr_to_line src a SM) as H. destruct (addr_to_line src a); exact H. Qed.
Lemma marked_ok : forall v e s i, session v e s -> marked src (v_marks v) i (mark_of_line src (n_bps (cl_native s)) i).
Proof.
  intros v e s i HS. unfold mark_of_line. destruct (line_to_addr src i) as [a|] eqn:A.
  2: { apply mk_none. intros a [X _]. congruence. }
  pose proof (last_line_ok a) as L. destruct (addr_to_line src a) as [l|]; [|now elim (L i)].
  destruct (Z.eqb_spec i l) as [->|N]; [rewrite (mark_ok _ _ _ _ HS); now apply mk_mark|]. apply mk_none. intros a' [X Y]. assert (a' = a) as -> by congruence. apply N. apply Z.le_antisymm; [apply L, A|apply Y, L].
Qed.
Lemma code_ok : forall v e l i k b s0 s s1, session v e s0 ->
  each (fun j => code_line src (n_bps (cl_native s0)) l (i + Z.of_nat j)) (seq b k) s = Done tt s1 -> exists o, code src (v_marks v) l (i + Z.of_nat b) k o /\ s1 = cset_out s (cl_out s ++ o).
Proof.
  intros v e l i k b s0 s s1 HS. revert b s. induction k as [|k IH]; intros b s H; cbn [seq each] in H.
  - injection H as <-. exists []. split; [constructor|now rewrite out_nil].
  - unfold then_ in H. pose proof (line_text_ok (i + Z.of_nat b)) as T. unfold code_line at 1 in H. assert (X : i + Z.of_nat (Datatypes.S b) = i + Z.of_nat b + 1) by lia. destruct (source_line src (i + Z.of_nat b)) as [t|].
    + assert (Q : exists s', s' = cset_out s (cl_out s ++ [mark_of_line src (n_bps (cl_native s0)) (i + Z.of_nat b); pointed (match l with Some c => i + Z.of_nat b =? c | None => false end) (wide (i + Z.of_nat b + 1) ++ str ":" ++ t ++ [NL])]) /\
        each (fun j => code_line src (n_bps (cl_native s0)) l (i + Z.of_nat j)) (seq (Datatypes.S b) k) s' = Done tt s1).
      { eexists. split; [reflexivity|]. rewrite <- H. clear H. unfold then_, put, say, change, pointed, wide, pad4, num. destruct l as [c|]; [destruct (i + Z.of_nat b =? c)|]; unfold put, change; rewrite out_out; cbn [cset_out cl_out]; rewrite <- !app_assoc; reflexivity. }
      destruct Q as (s' & -> & Q). destruct (IH _ _ Q) as (o & C & ->). eexists. split; [apply co_line; [exact T|eapply marked_ok; exact HS|rewrite <- X; exact C]|]. rewrite out_out. cbn [cset_out cl_out]. now rewrite <- app_assoc.
    + unfold ret in H. destruct (IH _ _ H) as (o & C & ->). exists o. split; [|reflexivity]. apply co_none; [exact T|]. now rewrite <- X.
Qed.

Lemma print_code_ok : forall v e s from to s1, session v e s -> print_code from to s = Done tt s1 -> 
  exists o, code src (v_marks v) (addr_to_line src (a_pc (v_state v))) from (Z.to_nat (to - from)) o /\ s1 = cset_out s (cl_out s ++ o).
Proof.
  intros v e s from to s1 HS H. unfold print_code, then_ in H. destruct (lib get_ip s) as [ip s'|s'| |] eqn:E; try discriminate. destruct (lib_ip _ _ _ _ _ HS E) as (-> & -> & _). unfold here in H.
  rewrite (se_source _ _ _ _ _ _ HS) in H. destruct (code_ok v e _ _ _ _ _ _ _ HS H) as (o & C & ->). exists o. split; [|reflexivity]. now rewrite Z.add_0_r in C.
Qed.
Lemma code_place_ok : forall v e s l s1, session v e s -> addr_to_line src (a_pc (v_state v)) = Some l -> pretty_code P l s = Done tt s1 ->
  exists o, code_place src (v_marks v) (a_pc (v_state v)) o /\ s1 = cset_out s (cl_out s ++ o).
Proof.
  intros v e s l s1 HS L H. unfold pretty_code, then_ in H. destruct (lib get_ip s) as [ip s'|s'| |] eqn:E; try discriminate. destruct (lib_ip _ _ _ _ _ HS E) as (-> & -> & _).
  destruct (print_function P (a_pc (v_state v)) false s) as [[] s2|s2| |] eqn:F; try discriminate. destruct (heading_ok _ _ _ (se_source _ _ _ _ _ _ HS) F) as (h & Hh & ->).
  destruct (print_code_ok v e _ _ _ _ (session_out _ _ _ _ HS) H) as (o & C & ->). rewrite L in C. exists (h ++ o). split; [|rewrite out_out; cbn [cset_out cl_out]; now rewrite app_assoc].
  eapply cp_line; [|exact Hh|exact C]. pose proof (last_line_ok (a_pc (v_state v))) as Q. now rewrite L in Q.
Qed.

Lemma place_ok : forall v e s s1 f (other : list shown -> Prop), session v e s -> (forall s2, 0 <= a_pc (v_state v) -> f (a_pc (v_state v)) s = Done tt s2 -> exists o, other o /\ s2 = cset_out s (cl_out s ++ o)) ->
  show_place P f s = Done tt s1 -> exists o, place_of src v other o /\ s1 = cset_out s (cl_out s ++ o).
Proof.
  intros v e s s1 f other HS Hf H. unfold show_place, then_ in H. destruct (lib get_ip s) as [ip s'|s'| |] eqn:E; try discriminate. destruct (lib_ip _ _ _ _ _ HS E) as (-> & -> & IP). unfold here in H.
  rewrite (se_source _ _ _ _ _ _ HS) in H. pose proof (last_line_ok (a_pc (v_state v))) as L. destruct (addr_to_line src (a_pc (v_state v))) as [l|] eqn:A.
  - destruct (code_place_ok _ _ _ _ _ HS A H) as (o & C & ->). exists o. split; [now left|reflexivity].
  - destruct (Hf _ IP H) as (o & C & ->). exists o. split; [right; now split|reflexivity].
Qed.

Lemma report_shown : forall e s, is_cpu e = false -> report_event e s = Done tt (cset_out s (cl_out s ++ [Say Plain (str "Process stopped, reason: "); Say DarkRed (event_text (cl_source s) e); Say Plain [NL]])).
Proof.
  intros e s H. unfold report_event, then_, here, say, put, change. destruct e; try discriminate; unfold ret; cbn [cset_out cl_out]; rewrite !out_out, <- !app_assoc; reflexivity.
Qed.
Lemma session_like : forall v e s s', session v e s -> cl_setup s' = cl_setup s -> cl_active s' = cl_active s -> cl_source s' = cl_source s -> cl_native s' = cl_native s -> session v (negb (cl_running s')) s'.
Proof. intros v e s s' [S1 S2 S3 S4 S5] A B C D. constructor; try congruence; [now rewrite negb_involutive|now rewrite D]. Qed.

(** The end of a command that has moved the program: [always] for continue. *)
Lemma shown_after : forall d e v1 s0 s place s1, moves d -> is_cpu e = false -> session v1 (negb (cl_running s0)) s0 -> 
  (forall v' e' s2 s3, session v' e' s2 -> place s2 = Done tt s3 -> exists o, place_shown U p src d v' o /\ s3 = cset_out s2 (cl_out s2 ++ o)) ->
  s = s0 \/ s = cset_running s0 false -> (d = DCall KContinue \/ e <> EvSinglestep -> True) ->
  (if is_end e then fun s => Done tt (cset_running s false) else place) (match d, e with DCall KContinue, _ => cset_out s (cl_out s ++ [Say Plain (str "Process stopped, reason: "); Say DarkRed (event_text src e); Say Plain [NL]])
    | _, EvSinglestep => s | _, _ => cset_out s (cl_out s ++ [Say Plain (str "Process stopped, reason: "); Say DarkRed (event_text src e); Say Plain [NL]]) end) = Done tt s1 ->
  exists a o, stop_shown src d e a /\ (if is_end e then o = [] else place_shown U p src d v1 o) /\ cl_out s1 = cl_out s ++ a ++ o.
Proof.
  intros d e v1 s0 s place s1 Hd C HS HP Hs _ H. set (sA := match d with DCall KContinue => _ | _ => _ end) in H.
  assert (Q : exists a, stop_shown src d e a /\ sA = cset_out s (cl_out s ++ a)).
  { assert (N : stop_shown src d e [Say Plain (str "Process stopped, reason: "); Say DarkRed (event_text src e); Say Plain [NL]] \/ d <> DCall KContinue /\ e = EvSinglestep).
    { destruct (match e with EvSinglestep => true | _ => false end) eqn:X.
      - destruct e; try discriminate. assert (Y : d = DCall KContinue \/ d <> DCall KContinue) by (destruct d as [[]| | |]; auto; right; discriminate).
        destruct Y as [Y|Y]; [left; apply ss_told; [now right|now apply event_announced]|right; auto].
      - left. apply ss_told; [left; intros ->; discriminate|now apply event_announced]. }
    destruct N as [N|[N ->]].
    - exists (if match d, e with DCall KContinue, _ => true | _, EvSinglestep => false | _, _ => true end then [Say Plain (str "Process stopped, reason: "); Say DarkRed (event_text src e); Say Plain [NL]] else []).
      subst sA. destruct d as [[]| | |]; destruct e; try discriminate; (split; [try exact N|try reflexivity; now rewrite out_nil]); inversion N; subst; try (destruct H0; congruence); now apply ss_step.
    - exists []. subst sA. split; [now apply ss_step|]. rewrite out_nil. destruct d as [[]| | |]; try reflexivity; congruence. }
  destruct Q as (a & Qa & Es). rewrite Es in H. clear Es sA. exists a. destruct (is_end e) eqn:Ee.
  - exists []. split; [exact Qa|]. split; [reflexivity|]. injection H as <-. cbn [cset_running cset_out cl_out]. now rewrite app_nil_r.
  - assert (HS2 : session v1 (negb (cl_running (cset_out s (cl_out s ++ a)))) (cset_out s (cl_out s ++ a))) by (eapply session_like; [exact HS|destruct Hs as [ -> | -> ]; reflexivity..]).
    destruct (HP _ _ _ _ HS2 H) as (o & Po & ->). exists o. split; [exact Qa|]. split; [exact Po|]. cbn [cset_out cl_out]. now rewrite <- app_assoc.
Qed.

Ltac handled_here H w ws Hw :=
  let h := fresh "h" in let I := fresh "I" in let E := fresh "E" in
  destruct (dispatch P w ws _ Hw H ltac:(cbn; auto 20)) as (h & I & E);
  repeat (destruct I as [I|I]; [try discriminate I; injection I as <-|]); try contradiction.

(** A line that moves the program. *)
Lemma move_shown : forall l ws d v ended s s1, session v ended s -> cl_running s = true -> typed l ws -> reads ws (ODo d) -> moves d -> order_usable U p src (ODo d) -> v_watch v = [] \/ order_no_over (ODo d) ->
  command_line P l s = Done tt s1 -> ~ cpu_failed (cl_native s1) -> (exists t, cl_out s1 = cl_out s ++ t /\ ~ In Err t) ->
  exists e v1 a o, deed_spec (e_fops (u_env U)) p src d v (Saw e) v1 /\ stop_shown src d e a /\ (if is_end e then o = [] else place_shown U p src d v1 o) /\ cl_out s1 = cl_out s ++ a ++ o.
Proof.
  intros l ws d v ended s s1 HS HR Ht Hr Hd Hu Hw H Hf (t & T1 & T2). destruct (typed_squash _ _ Ht) as [Es Hws]. pose proof HS as [S1 S2 S3 S4 (r & c & S5)].
  assert (G : handle_command P (join ws [SPACE]) s = Done tt s1).
  { unfold command_line in H. rewrite Es in H. destruct (join ws [SPACE]) as [|x y] eqn:J.
    - exfalso. destruct ws as [|w ws]; [inversion Hr|]. inversion Hws as [|? ? [W _] _]; subst. destruct w; [congruence|discriminate].
    - unfold catching in H. pose proof (moves_grow P ws d Hws Hr Hd s S2) as Q. rewrite J in Q. destruct (handle_command P (x :: y) s) as [[] s2|s2| |]; try discriminate; [congruence|]. exfalso.
      unfold put, change in H. injection H as <-. destruct Q as [a Q]. cbn [cset_out cl_out] in T1. rewrite Q, <- app_assoc in T1. apply app_inv_head in T1. subst t. apply T2. apply in_or_app. right. now left. }
  clear H T1 T2 t Es Ht.
  assert (DO : forall e N', deed_did U (fr_fuel P) src d (cl_native s) (Saw e) N' -> ~ cpu_failed N' -> exists v', deed_spec (e_fops (u_env U)) p src d v (Saw e) v' /\ is_cpu e = false /\
    session v' (negb (cl_running (cset_native s N'))) (cset_native s N')).
  { intros e N' Q1 Q2. assert (Hk : fit_deed U p src d) by (assert (Q : Forall (fit_deed U p src) [d]) by (apply deeds_fit; repeat constructor; exact Hu); now inversion Q).
    destruct (deed_ok U (fr_fuel P) PL TF p p_typed p_ip p_len p_bkpt src SM d v (cl_native s) r c (Saw e) N' S5 Hk Hw Q1 Q2) as (v' & r' & c' & A1 & A2). exists v'. split; [exact A1|]. split; [eapply spec_no_cpu; exact A1|].
    constructor; auto; [now rewrite negb_involutive|now exists r', c']. }
  (* every command but continue *)
  assert (MV : forall m place, d <> DCall KContinue -> (forall N e N', m U N = Done e N' -> deed_did U (fr_fuel P) src d N (Saw e) N') -> still place ->
    (forall v' e' s2 s3, session v' e' s2 -> place s2 = Done tt s3 -> exists o, place_shown U p src d v' o /\ s3 = cset_out s2 (cl_out s2 ++ o)) ->
    (let* e := lib m in after_move e place) s = Done tt s1 ->
    exists e v1 a o, deed_spec (e_fops (u_env U)) p src d v (Saw e) v1 /\ stop_shown src d e a /\ (if is_end e then o = [] else place_shown U p src d v1 o) /\ cl_out s1 = cl_out s ++ a ++ o).
  { intros m place Hc Hm Hs HP H. unfold then_ at 1, lib in H. rewrite S1 in H. destruct (m U (cl_native s)) as [e N1|N1| |] eqn:Em; try discriminate.
    destruct (after_ok _ _ _ _ Hs H) as (o0 & E1 & _). rewrite E1 in Hf. cbn [cset_out cset_running cset_native cl_native] in Hf.
    destruct (DO _ _ (Hm _ _ _ Em) Hf) as (v1 & D1 & C & HS1). exists e, v1. unfold after_move in H. clear E1 o0.
    assert (A : (if is_end e then fun s => Done tt (cset_running s false) else place) (match d, e with DCall KContinue, _ => cset_out (cset_native s N1) (cl_out (cset_native s N1) ++ [Say Plain (str "Process stopped, reason: "); Say DarkRed (event_text src e); Say Plain [NL]])
      | _, EvSinglestep => cset_native s N1 | _, _ => cset_out (cset_native s N1) (cl_out (cset_native s N1) ++ [Say Plain (str "Process stopped, reason: "); Say DarkRed (event_text src e); Say Plain [NL]]) end) = Done tt s1).
    { rewrite <- H. unfold then_ at 1. destruct (is_single e) eqn:X; cbn [negb when].
      - destruct e; try discriminate. unfold ret. destruct d as [[]| | |]; try reflexivity. congruence.
      - rewrite report_shown by exact C. cbn [cset_native cl_source]. rewrite S3. unfold change. destruct d as [[]| | |]; destruct e; try reflexivity; discriminate. }
    destruct (shown_after d e v1 _ _ place s1 Hd C HS1 HP (or_introl eq_refl) (fun _ => I) A) as (a & o & B1 & B2 & B3). exists a, o. split; [exact D1|]. split; [exact B1|]. split; [exact B2|]. exact B3. }
  revert S1 S3. inversion Hr as [w H1|w H1|w H1|w H1|w H1|w more H1|w x a more n o H1 H2 H3 H4|w x line more n o H1 H2 H3 H4|w x a more H1 H2 H3| | | | | | |]; subst; clear Hr; inversion Hws as [|? ? Hw' Hm]; subst; try contradiction; intros S1 S3.
  - handled_here H1 w (@nil text) Hw'. rewrite E in G by exact S2. apply running_then in G. destruct G as [_ G].
    apply (MV (fun U => single_step U (fr_fuel P)) (let* ip := lib get_ip in pretty_text P ip)); [discriminate| | | |exact G].
    + intros N e N' Q. now apply dd_call, di_step.
    + apply still_then; [apply still_lib, keeps_ip|intros; apply still_pretty_text].
    + intros v' e' s2 s3 Q1 Q2. unfold then_ in Q2. destruct (lib get_ip s2) as [ip s'|s'| |] eqn:Ei; try discriminate. destruct (lib_ip _ _ _ _ _ Q1 Ei) as (-> & -> & Y). eapply text_place_ok; eassumption.
  - handled_here H1 w (@nil text) Hw'. rewrite E in G by exact S2. apply running_then in G. destruct G as [_ G].
    apply (MV (fun U => step_over U (fr_fuel P) true) (let* ip := lib get_ip in pretty_text P ip)); [discriminate| | | |exact G].
    + intros N e N' Q. now apply dd_call, di_over.
    + apply still_then; [apply still_lib, keeps_ip|intros; apply still_pretty_text].
    + intros v' e' s2 s3 Q1 Q2. unfold then_ in Q2. destruct (lib get_ip s2) as [ip s'|s'| |] eqn:Ei; try discriminate. destruct (lib_ip _ _ _ _ _ Q1 Ei) as (-> & -> & Y). eapply text_place_ok; eassumption.
  - handled_here H1 w (@nil text) Hw'. rewrite E in G by exact S2. apply running_then in G. destruct G as [_ G]. change ((let* e := lib (fun U => source_step_in U (fr_fuel P) (cl_source s)) in after_move e (show_place P (fun _ => ret tt))) s = Done tt s1) in G. rewrite S3 in G.
    apply (MV (fun U => source_step_in U (fr_fuel P) src) (show_place P (fun _ => ret tt))); [discriminate| | | |exact G].
    + intros N e N' Q. now apply dd_into.
    + apply still_place. intros. apply still_ret.
    + intros v' e' s2 s3 Q1 Q2. eapply place_ok; [exact Q1| |exact Q2]. intros s4 _ X. injection X as <-. exists []. split; [reflexivity|now rewrite out_nil].
  - handled_here H1 w (@nil text) Hw'. rewrite E in G by exact S2. apply running_then in G. destruct G as [_ G]. change ((let* e := lib (fun U => source_step_over U (fr_fuel P) (cl_source s)) in after_move e (show_place P (fun _ => ret tt))) s = Done tt s1) in G. rewrite S3 in G.
    apply (MV (fun U => source_step_over U (fr_fuel P) src) (show_place P (fun _ => ret tt))); [discriminate| | | |exact G].
    + intros N e N' Q. now apply dd_over.
    + apply still_place. intros. apply still_ret.
    + intros v' e' s2 s3 Q1 Q2. eapply place_ok; [exact Q1| |exact Q2]. intros s4 _ X. injection X as <-. exists []. split; [reflexivity|now rewrite out_nil].
  - handled_here H1 w (@nil text) Hw'. rewrite E in G by exact S2. apply running_then in G. destruct G as [_ G].
    apply (MV (fun U => step_out U (fr_fuel P)) (show_place P (pretty_text P))); [discriminate| | | |exact G].
    + intros N e N' Q. now apply dd_call, di_out.
    + apply still_place. intros. apply still_pretty_text.
    + intros v' e' s2 s3 Q1 Q2. eapply place_ok; [exact Q1| |exact Q2]. intros s4 X Y. eapply text_place_ok; eassumption.
  - handled_here H1 w more Hw'. rewrite E in G by exact S2. pose proof (continue_then P _ _ _ G) as (e & N1 & o0 & Em & E1 & _).
    apply running_then in G. destruct G as [_ G]. rewrite E1 in Hf. cbn [cset_out cset_running cset_native cl_native] in Hf. rewrite S1 in Em.
    destruct (DO e N1) as (v1 & D1 & C & HS1); [now apply dd_call, di_continue|exact Hf|]. clear E1 o0 Hf. exists e, v1.
    unfold then_ in Em. destruct (continue_ U (fr_fuel P) (cl_native s)) as [[] N0| | |] eqn:E0; try discriminate.
    unfold then_ at 1, lib at 1 in G. rewrite S1, E0 in G. unfold then_ at 1, lib at 1 in G. cbn [cset_native cl_setup cl_native] in G. rewrite S1, Em in G.
    set (sN := cset_native (cset_native s N0) N1) in G. assert (EN : sN = cset_native s N1) by reflexivity. clearbody sN. subst sN.
    set (sR := if is_end e then cset_running (cset_native s N1) false else cset_native s N1).
    assert (W : when (is_end e) (change (fun s => cset_running s false)) (cset_native s N1) = Done tt sR) by (subst sR; destruct (is_end e); reflexivity).
    unfold then_ at 1 in G. rewrite W in G. unfold then_ at 1 in G. rewrite report_shown in G by exact C. 
    assert (A : (if is_end e then fun s => Done tt (cset_running s false) else show_place P (pretty_text P)) (cset_out sR (cl_out sR ++ [Say Plain (str "Process stopped, reason: "); Say DarkRed (event_text src e); Say Plain [NL]])) = Done tt s1).
    { rewrite <- G. replace (cl_source sR) with src by (subst sR; destruct (is_end e); now cbn). unfold report_break. subst sR. destruct (is_end e); reflexivity. }
    destruct (shown_after (DCall KContinue) e v1 (cset_native s N1) sR (show_place P (pretty_text P)) s1 Hd C HS1) as (a & o & B1 & B2 & B3).
    + intros v' e' s2 s3 Q1 Q2. eapply place_ok; [exact Q1| |exact Q2]. intros s4 Y Z'. eapply text_place_ok; eassumption.
    + subst sR. destruct (is_end e); auto.
    + auto.
    + exact A.
    + exists a, o. split; [exact D1|]. split; [exact B1|]. split; [exact B2|]. rewrite B3. subst sR. destruct (is_end e); reflexivity.
Qed.

(** Displaying succeeds once the instruction pointer has been read. *)
Lemma each_done : forall A (f : A -> act cli unit) l s, (forall x s, exists s', f x s = Done tt s') -> exists s', each f l s = Done tt s'.
Proof.
  intros A f l s H. revert s. induction l as [|x l IH]; intros s; cbn [each]; [now exists s|]. unfold then_. destruct (H x s) as [s' ->]. apply IH.
Qed.
Lemma text_runs : forall v e s a t ip s', session v e s -> lib get_ip s = Done ip s' -> exists s1, print_text a t s = Done tt s1.
Proof.
  intros v e s a t ip s' HS H. unfold print_text, then_. rewrite H. unfold here. apply each_done. intros x s0. unfold text_line, then_, put, say, change. destruct (fst x =? ip); eexists; reflexivity.
Qed.
Lemma code_runs : forall s a b ip s', lib get_ip s = Done ip s' -> exists s1, print_code a b s = Done tt s1.
Proof.
  intros s a b ip s' H. unfold print_code, then_. rewrite H. unfold here. apply each_done. intros x s0. unfold code_line, then_, put, say, change, ret.
  destruct (source_line _ _); [|eexists; reflexivity]. destruct (addr_to_line _ _); [destruct (_ =? _)|]; eexists; reflexivity.
Qed.
Lemma function_runs : forall s a, exists s1, print_function P a false s = Done tt s1.
Proof.
  intros s a. unfold print_function, then_, here, ret. destruct (function_name _ _); [|eexists; reflexivity]. destruct (function_addr _ _) as [[]|]; eexists; reflexivity.
Qed.
Lemma parse_shown : forall z s, 0 <= z -> z < 2 ^ 63 -> parse_address (show_Z z) s = Done z s.
Proof. intros z s A B. now rewrite PropCli.parse_shown by lia. Qed.

Lemma text_total : forall v e s a k ip s', session v e s -> lib get_ip s = Done ip s' -> 0 <= a -> 0 <= k -> a + k <= Z.of_nat (length p) ->
  (let* l := lib (fun U => nread_text U a k) in print_text a l) s = Done tt (cset_out s (cl_out s ++ listing U p (v_marks v) (a_pc (v_state v)) a (Z.to_nat k))).
Proof.
  intros v e s a k ip s' HS Hi A K L. unfold then_. rewrite (reads_ok _ _ _ _ _ HS) by assumption.
  destruct (text_runs v e s a (map (fun j => show_instr (u_ftos U) (prog_at p (a + Z.of_nat j))) (seq 0 (Z.to_nat k))) _ _ HS Hi) as [s1 Q]. rewrite Q. f_equal. eapply print_text_ok; eassumption.
Qed.
Lemma place_total : forall v e s ip s', session v e s -> lib get_ip s = Done ip s' -> exists o, text_place U p src (v_marks v) (a_pc (v_state v)) o /\ pretty_text P (a_pc (v_state v)) s = Done tt (cset_out s (cl_out s ++ o)).
Proof.
  intros v e s ip s' HS Hi. destruct (lib_ip _ _ _ _ _ HS Hi) as (_ & Ei & A). rewrite Ei in A.
  assert (Q : exists s1, pretty_text P (a_pc (v_state v)) s = Done tt s1).
  { set (pc := a_pc (v_state v)) in *. unfold pretty_text, then_ at 1. rewrite (size_ok _ _ _ HS). destruct (Z.leb_spec (Z.of_nat (length p)) pc) as [Q|Q]; [eexists; reflexivity|].
    assert (B : (if 2 >? pc then 0 else pc - 2) = Z.max 0 (pc - 2)) by (destruct (Z.gtb_spec 2 pc); lia). rewrite B.
    assert (u64 (pc + 3) = pc + 3) as X by (unfold u64, two64; rewrite Z.mod_small; lia). rewrite X. set (k := Z.min (Z.of_nat (length p)) (pc + 3) - Z.max 0 (pc - 2)) in *.
    assert (u64 k = k) as X2 by (unfold u64, two64; rewrite Z.mod_small; unfold k; lia). rewrite X2. unfold then_ at 1. rewrite (reads_ok _ _ _ _ _ HS) by (unfold k; lia).
    unfold then_. destruct (function_runs s pc) as [s2 F]. rewrite F. destruct (heading_ok _ _ _ (se_source _ _ _ _ _ _ HS) F) as (h & _ & ->).
    assert (I : lib get_ip (cset_out s (cl_out s ++ h)) = Done ip (cset_out s (cl_out s ++ h))).
    { unfold lib in Hi |- *. cbn [cset_out cl_setup cl_native]. destruct (get_ip (cl_setup s) (cl_native s)) as [x N1|N1| |] eqn:G; try discriminate.
      destruct (lib_ip v e s x (cset_native s N1) HS) as (E2 & _); [unfold lib; now rewrite G|]. injection Hi as -> _. f_equal. apply (f_equal cl_native) in E2. cbn in E2. rewrite E2. now destruct s. }
    eapply text_runs; [apply session_out; exact HS|exact I]. }
  destruct Q as [s1 Q]. destruct (text_place_ok _ _ _ _ HS Q A) as (o & T & ->). now exists o.
Qed.
Lemma code_total : forall v e s a b ip s', session v e s -> lib get_ip s = Done ip s' ->
  exists o, code src (v_marks v) (addr_to_line src (a_pc (v_state v))) a (Z.to_nat (b - a)) o /\ print_code a b s = Done tt (cset_out s (cl_out s ++ o)).
Proof.
  intros v e s a b ip s' HS Hi. destruct (code_runs _ a b _ _ Hi) as [s1 Q]. destruct (print_code_ok _ _ _ _ _ _ HS Q) as (o & T & ->). now exists o.
Qed.
Lemma stands_in_ok : forall a, stands_in src a (addr_to_line src a).
Proof. intros a. pose proof (last_line_ok a) as H. unfold stands_in. destruct (addr_to_line src a); exact H. Qed.

Lemma display_shown : forall l ws k v ended s ip s', session v ended s -> lib get_ip s = Done ip s' -> typed l ws -> wants p src ws k ->
  exists o, displayed U p src v k o /\ command_line P l s = Done tt (cset_out s (cl_out s ++ o)).
Proof.
  intros l ws k v ended s ip s' HS Hi Ht Hk. destruct (typed_squash _ _ Ht) as [Es Hws]. pose proof HS as [S1 S2 S3 S4 _]. destruct (lib_ip _ _ _ _ _ HS Hi) as (E1 & -> & A). rewrite E1 in Hi. clear E1 s'.
  assert (N : ws <> []) by (destruct Hk as [ws a k [] | | | |]; discriminate).
  assert (G : exists o, displayed U p src v k o /\ (handle_command P (join ws [SPACE]) s = Done tt (cset_out s (cl_out s ++ o)) \/ handle_command P (join ws [SPACE]) s = Failed s /\ o = [Err])).
  2: { destruct G as (o & G1 & G2). exists o. split; [exact G1|]. unfold command_line. rewrite Es. destruct (join ws [SPACE]) as [|x y] eqn:J.
    - exfalso. destruct ws as [|w ws]; [congruence|]. inversion Hws as [|? ? [W _] _]; subst. destruct w; [congruence|discriminate].
    - unfold catching. destruct G2 as [G2|[G2 ->]]; rewrite G2; reflexivity. }
  clear Es Ht l. revert S1 S3. destruct Hk as [ws a k Hl|w H1|w H1|w x l k more H1 H2 Hl Hk Hb|w x l f H1 H2 Hf Hl Hb Hlen].
  - exists (listing U p (v_marks v) (a_pc (v_state v)) a (Z.to_nat k)). split; [reflexivity|]. left. revert S1 S3.
    destruct Hl as [w x a b more H1 H2 Ha Hab Hb|w x a k more H1 H2 Ha Hk Hal Hak|w x a H1 H2 Ha Hal|w x f a b more H1 H2 Hf Ha Hab Hb]; inversion Hws as [|? ? Hw Hm]; subst; intros S1 S3.
    + handled_here H1 w (x :: show_Z a :: show_Z b :: more) Hw. rewrite E by exact S2. unfold handle_disassemble. rewrite words_split by exact Hm.
      rewrite (check_yes _ _ _ _ (stands_prefix _ _ _ H2)) by (cbn [length]; lia). cbn [nth]. unfold then_ at 1. rewrite parse_shown by lia. unfold then_ at 1. rewrite parse_shown by lia.
      assert (u64 (b - a) = b - a) as -> by (unfold u64, two64; rewrite Z.mod_small; lia). eapply text_total; [exact HS|exact Hi|lia|lia|lia].
    + handled_here H1 w (x :: show_Z a :: show_Z k :: more) Hw. rewrite E by exact S2. unfold handle_disassemble. rewrite words_split by exact Hm.
      apply stands_skip in H2; [|discriminate]. destruct H2 as [X1 H2]. rewrite (check_no _ _ _ _ X1). rewrite (check_yes _ _ _ _ (stands_prefix _ _ _ H2)) by (cbn [length]; lia). cbn [nth nth_error].
      unfold then_ at 1. rewrite parse_shown by lia. unfold then_ at 1. rewrite (size_ok _ _ _ HS). destruct (Z.leb_spec (Z.of_nat (length p)) a); [lia|]. unfold then_ at 1. rewrite parse_shown by lia. eapply text_total; [exact HS|exact Hi|lia|lia|lia].
    + handled_here H1 w [x; show_Z a] Hw. rewrite E by exact S2. unfold handle_disassemble. rewrite words_split by exact Hm.
      apply stands_skip in H2; [|discriminate]. destruct H2 as [X1 H2]. rewrite (check_no _ _ _ _ X1). rewrite (check_yes _ _ _ _ (stands_prefix _ _ _ H2)) by (cbn [length]; lia). cbn [nth nth_error].
      unfold then_ at 1. rewrite parse_shown by lia. unfold then_ at 1. rewrite (size_ok _ _ _ HS). destruct (Z.leb_spec (Z.of_nat (length p)) a); [lia|]. unfold then_ at 1, ret. eapply text_total; [exact HS|exact Hi|lia|lia|lia].
    + handled_here H1 w (x :: f :: more) Hw. rewrite E by exact S2. unfold handle_disassemble. rewrite words_split by exact Hm.
      apply stands_skip in H2; [|discriminate]. destruct H2 as [X1 H2]. rewrite (check_no _ _ _ _ X1). apply stands_skip in H2; [|discriminate]. destruct H2 as [X2 H2]. rewrite (check_no _ _ _ _ X2).
      rewrite (check_yes _ _ _ _ (stands_prefix _ _ _ H2)) by (cbn [length]; lia). cbn [nth]. unfold then_ at 1, here. rewrite S3, Hf.
      assert (u64 (b - a) = b - a) as -> by (unfold u64, two64; rewrite Z.mod_small; lia). eapply text_total; [exact HS|exact Hi|lia|lia|lia].
  - inversion Hws as [|? ? Hw Hm]; subst; intros S1 S3. handled_here H1 w (@nil text) Hw. rewrite E by exact S2. cbn [displayed].
    destruct (place_total _ _ _ _ _ HS Hi) as (o & T & Q). exists o. split; [exact T|]. left. change (handle_disassemble P (join [] [SPACE]) s) with ((let* ip := lib get_ip in pretty_text P ip) s). unfold then_. rewrite Hi. exact Q.
  - inversion Hws as [|? ? Hw Hm]; subst; intros S1 S3. handled_here H1 w (@nil text) Hw. rewrite E by exact S2. cbn [displayed]. pose proof (stands_in_ok (a_pc (v_state v))) as SI.
    change (handle_source (join [] [SPACE]) s) with ((let* ip := lib get_ip in match addr_to_line (cl_source s) ip with None => fail | Some l => print_code (Z.max (l - 2) 0) (l + 3) end) s). unfold then_. rewrite Hi, S3.
    destruct (addr_to_line src (a_pc (v_state v))) as [l|] eqn:El.
    + destruct (code_total v ended s (Z.max (l - 2) 0) (l + 3) _ _ HS Hi) as (o & T & Q). rewrite El in T. exists o. split; [|left; exact Q]. exists (Some l). now split.
    + exists [Err]. split; [|right; split; reflexivity]. exists None. now split.
  - inversion Hws as [|? ? Hw Hm]; subst; intros S1 S3. handled_here H1 w (x :: show_Z l :: show_Z k :: more) Hw. rewrite E by exact S2. cbn [displayed]. pose proof (stands_in_ok (a_pc (v_state v))) as SI.
    destruct (code_total v ended s (l - 1) (u64 (l - 1 + k)) _ _ HS Hi) as (o & T & Q). exists o. assert (u64 (l - 1 + k) = l - 1 + k) as W by (unfold u64, two64; rewrite Z.mod_small; lia). rewrite W in T. replace (l - 1 + k - (l - 1)) with k in T by lia.
    split; [eexists; split; [exact SI|exact T]|]. left. unfold handle_source. rewrite words_split by exact Hm. unfold then_ at 1, here. rewrite (check_yes _ _ _ _ (stands_prefix _ _ _ H2)) by (cbn [length]; lia). cbn [nth nth_error].
    unfold then_ at 1. rewrite parse_shown by lia. destruct (Z.eqb_spec l 0); [lia|]. unfold then_ at 1. rewrite parse_shown by lia. exact Q.
  - inversion Hws as [|? ? Hw Hm]; subst; intros S1 S3. handled_here H1 w [x; show_Z l] Hw. rewrite E by exact S2. cbn [displayed]. pose proof (stands_in_ok (a_pc (v_state v))) as SI. set (k := Z.of_nat (length f) - (l - 1)) in *.
    destruct (code_total v ended s (l - 1) (u64 (l - 1 + k)) _ _ HS Hi) as (o & T & Q). exists o. assert (u64 (l - 1 + k) = l - 1 + k) as W by (unfold u64, two64; rewrite Z.mod_small; unfold k; lia). rewrite W in T. replace (l - 1 + k - (l - 1)) with k in T by lia.
    split; [eexists; split; [exact SI|exact T]|]. left. unfold handle_source. rewrite words_split by exact Hm. unfold then_ at 1, here. rewrite (check_yes _ _ _ _ (stands_prefix _ _ _ H2)) by (cbn [length]; lia). cbn [nth nth_error].
    unfold then_ at 1. rewrite parse_shown by lia. destruct (Z.eqb_spec l 0); [lia|]. unfold then_ at 1. rewrite S3, Hf. unfold ret. fold k. assert (u64 k = k) as -> by (unfold u64, two64; rewrite Z.mod_small; unfold k; lia). exact Q.
Qed.
End P.

(** C91. After a session, a line that asks for instructions or lines of the source displays
    them: the instructions of the program with no breakpoint in sight but its mark, the
    lines of the file, and an arrow where the program stands. Nothing else happens. *)
Theorem C91_displayed : forall P U g p data input c0 src ls s os s1, debuggee U g p data input c0 -> mapped src -> at_begin U src c0 s ->
  went P ls s os s1 -> Forall (order_usable U p src) os -> Forall order_no_over os \/ Forall order_no_watch os ->
  exists v ended t, orders_spec (e_fops (u_env U)) p src os (mkView no_marks [] (isa_boot (g_ram g) data input) false, false) (news t) (v, ended) /\ cl_out s1 = cl_out s ++ t /\
    forall l ws k, typed l ws -> wants p src ws k -> (exists ip N, get_register U (str "IP") (cl_native s1) = Done ip N) ->
    exists o, displayed U p src v k o /\ command_line P l s1 = Done tt (cset_out s1 (cl_out s1 ++ o)).
Proof.
  intros P U g p data input c0 src ls s os s1 HD SM [B1 B2 B3 B4 B5] H Hu Hw. pose proof HD as [PL [Hip Hty Hb] Hl Hbk R1 R2].
  destruct (lines_ok P p src U PL (ty_fops _ _ _ _ _ Hty) (ty_prog _ _ _ _ _ Hty) Hip Hl Hbk SM ls s os s1 H (mkView no_marks [] (isa_boot (g_ram g) data input) false) false) as (v & e & t & A1 & A2 & A3); auto.
  - constructor; auto. rewrite B2. exists RBegin, c0. now apply at_start.
  - destruct Hw as [Hw|Hw]; [now left|right; now split].
  - exists v, e, t. split; [exact A1|]. split; [exact A3|]. intros l ws k Ht Hk (ip & N & Hi).
    assert (I : lib get_ip s1 = Done (u64 ip) (cset_native s1 N)) by (unfold lib, get_ip, then_; rewrite (se_setup _ _ _ _ _ _ A2), Hi; reflexivity).
    eapply display_shown; try eassumption; exact (ty_fops _ _ _ _ _ Hty).
Qed.

(** C92. After a session, a line that moves the program shows why it has stopped and then
    where: the event it stopped with is the one of the specification, and the place shown is
    the one where the program then stands. *)
Theorem C92_moved : forall P U g p data input c0 src ls s os s1, debuggee U g p data input c0 -> mapped src -> at_begin U src c0 s ->
  went P ls s os s1 -> Forall (order_usable U p src) os -> Forall order_no_over os \/ Forall order_no_watch os ->
  exists v ended t, orders_spec (e_fops (u_env U)) p src os (mkView no_marks [] (isa_boot (g_ram g) data input) false, false) (news t) (v, ended) /\ cl_out s1 = cl_out s ++ t /\
    forall l ws d s2, typed l ws -> reads ws (ODo d) -> moves d -> cl_running s1 = true -> order_usable U p src (ODo d) -> v_watch v = [] \/ deed_no_over d ->
    command_line P l s1 = Done tt s2 -> ~ cpu_failed (cl_native s2) -> (exists t, cl_out s2 = cl_out s1 ++ t /\ ~ In Err t) ->
    exists e v1 a o, deed_spec (e_fops (u_env U)) p src d v (Saw e) v1 /\ stop_shown src d e a /\ (if is_end e then o = [] else place_shown U p src d v1 o) /\ cl_out s2 = cl_out s1 ++ a ++ o.
Proof.
  intros P U g p data input c0 src ls s os s1 HD SM [B1 B2 B3 B4 B5] H Hu Hw. pose proof HD as [PL [Hip Hty Hb] Hl Hbk R1 R2].
  destruct (lines_ok P p src U PL (ty_fops _ _ _ _ _ Hty) (ty_prog _ _ _ _ _ Hty) Hip Hl Hbk SM ls s os s1 H (mkView no_marks [] (isa_boot (g_ram g) data input) false) false) as (v & e & t & A1 & A2 & A3); auto.
  - constructor; auto. rewrite B2. exists RBegin, c0. now apply at_start.
  - destruct Hw as [Hw|Hw]; [now left|right; now split].
  - exists v, e, t. split; [exact A1|]. split; [exact A3|]. intros l ws d s2 Ht Hr Hd Hrun Hus Hov Hc Hf Hn.
    eapply (move_shown P p src U PL (ty_fops _ _ _ _ _ Hty) (ty_prog _ _ _ _ _ Hty) Hip Hl Hbk SM); eassumption.
Qed.


(** The program of C84 with its source and a function: the session up to the breakpoint in
    the function. Then a listing shows the mark of the breakpoint and the arrow, the source
    is shown, a step shows the next instructions, and going on tells that the program has
    ended. *)
Definition source91 : source := mkSource (so_lines source81) (Some [str "f();"; str "exit();"; str "f() {}"]) (Some (Die TUnit [] [Die TFunction [AName (str "f"); ABegin 4; AEnd 6] []])) [].
Definition cli91 : cli := mkCli U84 (connected (booted cfg1 prog81 [7; 8] [65; 10])) true source91 [] true [] [].
Definition lines91 : list (string * order) := [("b iset 4", ODo (DCall (KBp (OpSet 4)))); ("c", ODo (DCall KContinue))]%string.
Notation at91 := (go front84 (map (fun x => str (fst x)) lines91) (map snd lines91) cli91).
Definition says (o : list shown) : list text := map (fun x => match x with Say _ t => t | _ => str "error" end) o.
Definition new_since (s : cli) (r : out cli unit) : option text := match r with Done _ s1 => Some (concat (says (skipn (length (cl_out s)) (cl_out s1)))) | _ => None end.
Definition screen (l : list string) : text := concat (map (fun x => str x ++ [NL]) l).
Definition ip_read (s : cli) : bool := match get_register (cl_setup s) (str "IP") (cl_native s) with Done _ _ => true | _ => false end.

Lemma case91 : u_local U84 = true /\ debuggee U84 cfg1 prog81 [7; 8] [65; 10] (booted cfg1 prog81 [7; 8] [65; 10]) /\ mapped source91 /\
  at_begin U84 source91 (booted cfg1 prog81 [7; 8] [65; 10]) cli91 /\ Forall (order_usable U84 prog81 source91) (map snd lines91) /\ Forall order_no_watch (map snd lines91) /\
  exists s1, at91 = Some s1 /\ went front84 (map (fun x => str (fst x)) lines91) cli91 (map snd lines91) s1.
Proof.
  destruct (case81 (deeds_of (map snd lines91))) as (D1 & D2 & D3 & D4); [repeat constructor; cbn; lia|].
  split; [reflexivity|]. split; [destruct D1; constructor; assumption|]. split; [exact D2|]. split; [constructor; reflexivity|]. split; [apply usable_of; exact D3|]. split; [now apply no_watch_of|].
  destruct at91 as [s1|] eqn:E.
  - exists s1. split; [reflexivity|]. refine (go_went front84 _ _ _ _ _ E). clear E. unfold lines91. cbn [map fst snd].
    assert (T : forall ws o, Forall PropText.word ws -> reads ws o -> exists ws', typed (join ws [SPACE]) ws' /\ reads ws' o) by (intros ws o A B; exists ws; split; [now apply typed_words|exact B]).
    assert (W : forall ws, forallb wordb ws = true -> Forall PropText.word ws) by (intros ws A; rewrite forallb_forall in A; apply Forall_forall; intros w I; now apply wordb_ok, A).
    constructor; [apply (T [str "b"; str "iset"; str "4"]); [apply W; reflexivity|]|].
    { eapply (rd_at (str "b") (str "iset") 4 [] "iset"); [apply stands_dec; [reflexivity|discriminate]|apply stands_dec; [reflexivity|discriminate]|now left|lia]. }
    constructor; [apply (T [str "c"]); [apply W; reflexivity|]|constructor].
    apply rd_continue, stands_dec; [reflexivity|discriminate].
  - exfalso. assert (K : option_map (fun s => cl_running s) at91 = Some true) by (vm_compute; reflexivity). rewrite E in K. discriminate.
Qed.

(** The breakpoint has been shown, and the instructions and lines asked for are. *)
Example C91_case : exists s1, at91 = Some s1 /\ concat (says (cl_out s1)) =
    screen ["Breakpoint set on address 4: 'NOP'"; "Process stopped, reason: Software breakpoint hit at line 3"; "function f at 4-6"; "      1:f();"; "      2:exit();"; "@->   3:f() {}"]%string /\
  (exists ip N, get_register U84 (str "IP") (cl_native s1) = Done ip N) /\
  (typed (str "disas function f") [str "disas"; str "function"; str "f"] /\ wants prog81 source91 [str "disas"; str "function"; str "f"] (LText 4 2) /\
   new_since s1 (command_line front84 (str "disas function f") s1) = Some (screen ["@->   4:  NOP"; "      5:  RET"]%string)) /\
  (typed (str "source from 2") [str "source"; str "from"; str "2"] /\ wants prog81 source91 [str "source"; str "from"; str "2"] (LLines 1 2) /\
   new_since s1 (command_line front84 (str "source from 2") s1) = Some (screen ["      2:exit();"; "@->   3:f() {}"]%string)).
Proof.
  destruct case91 as (_ & _ & _ & _ & _ & _ & s1 & E & _). exists s1. split; [exact E|].
  assert (K : option_map (fun s => (concat (says (cl_out s)), ip_read s, new_since s (command_line front84 (str "disas function f") s), new_since s (command_line front84 (str "source from 2") s))) at91 =
    Some (screen ["Breakpoint set on address 4: 'NOP'"; "Process stopped, reason: Software breakpoint hit at line 3"; "function f at 4-6"; "      1:f();"; "      2:exit();"; "@->   3:f() {}"]%string, true,
      Some (screen ["@->   4:  NOP"; "      5:  RET"]%string), Some (screen ["      2:exit();"; "@->   3:f() {}"]%string))) by (vm_compute; reflexivity).
  assert (K2 : option_map (fun s => cl_setup s) at91 = Some U84) by (vm_compute; reflexivity).
  rewrite E in K, K2. cbn [option_map] in K, K2. assert (K3 : cl_setup s1 = U84) by congruence. clear K2.
  assert (K4 : concat (says (cl_out s1)) = screen ["Breakpoint set on address 4: 'NOP'"; "Process stopped, reason: Software breakpoint hit at line 3"; "function f at 4-6"; "      1:f();"; "      2:exit();"; "@->   3:f() {}"]%string) by congruence.
  assert (K5 : ip_read s1 = true) by congruence.
  split; [exact K4|]. split; [unfold ip_read in K5; rewrite K3 in K5; destruct (get_register _ _ _) as [ip N| | |]; [now exists ip, N|discriminate K5|discriminate K5|discriminate K5]|].
  split; (split; [|split; [|congruence]]).
  - apply (typed_words [str "disas"; str "function"; str "f"]). repeat constructor; discriminate.
  - apply wa_text. apply (li_function prog81 source91 (str "disas") (str "function") (str "f") 4 6 []); [apply stands_dec; [reflexivity|discriminate]|apply stands_dec; [reflexivity|discriminate]|reflexivity|lia|lia|cbn; lia].
  - apply (typed_words [str "source"; str "from"; str "2"]). repeat constructor; discriminate.
  - apply (wa_rest prog81 source91 (str "source") (str "from") 2 [str "f();"; str "exit();"; str "f() {}"]); [apply stands_dec; [reflexivity|discriminate]|apply stands_dec; [reflexivity|discriminate]|reflexivity|lia|cbn; lia|cbn; lia].
Qed.

(** From there, the next line is reached when the function returns. *)
Example C92_case : exists s1 s2, at91 = Some s1 /\ typed (str "next") [str "next"] /\ reads [str "next"] (ODo DOver) /\ cl_running s1 = true /\ order_usable U84 prog81 source91 (ODo DOver) /\
  command_line front84 (str "next") s1 = Done tt s2 /\ ~ cpu_failed (cl_native s2) /\ (exists t, cl_out s2 = cl_out s1 ++ t /\ ~ In Err t /\
    concat (says t) = screen ["      1:f();"; " ->   2:exit();"; "@     3:f() {}"]%string).
Proof.
  destruct case91 as (_ & _ & _ & _ & _ & _ & s1 & E & _). exists s1.
  set (f := fun s => match command_line front84 (str "next") s with
    | Done _ s2 => Some (fine (cl_native s2), forallb (fun x => match x with Err => false | _ => true end) (skipn (length (cl_out s)) (cl_out s2)), concat (says (skipn (length (cl_out s)) (cl_out s2)))) | _ => None end).
  assert (K : option_map (fun s => (f s, cl_running s)) at91 = Some (Some (true, true, screen ["      1:f();"; " ->   2:exit();"; "@     3:f() {}"]%string), true)) by (vm_compute; reflexivity).
  assert (K2 : option_map cl_active at91 = Some true) by (vm_compute; reflexivity).
  rewrite E in K, K2. cbn [option_map] in K, K2. assert (K3 : f s1 = Some (true, true, screen ["      1:f();"; " ->   2:exit();"; "@     3:f() {}"]%string)) by congruence. assert (K4 : cl_running s1 = true) by congruence. clear K. unfold f in K3. clear f.
  assert (T : typed (str "next") [str "next"]) by (apply (typed_words [str "next"]); repeat constructor; discriminate).
  assert (R : reads [str "next"] (ODo DOver)) by (apply rd_next, stands_dec; [reflexivity|discriminate]).
  destruct (command_line front84 (str "next") s1) as [[] s2| | |] eqn:C; try discriminate K3. exists s2. split; [exact E|]. split; [exact T|]. split; [exact R|].
  split; [exact K4|]. split; [destruct (case81 [DOver]) as (_ & _ & D3 & _); [repeat constructor|exact (Forall_inv D3)]|]. split; [reflexivity|].
  split; [assert (F : fine (cl_native s2) = true) by congruence; clear - F; unfold cpu_failed; unfold fine in F; destruct (k_host (n_link (cl_native s2))) as [[[]| |]|]; try discriminate F; auto|].
  destruct (typed_squash _ _ T) as [Es Hws]. pose proof (moves_grow front84 [str "next"] DOver Hws R I s1 ltac:(congruence)) as Q.
  assert (G : exists t, cl_out s2 = cl_out s1 ++ t).
  { unfold command_line in C. rewrite Es in C. destruct (join [str "next"] [SPACE]) as [|c j]; [unfold ret in C; injection C as <-; exists []; now rewrite app_nil_r|]. unfold catching in C.
    destruct (handle_command front84 (c :: j) s1) as [[] s3|s3| |]; [|destruct Q as [t Q]|discriminate C|discriminate C].
    - injection C as <-. exact Q.
    - unfold put, change in C. injection C as <-. exists (t ++ [Err]). cbn [cset_out cl_out]. now rewrite Q, app_assoc. }
  destruct G as [t G]. exists t. split; [exact G|]. rewrite G, skipn_app, skipn_all2, Nat.sub_diag in K3 by lia. cbn [app skipn] in K3.
  split; [|congruence]. intros X. assert (B : forallb (fun x => match x with Err => false | _ => true end) t = true) by congruence. rewrite forallb_forall in B. now specialize (B _ X).
Qed.

Print Assumptions C91_displayed.
Print Assumptions C92_moved.
