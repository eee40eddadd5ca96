(** C88 - C90: values typed and shown at the debugger's command line. *)
From Coq Require Import Ascii String ZArith NArith List Bool Lia.
From Verif Require Import Base Text PropText PropNet StdMap Isa Alu AluSpec State IsaSpec IsaSame Lexer Asm Show AsmPrint AsmSpec PropAsm Exec Ram Writes Rat Cpu Os DbgText Spaces
  InOrder PipeInv PipeBasics PipeActs PipeMem PipeTick PipeDom PipeRun PipeBoot PipePoke Session IsaRefine DbgSpec Stops PropPipe PropDbg Client Proto PropProto Native PropBreak PropWatch
  LibSpec NatRun NatStop PropStep PropOver Src PropLines PropLineStep SrcFacts SetReg Expr Eval Info EvalFacts PropAssign Cli CliFacts PropCli PropRun.
Import ListNotations.
Open Scope Z_scope.

(** ---- specification ---- *)

(** How the characters of a string are typed between quotes: as themselves, a backslash
    excepted, or as \n, \t and \0. *)
Definition escapes : list (ascii * ascii) := [(ch 110, ch 10); (ch 116, ch 9); (ch 48, ch 0)].
Inductive spells : text -> text -> Prop :=
| sp_nil : spells [] []
| sp_char : forall c t u, c <> BACKSLASH -> spells t u -> spells (c :: t) (c :: u)
| sp_escape : forall e x t u, In (e, x) escapes -> spells t u -> spells (BACKSLASH :: e :: t) (x :: u).

(** Consecutive cells from [a] on. *)
Definition from (a : Z) (l : list Z) : list (loc * Z) := combine (map (fun k => LMem (a + Z.of_nat k)) (seq 0 (length l))) l.
(** A character is stored as a signed byte. *)
Definition code (c : ascii) : Z := let n := Z.of_N (N_of_ascii c) in if n <? 128 then n else n - 256.

(** What a line asks to be written, and where. *)
Inductive stores_line : list text -> list (loc * Z) -> Prop :=
| sl_memory : forall w x a v vs, stands_for command_names w "memory" -> stands_for memory_names x "set" -> 0 <= a < 2 ^ 64 -> Forall fits (v :: vs) ->
    stores_line (w :: x :: show_Z a :: map show_Z (v :: vs)) (from a (v :: vs))
| sl_string : forall w x a more body t, stands_for command_names w "memory" -> stands_for memory_names x "setstr" -> 0 <= a < 2 ^ 64 ->
    join more [SPACE] = QUOTE :: body ++ [QUOTE] -> spells body t ->
    stores_line (w :: x :: show_Z a :: more) (from a (map code t ++ [0]))
| sl_register : forall w x rg v more, stands_for command_names w "register" -> stands_for register_names x "set" -> fits v ->
    stores_line (w :: x :: show_reg rg :: show_Z v :: more) [(LReg (show_reg rg), v)].

(** What a line asks to be shown: the machine is [c]. *)
Inductive shows_line (U : setup) (c : cpu) : list text -> list shown -> Prop :=
| hl_memory : forall w x a n more vs, stands_for command_names w "memory" -> stands_for memory_names x "get" -> 0 <= a -> 0 <= n -> a + n <= u_data U ->
    Z.of_nat (length vs) = n -> (forall k, 0 <= k < n -> ram_get (c_ram c) (a + k) = nth_error vs (Z.to_nat k)) ->
    shows_line U c (w :: x :: show_Z a :: show_Z n :: more)
      (map (fun k => Say Plain (show_Z (a + Z.of_nat k) ++ str ":" ++ show_Z (nth k vs 0) ++ [NL])) (seq 0 (length vs)))
| hl_string : forall w x a n more vs, stands_for command_names w "memory" -> stands_for memory_names x "getstr" -> 0 <= a -> 0 <= n -> a + n <= u_data U ->
    Z.of_nat (length vs) = n -> (forall k, 0 <= k < n -> ram_get (c_ram c) (a + k) = nth_error vs (Z.to_nat k)) ->
    shows_line U c (w :: x :: show_Z a :: show_Z n :: more)
      (map (fun v => Say Plain [ascii_of_N (Z.to_N (v mod 256))]) vs ++ (if last vs 10 =? 10 then [] else [Say Plain (str "\%" ++ [NL])]))
| hl_register : forall w x rg v more, stands_for command_names w "register" -> stands_for register_names x "get" ->
    In (LR rg) (reg_list (c_cfg c)) -> get_lreg c (LR rg) = Some v -> shows_line U c (w :: x :: show_reg rg :: more) [Say Plain (show_Z v ++ [NL])].

(** ---- proofs ---- *)

Lemma spells_ok : forall body t, spells body t -> parse_string (QUOTE :: body ++ [QUOTE]) = Some t.
Proof.
  intros body t H. unfold parse_string. destruct (body ++ [QUOTE]) as [|p rest] eqn:E; [now destruct body|].
  assert (L : last (p :: rest) QUOTE = QUOTE) by (rewrite <- E; apply last_last). rewrite Ascii.eqb_refl, L, Ascii.eqb_refl. cbn [andb]. clear L.
  revert p rest E. induction H as [|c body t Hc _ IH|e x body t I _ IH]; intros p rest E.
  - injection E as <- <-. reflexivity.
  - injection E as <- <-. destruct (body ++ [QUOTE]) as [|d r] eqn:F; [now destruct body|]. cbn [unescape]. destruct (Ascii.eqb_spec c BACKSLASH) as [X|_]; [contradiction|]. now rewrite (IH _ _ eq_refl).
  - injection E as <- <-. destruct (body ++ [QUOTE]) as [|d r] eqn:F; [now destruct body|]. cbn [unescape]. rewrite Ascii.eqb_refl.
    destruct I as [I|[I|[I|[]]]]; injection I as <- <-; cbn [Ascii.eqb]; now rewrite (IH _ _ eq_refl).
Qed.
Lemma code_ok : forall c, char_cell c = code c /\ fits (code c).
Proof. intros [b0 b1 b2 b3 b4 b5 b6 b7]. destruct b0, b1, b2, b3, b4, b5, b6, b7; vm_compute; (split; [reflexivity|split; congruence]). Qed.
Lemma from_cells : forall a l, from a l = map (fun x => (LMem (fst x), snd x)) (cells a l).
Proof. intros a l. unfold from, cells. generalize 0%nat. induction l as [|v l IH]; intros s; [reflexivity|]. cbn [length seq map combine fst snd]. now rewrite IH. Qed.
Lemma mem_cells : forall cs f a, mem_after (map (fun x => (LMem (fst x), snd x)) cs) f a = PropProto.assign Z.eqb f cs a.
Proof.
  induction cs as [|[b v] cs IH]; intros f a; [reflexivity|]. unfold mem_after in *. cbn [map fold_left fst snd]. apply IH.
Qed.
Lemma reg_cells : forall (cs : list (Z * Z)) f l, reg_after (map (fun x => (LMem (fst x), snd x)) cs) f l = f l.
Proof. induction cs as [|[b v] cs IH]; intros f l; [reflexivity|]. unfold reg_after in *. cbn [map fold_left fst snd]. apply IH. Qed.

Lemma memory_ok : forall U N c a l, seen U N c -> l <> [] -> Forall (fun w => writable U c (fst w)) (from a l) -> Forall fits l ->
  exists N', set_memory U a l N = Done tt N' /\ written U N c (from a l) N'.
Proof.
  intros U N c a l Sn Hl W F. destruct (sn_link U N c Sn) as [r L]. pose proof (sn_data U N c Sn) as Du.
  assert (B : forall k, (k < length l)%nat -> 0 <= a + Z.of_nat k < u_data U).
  { intros k Hk. rewrite Forall_forall in W. assert (X : exists v, In (LMem (a + Z.of_nat k), v) (from a l)).
    { exists (nth k l 0). unfold from. replace (LMem (a + Z.of_nat k), nth k l 0) with (nth k (combine (map (fun k => LMem (a + Z.of_nat k)) (seq 0 (length l))) l) (LMem (a + Z.of_nat 0), 0)).
      - apply nth_In. rewrite combine_length, map_length, seq_length. lia.
      - rewrite combine_nth by (now rewrite map_length, seq_length). f_equal. rewrite (map_nth (fun k => LMem (a + Z.of_nat k))). now rewrite seq_nth. }
    destruct X as [v X]. exact (W _ X). }
  assert (B0 : 0 <= a + Z.of_nat 0 < u_data U) by (apply B; destruct l; [congruence|cbn; lia]).
  assert (B1 : 0 <= a + Z.of_nat (length l - 1) < u_data U) by (apply B; destruct l; [congruence|cbn [length]; lia]).
  assert (Ll : (0 < length l)%nat) by (destruct l; [congruence|cbn; lia]).
  destruct (C33_write_memory U r l a c (sn_read U N c Sn)) as (c' & E & Rd & C & [S1 S2 S3 S4]); try lia; auto.
  { intros k Hk. apply (sn_cells U N c Sn). specialize (B (Z.to_nat k)). lia. }
  exists (set_link N (stopped r c')). split; [unfold set_memory, proc; now rewrite L, E|]. exists r, c'. split; [exact L|]. split; [reflexivity|]. split; [|split; [exact C|]].
  - constructor; [now exists r|exact Rd| |exact Du]. intros b Hb. rewrite S2. clear - Sn Hb. generalize (sn_cells U N c Sn b Hb). generalize (ram_get (c_ram c)). generalize (cells a l).
    induction l0 as [|[x v] l0 IH]; intros f Hf; [exact Hf|]. unfold PropProto.assign in *. cbn [fold_left fst snd]. apply IH. destruct (b =? x); [discriminate|exact Hf].
  - constructor; auto; intros x; rewrite from_cells; [rewrite S1; symmetry; apply reg_cells|rewrite S2; symmetry; apply mem_cells].
Qed.
Lemma numbers_ok : forall l, Forall fits l -> numbers (map show_Z l) = Some l.
Proof. induction 1 as [|v l H _ IH]; [reflexivity|]. cbn [map numbers]. now rewrite svtoi64_show, IH. Qed.
Lemma same_items : forall A (l l' : list A), (forall k, nth_error l k = nth_error l' k) -> l = l'.
Proof.
  induction l as [|x l IH]; intros [|y l'] H; [reflexivity|now specialize (H 0%nat)|now specialize (H 0%nat)|].
  pose proof (H 0%nat) as H0. injection H0 as ->. f_equal. apply IH. intros k. exact (H (S k)).
Qed.

Section P.
Variable P : front.

Lemma line_command : forall l ws s r, typed l ws -> ws <> [] -> handle_command P (join ws [SPACE]) s = r -> match r with Failed _ => False | _ => True end -> command_line P l s = r.
Proof.
  intros l ws s r Ht Hn E Hr. destruct (typed_squash _ _ Ht) as [Es Hws]. unfold command_line. rewrite Es. destruct (join ws [SPACE]) as [|x y] eqn:J.
  - exfalso. destruct ws as [|w ws]; [congruence|]. inversion Hws as [|? ? Hw _]; subst. pose proof (word_nil _ Hw) as X. destruct w; [contradiction|]. destruct ws; discriminate J.
  - unfold catching. rewrite E. destruct r; auto. contradiction.
Qed.
Ltac which H w ws Hw :=
  let h := fresh "h" in let I := fresh "I" in let E := fresh "E" in
  destruct (dispatch P w ws _ Hw H ltac:(cbn; auto 20)) as (h & I & E);
  repeat (destruct I as [I|I]; [try discriminate I; injection I as <-|]); try contradiction.
Ltac skips H := repeat (apply stands_skip in H; [|discriminate]; let R := fresh "R" in destruct H as [R H]; rewrite (check_no _ _ _ _ R); clear R).

(** C88. A line that asks to write does so: exactly the words asked for change, and
    nothing is said. *)
Theorem C88_stores : forall l ws wr s c, cl_active s = true -> typed l ws -> stores_line ws wr -> seen (cl_setup s) (cl_native s) c -> all_known (cl_setup s) c ->
  Forall (fun w => writable (cl_setup s) c (fst w)) wr ->
  exists N', command_line P l s = Done tt (cset_native s N') /\ written (cl_setup s) (cl_native s) c wr N'.
Proof.
  intros l ws wr s c A Ht H Sn K W. destruct (typed_squash _ _ Ht) as [_ Hws]. set (U := cl_setup s) in *.
  destruct H as [w x a v vs H1 H2 Ha F|w x a more body t H1 H2 Ha J Sp|w x rg v more H1 H2 F]; inversion Hws as [|? ? Hw Hm]; subst.
  - destruct (memory_ok U (cl_native s) c a (v :: vs) Sn ltac:(discriminate) W F) as (N' & E1 & E2). exists N'. split; [|exact E2].
    eapply line_command; [exact Ht|discriminate| |exact I]. which H1 w (x :: show_Z a :: map show_Z (v :: vs)) Hw. rewrite E by exact A. unfold handle_memory.
    rewrite words_split by exact Hm. rewrite (check_yes _ _ _ _ (stands_prefix _ _ _ H2)) by (cbn [length map]; lia). cbn [skipn nth]. rewrite numbers_ok by exact F. rewrite svtou64_show by lia.
    unfold lib. fold U. now rewrite E1.
  - assert (Fl : Forall fits (map code t ++ [0])).
    { apply Forall_app. split; [|repeat constructor; unfold fits; lia]. apply Forall_forall. intros z Hz. apply in_map_iff in Hz. destruct Hz as (ch & <- & _). apply code_ok. }
    destruct (memory_ok U (cl_native s) c a (map code t ++ [0]) Sn ltac:(destruct t; discriminate) W Fl) as (N' & E1 & E2). exists N'. split; [|exact E2].
    eapply line_command; [exact Ht|discriminate| |exact I]. which H1 w (x :: show_Z a :: more) Hw. rewrite E by exact A. unfold handle_memory.
    assert (Lm : more <> []) by (intros ->; discriminate J).
    rewrite words_split by exact Hm. skips H2. rewrite (check_yes _ _ _ _ (stands_prefix _ _ _ H2)) by (destruct more; [congruence|cbn [length map]; lia]). cbn [skipn nth]. rewrite svtou64_show by lia.
    rewrite J, (spells_ok _ _ Sp). unfold lib. fold U. rewrite (map_ext char_cell code) by (intros; apply code_ok). now rewrite E1.
  - inversion W as [|? ? W1 _]; subst. destruct W1 as (rg' & R1 & R2). cbn [fst] in R1.
    destruct (C33_set_register U (cl_native s) c rg' v Sn K R2 F) as (r & c' & L & E & Rd & C & S). rewrite <- R1 in E.
    exists (set_link (cl_native s) (stopped r c')). split.
    + eapply line_command; [exact Ht|discriminate| |exact I]. which H1 w (x :: show_reg rg :: show_Z v :: more) Hw. rewrite E0 by exact A. unfold handle_register.
      rewrite words_split by exact Hm. rewrite (check_yes _ _ _ _ (stands_prefix _ _ _ H2)) by (cbn [length map]; lia). cbn [nth]. rewrite svtoi64_show by exact F. unfold lib. fold U. now rewrite E.
    + exists r, c'. split; [exact L|]. split; [reflexivity|]. destruct S as [S1 S2 S3 S4]. split; [|split; [exact C|]].
      * constructor; [now exists r|exact Rd| |exact (sn_data _ _ _ Sn)]. intros b B. rewrite S2. now apply (sn_cells _ _ _ Sn).
      * constructor; auto. intros k. rewrite S1. cbn [reg_after fold_left fst snd]. rewrite R1. change (show_reg rg') with (lreg_name (LR rg')).
        destruct (lreg_eqb_spec k (LR rg')) as [->|Q]; [now rewrite teqb_refl|]. destruct (teqb (lreg_name k) (lreg_name (LR rg'))) eqn:T; [|reflexivity]. apply teqb_eq, lreg_name_inj in T. contradiction.
Qed.

Lemma read_cells : forall U s c a vs, seen U (cl_native s) c -> 0 <= a -> a + Z.of_nat (length vs) <= u_data U ->
  (forall k, 0 <= k < Z.of_nat (length vs) -> ram_get (c_ram c) (a + k) = nth_error vs (Z.to_nat k)) ->
  exists r, n_link (cl_native s) = stopped r c /\ get_memory U a (Z.of_nat (length vs)) (cl_native s) = Done vs (cl_native s).
Proof.
  intros U s c a vs Sn Ha Hd Hv. pose proof (sn_data _ _ _ Sn) as Du. destruct (sn_link _ _ _ Sn) as [r L]. exists r. split; [exact L|].
  destruct (C33_read_memory U r c a (Z.of_nat (length vs)) (sn_read _ _ _ Sn)) as (vs' & V1 & V2 & V3); try lia.
  { intros k Hk. rewrite Hv by lia. apply nth_error_Some. lia. }
  assert (vs' = vs) as ->.
  { apply same_items. intros k. destruct (Nat.lt_ge_cases k (length vs)) as [Q|Q].
    - specialize (Hv (Z.of_nat k)). specialize (V3 (Z.of_nat k)). rewrite Nat2Z.id in *. rewrite <- Hv, <- V3 by lia. reflexivity.
    - rewrite !(proj2 (nth_error_None _ _)) by lia. reflexivity. }
  unfold get_memory, proc. rewrite L, V1, <- L. now destruct (cl_native s).
Qed.

(** C88. A line that asks for memory or a register shows what is there, and nothing else
    happens. *)
Theorem C88_shown : forall l ws o s c, cl_active s = true -> typed l ws -> seen (cl_setup s) (cl_native s) c -> shows_line (cl_setup s) c ws o ->
  command_line P l s = Done tt (cset_out s (cl_out s ++ o)).
Proof.
  intros l ws o s c A Ht Sn H. destruct (typed_squash _ _ Ht) as [_ Hws]. set (U := cl_setup s) in *. pose proof (sn_data _ _ _ Sn) as Du.
  destruct H as [w x a n more vs H1 H2 Ha Hn Hd Hl Hv|w x a n more vs H1 H2 Ha Hn Hd Hl Hv|w x rg v more H1 H2 Hr Hv]; inversion Hws as [|? ? Hw Hm]; subst.
  - eapply line_command; [exact Ht|discriminate| |exact I]. which H1 w (x :: show_Z a :: show_Z (Z.of_nat (length vs)) :: more) Hw. rewrite E by exact A. unfold handle_memory.
    rewrite words_split by exact Hm. pose proof H2 as H2'. skips H2. rewrite (check_yes _ _ _ _ (stands_prefix _ _ _ H2)) by (cbn [length map]; lia). cbn [orb nth]. rewrite !svtou64_show by lia.
    unfold then_, lib. fold U. destruct (read_cells U s c a vs Sn Ha Hd Hv) as (r & L & V1). rewrite V1. assert (G : is_prefix_of (str "gets") x = false).
    { destruct (is_prefix_of (str "gets") x) eqn:G; [|reflexivity]. apply C43_prefix in G. destruct G as [g ->]. apply stands_prefix, C43_prefix in H2'. destruct H2' as [y H2']. discriminate H2'. }
    rewrite G.
    assert (Q : forall k vs0 s0, 0 <= a -> a + Z.of_nat (k + length vs0) < 2 ^ 63 -> each (fun x => say (num (fst x) ++ str ":" ++ num (snd x) ++ [NL])) (combine (map (fun k => u64 (a + Z.of_nat k)) (seq k (length vs0))) vs0) s0 =
      Done tt (cset_out s0 (cl_out s0 ++ map (fun j => Say Plain (show_Z (a + Z.of_nat j) ++ str ":" ++ show_Z (nth (j - k) vs0 0) ++ [NL])) (seq k (length vs0))))).
    { clear. intros k vs0. revert k. induction vs0 as [|z vs0 IH]; intros k s0 Ha B.
      - cbn. rewrite app_nil_r. now destruct s0.
      - cbn [length seq map combine each fst snd]. unfold then_, say at 1, put, change. rewrite IH by (cbn [length] in B; lia). cbn [cset_out cl_out]. rewrite Nat.sub_diag. cbn [nth].
        assert (u64 (a + Z.of_nat k) = a + Z.of_nat k) as -> by (unfold u64, two64; rewrite Z.mod_small; cbn [length] in B; lia). unfold num. f_equal. unfold cset_out. cbn. f_equal. rewrite <- app_assoc. f_equal. cbn [app]. f_equal.
        apply map_ext_in. intros j Hj. apply in_seq in Hj. replace (j - k)%nat with (S (j - S k))%nat by lia. reflexivity. }
    unfold addresses. cbn [cset_native]. replace (cset_native s (cl_native s)) with s by (now destruct s). rewrite Q by lia. f_equal. f_equal. f_equal. apply map_ext. intros k. now rewrite Nat.sub_0_r.
  - eapply line_command; [exact Ht|discriminate| |exact I]. which H1 w (x :: show_Z a :: show_Z (Z.of_nat (length vs)) :: more) Hw. rewrite E by exact A. unfold handle_memory.
    rewrite words_split by exact Hm. pose proof H2 as H2'. skips H2. rewrite (check_yes _ _ _ _ (stands_prefix _ _ _ H2)) by (cbn [length map]; lia). cbn [orb nth]. rewrite !svtou64_show by lia.
    unfold then_, lib. fold U. destruct (read_cells U s c a vs Sn Ha Hd Hv) as (r & L & V1).
    rewrite V1. assert (G : is_prefix_of (str "gets") x = true).
    { apply stands_skip in H2'; [|discriminate]. destruct H2' as [_ H2']. apply stands_skip in H2'; [|discriminate]. destruct H2' as [_ H2']. apply stands_skip in H2'; [|discriminate]. destruct H2' as [X1 (X2 & [r0 X3] & _)].
      assert (Y : In x (map str ["g"; "ge"; "get"; "gets"; "getst"; "getstr"]%string)).
      { clear - X2 X3. destruct x as [|c1 x]; [congruence|]. injection X3 as <- X3. do 5 (destruct x as [|? x]; [cbn; auto 10|injection X3 as <- X3]). destruct x; [cbn; auto 10|discriminate X3]. }
      cbn [map In] in Y. repeat (destruct Y as [<-|Y]; [first [vm_compute; reflexivity|discriminate X1]|]). contradiction. }
    rewrite G.
    replace (cset_native s (cl_native s)) with s by (now destruct s). clear. revert s. induction vs as [|v [|v2 vs] IH]; intros s.
    + cbn. rewrite app_nil_r. now destruct s.
    + cbn [print_chars last map app]. unfold then_, say, put, change, when. destruct (v =? 10); cbn [negb]; [reflexivity|]. unfold cset_out, change, ret. cbn. now rewrite <- app_assoc.
    + cbn [print_chars]. unfold then_ at 1, say at 1, put, change. rewrite IH. unfold cset_out. cbn [cl_setup cl_native cl_active cl_source cl_values cl_running cl_in cl_out]. f_equal. f_equal. rewrite <- app_assoc. reflexivity.
  - eapply line_command; [exact Ht|discriminate| |exact I]. which H1 w (x :: show_reg rg :: more) Hw. rewrite E by exact A. unfold handle_register.
    rewrite words_split by exact Hm. skips H2. rewrite (check_yes _ _ _ _ (stands_prefix _ _ _ H2)) by (cbn [length map]; lia). cbn [nth].
    unfold then_, lib. fold U. rewrite (get_register_ok U (cl_native s) c _ Sn).
    assert (R : reg_named c (show_reg rg) = Some v).
    { unfold reg_named. destruct (find (fun l => teqb (show_reg rg) (lreg_name l)) (reg_list (c_cfg c))) as [k|] eqn:Fd.
      - apply find_some in Fd. destruct Fd as [_ Fd]. change (show_reg rg) with (lreg_name (LR rg)) in Fd. apply teqb_eq, lreg_name_inj in Fd. now subst k.
      - exfalso. pose proof (find_none _ _ Fd _ Hr) as X. cbn in X. change (lreg_name (LR rg)) with (show_reg rg) in X. rewrite teqb_refl in X. discriminate. }
    rewrite R. unfold say, put, change. replace (cset_native s (cl_native s)) with s by (now destruct s). reflexivity.
Qed.
End P.

(** ---- C89 ---- *)

(** No two blanks in a row. *)
Fixpoint single (t : text) : Prop :=
  match t with
  | a :: ((b :: _) as r) => ~ (a = SPACE /\ b = SPACE) /\ single r
  | _ => True
  end.
Lemma unescape_ok : forall n rest p u, (length rest <= n)%nat -> unescape p rest = Some u ->
  ~ In BACKSLASH u /\ (single (p :: rest) -> single u /\ (forall r, u = SPACE :: r -> p = SPACE)).
Proof.
  induction n as [|n IH]; intros [|c rest] p u L H; try (cbn [length] in L; lia).
  - injection H as <-. split; [intros []|]. intros _. split; [exact I|discriminate].
  - injection H as <-. split; [intros []|]. intros _. split; [exact I|discriminate].
  - cbn [length] in L. cbn [unescape] in H. destruct (Ascii.eqb_spec p BACKSLASH) as [->|Np].
    + assert (X : exists x, (x = ch 10 \/ x = ch 9 \/ x = ch 0) /\ match rest with [] => Some [x] | d :: s'' => option_map (cons x) (unescape d s'') end = Some u).
      { destruct (Ascii.eqb c (ch 110)); [exists (ch 10); auto|]. destruct (Ascii.eqb c (ch 116)); [exists (ch 9); auto|]. destruct (Ascii.eqb c (ch 48)); [exists (ch 0); auto|discriminate]. }
      destruct X as (x & Hx & E). assert (Nx : x <> BACKSLASH /\ x <> SPACE) by (destruct Hx as [->|[->| ->]]; split; discriminate). destruct Nx as [Nx Ns]. destruct rest as [|d rest].
      * injection E as <-. split; [intros [X|[]]; congruence|]. intros _. split; [exact I|]. intros r X. congruence.
      * destruct (unescape d rest) as [u'|] eqn:E'; [|discriminate]. injection E as <-. cbn [length] in L. destruct (IH rest d u' ltac:(lia) E') as [I1 I2].
        split; [intros [X|X]; [congruence|contradiction]|]. intros (_ & _ & S2). split; [|intros r X; congruence]. destruct (I2 S2) as [J1 J2]. destruct u' as [|y u']; [exact I|]. split; [|exact J1]. intros [X _]; congruence.
    + destruct (unescape c rest) as [u'|] eqn:E'; [|discriminate]. injection H as <-. destruct (IH rest c u' ltac:(lia) E') as [I1 I2].
      split; [intros [X|X]; [congruence|contradiction]|]. intros (S1 & S2). split; [|intros r X; congruence]. destruct (I2 S2) as [J1 J2]. destruct u' as [|y u']; [exact I|]. split; [|exact J1].
      intros [-> ->]. apply S1. split; [reflexivity|now apply (J2 u')].
Qed.
Lemma single_join : forall ws, Forall PropText.word ws -> single (join ws [SPACE]).
Proof.
  assert (W : forall w t, ~ In SPACE w -> single t -> single (w ++ t)).
  { intros w t N S0. induction w as [|c w IH]; [exact S0|]. cbn [app]. destruct (w ++ t) as [|d r] eqn:E; [exact I|]. split; [intros [-> _]; apply N; now left|]. rewrite <- E in *. apply IH. intros X. apply N. now right. }
  induction 1 as [|w ws Hw Hs IH]; [exact I|]. destruct ws as [|w2 ws].
  - cbn [join]. specialize (W w [] (word_space _ Hw) I). now rewrite !app_nil_r in *.
  - cbn [join] in *. apply W; [now apply word_space|]. cbn [app]. inversion Hs as [|? ? H2 _]; subst. destruct w2 as [|c w2]; [now elim (word_nil _ H2)|].
    destruct ws; cbn [app join] in *; (split; [intros [_ ->]; apply (word_space _ H2); now left|exact IH]).
Qed.
Lemma single_tail : forall c t, single (c :: t) -> single t.
Proof. intros c [|d t] H; [exact I|apply H]. Qed.

(** C89, refuted: whatever string a line asks to store, what is stored has no backslash
    and no two blanks in a row. *)
Theorem C89_string_refuted : forall P l w x a more s s1, cl_active s = true -> typed l (w :: x :: a :: more) ->
  stands_for command_names w "memory" -> stands_for memory_names x "setstr" -> command_line P l s = Done tt s1 -> cl_out s1 = cl_out s ->
  exists n t N1, svtou64 a = Some n /\ ~ In BACKSLASH t /\ single t /\ set_memory (cl_setup s) n (map code t ++ [0]) (cl_native s) = Done tt N1 /\ s1 = cset_native s N1.
Proof.
  intros P l w x a more s s1 A Ht H1 H2 H Ho. destruct (typed_squash _ _ Ht) as [Es Hws]. inversion Hws as [|? ? Hw Hm]; subst.
  assert (Ne : forall s2 : cli, (forall o, cl_out s2 = cl_out s ++ o -> o = []) -> forall e s3, cl_out s3 = cl_out s -> s2 = cset_out s3 (cl_out s3 ++ [e]) -> False).
  { intros s2 G e s3 Q ->. cbn in G. rewrite Q in G. specialize (G [e] eq_refl). discriminate. }
  assert (Ho' : forall o, cl_out s1 = cl_out s ++ o -> o = []).
  { intros o Q. rewrite Ho in Q. apply (f_equal (@length shown)) in Q. rewrite app_length in Q. destruct o; [reflexivity|cbn [length] in Q; lia]. }
  destruct (dispatch P w (x :: a :: more) _ Hw H1 ltac:(cbn; auto 20)) as (h & I & E).
  repeat (destruct I as [I|I]; [try discriminate I; injection I as <-|]); try contradiction.
  unfold command_line in H. rewrite Es in H. destruct (join (w :: x :: a :: more) [SPACE]) as [|q y] eqn:J.
  { exfalso. pose proof (word_nil _ Hw) as X. destruct w; [contradiction|discriminate J]. }
  unfold catching in H. rewrite E in H by exact A. clear E. unfold handle_memory in H. rewrite words_split in H by exact Hm.
  apply stands_skip in H2; [|discriminate]. destruct H2 as [R H2]. rewrite (check_no _ _ _ _ R) in H. clear R.
  destruct (check_command (x :: a :: more) "setstr" 3) eqn:C.
  - cbn [nth skipn] in H. destruct (svtou64 a) as [n|]; [|exfalso; injection H as <-; eapply (Ne _ Ho' Err s); reflexivity].
    destruct (parse_string (join more [SPACE])) as [t|] eqn:Pt; [|exfalso; injection H as <-; eapply (Ne _ Ho' Err s); reflexivity].
    unfold lib in H. rewrite (map_ext char_cell code) in H by (intros; apply code_ok).
    destruct (set_memory (cl_setup s) n (map code t ++ [0]) (cl_native s)) as [[] N1|N1| |] eqn:Em; try discriminate.
    + injection H as <-. exists n, t, N1. split; [reflexivity|]. unfold parse_string in Pt.
      assert (Sj : single (join more [SPACE])) by (apply single_join; inversion Hm as [|? ? _ Hm2]; subst; inversion Hm2; assumption).
      destruct (join more [SPACE]) as [|b [|p rest]]; [discriminate|discriminate|]. destruct (_ && _) in Pt; [|discriminate].
      destruct (unescape_ok (length rest) rest p t (le_n _) Pt) as [U1 U2]. split; [exact U1|]. split; [apply U2; now apply single_tail in Sj|]. split; [exact Em|reflexivity].
    + exfalso. injection H as <-. eapply (Ne _ Ho' Err (cset_native s N1)); reflexivity.
  - exfalso. unfold check_command in C. rewrite (stands_prefix _ _ _ H2), andb_true_r in C.
    assert (C3 : forall n, check_command (x :: a :: more) n 3 = false) by (intros n; unfold check_command; now rewrite C). rewrite !C3 in H. cbn [orb] in H. unfold usage_of, put, change in H. injection H as <-.
    eapply (Ne _ Ho' (Usage UMemory) s); reflexivity.
Qed.

(** ---- C90 ---- *)

Ltac handled P H w ws Hw :=
  let h := fresh "h" in let I := fresh "I" in let E := fresh "E" in
  destruct (dispatch P w ws _ Hw H ltac:(cbn; auto 20)) as (h & I & E);
  repeat (destruct I as [I|I]; [try discriminate I; injection I as <-|]); try contradiction.
Ltac passes H := repeat (apply stands_skip in H; [|discriminate]; let R := fresh "R" in destruct H as [R H]; rewrite (check_no _ _ _ _ R); clear R).

(** Lines with a mistake that end the debugger: a memory cell, an address to assemble at
    or a port that is no number; no port at all; a function whose code belongs to no line;
    a program that does not assemble. *)
Inductive fatal (P : front) (s : cli) : list text -> Prop :=
| ft_memory : forall w x a v vs, cl_active s = true -> stands_for command_names w "memory" -> stands_for memory_names x "set" -> stops a -> Forall fits (v :: vs) ->
    fatal P s (w :: x :: a :: map show_Z (v :: vs))
| ft_assemble : forall w x a, cl_active s = true -> stands_for command_names w "assemble" -> begins_with x "interactive" -> stops a -> fatal P s [w; x; a]
| ft_no_port : forall w, cl_active s = false -> stands_for command_names w "attach" -> fatal P s [w]
| ft_port : forall w a more, cl_active s = false -> stands_for command_names w "attach" -> svtoi64 a = None -> fatal P s (w :: a :: more)
| ft_function : forall w x f more b e N1, cl_active s = true -> stands_for command_names w "breakpoint" -> stands_for breakpoint_names x "set" -> stops f -> mapped (cl_source s) ->
    function_addr (cl_source s) f = Some (b, e) -> (forall line, line_to_addr (cl_source s) line <> Some b) ->
    set_breakpoint (cl_setup s) b (cl_native s) = Done tt N1 -> fatal P s (w :: x :: f :: more)
| ft_program : forall w opts t, cl_active s = false -> stands_for command_names w "run" -> fr_name P <> None -> fr_file P = Some t ->
    (forall p d, assemble (u_stod (cl_setup s)) t <> POk (p, d)) -> fatal P s (w :: opts).

(** C90, refuted: a line with a mistake is not always answered with an error message. *)
Theorem C90_mistakes_refuted : forall P l ws s, typed l ws -> fatal P s ws -> command_line P l s = Dead.
Proof.
  intros P l ws s Ht H. destruct (typed_squash _ _ Ht) as [_ Hws].
  destruct H as [w x a v vs A H1 H2 Sa F|w x a A H1 H2 Sa|w A H1|w a more A H1 Sa|w x f more b e N1 A H1 H2 Sf M F L E1|w opts t A H1 Hn Hf Hp]; inversion Hws as [|? ? Hw Hm]; subst.
  - eapply line_command; [exact Ht|discriminate| |exact I]. handled P H1 w (x :: a :: map show_Z (v :: vs)) Hw. rewrite E by exact A. unfold handle_memory.
    rewrite words_split by exact Hm. rewrite (check_yes _ _ _ _ (stands_prefix _ _ _ H2)) by (cbn [length map]; lia). cbn [skipn nth]. rewrite numbers_ok by exact F. now rewrite (proj1 (C28_no_number _ Sa)).
  - eapply line_command; [exact Ht|discriminate| |exact I]. handled P H1 w [x; a] Hw. rewrite E by exact A. unfold handle_assemble.
    rewrite words_split by exact Hm. unfold check_command. apply begins_prefix in H2. rewrite H2. cbn [length Nat.leb andb nth nth_error]. now rewrite (proj1 (C28_no_number _ Sa)).
  - eapply line_command; [exact Ht|discriminate| |exact I]. unfold handle_command. rewrite cut_words by exact Hw. destruct w as [|q w]; [now elim (word_nil _ Hw)|].
    apply stands_skip in H1; [|discriminate]. destruct H1 as [R H1]. rewrite R. rewrite (stands_prefix _ _ _ H1). unfold exit_process, then_, here. rewrite A. cbn. now rewrite A.
  - eapply line_command; [exact Ht|discriminate| |exact I]. unfold handle_command. rewrite cut_words by exact Hw. destruct w as [|q w]; [now elim (word_nil _ Hw)|].
    apply stands_skip in H1; [|discriminate]. destruct H1 as [R H1]. rewrite R. rewrite (stands_prefix _ _ _ H1). unfold exit_process, handle_attach, attach_to, then_, here. rewrite A, words_split by exact Hm. unfold ret, svtoint. now rewrite Sa.
  - eapply line_command; [exact Ht|discriminate| |exact I]. handled P H1 w (x :: f :: more) Hw. rewrite E by exact A. unfold handle_breakpoint.
    rewrite words_split by exact Hm. passes H2. rewrite (check_yes _ _ _ _ (stands_prefix _ _ _ H2)) by (cbn [length map]; lia). cbn [nth].
    unfold by_location, address_of_string, then_, here. rewrite (proj1 (C28_no_number _ Sf)), F. unfold lib. rewrite E1.
    pose proof (C34_addr_to_line (cl_source s) b M) as X. destruct (addr_to_line (cl_source s) b) as [ln|]; [|reflexivity]. now elim (L ln).
  - destruct (run_dispatch P l w opts s Ht) as [Ho ->]; [apply begins_prefix; exact (stands_prefix _ _ _ H1)|]. unfold catching, exit_process, handle_run, then_, here. rewrite A. unfold ret.
    destruct (fr_name P); [|congruence]. rewrite Hf. destruct (assemble (u_stod (cl_setup s)) t) as [[p d]|e] eqn:E; [now elim (Hp p d)|reflexivity].
Qed.

Lemma vm_end_ended : forall n E l l', vm_end n E l = Done tt l' -> exists ok c, k_host l' = Some (Ended ok c).
Proof.
  induction n as [|n IH]; intros E l l' H; cbn [vm_end] in H; destruct (k_host l) as [[r c|stop c|ok c]|] eqn:K; try discriminate; try (injection H as <-; now exists ok, c).
  destruct (os_tick E true stop c) as [h| |]; try discriminate. now apply IH in H.
Qed.

(** C90, refuted: and after any session with a program started by the debugger, `attach`
    without a port ends the program, and the debugger then waits for it for ever: it does
    whatever the number of steps it is given. *)
Theorem C90_attach_refuted : forall P U g p data input c0 src ls s0 os s l w, u_local U = true -> debuggee U g p data input c0 -> mapped src -> at_begin U src c0 s0 ->
  went P ls s0 os s -> Forall (order_usable U p src) os -> Forall order_no_over os \/ Forall order_no_watch os ->
  (0 < fr_fuel P)%nat -> typed l [w] -> stands_for command_names w "attach" -> command_line P l s = Blocked.
Proof.
  intros P U g p data input c0 src ls s0 os s l w HL HD SM HB HW Hu Hn HF Ht H1. pose proof HD as [PL [Hip Hty Hb] Hl Hbk R1 R2]. destruct HB as [B1 B2 B3 B4 B5].
  destruct (lines_ok P p src U PL (ty_fops _ _ _ _ _ Hty) (ty_prog _ _ _ _ _ Hty) Hip Hl Hbk SM ls s0 os s HW (mkView no_marks [] (isa_boot (g_ram g) data input) false) false) as (v & e & t & V1 & [S1 S2 S3 S4 (r & c & S5)] & V3); auto.
  { constructor; auto. rewrite B2. exists RBegin, c0. now apply at_start. }
  { destruct Hn as [Hn|Hn]; [now left|right; now split]. }
  pose proof (vw_rested _ _ _ _ _ _ S5) as [X1 X2 [X3 X3' X4] X5 X6 X7 X8 [X9 X10 X11] X12 X13 X14].
  destruct (typed_squash _ _ Ht) as [_ Hw]. apply Forall_inv in Hw.
  eapply line_command; [exact Ht|discriminate| |exact I]. unfold handle_command. rewrite cut_words by exact Hw. destruct w as [|q w]; [now elim (word_nil _ Hw)|].
  apply stands_skip in H1; [|discriminate]. destruct H1 as [R H1]. rewrite R. rewrite (stands_prefix _ _ _ H1).
  unfold exit_process, here, then_ at 1 2. rewrite S2. destruct (fr_fuel P) as [|fuel] eqn:Ef; [lia|].
  destruct (ended_ok U fuel r c (cl_native s) X1) as (h & Q); auto; try apply X4.
  { apply (proj1 (proj2 (proj2 X3))). }
  assert (Eh : exists ok c', k_host h = Some (Ended ok c')).
  { unfold then_ in Q. destruct (nterminate U (cl_native s)) as [[] N1|N1| |]; try discriminate. rewrite HL in Q. unfold proc in Q.
    destruct (vm_end (Datatypes.S fuel) (u_env U) (n_link N1)) as [[] l1|l1| |] eqn:E; try discriminate. apply vm_end_ended in E. assert (l1 = h) as <- by (assert (X : n_link (set_link N1 l1) = n_link (set_link (cl_native s) h)) by congruence; exact X). exact E. }
  destruct Eh as (ok & c' & Eh).
  assert (Q' : (lib nterminate;; lib (fun U => if u_local U then proc (vm_end (Datatypes.S fuel) (u_env U)) else ret tt)) s = Done tt (cset_native s (set_link (cl_native s) h))).
  { unfold lib, then_ in *. rewrite S1. destruct (nterminate U (cl_native s)) as [[] N1|N1| |]; try discriminate. unfold cset_native in *. cbn [cl_setup cl_native] in *. rewrite S1.
    destruct (_ N1) as [[] N2|N2| |]; try discriminate. injection Q as ->. reflexivity. }
  rewrite Q'. unfold handle_attach, attach_to. change (split_v (join [] [SPACE]) SPACE) with (@nil text). cbv iota beta. unfold then_, say, put, change, here, lib.
  cbn [cset_native cset_out cset_running cl_active cl_setup cl_native cl_source cl_values cl_running cl_in cl_out]. rewrite S2. unfold wait_event, then_, get, proc.
  cbn [cset_native cset_out cset_running cl_active cl_setup cl_native cl_source cl_values cl_running cl_in cl_out n_cache n_link set_link]. rewrite X14. cbv beta iota. cbn [cset_native cset_out cset_running cl_active cl_setup cl_native n_cache n_link set_link]. rewrite S1. rewrite Ef; cbn [wait]; rewrite Eh, HL; reflexivity.
Qed.

(** ---- the hypotheses are met ---- *)

Definition cli88 : cli := mkCli U1 native1 true source81 [] true [] [].
Ltac typing l := match goal with |- typed ?t _ => change t with (join l [SPACE]); apply typed_words; apply words_ok; vm_compute; reflexivity end.
Ltac standing := apply stands_dec; [vm_compute; reflexivity|discriminate].

(** The string has a blank, letters and a line feed. *)
Example C88_case_string : cl_active cli88 = true /\ typed (str "mem setstr 3 ""b a\nc""") [str "mem"; str "setstr"; str "3"; str """b"; str "a\nc"""] /\
  stores_line [str "mem"; str "setstr"; str "3"; str """b"; str "a\nc"""] (from 3 [98; 32; 97; 10; 99; 0]) /\ seen (cl_setup cli88) (cl_native cli88) cpu1 /\ all_known (cl_setup cli88) cpu1 /\
  Forall (fun w => writable (cl_setup cli88) cpu1 (fst w)) (from 3 [98; 32; 97; 10; 99; 0]).
Proof.
  split; [reflexivity|]. split; [typing [str "mem"; str "setstr"; str "3"; str """b"; str "a\nc"""]|].
  split; [|split; [exact seen_case|split; [exact known_case|]]].
  - apply (sl_string (str "mem") (str "setstr") 3 [str """b"; str "a\nc"""] (str "b a\nc") [ch 98; ch 32; ch 97; ch 10; ch 99]); [standing|standing|lia|reflexivity|].
    repeat (apply sp_char; [discriminate|]). apply sp_escape; [now left|]. apply sp_char; [discriminate|constructor].
  - repeat (apply Forall_cons; [split; vm_compute; congruence|]). apply Forall_nil.
Qed.
Example C88_case_register : typed (str "register set R1 -5") [str "register"; str "set"; str "R1"; str "-5"] /\
  stores_line [str "register"; str "set"; str "R1"; str "-5"] [(LReg (str "R1"), -5)] /\ writable U1 cpu1 (LReg (str "R1")).
Proof.
  split; [typing [str "register"; str "set"; str "R1"; str "-5"]|]. split; [apply (sl_register (str "register") (str "set") (R 1%N) (-5) []); [standing|standing|unfold fits; lia]|].
  exists (R 1%N). split; [reflexivity|]. vm_compute. tauto.
Qed.
Example C88_case_shown : typed (str "me get 0 2") [str "me"; str "get"; str "0"; str "2"] /\
  shows_line U1 cpu1 [str "me"; str "get"; str "0"; str "2"] [Say Plain (str "0:7" ++ [NL]); Say Plain (str "1:8" ++ [NL])].
Proof.
  split; [typing [str "me"; str "get"; str "0"; str "2"]|]. apply (hl_memory U1 cpu1 (str "me") (str "get") 0 2 [] [7; 8]); try standing; try lia; [vm_compute; congruence|reflexivity|].
  intros k Hk. assert (k = 0 \/ k = 1) as [ -> | -> ] by lia; vm_compute; reflexivity.
Qed.

(** The two blanks of the line are not in the string that is stored. *)
Definition line89 : text := str "memory setstr 3 ""a  b""".
Example C89_case : typed line89 [str "memory"; str "setstr"; str "3"; str """a"; str "b"""] /\ stands_for command_names (str "memory") "memory" /\ stands_for memory_names (str "setstr") "setstr" /\
  match command_line front84 line89 cli88 with
  | Done _ s1 => cl_out s1 = cl_out cli88 /\ exists c, n_link (cl_native s1) = stopped RHwBkpt c /\ map (ram_get (c_ram c)) [3; 4; 5; 6] = [Some 97; Some 32; Some 98; Some 0]
  | _ => False
  end.
Proof.
  split.
  { exists [], [(str "memory", str " "); (str "setstr", str " "); (str "3", str " "); (str """a", str "  "); (str "b""", [])], line89.
    split; [reflexivity|]. split; [constructor|]. split; [|split; [reflexivity|repeat constructor]].
    apply (lo_more (str "memory") (str " ") _ (str "setstr 3 ""a  b""")); [now apply wordb_ok|repeat constructor|discriminate|discriminate|].
    apply (lo_more (str "setstr") (str " ") _ (str "3 ""a  b""")); [now apply wordb_ok|repeat constructor|discriminate|discriminate|].
    apply (lo_more (str "3") (str " ") _ (str """a  b""")); [now apply wordb_ok|repeat constructor|discriminate|discriminate|].
    apply (lo_more (str """a") (str "  ") _ (str "b""")); [now apply wordb_ok|repeat constructor|discriminate|discriminate|].
    apply (lo_last (str "b""") []); [now apply wordb_ok|constructor]. }
  split; [standing|]. split; [standing|].
  assert (K : match command_line front84 line89 cli88 with
    | Done _ s1 => match cl_out s1, k_host (n_link (cl_native s1)), k_told (n_link (cl_native s1)) with [], Some (At RHwBkpt c), true => Some (map (ram_get (c_ram c)) [3; 4; 5; 6]) | _, _, _ => None end
    | _ => None end = Some [Some 97; Some 32; Some 98; Some 0]) by (vm_compute; reflexivity).
  destruct (command_line front84 line89 cli88) as [[] s1|s1| |]; [|discriminate K|discriminate K|discriminate K].
  destruct (cl_out s1) eqn:O; [|discriminate K]. split; [reflexivity|]. destruct (n_link (cl_native s1)) as [h t]. cbn [k_host k_told] in K. destruct h as [[r c|st c|ok c]|]; [|discriminate K|discriminate K|discriminate K].
  destruct r; try discriminate K. destruct t; [|discriminate K]. exists c. split; [reflexivity|]. clear - K. apply (f_equal (fun o => match o with Some x => x | None => [] end)) in K. exact K.
Qed.

Definition bad90 : front := mkFront ops84 (fun _ => str "0") (fun _ => Some 0) (Some (str "prog")) (Some (str ".text 0 MOV R0,")) (fun _ => None) [] 100.
Definition source90 : source := Eval vm_compute in match read_info U84 (str ".debug_info DIE_compilation_unit: { DIE_function: { ATTR_name: f, ATTR_begin_addr: 1, ATTR_end_addr: 3 } } .debug_line 0: 0") with Some s => s | None => no_source end.
Definition cli90 : cli := mkCli U84 (connected (booted cfg1 prog81 [7; 8] [65; 10])) true source90 [] true [] [].
Example C90_case : fatal front84 cli88 [str "mem"; str "set"; str "x"; str "1"] /\ fatal front84 cli88 [str "assemble"; str "inter"; str "main"] /\ fatal front84 (new_cli U84 []) [str "at"] /\
  fatal front84 (new_cli U84 []) [str "attach"; str "localhost:9110"] /\ fatal front84 cli90 [str "br"; str "set"; str "f"] /\ fatal bad90 (new_cli U84 []) [str "run"].
Proof.
  split; [apply (ft_memory front84 cli88 (str "mem") (str "set") (str "x") 1 []); try standing; try reflexivity; repeat constructor; unfold fits; lia|].
  split; [apply ft_assemble; try standing; try reflexivity; now exists (str "active")|]. split; [apply ft_no_port; [reflexivity|standing]|].
  split; [apply ft_port; [reflexivity|standing|vm_compute; reflexivity]|]. split.
  - assert (K : match set_breakpoint (cl_setup cli90) 1 (cl_native cli90) with Done _ _ => true | _ => false end = true) by (vm_compute; reflexivity).
    destruct (set_breakpoint (cl_setup cli90) 1 (cl_native cli90)) as [[] N1|N1| |] eqn:E; [|discriminate K|discriminate K|discriminate K].
    apply (ft_function front84 cli90 (str "br") (str "set") (str "f") [] 1 3 N1); [reflexivity|standing|standing|reflexivity| |vm_compute; reflexivity| |exact E].
    + intros m H. injection H as <-. repeat constructor.
    + intros ln H. unfold line_to_addr in H. cbn [cl_source cli90 source90 so_lines get_address zget] in H. destruct (_ =? _) in H; discriminate.
  - apply (ft_program bad90 (new_cli U84 []) (str "run") [] (str ".text 0 MOV R0,")); [reflexivity|standing|discriminate|reflexivity|].
    intros p d H. assert (K : match assemble (u_stod (cl_setup (new_cli U84 []))) (str ".text 0 MOV R0,") with POk _ => false | PFail _ => true end = true) by (vm_compute; reflexivity). rewrite H in K. discriminate.
Qed.
(** C90_attach_refuted has the hypotheses of C84_session (C84_case) and the line `attach`. *)
Example C90_attach_case : typed (str "attach") [str "attach"] /\ stands_for command_names (str "attach") "attach" /\ (0 < fr_fuel front84)%nat.
Proof. split; [typing [str "attach"]|]. split; [standing|cbn; lia]. Qed.

Print Assumptions C88_stores.
Print Assumptions C88_shown.
Print Assumptions C89_string_refuted.
Print Assumptions C90_mistakes_refuted.
Print Assumptions C90_attach_refuted.
