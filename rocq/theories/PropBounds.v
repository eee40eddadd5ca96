(** C115, C116: requests for memory that the debuggee does not have. *)
From Coq Require Import Ascii String ZArith NArith List Bool Lia.
From Verif Require Import Base Text PropText PropNet StdMap Isa Alu AluSpec State IsaSpec IsaSame Lexer Asm Show AsmPrint AsmSpec PropAsm Exec Ram Writes Rat Cpu Os DbgText Spaces
  InOrder PipeInv PipeBasics PipeActs PipeMem PipeTick PipeDom PipeRun PipeBoot PipePoke Session IsaRefine DbgSpec Stops PropPipe PropDbg Client Proto PropProto Native PropBreak PropWatch
  LibSpec NatRun NatStop PropStep PropOver Src PropLines PropLineStep SrcFacts SetReg Expr Eval Info EvalFacts PropAssign Cli CliFacts PropCli PropRun PropStore.
Import ListNotations.
Open Scope Z_scope.

(** ---- specification ---- *)

(** A line that asks for the [n] cells from [a] on: to show or to change them. *)
Inductive asks_cells : list text -> Z -> Z -> Prop :=
| ac_get : forall w x a n more, stands_for command_names w "memory" -> stands_for memory_names x "get" -> 0 <= a < 2 ^ 64 -> 0 <= n < 2 ^ 64 ->
    asks_cells (w :: x :: show_Z a :: show_Z n :: more) a n
| ac_getstr : forall w x a n more, stands_for command_names w "memory" -> stands_for memory_names x "getstr" -> 0 <= a < 2 ^ 64 -> 0 <= n < 2 ^ 64 ->
    asks_cells (w :: x :: show_Z a :: show_Z n :: more) a n
| ac_set : forall w x a v vs, stands_for command_names w "memory" -> stands_for memory_names x "set" -> 0 <= a < 2 ^ 64 -> Forall fits (v :: vs) ->
    asks_cells (w :: x :: show_Z a :: map show_Z (v :: vs)) a (Z.of_nat (length (v :: vs)))
| ac_setstr : forall w x a more body t, stands_for command_names w "memory" -> stands_for memory_names x "setstr" -> 0 <= a < 2 ^ 64 ->
    join more [SPACE] = QUOTE :: body ++ [QUOTE] -> spells body t ->
    asks_cells (w :: x :: show_Z a :: more) a (Z.of_nat (length t) + 1).

(** ---- proofs ---- *)

(** What the handler does with such a line: it asks the library. *)
Definition asked_of (m : setup -> act native unit) (s : cli) (r : out cli unit) : Prop :=
  match m (cl_setup s) (cl_native s) with
  | Failed N' => r = Failed (cset_native s N') | Dead => r = Dead | Blocked => r = Blocked | Done _ _ => True
  end.

Section P.
Variable P : front.

Lemma cells_asked : forall ws a n s, cl_active s = true -> Forall PropText.word ws -> asks_cells ws a n -> 0 <= a < 2 ^ 64 /\ 0 <= n /\
  ((n < 2 ^ 64 /\ asked_of (fun U => get_memory U a n;; ret tt) s (handle_command P (join ws [SPACE]) s)) \/
   (exists l, l <> [] /\ Z.of_nat (length l) = n /\ asked_of (fun U => set_memory U a l) s (handle_command P (join ws [SPACE]) s))).
Proof.
  intros ws a n s A Hws H.
  destruct H as [w x a n more H1 H2 Ha Hn|w x a n more H1 H2 Ha Hn|w x a v vs H1 H2 Ha F|w x a more body t H1 H2 Ha J Sp]; inversion Hws as [|? ? Hw Hm]; subst; (split; [lia|]; split; [lia|]).
  - left. split; [lia|]. handled P H1 w (x :: show_Z a :: show_Z n :: more) Hw. rewrite E by exact A. unfold handle_memory. rewrite words_split by exact Hm.
    passes H2. rewrite (check_yes _ _ _ _ (stands_prefix _ _ _ H2)) by (cbn [length]; lia). cbn [orb nth]. rewrite !svtou64_show by lia.
    unfold asked_of, then_, lib. cbv beta. destruct (get_memory _ _ _ _); unfold ret; auto.
  - left. split; [lia|]. handled P H1 w (x :: show_Z a :: show_Z n :: more) Hw. rewrite E by exact A. unfold handle_memory. rewrite words_split by exact Hm.
    passes H2. rewrite (check_yes _ _ _ _ (stands_prefix _ _ _ H2)) by (cbn [length]; lia). cbn [orb nth]. rewrite !svtou64_show by lia.
    unfold asked_of, then_, lib. cbv beta. destruct (get_memory _ _ _ _); unfold ret; auto.
  - right. exists (v :: vs). split; [discriminate|]. split; [reflexivity|]. handled P H1 w (x :: show_Z a :: map show_Z (v :: vs)) Hw. rewrite E by exact A. unfold handle_memory.
    rewrite words_split by exact Hm. rewrite (check_yes _ _ _ _ (stands_prefix _ _ _ H2)) by (cbn [length map]; lia). cbn [skipn nth]. rewrite numbers_ok by exact F. rewrite svtou64_show by lia.
    unfold asked_of, lib. destruct (set_memory _ _ _ _); auto.
  - right. exists (map code t ++ [0]). split; [destruct t; discriminate|]. split; [rewrite app_length, map_length; cbn [length]; lia|]. handled P H1 w (x :: show_Z a :: more) Hw. rewrite E by exact A. unfold handle_memory.
    assert (Lm : more <> []) by (intros ->; discriminate J).
    rewrite words_split by exact Hm. passes H2. rewrite (check_yes _ _ _ _ (stands_prefix _ _ _ H2)) by (destruct more; [congruence|cbn [length map]; lia]). cbn [skipn nth]. rewrite svtou64_show by lia.
    rewrite J, (spells_ok _ _ Sp). rewrite (map_ext char_cell code) by (intros; apply code_ok). unfold asked_of, lib. destruct (set_memory _ _ _ _); auto.
Qed.

Lemma line_failed : forall l ws s s', typed l ws -> ws <> [] -> handle_command P (join ws [SPACE]) s = Failed s' -> command_line P l s = put Err s'.
Proof.
  intros l ws s s' Ht Hn E. destruct (typed_squash _ _ Ht) as [Es Hws]. unfold command_line. rewrite Es. destruct (join ws [SPACE]) as [|x y] eqn:J.
  - exfalso. destruct ws as [|w ws]; [congruence|]. inversion Hws as [|? ? Hw _]; subst. pose proof (word_nil _ Hw) as X. destruct w; [contradiction|]. destruct ws; discriminate J.
  - unfold catching. now rewrite E.
Qed.

Lemma asks_some : forall ws a n, asks_cells ws a n -> ws <> [].
Proof. intros ws a n H. destruct H; discriminate. Qed.

(** C115. Such a line that goes beyond the memory, the end being less than 2^64, is
    answered with an error message. Nothing else changes: neither the debugger nor the
    debuggee, whatever state it is in. *)
Theorem C115_refused : forall l ws a n s, cl_active s = true -> typed l ws -> asks_cells ws a n -> u_data (cl_setup s) < a + n < 2 ^ 64 ->
  command_line P l s = Done tt (cset_out s (cl_out s ++ [Err])).
Proof.
  intros l ws a n s A Ht H B. destruct (typed_squash _ _ Ht) as [_ Hws].
  destruct (cells_asked ws a n s A Hws H) as (Ha & Hn & K).
  assert (G : handle_command P (join ws [SPACE]) s = Failed s).
  { assert (Hs : cset_native s (set_link (cl_native s) (n_link (cl_native s))) = s) by (destruct s as [? [] ? ? ? ? ? ?]; reflexivity).
    destruct K as [[_ K]|(v & _ & L & K)]; unfold asked_of, get_memory, set_memory, then_, proc, read_memory, write_memory in K; rewrite ?L in K;
      (replace (u64 (a + n)) with (a + n) in K by (unfold u64, two64; rewrite Z.mod_small; lia)); (destruct (Z.ltb_spec (u_data (cl_setup s)) (a + n)); [|lia]); unfold fail in K; now rewrite K, ?Hs. }
  rewrite (line_failed l ws s s Ht (asks_some _ _ _ H) G). reflexivity.
Qed.

(** C116 (refuted): a line that goes beyond the memory is answered with an error message.
    If the end is 2^64 or a little more, the sum wraps, the check of the library lets the
    request pass, and the message to the VM ends it: with `run`, the debugger with it, and
    otherwise the connection is lost. *)
Lemma svtoidx_big : forall v, 2 ^ 63 <= v -> svtoidx (show_Z v) = None.
Proof.
  intros v Hv. unfold svtoidx. destruct (C28_print v) as [w [n [H1 [H2 [H3 H4]]]]]. rewrite H3, <- (app_nil_r w). rewrite (C28_read_signed _ w [] n H1 H2 I). cbv zeta. rewrite <- H4.
  destruct (Z.leb_spec (- 2 ^ 63) v); [|lia]. destruct (Z.ltb_spec v (2 ^ 63)); [lia|reflexivity].
Qed.

Lemma far_read : forall U r c a n, 0 <= a < 2 ^ 64 -> 0 <= n < 2 ^ 64 -> 2 ^ 64 <= a + n <= 2 ^ 64 + u_data U ->
  read_memory U a n (stopped r c) = if u_local U then Dead else Failed (mkLink None true).
Proof.
  intros U r c a n Ha Hn B. unfold read_memory.
  replace (u64 (a + n)) with (a + n - 2 ^ 64) by (unfold u64, two64; replace (a + n) with (a + n - 2 ^ 64 + 1 * 2 ^ 64) at 2 by lia; rewrite Z.mod_add, Z.mod_small; lia).
  destruct (Z.ltb_spec (u_data U) (a + n - 2 ^ 64)); [lia|]. unfold then_, ask, stopped. cbn [k_host k_told]. unfold serve.
  assert (D : decode (u_stod U) (u_stof U) (str "PEEKDATA " ++ show_Z a ++ [SPACE] ++ show_Z n) = DThrow).
  { change (str "PEEKDATA " ++ show_Z a ++ [SPACE] ++ show_Z n) with (str "PEEKDATA" ++ SPACE :: (show_Z a ++ SPACE :: show_Z n)).
    rewrite decode_arg by (apply split_cmd; [discriminate|cbn; intuition discriminate]).
    rewrite words2 by (apply show_Z_word). change (decode_range CPeekData [show_Z a; show_Z n] = DThrow).
    unfold decode_range. destruct (Z.le_gt_cases (2 ^ 63) a) as [X|X]; [now rewrite svtoidx_big|]. rewrite (svtoidx_big n) by lia. now destruct (svtoidx (show_Z a)). }
  rewrite D. now destruct (u_local U).
Qed.

Lemma far_write : forall U r c a l, 0 <= a < 2 ^ 64 -> Z.of_nat (length l) <= 2 ^ 63 -> 2 ^ 64 <= a + Z.of_nat (length l) <= 2 ^ 64 + u_data U ->
  write_memory U a l (stopped r c) = if u_local U then Dead else Failed (mkLink None true).
Proof.
  intros U r c a l Ha Hn B. unfold write_memory. remember (Z.of_nat (length l)) as n eqn:Hl.
  replace (u64 (a + n)) with (a + n - 2 ^ 64) by (unfold u64, two64; replace (a + n) with (a + n - 2 ^ 64 + 1 * 2 ^ 64) at 2 by lia; rewrite Z.mod_add, Z.mod_small; lia).
  destruct (Z.ltb_spec (u_data U) (a + n - 2 ^ 64)); [lia|]. destruct l as [|v l]; [cbn in Hl; lia|].
  unfold addresses. cbn [length seq map combine each fst snd]. replace (u64 (a + Z.of_nat 0)) with a by (unfold u64, two64; rewrite Z.mod_small; lia).
  unfold command, then_ at 1 2, ask, stopped. cbn [k_host k_told]. unfold serve.
  assert (D : decode (u_stod U) (u_stof U) (str "POKEDATA " ++ show_Z a ++ [SPACE] ++ show_Z v) = DThrow).
  { change (str "POKEDATA " ++ show_Z a ++ [SPACE] ++ show_Z v) with (str "POKEDATA" ++ SPACE :: (show_Z a ++ SPACE :: show_Z v)).
    rewrite decode_arg by (apply split_cmd; [discriminate|cbn; intuition discriminate]).
    rewrite words2 by (apply show_Z_word). change (decode_pokedata [show_Z a; show_Z v] = DThrow).
    unfold decode_pokedata. now rewrite svtoidx_big by lia. }
  rewrite D. now destruct (u_local U).
Qed.

Theorem C116_wraps_refuted : forall l ws a n s r c, cl_active s = true -> typed l ws -> asks_cells ws a n -> n_link (cl_native s) = stopped r c ->
  n < 2 ^ 63 -> 2 ^ 64 <= a + n <= 2 ^ 64 + u_data (cl_setup s) ->
  command_line P l s = if u_local (cl_setup s) then Dead else Done tt (cset_out (cset_native s (set_link (cl_native s) (mkLink None true))) (cl_out s ++ [Err])).
Proof.
  intros l ws a n s r c A Ht H L Hn B. destruct (typed_squash _ _ Ht) as [_ Hws].
  destruct (cells_asked ws a n s A Hws H) as (Ha & Hn' & K).
  assert (G : handle_command P (join ws [SPACE]) s = if u_local (cl_setup s) then Dead else Failed (cset_native s (set_link (cl_native s) (mkLink None true)))).
  { destruct K as [[_ K]|(v & _ & Lv & K)]; unfold asked_of, get_memory, set_memory, then_, proc in K; rewrite L in K.
    - rewrite far_read in K by lia. now destruct (u_local (cl_setup s)).
    - rewrite far_write in K by lia. now destruct (u_local (cl_setup s)). }
  destruct (u_local (cl_setup s)).
  - eapply line_command; [exact Ht|exact (asks_some _ _ _ H)|exact G|exact I].
  - rewrite (line_failed l ws s _ Ht (asks_some _ _ _ H) G). reflexivity.
Qed.
End P.

(** ---- the hypotheses can be met ---- *)

(** The machine of C88 has 16 cells. *)
Example C115_case : cl_active cli88 = true /\ u_data (cl_setup cli88) = 16 /\
  typed (str "mem get 10 7") [str "mem"; str "get"; str "10"; str "7"] /\ asks_cells [str "mem"; str "get"; str "10"; str "7"] 10 7 /\
  typed (str "mem set 16 1") [str "mem"; str "set"; str "16"; str "1"] /\ asks_cells [str "mem"; str "set"; str "16"; str "1"] 16 1.
Proof.
  split; [reflexivity|]. split; [reflexivity|]. split; [typing [str "mem"; str "get"; str "10"; str "7"]|].
  split; [apply (ac_get (str "mem") (str "get") 10 7 []); try standing; lia|]. split; [typing [str "mem"; str "set"; str "16"; str "1"]|].
  apply (ac_set (str "mem") (str "set") 16 1 []); try standing; try lia. repeat constructor; unfold fits; lia.
Qed.

(** The last cell that a 64-bit number can name. *)
Example C116_case : typed (str "mem get 18446744073709551615 1") [str "mem"; str "get"; str "18446744073709551615"; str "1"] /\
  asks_cells [str "mem"; str "get"; str "18446744073709551615"; str "1"] (2 ^ 64 - 1) 1 /\ (exists r, n_link (cl_native cli88) = stopped r cpu1) /\
  2 ^ 64 <= 2 ^ 64 - 1 + 1 <= 2 ^ 64 + u_data (cl_setup cli88).
Proof.
  split; [typing [str "mem"; str "get"; str "18446744073709551615"; str "1"]|]. split; [apply (ac_get (str "mem") (str "get") (2 ^ 64 - 1) 1 []); try standing; lia|].
  split; [eexists; reflexivity|]. change (u_data (cl_setup cli88)) with 16. lia.
Qed.

Print Assumptions C115_refused.
Print Assumptions C116_wraps_refuted.
