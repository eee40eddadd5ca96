(** Progress: a bound on the number of ticks until the oldest instruction retires. *)
From Coq Require Import ZArith NArith List Bool Sorted Lia.
From Verif Require Import Base Alu Isa Exec Ram Writes Rat Cpu LiveSpec InOrder PipeInv PipeBasics PipeActs PipeMem
  PipeExec PipePoll PipeRetire PipeAdd PipeTick PipeBoot PipeDom PipeRun PipeLive.
Import ListNotations.
Open Scope nat_scope.

(** ---- reads in progress ---- *)

Definition grows (g : nat) (r r' : ram) : Prop :=
  (forall a x, aget (ram_reads r) a = Some x -> aget (ram_reads r') a = Some x) /\
  (length (ram_reads r) = g -> length (ram_reads r') = g).

Lemma grows_refl : forall g r, grows g r r.
Proof. split; auto. Qed.

Lemma grows_trans : forall g a b c, grows g a b -> grows g b c -> grows g a c.
Proof. intros g a b c [H1 H2] [H3 H4]. split; auto. Qed.

Lemma read_memory_grows : forall g r w a mx r' v, read_memory g r w a mx = Ok (r', v) -> grows g r r'.
Proof.
  intros g r w a mx r' v H. unfold read_memory in H.
  assert (Hs : forall y, Ok (r, y) = (Ok (r', v) : res unit _) -> grows g r r').
  { intros y H0. apply Ok_eq in H0. inversion H0; subst. apply grows_refl. }
  destruct (wm_has_unspec w mx); [eauto|]. apply bind_ok in H. destruct H as [[m|] [_ H]].
  - destruct (mw_value m); eauto.
  - unfold ram_read in H. destruct (aget (ram_reads r) a) eqn:Hg; [destruct (re_rem r0); eauto|].
    destruct (Nat.eqb_spec (length (ram_reads r)) g) as [|Hne]; [eauto|].
    destruct (aget (ram_writes r) a); [discriminate|]. destruct (mem_at (ram_mem r) a); [|eauto].
    apply Ok_eq in H. inversion H; subst. split; cbn [ram_reads]; [|congruence].
    intros b x Hb. rewrite aget_aset. destruct (Z.eqb_spec b a); congruence.
Qed.

Lemma fetch_op_grows : forall E g f w t mx n r x o r' x' o', fetch_op n E g f w t mx r x o = Ok (r', x', o') -> grows g r r'.
Proof.
  induction n as [|n IH]; intros r x o r' x' o' H; [discriminate H|]. cbn [fetch_op] in H.
  assert (Hs : forall y z, Ok (r, y, z) = (Ok (r', x', o') : res unit _) -> grows g r r').
  { intros y z H0. apply Ok_eq in H0. inversion H0; subst. apply grows_refl. }
  destruct (requirement o) as [[rg|k|a]|]; [| | |eauto].
  - apply bind_ok in H. destruct H as [[v|] [_ H]]; apply bind_ok in H; destruct H as [o1 [H2 H]]; eauto.
  - apply bind_ok in H. destruct H as [[v|] [_ H]]; [|eauto]. apply bind_ok in H; destruct H as [o1 [H2 H]]; eauto.
  - apply bind_ok in H. destruct H as [[r1 v] [H1 H]]. apply read_memory_grows in H1.
    destruct v as [v| |].
    + apply bind_ok in H; destruct H as [o1 [H2 H]]. eapply grows_trans; eauto.
    + apply Ok_eq in H. inversion H; subst. exact H1.
    + apply bind_ok in H; destruct H as [o1 [H2 H]]. eapply grows_trans; eauto.
Qed.

Lemma fetch_ops_grows : forall E g f w t mx os r x r' x' os', fetch_ops E g f w t mx r x os = Ok (r', x', os') -> grows g r r'.
Proof.
  induction os as [|o os IH]; intros r x r' x' os' H; cbn [fetch_ops] in H.
  - apply Ok_eq in H. inversion H; subst. apply grows_refl.
  - apply bind_ok in H. destruct H as [[[r1 x1] o1] [H1 H]]. apply bind_ok in H. destruct H as [[[r2 x2] os2] [H2 H]].
    apply Ok_eq in H. inversion H; subst r2 x2 os'. eapply grows_trans; [eapply fetch_op_grows; eauto|eauto].
Qed.

Lemma poll_entry_grows : forall E g f w r a e r' a' e', poll_entry E g f w r a e = Ok (r', a', e') -> grows g r r'.
Proof.
  intros E g f w r a e r' a' e' H. unfold poll_entry in H.
  assert (Hs : forall y z, Ok (r, y, z) = (Ok (r', a', e') : res unit _) -> grows g r r').
  { intros y z H0. apply Ok_eq in H0. inversion H0; subst. apply grows_refl. }
  destruct (e_state e); eauto.
  - apply bind_ok in H. destruct H as [[[r1 x1] o1] [H1 H]]. apply Ok_eq in H. inversion H; subst.
    eapply fetch_ops_grows; eauto.
  - destruct (needs_alu (e_ins e)); [destruct a|]; eauto.
Qed.

Lemma poll_loop_grows : forall E g f w es r a r' a' es', poll_loop E g f w r a es = Ok (r', a', es') -> grows g r r'.
Proof.
  induction es as [|e es IH]; intros r a r' a' es' H; cbn [poll_loop] in H.
  - apply Ok_eq in H. inversion H; subst. apply grows_refl.
  - apply bind_ok in H. destruct H as [[[r1 a1] e1] [H1 H]]. apply bind_ok in H. destruct H as [[[r2 a2] es2] [H2 H]].
    apply Ok_eq in H. inversion H; subst r2 a2 es'. eapply grows_trans; [eapply poll_entry_grows; eauto|eauto].
Qed.

Lemma tick_reads_get : forall m a k v, aget m a = Some (mkRe (S k) v) -> aget (tick_reads m) a = Some (mkRe k v).
Proof.
  induction m as [|[b x] m IH]; intros a k v H; cbn in H; [discriminate|]. cbn [tick_reads].
  destruct (Z.eqb_spec a b) as [->|Hne].
  - inversion H; subst x. cbn. now rewrite Z.eqb_refl.
  - destruct (re_rem x); [auto|]. cbn. destruct (Z.eqb_spec a b); [congruence|auto].
Qed.

Lemma tick_reads_le : forall m, length (tick_reads m) <= length m.
Proof. induction m as [|[b x] m IH]; cbn; [lia|]. destruct (re_rem x); cbn; lia. Qed.

Lemma tick_reads_lt : forall m a x, aget m a = Some x -> re_rem x = 0 -> length (tick_reads m) < length m.
Proof.
  induction m as [|[b y] m IH]; intros a x H Hx; cbn in H; [discriminate|]. cbn [tick_reads length].
  pose proof (tick_reads_le m). destruct (Z.eqb_spec a b) as [->|Hne].
  - inversion H; subst y. rewrite Hx. lia.
  - specialize (IH _ _ H Hx). destruct (re_rem y); cbn [length]; lia.
Qed.

(** ---- the oldest instruction fetches its operands ---- *)

(** registers are there; memory has nothing to wait for but the RAM itself *)
Record clear (f : pfile) (w : wman) (t : rat) (mx : Z) (mem : bool) : Prop := mkClear {
  cl_reg : forall l, read_reg f t l <> Ok None;
  cl_unspec : mem = true -> wm_has_unspec w mx = false;
  cl_prev : forall a m, mem = true -> wm_previous w a mx = Ok (Some m) -> mw_value m <> None
}.

Definition reading (r : ram) (a : Z) (k : nat) : Prop := exists v, aget (ram_reads r) a = Some (mkRe k v).

Lemma fetch_op_stuck : forall E g f w t mx mem n r x o r' x' o',
  clear f w t mx mem -> (is_memory o = true -> mem = true) ->
  fetch_op n E g f w t mx r x o = Ok (r', x', o') -> weight o' = weight o -> weight o <> 0 ->
  exists a, o = OMemImm a /\ ((exists k, reading r' a (S k) /\ k <= 4) \/ (exists k, reading r' a (S k) /\ reading r a (S k)) \/ length (ram_reads r) = g).
Proof.
  intros E g f w t mx mem n r x o r' x' o' [C1 C2 C3] Hm H Hw Hn. destruct n as [|n]; [discriminate H|].
  cbn [fetch_op] in H.
  assert (Hno : forall v o1 r1 x1, supply (e_mode E) o v = Ok o1 -> fetch_op n E g f w t mx r1 x1 o1 = Ok (r', x', o') -> False).
  { intros v o1 r1 x1 Hs Hf. apply fetch_op_weight in Hf. apply supply_weight in Hs. lia. }
  destruct (requirement o) as [[rg|k|a]|] eqn:Hq.
  - exfalso. apply bind_ok in H. destruct H as [[v|] [H1 H]]; [|exact (C1 _ H1)].
    apply bind_ok in H. destruct H as [o1 [H2 H]]. eauto.
  - exfalso. apply bind_ok in H. destruct H as [[v|] [H1 H]]; [|exact (C1 _ H1)].
    apply bind_ok in H. destruct H as [o1 [H2 H]]. eauto.
  - assert (Ho : o = OMemImm a) by (destruct o; inversion Hq; reflexivity). exists a. split; [exact Ho|].
    assert (Hmem : mem = true) by (apply Hm; subst o; reflexivity).
    apply bind_ok in H. destruct H as [[r1 v] [H1 H]].
    destruct v as [v| |]; try (exfalso; apply bind_ok in H; destruct H as [o1 [H2 H]]; eauto; fail).
    apply Ok_eq in H. inversion H; subst r1 x' o'. clear H. unfold read_memory in H1. rewrite (C2 Hmem) in H1.
    apply bind_ok in H1. destruct H1 as [[m|] [Hp H1]].
    { exfalso. pose proof (C3 a m Hmem Hp) as Hv. destruct (mw_value m); [|congruence]. apply Ok_eq in H1. discriminate. }
    unfold ram_read in H1. destruct (aget (ram_reads r) a) as [[k v]|] eqn:Hg.
    + cbn [re_rem re_val] in H1. destruct k as [|k]; apply Ok_eq in H1; inversion H1; subst r'.
      right. left. exists k. split; exists v; exact Hg.
    + destruct (Nat.eqb_spec (length (ram_reads r)) g) as [Hl|Hl]; [auto|].
      destruct (aget (ram_writes r) a); [discriminate|]. destruct (mem_at (ram_mem r) a) as [v|]; [|discriminate].
      apply Ok_eq in H1. inversion H1; subst r'. left. exists 4. split; [|lia]. exists v. cbn [ram_reads]. rewrite aget_aset, Z.eqb_refl. reflexivity.
  - exfalso. apply requirement_weight in Hq. contradiction.
Qed.

Definition waits (r : ram) (os : list operand) (k : nat) : Prop := exists a, In (OMemImm a) os /\ reading r a (S k).

Lemma grows_reading : forall g r r' a k, grows g r r' -> reading r a k -> reading r' a k.
Proof. intros g r r' a k [H _] [v Hv]. exists v. auto. Qed.

Lemma fetch_ops_stuck : forall E g f w t mx mem os r x r' x' os',
  clear f w t mx mem -> (nomem os = false -> mem = true) ->
  (forall a y, aget (ram_reads r) a = Some y -> re_rem y <= 5) ->
  fetch_ops E g f w t mx r x os = Ok (r', x', os') -> sumw os' = sumw os -> sumw os <> 0 ->
  (exists k, waits r' os k /\ k <= 4) \/ length (ram_reads r) = g.
Proof.
  induction os as [|o os IH]; intros r x r' x' os' C Hm Hlat H Hw Hn; [cbn in Hn; congruence|]. cbn [fetch_ops] in H.
  apply bind_ok in H. destruct H as [[[r1 x1] o1] [H1 H]]. apply bind_ok in H. destruct H as [[[r2 x2] os2] [H2 H]].
  apply Ok_eq in H. inversion H; subst r2 x2 os'. clear H.
  change (sumw (o1 :: os2)) with (weight o1 + sumw os2) in Hw. change (sumw (o :: os)) with (weight o + sumw os) in Hw, Hn.
  destruct (fetch_op_weight _ _ _ _ _ _ _ _ _ _ _ _ _ H1) as [A1 _].
  destruct (fetch_ops_weight _ _ _ _ _ _ _ _ _ _ _ _ H2) as [B1 _].
  destruct (Nat.eq_dec (weight o) 0) as [Hz|Hz].
  - assert (Hr : r1 = r).
    { cbn [fetch_op] in H1. rewrite (proj2 (requirement_weight o) Hz) in H1. apply Ok_eq in H1. now inversion H1. }
    subst r1. assert (Hm' : nomem os = false -> mem = true).
    { intros Hx. apply Hm. cbn. rewrite andb_comm. unfold nomem in Hx. now rewrite Hx. }
    destruct (IH _ _ _ _ _ C Hm' Hlat H2 ltac:(lia) ltac:(lia)) as [[k [[a [Ha Hr]] Hk]]|Hg]; [left|now right].
    exists k. split; [|exact Hk]. exists a. split; [now right|exact Hr].
  - assert (Hm' : is_memory o = true -> mem = true).
    { intros Hx. apply Hm. cbn. now rewrite Hx. }
    destruct (fetch_op_stuck _ _ _ _ _ _ _ _ _ _ _ _ _ _ C Hm' H1 ltac:(lia) Hz) as [a [-> [[k [Hr Hk]]|[[k [Hr Hr0]]|Hg]]]].
    + left. exists k. split; [|exact Hk]. exists a. split; [now left|].
      eapply grows_reading; [eapply fetch_ops_grows; eauto|exact Hr].
    + left. exists k. split. { exists a. split; [now left|]. eapply grows_reading; [eapply fetch_ops_grows; eauto|exact Hr]. }
      destruct Hr0 as [v Hv]. apply Hlat in Hv. cbn in Hv. lia.
    + now right.
Qed.

Lemma fetch_op_zero : forall E g f w t mx mem n r x a r' x' o', clear f w t mx mem -> mem = true ->
  fetch_op (S n) E g f w t mx r x (OMemImm a) = Ok (r', x', o') -> reading r a 0 -> weight o' = 0.
Proof.
  intros E g f w t mx mem n r x a r' x' o' [C1 C2 C3] Hm H [v Hv]. cbn [fetch_op requirement] in H.
  assert (Hno : forall v o1 r1 x1, supply (e_mode E) (OMemImm a) v = Ok o1 -> fetch_op n E g f w t mx r1 x1 o1 = Ok (r', x', o') -> weight o' = 0).
  { intros v0 o1 r1 x1 Hs Hf. apply fetch_op_weight in Hf. apply supply_weight in Hs. cbn [weight] in Hs. lia. }
  apply bind_ok in H. destruct H as [[r1 y] [H1 H]].
  destruct y as [y| |]; try (apply bind_ok in H; destruct H as [o1 [H2 H]]; eapply Hno; eauto; fail).
  exfalso. unfold read_memory in H1. rewrite (C2 Hm) in H1. apply bind_ok in H1. destruct H1 as [[m|] [Hp H1]].
  - pose proof (C3 a m Hm Hp) as Hx. destruct (mw_value m); [|congruence]. apply Ok_eq in H1. discriminate.
  - unfold ram_read in H1. rewrite Hv in H1. cbn in H1. apply Ok_eq in H1. discriminate.
Qed.

Lemma fetch_ops_zero : forall E g f w t mx mem os a r x r' x' os', clear f w t mx mem -> (nomem os = false -> mem = true) ->
  fetch_ops E g f w t mx r x os = Ok (r', x', os') -> In (OMemImm a) os -> reading r a 0 -> sumw os' < sumw os.
Proof.
  induction os as [|o os IH]; intros a r x r' x' os' C Hm H Hin Hr; [destruct Hin|]. cbn [fetch_ops] in H.
  apply bind_ok in H. destruct H as [[[r1 x1] o1] [H1 H]]. apply bind_ok in H. destruct H as [[[r2 x2] os2] [H2 H]].
  apply Ok_eq in H. inversion H; subst r2 x2 os'. clear H.
  change (sumw (o1 :: os2)) with (weight o1 + sumw os2). change (sumw (o :: os)) with (weight o + sumw os).
  destruct (fetch_op_weight _ _ _ _ _ _ _ _ _ _ _ _ _ H1) as [A1 _].
  destruct (fetch_ops_weight _ _ _ _ _ _ _ _ _ _ _ _ H2) as [B1 _].
  destruct Hin as [->|Hin].
  - assert (Hmem : mem = true) by (apply Hm; reflexivity).
    rewrite (fetch_op_zero _ _ _ _ _ _ _ _ _ _ _ _ _ _ C Hmem H1 Hr). cbn [weight]. lia.
  - assert (Hm' : nomem os = false -> mem = true).
    { intros Hx. apply Hm. cbn. rewrite andb_comm. unfold nomem in Hx. now rewrite Hx. }
    pose proof (grows_reading _ _ _ _ _ (fetch_op_grows _ _ _ _ _ _ _ _ _ _ _ _ _ H1) Hr) as Hr1.
    specialize (IH _ _ _ _ _ _ C Hm' H2 Hin Hr1). lia.
Qed.

Lemma sumw_vals : forall os, sumw os = 0 <-> exists vs, op_vals os = Some vs.
Proof.
  induction os as [|o os IH].
  - split; [exists []; reflexivity|reflexivity].
  - change (sumw (o :: os)) with (weight o + sumw os). cbn [op_vals]. split.
    + intros H. assert (H1 : sumw os = 0) by lia. apply IH in H1. destruct H1 as [vs ->].
      assert (Hw : weight o = 0) by lia. destruct o; cbn in Hw; try discriminate; cbn; eauto.
    + intros [vs H]. destruct (op_val o) eqn:Ho; [|discriminate]. destruct (op_vals os) as [ws|]; [|discriminate].
      assert (sumw os = 0) by (apply IH; eauto). destruct o; cbn in Ho; try discriminate; cbn; lia.
Qed.

Lemma all_fetched_iff : forall os, all_fetched os = true <-> sumw os = 0.
Proof.
  intros os. rewrite sumw_vals. unfold all_fetched. destruct (op_vals os); split; eauto; try discriminate.
  intros [vs H]. discriminate.
Qed.

(** ---- a tick in which nothing retires ---- *)


Lemma retire_none : forall n c c', retire_loop n c = Ok c' -> retire_count n c = 0 -> length (c_rs c) <= n ->
  c' = c /\ forall e es, c_rs c = e :: es -> e_state e <> Retiring.
Proof.
  intros [|n] c c' H Hc Hl; cbn [retire_loop retire_count] in *.
  - apply Ok_eq in H. split; [auto|]. intros e es He. rewrite He in Hl. cbn in Hl. lia.
  - destruct (c_rs c) as [|e es] eqn:Hrs; [apply Ok_eq in H; split; [auto|discriminate]|].
    destruct (e_state e) eqn:Hst; try (apply Ok_eq in H; split; [auto|]; intros e0 es0 He; inversion He; subst; congruence).
    apply bind_ok in H. destruct H as [c1 [H1 H]]. rewrite H1 in Hc. discriminate.
Qed.

Lemma tick_quiet : forall E A c c', Inv E A c -> c_halted c = false -> tick E c = Ok c' -> tick_count E c = 0 ->
  exists f w a es r a2 es2 c5 den role,
    exec_phase E c = Ok (f, w, a, es) /\ J E den role [] [] A (exec_state c (f, w, a, es)) /\
    poll_loop E (g_gates (c_cfg c)) f w (ram_tick (c_ram c)) a es = Ok (r, a2, es2) /\
    tick_decode (set_polled (exec_state c (f, w, a, es)) r es2 a2) = Ok c5 /\ c' = tick_front c5 /\
    (forall e t, es = e :: t -> e_state e <> Retiring).
Proof.
  intros E A c c' HI Hh H Hc. unfold tick in H. apply bind_ok in H. destruct H as [c2 [H2 H]].
  rewrite tick_retire_eq in H2. apply bind_ok in H2. destruct H2 as [[[[f w] a] es] [Hex H2]]. apply lift_ok in Hex.
  destruct (exec_phase_inv _ _ _ _ HI Hex) as [den [role [HK _]]].
  assert (Hc0 : retire_count (length (c_rs (exec_state c (f, w, a, es)))) (exec_state c (f, w, a, es)) = 0).
  { unfold tick_count in Hc. cbv zeta in Hc. cbn [set_stop set_mem c_regs c_wm c_alus c_rs] in Hc.
    unfold exec_phase in Hex. rewrite Hex in Hc. exact Hc. }
  destruct (retire_none _ _ _ H2 Hc0 (Nat.le_refl _)) as [-> Hst].
  pose proof (k_J _ _ _ _ _ HK) as HJ. destruct HI as [_ [_ [Is _]]]. specialize (Is Hh).
  cbv zeta in H. cbn [exec_state set_exec set_stop set_mem c_halted c_single c_int] in H. rewrite Hh, Is in H.
  cbn [exec_state set_exec set_stop set_mem c_halted c_single c_int c_cfg c_regs c_wm c_ram c_alus c_rs Z.eqb negb] in H.
  apply bind_ok in H. destruct H as [[[r a2] es2] [Hpo H]]. apply lift_ok in Hpo.
  apply bind_ok in H. destruct H as [c5 [H5 H]]. apply Ok_eq in H. subst c'.
  exists f, w, a, es, r, a2, es2, c5, den, role. split; [exact Hex|]. split; [exact HJ|]. split; [exact Hpo|].
  split; [unfold exec_state; cbv zeta; rewrite Is; exact H5|]. split; [reflexivity|].
  intros e t He. apply (Hst e t). exact He.
Qed.

(** ---- what holds in every running state ---- *)

Record good (E : env) (c : cpu) : Prop := mkGood {
  gd_inv : exists A, Inv E A c;
  gd_L : L c;
  gd_run : c_halted c = false;
  gd_prog : Forall loads_or_stores (c_prog c);
  gd_alus : 1 <= g_alus (c_cfg c);
  gd_gates : 1 <= g_gates (c_cfg c);
  gd_rs : 1 <= g_rs (c_cfg c)
}.

Lemma stores_prod : forall i, stores i = false -> mem_prod i = None.
Proof. intros i H. destruct i; cbn in H; try discriminate; try reflexivity. destruct d; cbn in H; try discriminate; reflexivity. Qed.

Lemma prog_at_ls : forall p pc, Forall loads_or_stores p -> loads_or_stores (prog_at p pc).
Proof.
  intros p pc H. unfold prog_at. destruct (_ && _); [|left; reflexivity].
  destruct (Nat.lt_ge_cases (Z.to_nat pc) (length p)) as [Hl|Hl].
  - rewrite Forall_forall in H. apply H. now apply nth_In.
  - rewrite nth_overflow by exact Hl. left. reflexivity.
Qed.

(** the oldest instruction waits for nothing but the RAM *)
Lemma head_clear : forall E den role A c e t, J E den role [] [] A c -> L c -> c_rs c = e :: t -> e_state e <> Retiring ->
  Forall loads_or_stores (c_prog c) -> clear (c_regs c) (c_wm c) (e_rrat e) (e_maxid e) (loads (e_ins e)).
Proof.
  intros E den role A c e t [Jp Je Jr Jw Jm Ja Jl Jo Ji] [Lo Le] Hrs Hst Hls. rewrite Hrs in *.
  assert (Hw : loads (e_ins e) = true -> e_wids e = []).
  { intros Hl. destruct (Je [] e t eq_refl) as [Hi _]. pose proof (prog_at_ls _ (a_pc (sfold E A [])) Hls) as Hx.
    rewrite <- Hi in Hx. destruct Hx as [Hx|Hx]; [congruence|]. apply stores_prod in Hx.
    pose proof (wi_shape _ _ _ _ Jw e (or_introl eq_refl)) as Hs. now rewrite Hx in Hs. }
  assert (Hpost : forall x id, In x t -> In id (e_wids x) -> (e_maxid e < id)%Z).
  { intros x id Hx Hid. destruct (wi_max _ _ _ _ Jw [] e t eq_refl) as [_ [_ H]]. now apply (H x Hx). }
  constructor.
  - intros l H. unfold read_reg in H. destruct (rget (e_rrat e) l) as [p|] eqn:Hg; [|discriminate].
    destruct (nth_error (c_regs c) p) as [r|] eqn:Hr; [|discriminate].
    assert (Hrd : p_ready r = true).
    { destruct (lreg_eq_dec l (LR PC)) as [->|Hl].
      - destruct (ri_pc _ _ _ _ _ _ _ _ Jr [] e t eq_refl) as [p' [r' [H1 [_ [H3 [H4 _]]]]]]. congruence.
      - destruct (ri_rrdy _ _ _ _ _ _ _ _ Jr [] e t eq_refl l p Hl Hg) as [[r' [H1 H2]]|[x [l' [[] _]]]]. congruence. }
    rewrite Hrd in H. apply Ok_eq in H. discriminate.
  - intros Hl. unfold wm_has_unspec. destruct (existsb _ _) eqn:Hx; [|reflexivity]. exfalso.
    apply existsb_exists in Hx. destruct Hx as [id [Hid Hle]]. apply Z.leb_le in Hle.
    destruct (Lo id Hid) as [x [[<-|Hx] [_ [Hw' _]]]].
    + rewrite (Hw Hl) in Hw'. destruct Hw'.
    + pose proof (Hpost _ _ Hx Hw'). lia.
  - intros a m Hl H. unfold wm_previous in H. destruct (wm_has_unspec _ _); [discriminate|]. apply Ok_eq in H.
    pose proof (mws_latest_spec (vec (c_wm c) a) (e_maxid e) (wi_sorted _ _ _ _ Jw a)) as Hm.
    unfold vec in Hm. rewrite H in Hm. destruct Hm as [Hin [Hle _]].
    pose proof (wi_src _ _ _ _ Jw a m Hin) as Hs. destruct (mw_ram m); [apply Hs|].
    exfalso. destruct Hs as [x [[<-|Hx] Hw']].
    + rewrite (Hw Hl) in Hw'. destruct Hw'.
    + pose proof (Hpost _ _ Hx Hw'). lia.
Qed.

(** ---- execution units ---- *)

Lemma exec_loop_alus : forall E es f w a f' w' a' es', exec_loop E f w a es = Ok (f', w', a', es') -> a <= a' /\
  forall x, In x es -> executing_alu x = true -> a < a' \/ exists x', In x' es' /\ executing_alu x' = true /\ S (e_time x') <= e_time x.
Proof.
  induction es as [|e es IH]; intros f w a f' w' a' es' H; cbn [exec_loop] in H.
  - apply Ok_eq in H. inversion H; subst. split; [lia|]. intros x [].
  - apply bind_ok in H. destruct H as [[[[f1 w1] a1] e1] [H1 H]]. apply bind_ok in H.
    destruct H as [[[[f2 w2] a2] es2] [H2 H]]. apply Ok_eq in H. inversion H; subst f2 w2 a2 es'. clear H.
    apply IH in H2. destruct H2 as [I1 I2].
    assert (Hh : a <= a1 /\ (executing_alu e = true -> a < a1 \/ (executing_alu e1 = true /\ S (e_time e1) <= e_time e))).
    { unfold exec_entry in H1. unfold executing_alu.
      destruct (e_state e); try (apply Ok_eq in H1; inversion H1; subst; split; [lia|discriminate]).
      destruct (Nat.pred (e_time e)) as [|t] eqn:Ht.
      - apply bind_ok in H1. destruct H1 as [vs [_ H1]]. apply bind_ok in H1. destruct H1 as [acts [_ H1]].
        apply bind_ok in H1. destruct H1 as [[[f3 w3] o3] [_ H1]]. apply Ok_eq in H1. inversion H1; subst f3 w3 a1 e1.
        split; [destruct (needs_alu (e_ins e)); lia|]. intros Hn. rewrite Hn. left. lia.
      - apply Ok_eq in H1. inversion H1; subst f1 w1 a1 e1. split; [lia|]. intros Hn. right.
        cbn [set_ops e_state e_ins e_time]. split; [exact Hn|lia]. }
    destruct Hh as [Hh1 Hh2]. split; [lia|]. intros x [<-|Hx] Hxa.
    + destruct (Hh2 Hxa) as [Hl|[Hl1 Hl2]]; [left; lia|right]. exists e1. split; [now left|auto].
    + destruct (I2 x Hx Hxa) as [Hl|[x' [Hx1 Hx2]]]; [left; lia|right]. exists x'. split; [now right|auto].
Qed.

Lemma poll_loop_executing : forall E g f w es r a r' a' es', poll_loop E g f w r a es = Ok (r', a', es') ->
  forall x, In x es -> executing_alu x = true -> In x es'.
Proof.
  induction es as [|e es IH]; intros r a r' a' es' H x Hx Hxa; [destruct Hx|]. cbn [poll_loop] in H.
  apply bind_ok in H. destruct H as [[[r1 a1] e1] [H1 H]]. apply bind_ok in H. destruct H as [[[r2 a2] es2] [H2 H]].
  apply Ok_eq in H. inversion H; subst r2 a2 es'. destruct Hx as [<-|Hx]; [left|right; eauto].
  unfold poll_entry in H1. unfold executing_alu in Hxa. destruct (e_state e); try discriminate.
  apply Ok_eq in H1. now inversion H1.
Qed.

(** ---- how far the next retirement is away ---- *)

Inductive rank (c : cpu) : nat -> Prop :=
| rk_ret : forall e t, c_rs c = e :: t -> e_state e = Retiring -> rank c 0
| rk_exec : forall e t, c_rs c = e :: t -> e_state e = Executing -> rank c (e_time e)
| rk_ready : forall e t k, c_rs c = e :: t -> e_state e = Ready ->
    needs_alu (e_ins e) = false \/ 0 < c_alus c \/
    (exists x, In x (c_rs c) /\ executing_alu x = true /\ e_time x <= k) -> rank c (5 + k)
| rk_wait : forall e t k, c_rs c = e :: t -> e_state e = Preparing -> waits (c_ram c) (e_ops e) k ->
    rank c (9 + 13 * sumw (e_ops e) + k)
| rk_full : forall e t b k, c_rs c = e :: t -> e_state e = Preparing -> length (ram_reads (c_ram c)) = g_gates (c_cfg c) ->
    reading (c_ram c) b k -> rank c (9 + 13 * sumw (e_ops e) + 5 + k)
| rk_prep : forall e t, c_rs c = e :: t -> e_state e = Preparing -> rank c (9 + 13 * sumw (e_ops e) + 11)
| rk_add : forall x, c_rs c = [] -> c_decode c = Some x -> rank c 86
| rk_dec : forall x, c_rs c = [] -> c_decode c = None -> c_fetch c = Some x -> rank c 87
| rk_fet : c_rs c = [] -> c_decode c = None -> c_fetch c = None -> rank c 88.

Lemma ready_rank : forall E c e t, good E c -> c_rs c = e :: t -> e_state e = Ready -> rank c 8.
Proof.
  intros E c e t [[A [_ [_ [_ [den [role HJ]]]]]] [_ Le] _ _ Hal _ _] Hrs Hst.
  apply (rk_ready c e t 3 Hrs Hst). right.
  pose proof (j_alus _ _ _ _ _ _ _ HJ) as Ha. destruct (c_alus c) as [|n]; [right|left; lia].
  assert (Hx : exists x, In x (c_rs c) /\ executing_alu x = true).
  { unfold count_alus in Ha. destruct (filter executing_alu (c_rs c)) as [|x l] eqn:Hf; [cbn in Ha; lia|].
    exists x. apply filter_In. rewrite Hf. now left. }
  destruct Hx as [x [Hx1 Hx2]]. exists x. split; [exact Hx1|]. split; [exact Hx2|].
  rewrite Forall_forall in Le. apply (Le x Hx1).
Qed.

Lemma some_rank : forall E c, good E c -> exists n, n <= 88 /\ rank c n.
Proof.
  intros E c HG. destruct (c_rs c) as [|e t] eqn:Hrs.
  - destruct (c_decode c) as [x|] eqn:Hd; [exists 86; split; [lia|]; eapply rk_add; eauto|].
    destruct (c_fetch c) as [x|] eqn:Hf; [exists 87; split; [lia|]; eapply rk_dec; eauto|].
    exists 88. split; [lia|]. now apply rk_fet.
  - pose proof (gd_L _ _ HG) as [_ Le]. rewrite Hrs in Le. inversion Le as [|? ? [E1 [_ E3]] _]; subst.
    destruct (e_state e) eqn:Hst.
    + exists (9 + 13 * sumw (e_ops e) + 11). split; [lia|]. eapply rk_prep; eauto.
    + exists 8. split; [lia|]. eapply ready_rank; eauto.
    + exists (e_time e). split; [lia|]. eapply rk_exec; eauto.
    + exists 0. split; [lia|]. eapply rk_ret; eauto.
Qed.

Lemma decode_frame : forall c c', tick_decode c = Ok c' ->
  (exists t, c_rs c' = c_rs c ++ t) /\ c_ram c' = c_ram c /\ c_alus c' = c_alus c.
Proof.
  intros c c' H. unfold tick_decode in H.
  assert (Hs : Ok c = (Ok c' : res cpu cpu) -> (exists t, c_rs c' = c_rs c ++ t) /\ c_ram c' = c_ram c /\ c_alus c' = c_alus c).
  { intros H0. apply Ok_eq in H0. subst. split; [exists []; now rewrite app_nil_r|auto]. }
  destruct (c_decode c) as [[i pc]|]; [|auto]. destruct (_ <? _); [|auto].
  apply bind_ok in H. destruct H as [c1 [H1 H]]. apply Ok_eq in H. subst c'.
  destruct (add_frame _ _ _ _ H1) as [e [A1 _ A3 A4 _ _ _ _]]. cbn [set_front c_rs c_ram c_alus].
  split; [eauto|auto].
Qed.

Lemma tick_good : forall E c c', good E c -> tick E c = Ok c' -> c_halted c' = false -> good E c'.
Proof.
  intros E c c' [[A HI] HL Hr Hp Ha Hg Hs] H Hh. destruct (tick_inv _ _ _ _ HI H) as [is [A' T]].
  constructor; try (rewrite ?(td_prog _ _ _ _ _ _ T), ?(td_cfg _ _ _ _ _ _ T); assumption); auto.
  - exists A'. apply (td_Inv _ _ _ _ _ _ T).
  - eapply tick_L; eauto.
Qed.

Lemma quiet_running : forall E A c c', Inv E A c -> c_halted c = false -> tick E c = Ok c' -> tick_count E c = 0 ->
  c_halted c' = false.
Proof.
  intros E A c c' HI Hh H Hc. destruct (tick_inv _ _ _ _ HI H) as [is [A' T]].
  pose proof (td_count _ _ _ _ _ _ T) as Hn. rewrite Hc in Hn. destruct is; [|discriminate].
  destruct (td_run _ _ _ _ _ _ T) as [n [Hrun _]]. destruct (td_Inv _ _ _ _ _ _ T) as [I1 _].
  destruct HI as [I0 _]. inversion Hrun; subst; congruence.
Qed.

(** a tick without retirement brings the next one nearer *)
Lemma rank_down : forall E c c' n, good E c -> rank c n -> tick E c = Ok c' -> tick_count E c = 0 ->
  exists m, m < n /\ rank c' m.
Proof.
  intros E c c' n HG HR H Hc.
  pose proof HG as [[A HI] HL Hh Hp Hal Hga Hrsn].
  pose proof (quiet_running _ _ _ _ HI Hh H Hc) as Hh'. pose proof (tick_good _ _ _ HG H Hh') as HG'.
  destruct (tick_quiet _ _ _ _ HI Hh H Hc) as [f [w [a [es [r [a2 [es2 [c5 [den [role [Hex [HJ [Hpo [Hde [-> Hst]]]]]]]]]]]]]]].
  pose proof (exec_state_L _ _ _ _ HI HL Hex) as HL1.
  destruct (tick_front_frame c5) as [Fr [_ [Fm [Fa [Fc _]]]]].
  destruct (decode_frame _ _ Hde) as [[tl Dr] [Dm Da]]. cbn [set_polled c_rs c_ram c_alus] in Dr, Dm, Da.
  assert (Hcfg : c_cfg (tick_front c5) = c_cfg c).
  { destruct (tick_inv _ _ _ _ HI H) as [is [A' T]]. apply (td_cfg _ _ _ _ _ _ T). }
  unfold exec_phase in Hex. destruct (c_rs c) as [|e t] eqn:Hrs.
  - (* nothing in the station *)
    clear Dr Dm Da Fm Fa.
    cbn [exec_loop] in Hex. apply Ok_eq in Hex. inversion Hex; subst f w a es. clear Hex.
    cbn [poll_loop] in Hpo. apply Ok_eq in Hpo. inversion Hpo; subst r a2 es2. clear Hpo.
    unfold tick_decode in Hde. cbn [set_polled exec_state set_exec set_stop set_mem c_decode c_rs c_cfg length] in Hde.
    inversion HR as [? ? Q1|? ? Q1|? ? ? Q1|? ? ? Q1|? ? ? ? Q1|? ? Q1|x Q1 Qd|x Q1 Qd Qf|Q1 Qd Qf]; subst n; try congruence.
    + (* an instruction is added *)
      destruct (c_decode c) as [[i pc]|]; [|congruence]. destruct (Nat.ltb_spec 0 (g_rs (c_cfg c))); [|lia].
      apply bind_ok in Hde. destruct Hde as [c6 [H6 H7]]. apply Ok_eq in H7. subst c5.
      destruct (add_frame _ _ _ _ H6) as [e Ha]. pose proof (added_elive _ _ _ _ Ha) as [_ [_ Hw]].
      destruct Ha as [A1 _ _ _ _ _ A7 _]. cbn [set_polled c_rs app] in A1.
      assert (Hr : c_rs (tick_front (set_front c6 (c_spec c6) (c_fetch c6) None (c_pred c6))) = [e]).
      { rewrite Fr. exact A1. }
      destruct A7 as [Hs|Hs].
      * exists 8. split; [lia|]. eapply ready_rank; eauto.
      * eexists. split; [|eapply rk_prep; eauto]. lia.
    + (* decoding *)
      rewrite Qd in Hde. apply Ok_eq in Hde. subst c5. exists 86. split; [lia|]. eapply rk_add.
      * rewrite Fr. reflexivity.
      * unfold tick_front. cbn [set_polled exec_state set_exec set_stop set_mem set_front c_decode c_fetch].
        rewrite Qd, Qf. cbn [set_front c_fetch]. unfold fetch.
        destruct (jump_dest _); cbn [set_front c_decode]; reflexivity.
    + (* fetching *)
      rewrite Qd in Hde. apply Ok_eq in Hde. subst c5. exists 87. split; [lia|].
      assert (Hx : exists x, c_decode (tick_front (set_polled (exec_state c (c_regs c, wm_remove_finished (c_wm c) (ram_tick (c_ram c)), c_alus c, [])) (ram_tick (c_ram c)) [] (c_alus c))) = None /\
        c_fetch (tick_front (set_polled (exec_state c (c_regs c, wm_remove_finished (c_wm c) (ram_tick (c_ram c)), c_alus c, [])) (ram_tick (c_ram c)) [] (c_alus c))) = Some x).
      { unfold tick_front. cbn [set_polled exec_state set_exec set_stop set_mem set_front c_decode c_fetch].
        rewrite Qd, Qf. cbn [set_front c_fetch]. unfold fetch.
        destruct (jump_dest _); cbn [set_front c_decode c_fetch]; eauto. }
      destruct Hx as [x [X1 X2]]. exact (rk_dec _ x Fr X1 X2).
  - (* there is an oldest instruction *)
    pose proof (exec_loop_alus _ _ _ _ _ _ _ _ _ Hex) as [Hal1 Hal2].
    cbn [exec_loop] in Hex. apply bind_ok in Hex. destruct Hex as [[[[f1 w1] a1] e1] [Hx1 Hex]].
    apply bind_ok in Hex. destruct Hex as [[[[f2 w2] a3] es3] [Hx2 Hex]]. apply Ok_eq in Hex.
    inversion Hex; subst f2 w2 a3 es. clear Hex. specialize (Hst _ _ eq_refl).
    pose proof (poll_loop_executing _ _ _ _ _ _ _ _ _ _ Hpo) as Hpx.
    pose proof (poll_loop_grows _ _ _ _ _ _ _ _ _ _ Hpo) as Hgr.
    cbn [poll_loop] in Hpo. apply bind_ok in Hpo. destruct Hpo as [[[r1 a4] e2] [Hp1 Hpo]].
    apply bind_ok in Hpo. destruct Hpo as [[[r2 a5] es4] [Hp2 Hpo]]. apply Ok_eq in Hpo. inversion Hpo; subst r2 a5 es2. clear Hpo.
    pose proof (poll_loop_grows _ _ _ _ _ _ _ _ _ _ Hp2) as Hgr2.
    assert (Hrs' : c_rs (tick_front c5) = e2 :: (es4 ++ tl)) by (rewrite Fr, Dr; reflexivity).
    assert (Hram' : c_ram (tick_front c5) = r) by (rewrite Fm, Dm; reflexivity).
    assert (Hprep : forall os x, e1 = e -> e_state e = Preparing ->
      fetch_ops E (g_gates (c_cfg c)) f w (e_rrat e) (e_maxid e) (ram_tick (c_ram c)) (e_exn e) (e_ops e) = Ok (r1, x, os) ->
      e2 = set_ops e os (if all_fetched os then Ready else Preparing) (e_time e) x ->
      (exists m, m < 9 + 13 * sumw (e_ops e) /\ rank (tick_front c5) m) \/
      (e2 = set_ops e (e_ops e) Preparing (e_time e) x /\ (forall b, In (OMemImm b) (e_ops e) -> ~ reading (ram_tick (c_ram c)) b 0) /\
       ((exists k, waits r (e_ops e) k /\ k <= 4) \/ length (ram_reads (ram_tick (c_ram c))) = g_gates (c_cfg c)))).
    { intros os x -> Hs Hf He2. destruct (fetch_ops_weight _ _ _ _ _ _ _ _ _ _ _ _ Hf) as [W1 [_ W3]].
      pose proof (head_clear _ _ _ _ _ e es3 HJ HL1 eq_refl ltac:(congruence) Hp) as C.
      cbn [exec_state set_exec c_regs c_wm] in C.
      assert (Hm : nomem (e_ops e) = false -> loads (e_ins e) = true).
      { intros Hm. pose proof HL as [_ Le]. rewrite Hrs in Le. inversion Le as [|? ? [_ [[E2|E2] _]] _]; subst; congruence. }
      destruct (Nat.eq_dec (sumw os) (sumw (e_ops e))) as [Hw|Hw].
      - destruct (Nat.eq_dec (sumw os) 0) as [Hz|Hz].
        + left. exists 8. split; [lia|]. eapply ready_rank; eauto. rewrite He2. cbn [set_ops e_state].
          now rewrite (proj2 (all_fetched_iff os) Hz).
        + right. specialize (W3 Hw). subst os. split; [|split].
          * rewrite He2. destruct (all_fetched (e_ops e)) eqn:Haf; [|reflexivity]. apply all_fetched_iff in Haf. congruence.
          * intros b Hb Hr. pose proof (fetch_ops_zero _ _ _ _ _ _ _ _ _ _ _ _ _ _ C Hm Hf Hb Hr). lia.
          * assert (Hlat : forall b y, aget (ram_reads (ram_tick (c_ram c))) b = Some y -> re_rem y <= 5).
            { intros b y Hy. apply aget_in in Hy. exact (ra_lat _ _ _ (j_ram _ _ _ _ _ _ _ HJ) b y Hy). }
            destruct (fetch_ops_stuck _ _ _ _ _ _ _ _ _ _ _ _ _ C Hm Hlat Hf Hw ltac:(lia)) as [[k [[b [Hb Hr]] Hk]]|Hl]; [left|now right].
            exists k. split; [|exact Hk]. exists b. split; [exact Hb|]. eapply grows_reading; eauto.
      - left. rewrite He2 in Hrs'. destruct (all_fetched os).
        + exists 8. split; [lia|]. eapply ready_rank; eauto.
        + eexists. split; [|eapply rk_prep; [exact Hrs'|reflexivity]]. cbn [set_ops e_ops]. lia. }
    assert (Hpsplit : e_state e = Preparing -> e1 = e /\ exists os x,
      fetch_ops E (g_gates (c_cfg c)) f w (e_rrat e) (e_maxid e) (ram_tick (c_ram c)) (e_exn e) (e_ops e) = Ok (r1, x, os) /\
      e2 = set_ops e os (if all_fetched os then Ready else Preparing) (e_time e) x).
    { intros Hs. unfold exec_entry in Hx1. rewrite Hs in Hx1. apply Ok_eq in Hx1. inversion Hx1; subst f1 w1 a1 e1.
      split; [reflexivity|]. unfold poll_entry in Hp1. rewrite Hs in Hp1. apply bind_ok in Hp1.
      destruct Hp1 as [[[r3 x] os] [Hf Hp1]]. apply Ok_eq in Hp1. inversion Hp1; subst r3 a4 e2. eauto. }
    inversion HR as [e0 t0 Q1 Q2|e0 t0 Q1 Q2|e0 t0 k Q1 Q2 Q3|e0 t0 k Q1 Q2 Q3|e0 t0 b k Q1 Q2 Q3 Q4|e0 t0 Q1 Q2| | |];
      subst n; try congruence; rewrite Hrs in Q1; inversion Q1; subst e0 t0; clear Q1.
    + (* already done: it retires *)
      exfalso. unfold exec_entry in Hx1. rewrite Q2 in Hx1. apply Ok_eq in Hx1. inversion Hx1; subst e1. congruence.
    + (* executing *)
      unfold exec_entry in Hx1. rewrite Q2 in Hx1. destruct (Nat.pred (e_time e)) as [|tm] eqn:Ht.
      { exfalso. apply bind_ok in Hx1. destruct Hx1 as [vs [_ Hx1]]. apply bind_ok in Hx1. destruct Hx1 as [acts [_ Hx1]].
        apply bind_ok in Hx1. destruct Hx1 as [[[f3 w3] o3] [_ Hx1]]. apply Ok_eq in Hx1. inversion Hx1; subst e1.
        apply Hst. reflexivity. }
      apply Ok_eq in Hx1. inversion Hx1; subst f1 w1 a1 e1. unfold poll_entry in Hp1. cbn [set_ops e_state] in Hp1.
      apply Ok_eq in Hp1. inversion Hp1; subst r1 a4 e2. exists (S tm). split; [lia|].
      exact (rk_exec _ _ _ Hrs' eq_refl).
    + (* ready *)
      unfold exec_entry in Hx1. rewrite Q2 in Hx1. apply Ok_eq in Hx1. inversion Hx1; subst f1 w1 a1 e1.
      assert (Ht : e_time e <= 3).
      { pose proof HL as [_ Le]. rewrite Hrs in Le. inversion Le as [|? ? [E1 _] _]; subst. exact E1. }
      unfold poll_entry in Hp1. rewrite Q2 in Hp1.
      assert (Hgo : e2 = set_ops e (e_ops e) Executing (e_time e) (e_exn e) -> exists m, m < 5 + k /\ rank (tick_front c5) m).
      { intros ->. exists (e_time e). split; [lia|]. exact (rk_exec _ _ _ Hrs' eq_refl). }
      destruct (needs_alu (e_ins e)) eqn:Hna; [|apply Ok_eq in Hp1; apply Hgo; now inversion Hp1].
      destruct a as [|a]; [|apply Ok_eq in Hp1; apply Hgo; now inversion Hp1].
      apply Ok_eq in Hp1. inversion Hp1; subst r1 a4 e2.
      destruct Q3 as [Q3|[Q3|[x [X1 [X2 X3]]]]]; [congruence|lia|].
      rewrite Hrs in X1. destruct (Hal2 x X1 X2) as [Hx|[x' [Y1 [Y2 Y3]]]]; [lia|].
      exists (5 + (k - 1)). split; [lia|]. eapply rk_ready; [exact Hrs'|exact Q2|]. right. right. exists x'.
      split; [|split; [exact Y2|lia]]. rewrite Hrs'. change (e :: es4 ++ tl) with ((e :: es4) ++ tl).
      apply in_or_app. left. now apply Hpx.
    + (* waiting for a read *)
      destruct (Hpsplit Q2) as [He1 [os [x [Hf He2]]]].
      destruct (Hprep os x He1 Q2 Hf He2) as [[m [Hm Hrk]]|[He [Hno _]]]; [exists m; split; [lia|exact Hrk]|].
      destruct Q3 as [b [Hb [v Hv]]].
      assert (Hv1 : reading (ram_tick (c_ram c)) b k) by (exists v; apply tick_reads_get; exact Hv).
      destruct k as [|k]; [exfalso; exact (Hno b Hb Hv1)|].
      exists (9 + 13 * sumw (e_ops e) + k). split; [lia|]. rewrite He in Hrs'.
      refine (rk_wait _ _ _ k Hrs' eq_refl _). exists b. split; [exact Hb|]. rewrite Hram'.
      exact (grows_reading _ _ _ _ _ Hgr Hv1).
    + (* waiting for a gate *)
      destruct (Hpsplit Q2) as [He1 [os [x [Hf He2]]]].
      destruct (Hprep os x He1 Q2 Hf He2) as [[m [Hm Hrk]]|[He [_ [[j [Hj1 Hj2]]|Hfull]]]]; [exists m; split; [lia|exact Hrk]| |].
      * exists (9 + 13 * sumw (e_ops e) + j). split; [lia|]. rewrite He in Hrs'.
        refine (rk_wait _ _ _ j Hrs' eq_refl _). now rewrite Hram'.
      * destruct Q4 as [v Hv]. destruct k as [|k].
        { exfalso. pose proof (tick_reads_lt _ _ _ Hv eq_refl) as Hlt. cbn [ram_tick ram_reads] in Hfull. lia. }
        exists (9 + 13 * sumw (e_ops e) + 5 + k). split; [lia|]. rewrite He in Hrs'.
        refine (rk_full _ _ _ b k Hrs' eq_refl _ _); rewrite Hram'.
        -- rewrite Hcfg. apply Hgr. exact Hfull.
        -- eapply grows_reading; [exact Hgr|]. exists v. apply tick_reads_get. exact Hv.
    + (* not asked yet *)
      destruct (Hpsplit Q2) as [He1 [os [x [Hf He2]]]].
      destruct (Hprep os x He1 Q2 Hf He2) as [[m [Hm Hrk]]|[He [_ [[j [Hj1 Hj2]]|Hfull]]]]; [exists m; split; [lia|exact Hrk]| |].
      * exists (9 + 13 * sumw (e_ops e) + j). split; [lia|]. rewrite He in Hrs'.
        refine (rk_wait _ _ _ j Hrs' eq_refl _). now rewrite Hram'.
      * assert (Hb : exists b k, reading (ram_tick (c_ram c)) b k /\ k <= 5).
        { destruct (ram_reads (ram_tick (c_ram c))) as [|[b [k v]] l] eqn:Hl; [cbn in Hfull; lia|].
          exists b, k. split; [exists v; rewrite Hl; cbn; now rewrite Z.eqb_refl|].
          pose proof (ra_lat _ _ _ (j_ram _ _ _ _ _ _ _ HJ) b (mkRe k v)) as Hla.
          cbn [exec_state set_exec set_stop set_mem c_ram re_rem] in Hla. apply Hla. rewrite Hl. now left. }
        destruct Hb as [b [k [Hb Hk]]]. exists (9 + 13 * sumw (e_ops e) + 5 + k). split; [lia|]. rewrite He in Hrs'.
        refine (rk_full _ _ _ b k Hrs' eq_refl _ _); rewrite Hram'.
        -- rewrite Hcfg. apply Hgr. exact Hfull.
        -- exact (grows_reading _ _ _ _ _ Hgr Hb).
Qed.

(** ---- the bound ---- *)

Lemma ticks_count_S : forall E n c c', tick E c = Ok c' -> ticks_count E (S n) c = tick_count E c + ticks_count E n c'.
Proof. intros E n c c' H. cbn [ticks_count]. now rewrite H. Qed.

Lemma rank_soon : forall E n c, good E c -> rank c n ->
  exists k, k <= S n /\ ((forall c', ticks E k c <> Ok c') \/ (exists c', ticks E k c = Ok c' /\ 1 <= ticks_count E k c)).
Proof.
  intros E n. induction n as [n IH] using lt_wf_ind. intros c HG HR.
  destruct (tick E c) as [c1|x s|u] eqn:Ht; try (exists 1; split; [lia|left; intros c'; cbn; rewrite Ht; discriminate]).
  destruct (Nat.eq_dec (tick_count E c) 0) as [Hz|Hz].
  - destruct (rank_down _ _ _ _ HG HR Ht Hz) as [m [Hm HR']].
    pose proof HG as [[A HI] _ Hh _ _ _ _]. pose proof (quiet_running _ _ _ _ HI Hh Ht Hz) as Hh'.
    destruct (IH m Hm c1 (tick_good _ _ _ HG Ht Hh') HR') as [k [Hk Hr]]. exists (S k). split; [lia|].
    cbn [ticks]. rewrite Ht. cbn [bind]. destruct Hr as [Hr|[c' [H1 H2]]]; [now left|right].
    exists c'. split; [exact H1|]. rewrite (ticks_count_S _ _ _ _ Ht). lia.
  - exists 1. split; [lia|]. right. exists c1. cbn [ticks]. rewrite Ht. split; [reflexivity|].
    rewrite (ticks_count_S _ 0 _ _ Ht). lia.
Qed.

Lemma good_soon : forall E c, good E c ->
  exists k, k <= 89 /\ ((forall c', ticks E k c <> Ok c') \/ (exists c', ticks E k c = Ok c' /\ 1 <= ticks_count E k c)).
Proof.
  intros E c HG. destruct (some_rank _ _ HG) as [n [Hn HR]]. destruct (rank_soon _ _ _ HG HR) as [k [Hk H]].
  exists k. split; [lia|exact H].
Qed.
