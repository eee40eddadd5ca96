(** A harmless program never makes the VM stumble: retirement. *)
From Coq Require Import ZArith NArith List Bool Sorted Lia.
From Verif Require Import Base Alu Isa Exec Ram Writes Rat Cpu LiveSpec InOrder PipeInv PipeBasics PipeActs PipeMem
  PipeExec PipePoll PipeRetire PipeAdd PipeTick PipeBoot PipeDom PipeLive SafeSpec PipeSafe PipeSafeExec PipeSafeStep.
Import ListNotations.
Open Scope Z_scope.

(** ---- subscriptions ---- *)

Definition covers (f : pfile) (k : nat -> nat) : Prop := forall p, (0 < k p)%nat -> exists r, nth_error f p = Some r /\ (k p <= p_subs r)%nat.

Lemma punsub_all_go : forall t f, covers f (fun p => cnt p t) -> exists f', punsub_all f t = Some f'.
Proof.
  induction t as [|[k p] t IH]; intros f H; cbn [punsub_all]; [eauto|].
  destruct (H p) as (r & H1 & H2); [rewrite cnt_cons, Nat.eqb_refl; lia|]. rewrite cnt_cons, Nat.eqb_refl in H2.
  destruct (punsub_some f p r H1) as (f1 & H3 & _); [lia|]. rewrite H3. apply IH. intros q Hq. pose proof (punsub_spec _ _ _ H3 q) as Hs.
  destruct (H q) as (r2 & G1 & G2); [rewrite cnt_cons; lia|]. rewrite cnt_cons in G2. rewrite G1 in Hs. destruct (nth_error f1 q) as [r3|]; [|discriminate].
  injection Hs as ->. exists r3. split; [reflexivity|]. unfold addsubs in G2. cbn [p_subs] in G2. lia.
Qed.

Lemma unsub_entries_go : forall es f, covers f (fun p => occ p (entry_tabs es)) -> exists f', unsub_entries f es = Some f'.
Proof.
  induction es as [|e es IH]; intros f H; cbn [unsub_entries]; [eauto|].
  assert (Ho : forall p, occ p (entry_tabs (e :: es)) = (cnt p (e_rrat e) + (cnt p (e_wrat e) + occ p (entry_tabs es)))%nat) by (intros p; unfold entry_tabs; cbn [flat_map app]; now rewrite !occ_cons).
  destruct (punsub_all_go (e_rrat e) f) as [f1 H1]; [intros p Hp; destruct (H p) as (r & G1 & G2); rewrite Ho in *; [lia|]; exists r; split; [exact G1|lia]|]. rewrite H1.
  pose proof (punsub_all_spec _ _ _ H1) as S1.
  assert (C1 : covers f1 (fun p => cnt p (e_wrat e) + occ p (entry_tabs es))%nat).
  { intros p Hp. destruct (H p) as (r & G1 & G2); [rewrite Ho; lia|]. rewrite Ho in G2. specialize (S1 p). rewrite G1 in S1. destruct (nth_error f1 p) as [r3|]; [|discriminate].
    injection S1 as ->. exists r3. split; [reflexivity|]. unfold addsubs in G2. cbn [p_subs] in G2. lia. }
  destruct (punsub_all_go (e_wrat e) f1) as [f2 H2]; [intros p Hp; destruct (C1 p) as (r & G1 & G2); [lia|]; exists r; split; [exact G1|lia]|]. rewrite H2.
  pose proof (punsub_all_spec _ _ _ H2) as S2. apply IH. intros p Hp. destruct (C1 p) as (r & G1 & G2); [lia|]. specialize (S2 p). rewrite G1 in S2. destruct (nth_error f2 p) as [r3|]; [|discriminate].
  injection S2 as ->. exists r3. split; [reflexivity|]. unfold addsubs in G2. cbn [p_subs] in G2. lia.
Qed.

(** What the retirement of the entry [e] needs of the registers. *)
Record RI (g : cfg) (e : entry) (c : cpu) : Prop := mkRI {
  rf_len : length (c_regs c) = nphys g;
  rf_own : tab_ok g (e_rrat e) /\ tab_ok g (e_wrat e);
  rf_tabs : forall t, In t (c_rat c :: entry_tabs (c_rs c)) -> tab_ok g t;
  rf_subs : forall p r, nth_error (c_regs c) p = Some r -> p_subs r = occ p (tables [e_rrat e; e_wrat e] (c_rat c) (c_rs c))
}.

Lemma occ_pos : forall p ts, (0 < occ p ts)%nat -> exists t, In t ts /\ In p (map snd t).
Proof.
  intros p. induction ts as [|t ts IH]; intros H; [rewrite occ_nil in H; lia|]. rewrite occ_cons in H. destruct (cnt p t) eqn:Hc.
  - destruct IH as (u & H1 & H2); [lia|]. exists u. split; [now right|exact H2].
  - exists t. split; [now left|]. apply (count_occ_In Nat.eq_dec). unfold cnt in Hc. rewrite Hc. lia.
Qed.

Lemma RI_covers : forall g e c, RI g e c -> covers (c_regs c) (fun p => occ p (tables [e_rrat e; e_wrat e] (c_rat c) (c_rs c))).
Proof.
  intros g e c [H1 H2 H3 H4] p Hp. destruct (occ_pos _ _ Hp) as (t & G1 & G2).
  assert (Ht : tab_ok g t). { unfold tables in G1. apply in_app_or in G1. destruct G1 as [[<-|[<-|[]]]|G1]; [apply H2|apply H2|]. apply H3. exact G1. }
  pose proof (tb_img _ _ Ht p G2) as Hl. destruct (nth_error (c_regs c) p) as [r|] eqn:Hr; [|apply nth_error_None in Hr; lia]. exists r. split; [reflexivity|]. rewrite (H4 _ _ Hr). lia.
Qed.

Lemma unroll_go : forall g e c, RI g e c -> exists c', unroll c (e_wrat e) = Ok c' /\ RI g e c' /\ c_rs c' = [].
Proof.
  intros g e c HR. pose proof (RI_covers _ _ _ HR) as HC. pose proof HR as [H1 [H2 H2'] H3 H4]. unfold unroll.
  destruct (unsub_entries_go (c_rs c) (c_regs c)) as [f1 E1].
  { intros p Hp. destruct (HC p) as (r & G1 & G2); rewrite occ_tables in *; [lia|]. exists r. split; [exact G1|lia]. }
  rewrite E1. cbn [opt bind]. pose proof (unsub_entries_spec _ _ _ E1) as S1.
  destruct (punsub_all_go (c_rat c) f1) as [f2 E2].
  { intros p Hp. destruct (HC p) as (r & G1 & G2); rewrite occ_tables in *; [lia|]. specialize (S1 p). rewrite G1 in S1. destruct (nth_error f1 p) as [r3|]; [|discriminate].
    injection S1 as ->. exists r3. split; [reflexivity|]. unfold addsubs in G2. cbn [p_subs] in G2. lia. }
  rewrite E2. cbn [opt bind]. pose proof (punsub_all_spec _ _ _ E2) as S2. pose proof (unsub_entries_len _ _ _ E1) as L1. pose proof (punsub_all_len _ _ _ E2) as L2.
  destruct (psub_all_some (e_wrat e) f2) as (f3 & E3 & L3); [intros p Hp; pose proof (tb_img _ _ H2' p Hp); lia|]. rewrite E3. cbn [opt bind]. pose proof (psub_all_spec _ _ _ E3) as S3.
  cbv zeta. unfold get_lreg, get_preg. cbn [c_rat c_regs]. destruct (tb_dom _ _ H2' (LR PC)) as [q Hq]; [reflexivity|]. rewrite Hq.
  destruct (nth_error f3 q) as [rq|] eqn:Hrq; [|apply nth_error_None in Hrq; pose proof (tb_img _ _ H2' q (rget_in _ _ _ Hq)); lia]. cbn [option_map].
  eexists. split; [reflexivity|]. split; [|reflexivity]. constructor; cbn [set_wm set_spec c_regs c_rat c_rs].
  - lia.
  - split; assumption.
  - intros t [<-|[]]. exact H2'.
  - intros p r Hp. rewrite S3 in Hp. destruct (nth_error f2 p) as [r2|] eqn:F2; [|discriminate]. cbn [option_map] in Hp. injection Hp as <-.
    specialize (S2 p). rewrite F2 in S2. specialize (S1 p). rewrite S2 in S1. cbn [option_map] in S1. apply H4 in S1. rewrite occ_tables in S1 |- *. unfold addsubs in *. cbn [p_subs] in *.
    change (entry_tabs []) with (@nil rat). rewrite (occ_nil p). lia.
Qed.

(** ---- what the other entries see of the retirement of [e] ---- *)

Record rsafe (e : entry) (c c' : cpu) : Prop := mkRsafe {
  rs_byid : forall id, aget (wm_byid (c_wm c')) id <> None -> aget (wm_byid (c_wm c)) id <> None;
  rs_cur : wm_cur (c_wm c') = wm_cur (c_wm c);
  rs_rest : c_rs c' = [] \/
     (c_rs c' = c_rs c /\ wm_byid (c_wm c') = wm_byid (c_wm c) /\
      forall p r, nth_error (c_regs c) p = Some r -> (forall l, rget (e_wrat e) l <> Some p) -> exists r', nth_error (c_regs c') p = Some r' /\ p_ready r' = p_ready r)
}.

Lemma rsafe_refl : forall e c c', c_rs c' = c_rs c -> c_wm c' = c_wm c -> c_regs c' = c_regs c -> rsafe e c c'.
Proof. intros e c c' H1 H2 H3. constructor; rewrite ?H2; auto. right. split; [exact H1|]. split; [reflexivity|]. rewrite H3. eauto. Qed.
Lemma rsafe_trans : forall e c c1 c2, rsafe e c c1 -> rsafe e c1 c2 -> rsafe e c c2.
Proof.
  intros e c c1 c2 [A1 A2 A3] [B1 B2 B3]. constructor; [auto|congruence|]. destruct B3 as [B3|(B3 & B4 & B5)]; [now left|]. destruct A3 as [A3|(A3 & A4 & A5)]; [left; congruence|].
  right. split; [congruence|]. split; [congruence|]. intros p r Hp Hn. destruct (A5 p r Hp Hn) as (r1 & G1 & G2). destruct (B5 p r1 G1 Hn) as (r2 & G3 & G4). exists r2. split; [exact G3|congruence].
Qed.

Lemma remove_keys : forall drop w u k, aget (wm_byid (wm_remove drop w u)) k <> None -> aget (wm_byid w) k <> None.
Proof.
  intros drop w u k. unfold wm_remove. destruct (wm_remove_map drop (wm_map w)) as [[mp rem] inv]. cbn [wm_byid]. rewrite aget_invalidate, aget_remove.
  destruct (existsb _ rem); cbn; [congruence|]. destruct (aget (wm_byid w) k); cbn; congruence.
Qed.

Lemma unroll_safe : forall e c t c', unroll c t = Ok c' -> rsafe e c c'.
Proof.
  intros e c t c' H. unfold unroll in H. apply bind_ok in H. destruct H as [f1 [_ H]]. apply bind_ok in H. destruct H as [f2 [_ H]]. apply bind_ok in H. destruct H as [f3 [_ H]]. cbv zeta in H.
  destruct (get_lreg _ (LR PC)); [|discriminate]. apply Ok_eq in H. subst c'. constructor; cbn [set_wm set_spec c_wm c_rs]; [|apply wm_remove_cur|now left].
  intros id. apply remove_keys.
Qed.

Lemma entry_set_safe : forall e c l v f c', entry_set (c_regs c) (e_wrat e) l v = Ok f -> c_rs c' = c_rs c -> c_wm c' = c_wm c -> c_regs c' = f -> rsafe e c c'.
Proof.
  intros e c l v f c' H H1 H2 H3. unfold entry_set in H. destruct (rget (e_wrat e) l) as [p|] eqn:Hp; [|discriminate]. destruct (nth_error (c_regs c) p) as [r|] eqn:Hr; [|discriminate].
  destruct (is_lr l && negb (is_pc l) && p_ready r); [discriminate|]. apply Ok_eq in H. constructor; rewrite ?H2; auto. right. split; [exact H1|]. split; [reflexivity|].
  intros q r2 Hq Hn. rewrite H3, <- H. exists r2. split; [|reflexivity]. rewrite nth_set_nth_other; [exact Hq|]. intros ->. now apply (Hn l).
Qed.

Lemma do_ract_safe : forall e a c c', do_ract e a c = Ok c' -> rsafe e c c'.
Proof.
  intros e a c c' H. destruct a; cbn [do_ract] in H.
  - destruct (e_wids e) as [|id [|]]; try discriminate. unfold write_memory in H. apply bind_ok in H. destruct H as [w [_ H]]. apply bind_ok in H. destruct H as [[[w' r']|] [H1 H]]; [|discriminate].
    apply lift_ok in H1. cbv zeta in H. destruct (check_write _ _) as [d i]. apply Ok_eq in H. subst c'. unfold wm_start in H1. apply bind_ok in H1. destruct H1 as [m [_ H1]].
    destruct (mw_value m); [|discriminate]. destruct (mw_ram m); [discriminate|]. destruct (ram_write _ _ _) as [[r2 rid]|]; [|discriminate]. apply Ok_eq in H1. injection H1 as <- <-.
    constructor; cbn; auto. right. split; [reflexivity|]. split; [reflexivity|]. eauto.
  - unfold do_jump in H. destruct (rget (e_wrat e) (LR PC)); [|discriminate]. destruct (rget (e_rrat e) (LR PC)); [|discriminate]. destruct (get_preg c n); [|discriminate].
    destruct (nth_error (c_regs c) n0); [|discriminate]. destruct (negb (p_ready p)); [discriminate|]. destruct (c_pred c); [discriminate|]. cbv zeta in H. destruct (z0 =? u64 z).
    + apply Ok_eq in H. subst c'. now apply rsafe_refl.
    + eapply rsafe_trans; [|eapply unroll_safe; exact H]. now apply rsafe_refl.
  - apply bind_ok in H. destruct H as [f [H1 H]]. apply lift_ok in H1. apply Ok_eq in H. subst c'. eapply entry_set_safe; [exact H1|..]; reflexivity.
  - destruct (get_char (c_in c)) as [[ch rest]|]; [|discriminate]. apply bind_ok in H. destruct H as [f [H1 H]]. apply lift_ok in H1. apply Ok_eq in H. subst c'. eapply entry_set_safe; [exact H1|..]; reflexivity.
  - apply Ok_eq in H. subst c'. now apply rsafe_refl.
  - apply Ok_eq in H. subst c'. now apply rsafe_refl.
  - eapply unroll_safe; exact H.
  - apply Ok_eq in H. subst c'. now apply rsafe_refl.
  - apply Ok_eq in H. subst c'. now apply rsafe_refl.
Qed.

Lemma do_racts_safe : forall e l c c', do_racts e l c = Ok c' -> rsafe e c c'.
Proof.
  induction l as [|a l IH]; intros c c' H; cbn [do_racts] in H; [apply Ok_eq in H; subst; now apply rsafe_refl|].
  apply bind_ok in H. destruct H as [c1 [H1 H]]. eapply rsafe_trans; [eapply do_ract_safe; exact H1|eauto].
Qed.

(** ---- a retirement ends well or with the range error of the memory ---- *)

Definition fine (r : res cpu cpu) : Prop := (exists c, r = Ok c) \/ exists s, r = Throw EMemRange s.

Lemma fine_ok : forall c, fine (Ok c).
Proof. intros c. left. eauto. Qed.

Section Machine.
Variable E : env.
Variable g : cfg.
Hypothesis wraps : e_mode E = Wrap.

Lemma J_RI : forall den role A c e es, J E den role [] [] A c -> D c -> c_cfg c = g -> c_rs c = e :: es -> RI g e (set_rs c es).
Proof.
  intros den role A c e es HJ [HD1 HD2] Hc Hrs. rewrite Hc in *. assert (Ht : forall x, In x (c_rs c) -> tab_ok g (e_rrat x) /\ tab_ok g (e_wrat x)).
  { intros x Hx. apply (dt_ents _ _ _ HD2). unfold tabs. apply in_map_iff. exists x. auto. }
  constructor; cbn [set_rs c_regs c_rat c_rs].
  - exact HD1.
  - apply Ht. rewrite Hrs. now left.
  - intros t [<-|Hin]; [apply (dt_tab _ _ _ HD2)|]. unfold entry_tabs in Hin. apply in_flat_map in Hin. destruct Hin as (x & Hx & [<-|[<-|[]]]); apply Ht; rewrite Hrs; now right.
  - intros p r Hp. pose proof (ri_subs _ _ _ _ _ _ _ _ (j_regs _ _ _ _ _ _ _ HJ) p r Hp) as Hs. rewrite Hrs, occ_tables in Hs. rewrite occ_tables. change (entry_tabs (e :: es)) with ([e_rrat e; e_wrat e] ++ entry_tabs es) in Hs. rewrite occ_app, occ_nil in Hs. lia.
Qed.

Lemma RI_same : forall e c c', RI g e c -> c_regs c' = c_regs c -> c_rat c' = c_rat c -> c_rs c' = c_rs c -> RI g e c'.
Proof. intros e c c' [H1 H2 H3 H4] G1 G2 G3. constructor; rewrite ?G1, ?G2, ?G3; assumption. Qed.

Lemma write_go : forall S0 c e es id, wm_inv E S0 (c_wm c) (e :: es) -> e_state e = Retiring -> e_wids e = [id] -> aget (wm_byid (c_wm c)) id = Some true ->
  fine (do_ract e RWrite (set_rs c es)) /\ forall c', do_ract e RWrite (set_rs c es) = Ok c' -> c_regs c' = c_regs c /\ c_rat c' = c_rat c /\ c_rs c' = es /\ c_pred c' = c_pred c.
Proof.
  intros S0 c e es id HW Hst Hid Hb. cbn [do_ract]. rewrite Hid. unfold write_memory. cbn [set_rs c_wm c_ram].
  pose proof (wi_ent _ _ _ _ HW [] e es id eq_refl) as Hen. rewrite Hid in Hen. specialize (Hen (or_introl eq_refl)). unfold entry_write in Hen. rewrite Hst in Hen. destruct Hen as (a & v & _ & Hin & Hun).
  pose proof (get_write_go (c_wm c) id a _ (wi_keys _ _ _ _ HW) Hb Hin eq_refl (fun a' m' G1 G2 => proj2 (Hun a' m' G1 G2))) as Hg.
  unfold wm_start. rewrite Hg. cbn [lift bind mw_value mw_ram mw_addr]. destruct (ram_write (c_ram c) a v) as [[r' rid]|]; cbn [lift bind].
  - destruct (check_write _ _) as [d i]. split; [apply fine_ok|]. intros c' H. apply Ok_eq in H. subst c'. repeat split.
  - split; [right; eauto|]. discriminate.
Qed.

Lemma jump_go : forall e c, RI g e c -> (exists p r, rget (e_rrat e) (LR PC) = Some p /\ nth_error (c_regs c) p = Some r /\ p_ready r = true) -> c_pred c <> [] ->
  exists c', do_jump c e = Ok c' /\ RI g e c'.
Proof.
  intros e c HR (q & r & Hq & Hr & Hrd) Hp. unfold do_jump. destruct (tb_dom _ _ (proj2 (rf_own _ _ _ HR)) (LR PC)) as [p Hw]; [reflexivity|]. rewrite Hw, Hq. unfold get_preg.
  destruct (nth_error (c_regs c) p) as [rp|] eqn:Hrp; [|apply nth_error_None in Hrp; pose proof (tb_img _ _ (proj2 (rf_own _ _ _ HR)) p (rget_in _ _ _ Hw)); pose proof (rf_len _ _ _ HR); lia].
  cbn [option_map]. rewrite Hr, Hrd. cbn [negb]. destruct (c_pred c) as [|x rest] eqn:Hx; [now elim Hp|]. cbv zeta.
  assert (HR' : RI g e (set_pred c rest)) by (eapply RI_same; [exact HR|..]; reflexivity).
  destruct (x =? _); [eauto|]. destruct (unroll_go _ _ _ HR') as (c' & G1 & G2 & _). eauto.
Qed.

Lemma set_go : forall e c l v, RI g e c -> lreg_ok g l = true -> (l <> LR PC -> forall p, rget (e_wrat e) l = Some p -> dull (c_regs c) p) ->
  exists f, entry_set (c_regs c) (e_wrat e) l v = Ok f /\ forall c', c_regs c' = f -> c_rat c' = c_rat c -> c_rs c' = c_rs c -> RI g e c'.
Proof.
  intros e c l v HR Hl Hd. pose proof (proj2 (rf_own _ _ _ HR)) as Ht. destruct (tb_dom _ _ Ht l Hl) as [p Hp]. unfold entry_set. rewrite Hp.
  destruct (nth_error (c_regs c) p) as [r|] eqn:Hr; [|apply nth_error_None in Hr; pose proof (tb_img _ _ Ht p (rget_in _ _ _ Hp)); pose proof (rf_len _ _ _ HR); lia].
  assert (Hc : is_lr l && negb (is_pc l) && p_ready r = false).
  { destruct (is_pc l) eqn:Hpc; [now rewrite andb_false_r|]. destruct (Hd ltac:(intros ->; discriminate) p Hp) as (r2 & G1 & G2). rewrite Hr in G1. injection G1 as <-. rewrite G2. apply andb_false_r. }
  rewrite Hc. eexists. split; [reflexivity|]. intros c' H1 H2 H3. destruct HR as [A1 A2 A3 A4]. constructor; rewrite ?H1, ?H2, ?H3; try assumption.
  - now rewrite set_nth_length.
  - intros q rq Hq. destruct (Nat.eq_dec q p) as [->|Hn].
    + erewrite nth_set_nth_same in Hq by exact Hr. injection Hq as <-. cbn [p_subs]. now apply A4.
    + rewrite nth_set_nth_other in Hq by exact Hn. now apply A4.
Qed.

Lemma do_racts_go : forall den role A c e es os vs ws acts racts,
  J E den role [] [] A c -> D c -> c_cfg c = g -> c_rs c = e :: es -> e_state e = Retiring -> SX g (c_regs c) (c_wm c) (c_rs c) ->
  good_ins g (e_ins e) = true -> operands (e_ins e) = Some os ->
  (forall r, e_ins e = IGetchar r -> get_char (a_in A) <> None) ->
  retire_acts (e_ins e) (vs ++ ws) = Ok racts -> exec_acts E (e_ins e) vs = Ok acts ->
  (exists c1, do_racts e racts (set_rs c es) = Ok c1 /\ RI g e c1) \/ exists s, do_racts e racts (set_rs c es) = Throw EMemRange s.
Proof.
  intros den role A c e es os vs ws acts racts HJ HD Hc Hrs Hst HS Hgi Hos Hgc Hra Hex.
  pose proof (J_RI _ _ _ _ _ _ HJ HD Hc Hrs) as HR. destruct (good_defined _ _ Hgi) as [_ Hpr].
  pose proof (j_wm _ _ _ _ _ _ _ HJ) as HW. rewrite Hrs in HW. rewrite Hrs in HS. assert (Hin : In e (e :: es)) by now left.
  assert (Hpc : exists p r, rget (e_rrat e) (LR PC) = Some p /\ nth_error (c_regs c) p = Some r /\ p_ready r = true).
  { destruct (ri_pc _ _ _ _ _ _ _ _ (j_regs _ _ _ _ _ _ _ HJ) [] e es Hrs) as (p & r & G1 & _ & G2 & G3 & _). eauto. }
  assert (Hpred : forall d, jump_dest (e_ins e) = Some d -> c_pred c <> []).
  { intros d Hj. pose proof (pi_pred _ _ _ (j_path _ _ _ _ _ _ _ HJ)) as Hp. rewrite Hrs in Hp. cbn [map app gpreds] in Hp. rewrite Hj in Hp. cbn [app] in Hp. rewrite Hp. discriminate. }
  assert (Hwr : mem_prod (e_ins e) <> None -> exists id, e_wids e = [id] /\ aget (wm_byid (c_wm c)) id = Some true).
  { intros Hm. pose proof (wi_shape _ _ _ _ HW e Hin) as Hs. destruct (mem_prod (e_ins e)); [|now elim Hm]. destruct Hs as [id Hid]. exists id. split; [exact Hid|].
    rewrite (sx_refs _ _ _ _ HS e id Hin); [|rewrite Hid; now left]. unfold registered. now rewrite Hst. }
  assert (Hlate : late (e_ins e) = true -> forall l, reg_prod (e_ins e) l -> l <> LR PC -> forall p, rget (e_wrat e) l = Some p -> dull (c_regs c) p).
  { intros Hl l Hp Hn p Hg. eapply (sx_new _ _ _ _ HS); try eassumption. now right. }
  destruct (retire_shape _ _ _ Hpr Hra) as
    [[-> _]|[[-> [Hm _]]|[[-> [Hm [_ [d Hj]]]]|[[-> [Hm [_ [d Hj]]]]|
     [[-> Hi]|[[r [-> Hi]]|[[r [v [Hv [-> Hi]]]]|[[r [v [Hv [-> Hi]]]]|[[-> Hi]|[[-> Hi]|[-> Hi]]]]]]]]]]]; cbn [do_racts].
  - left. eexists. split; [reflexivity|exact HR].
  - destruct (Hwr Hm) as (id & G1 & G2). destruct (write_go _ _ _ _ _ HW Hst G1 G2) as [[[c1 F]|[s F]] Fr]; rewrite F; cbn [bind]; [|right; eauto].
    left. eexists. split; [reflexivity|]. destruct (Fr c1 F) as (F1 & F2 & F3 & F4). eapply RI_same; [exact HR|..]; assumption.
  - destruct (Hwr Hm) as (id & G1 & G2). destruct (write_go _ _ _ _ _ HW Hst G1 G2) as [[[c1 F]|[s F]] Fr]; rewrite F; cbn [bind]; [|right; eauto].
    destruct (Fr c1 F) as (F1 & F2 & F3 & F4). destruct (jump_go e c1) as (c2 & G3 & G4); [eapply RI_same; [exact HR|..]; assumption|rewrite F1; exact Hpc|rewrite F4; eapply Hpred; exact Hj|].
    cbn [do_ract]. rewrite G3. cbn [bind]. left. eauto.
  - destruct (jump_go e (set_rs c es)) as (c2 & G3 & G4); [exact HR|exact Hpc|eapply Hpred; exact Hj|]. cbn [do_ract]. rewrite G3. cbn [bind]. left. eauto.
  - rewrite Hi in *. destruct (set_go e (set_rs c es) (LR Flags) (flags_to_word (mkFlags false false false false)) HR eq_refl) as (f & F1 & F2).
    { intros _. apply Hlate; [reflexivity| |discriminate]. exists [PReg (LR Flags)]. split; [reflexivity|now left]. }
    cbn [do_ract set_rs c_regs] in *. rewrite F1. cbn [lift bind]. left. eexists. split; [reflexivity|]. apply F2; reflexivity.
  - rewrite Hi in *. cbn [do_ract set_rs c_in c_regs]. rewrite <- (j_in _ _ _ _ _ _ _ HJ). specialize (Hgc r eq_refl). destruct (get_char (a_in A)) as [[ch rest]|]; [|now elim Hgc].
    assert (Hrp : reg_prod (IGetchar r) (LR r)) by (exists [PReg (LR r)]; split; [reflexivity|now left]).
    destruct (set_go e (set_rs c es) (LR r) ch HR (good_products _ _ _ Hgi Hrp)) as (f & F1 & F2).
    { intros Hn. apply Hlate; [reflexivity|exact Hrp|exact Hn]. }
    cbn [set_rs c_regs] in F1. rewrite F1. cbn [lift bind]. left. eexists. split; [reflexivity|]. apply F2; reflexivity.
  - left. eexists. split; [reflexivity|]. eapply RI_same; [exact HR|..]; reflexivity.
  - left. eexists. split; [reflexivity|]. eapply RI_same; [exact HR|..]; reflexivity.
  - cbn [do_ract]. destruct (unroll_go _ _ _ HR) as (c' & G1 & G2 & _). rewrite G1. cbn [bind]. left. eexists. split; [reflexivity|]. eapply RI_same; [exact G2|..]; reflexivity.
  - cbn [do_ract]. destruct (unroll_go _ _ _ HR) as (c' & G1 & G2 & _). rewrite G1. cbn [bind]. left. eauto.
  - cbn [do_ract]. destruct (unroll_go _ _ _ HR) as (c' & G1 & G2 & _). rewrite G1. cbn [bind]. left. eexists. split; [reflexivity|]. eapply RI_same; [exact G2|..]; reflexivity.
Qed.

Lemma retire_entry_go : forall den role A c e es,
  K E den role A c -> D c -> c_cfg c = g -> c_rs c = e :: es -> e_state e = Retiring -> SX g (c_regs c) (c_wm c) (c_rs c) ->
  good_ins g (e_ins e) = true -> (forall r, e_ins e = IGetchar r -> get_char (a_in A) <> None) ->
  (exists c', retire_entry (set_rs c es) e = Ok c' /\ rsafe e (set_rs c es) c') \/ exists s, retire_entry (set_rs c es) e = Throw EMemRange s.
Proof.
  intros den role A c e es [HJ _ _] HD Hc Hrs Hst HS Hgi Hgc.
  destruct (j_ent _ _ _ _ _ _ _ HJ [] e es Hrs) as [Hpa [os [Hos [Hpr Hx]]]]. rewrite Hst in Hx. destruct Hx as [vs [ws [acts [Hev [Hex [Hws Hops]]]]]].
  destruct (retire_total _ _ _ _ _ _ _ _ Hos Hev Hex Hws) as [racts Hra].
  unfold retire_entry. rewrite Hops. cbn [opt bind]. rewrite Hra. cbn [lift bind].
  destruct (do_racts_go _ _ _ _ _ _ _ _ _ _ _ HJ HD Hc Hrs Hst HS Hgi Hos Hgc Hra Hex) as [(c1 & H1 & HR)|[s H1]]; rewrite H1; cbn [bind]; [|right; eauto].
  destruct (e_exn e); [right; eauto|]. apply do_racts_safe in H1. left.
  assert (H2 : exists c2, (if c_trap c1 then let! c' := unroll c1 (e_wrat e) in Ok (set_stop c' true (c_int c')) else if negb (c_int c1 =? 0) then unroll c1 (e_wrat e) else Ok c1) = Ok c2 /\ RI g e c2 /\ rsafe e c1 c2).
  { destruct (unroll_go _ _ _ HR) as (c' & G1 & G2 & _). destruct (c_trap c1); [|destruct (negb _)].
    - rewrite G1. cbn [bind]. eexists. split; [reflexivity|]. split; [eapply RI_same; [exact G2|..]; reflexivity|]. eapply rsafe_trans; [eapply unroll_safe; exact G1|]. now apply rsafe_refl.
    - exists c'. split; [exact G1|]. split; [exact G2|]. eapply unroll_safe; exact G1.
    - exists c1. split; [reflexivity|]. split; [exact HR|]. now apply rsafe_refl. }
  destruct H2 as (c2 & H2 & HR2 & Hs2). rewrite H2. cbn [bind].
  destruct (unsub_entries_go [e] (c_regs c2)) as [f Hf].
  { intros p Hp. destruct (RI_covers _ _ _ HR2 p) as (r & G1 & G2); rewrite occ_tables in *; change (entry_tabs [e]) with [e_rrat e; e_wrat e] in *; [lia|]. exists r. split; [exact G1|lia]. }
  rewrite Hf. cbn [opt bind]. eexists. split; [reflexivity|]. eapply rsafe_trans; [exact H1|]. eapply rsafe_trans; [exact Hs2|].
  pose proof (unsub_entries_spec _ _ _ Hf) as Hsp. constructor; cbn [set_regs c_wm c_rs c_regs]; auto. right. split; [reflexivity|]. split; [reflexivity|].
  intros p r Hp _. specialize (Hsp p). rewrite Hp in Hsp. destruct (nth_error f p) as [r'|]; [|discriminate]. injection Hsp as ->. exists r'. split; reflexivity.
Qed.

Lemma rsafe_SX : forall c e es c', SX g (c_regs c) (c_wm c) (e :: es) -> rsafe e (set_rs c es) c' -> length (c_regs c') = nphys g -> SX g (c_regs c') (c_wm c') (c_rs c').
Proof.
  intros c e es c' [A1 A2 A3 A4 A5 A6 A7] [B1 B2 B3] Hl. cbn [set_rs c_wm c_rs c_regs] in *.
  assert (Hk : forall id, aget (wm_byid (c_wm c')) id <> None -> id <= wm_cur (c_wm c')) by (intros id Hid; rewrite B2; auto).
  destruct B3 as [->|(B3 & B4 & B5)].
  - constructor; auto; try (intros x ? ? []); try (intros x ? []); try (intros x []). exact I.
  - rewrite B3. constructor; auto.
    + intros x l p Hx Hu Hp Hn Hg. destruct (A1 x l p (or_intror Hx) Hu Hp Hn Hg) as (r & G1 & G2). destruct (B5 p r G1) as (r' & G3 & G4); [|exists r'; split; [exact G3|congruence]].
      intros l'. destruct A2 as [A2 _]. rewrite Forall_forall in A2. exact (A2 x Hx l p l' Hp Hn Hg).
    + apply A2.
    + intros x id Hx Hid. rewrite B4. apply A4; [now right|exact Hid].
    + intros x Hx. apply A5. now right.
    + intros x Hx. apply A6. now right.
Qed.

Lemma retire_loop_go : forall n A c den role, K E den role A c -> D c -> c_cfg c = g -> SX g (c_regs c) (c_wm c) (c_rs c) ->
  (forall pc, good_ins g (prog_at (c_prog c) pc) = true) ->
  (forall k A', io_steps E (c_prog c) k A A' -> a_halted A' = false -> forall r, prog_at (c_prog c) (a_pc A') = IGetchar r -> get_char (a_in A') <> None) ->
  (exists c', retire_loop n c = Ok c' /\ SX g (c_regs c') (c_wm c') (c_rs c')) \/ exists s, retire_loop n c = Throw EMemRange s.
Proof.
  induction n as [|n IH]; intros A c den role HK HD Hc HS Hg Hgc; cbn [retire_loop]; [left; eauto|].
  destruct (c_rs c) as [|e es] eqn:Hrs; [left; exists c; split; [reflexivity|now rewrite Hrs]|].
  destruct (e_state e) eqn:Hst; try (left; exists c; split; [reflexivity|now rewrite Hrs]).
  assert (Hpa : e_ins e = prog_at (c_prog c) (a_pc A)) by (destruct (j_ent _ _ _ _ _ _ _ (k_J _ _ _ _ _ HK) [] e es Hrs) as [Hpa _]; exact Hpa).
  assert (HS' := HS). rewrite <- Hrs in HS'.
  destruct (retire_entry_go _ _ _ _ _ _ HK HD Hc Hrs Hst HS') as [(c1 & H1 & Hs)|[s H1]].
  - rewrite Hpa. apply Hg.
  - intros r Hr. assert (Hh : a_halted A = false).
    { rewrite (k_halt _ _ _ _ _ HK). destruct (c_halted c) eqn:Hh; [|reflexivity]. exfalso. pose proof (k_stop _ _ _ _ _ HK (or_introl Hh)) as Hrest. destruct Hrest as [Hrest _]. congruence. }
    apply (Hgc 0%nat A (ios_refl _ _ _) Hh r). congruence.
  - rewrite H1. cbn [bind]. destruct (retire_entry_inv _ _ _ _ _ _ _ _ HK Hrs Hst H1) as [_ [Hio [R1 R2 R3 R4 R5 R6 R7]]].
    assert (HD1 : D c1). { apply (retire_loop_D 1 c c1 HD). cbn [retire_loop]. rewrite Hrs, Hst, H1. reflexivity. }
    apply (IH _ c1 den role R1 HD1); [congruence| | |].
    + apply (rsafe_SX _ _ _ _ HS Hs). destruct HD1 as [HD1 _]. rewrite HD1, R3, Hc. reflexivity.
    + rewrite R2. exact Hg.
    + rewrite R2. intros k A' Hk. apply (Hgc (S k)). econstructor; eassumption.
  - rewrite H1. cbn [bind]. right. eauto.
Qed.
End Machine.
