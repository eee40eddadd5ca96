(** A harmless program never makes the VM stumble: finished writes, operands and new entries. *)
From Coq Require Import ZArith NArith List Bool Sorted Lia.
From Verif Require Import Base Alu Isa Exec Ram Writes Rat Cpu LiveSpec InOrder PipeInv PipeBasics PipeActs PipeMem
  PipeExec PipePoll PipeRetire PipeAdd PipeTick PipeBoot PipeDom PipeLive SafeSpec PipeSafe PipeSafeExec.
Import ListNotations.
Open Scope Z_scope.

(** ---- removal of finished writes ---- *)

Lemma mws_remove_rem : forall drop l er kept rem inv id, mws_remove drop l er = (kept, rem, inv) -> In id rem ->
  exists m, In m l /\ drop m = true /\ mw_id m = id.
Proof.
  intros drop. induction l as [|m l IH]; intros er kept rem inv id H Hin; cbn [mws_remove] in H.
  - injection H as <- <- <-. destruct Hin.
  - destruct (drop m) eqn:Hd.
    + destruct (mws_remove drop l true) as [[k r] i] eqn:Hr. injection H as <- <- <-. destruct Hin as [<-|Hin].
      * exists m. split; [now left|auto].
      * destruct (IH _ _ _ _ _ Hr Hin) as (m' & H1 & H2 & H3). exists m'. split; [now right|auto].
    + destruct (mws_remove drop l er) as [[k r] i] eqn:Hr. injection H as <- <- <-. destruct (IH _ _ _ _ _ Hr Hin) as (m' & H1 & H2 & H3). exists m'. split; [now right|auto].
Qed.
Lemma mws_remove_inv : forall drop l er kept rem inv id, mws_remove drop l er = (kept, rem, inv) -> StronglySorted gt_id l -> In id inv ->
  exists m, In m l /\ mw_id m = id /\ (er = true \/ exists m', In m' l /\ drop m' = true /\ mw_id m < mw_id m').
Proof.
  intros drop. induction l as [|m l IH]; intros er kept rem inv id H Hs Hin; cbn [mws_remove] in H.
  - injection H as <- <- <-. destruct Hin.
  - apply StronglySorted_inv in Hs. destruct Hs as [Hs Hf]. rewrite Forall_forall in Hf. destruct (drop m) eqn:Hd.
    + destruct (mws_remove drop l true) as [[k r] i] eqn:Hr. injection H as <- <- <-. destruct (IH _ _ _ _ _ Hr Hs Hin) as (m' & H1 & H2 & _).
      exists m'. split; [now right|]. split; [exact H2|]. right. exists m. split; [now left|]. split; [exact Hd|]. apply (Hf m' H1).
    + destruct (mws_remove drop l er) as [[k r] i] eqn:Hr. injection H as <- <- <-.
      assert (Hin' : In id i \/ (er = true /\ id = mw_id m)) by (destruct er; [destruct Hin as [<-|Hin]; auto|auto]).
      destruct Hin' as [Hi|[He ->]].
      * destruct (IH _ _ _ _ _ Hr Hs Hi) as (m' & H1 & H2 & H3). exists m'. split; [now right|]. split; [exact H2|]. destruct H3 as [H3|(m2 & H3 & H4 & H5)]; [now left|]. right. exists m2. split; [now right|auto].
      * exists m. split; [now left|]. auto.
Qed.
Lemma wm_remove_map_ids : forall drop m m' rem inv, wm_remove_map drop m = (m', rem, inv) ->
  (forall a ws, In (a, ws) m -> StronglySorted gt_id (mws_vec ws)) ->
  (forall id, In id rem -> exists a ws x, In (a, ws) m /\ In x (mws_vec ws) /\ drop x = true /\ mw_id x = id) /\
  (forall id, In id inv -> exists a ws x, In (a, ws) m /\ In x (mws_vec ws) /\ drop x = true /\ id < mw_id x).
Proof.
  intros drop. induction m as [|[a ws] m IH]; intros m' rem inv H Hs; cbn [wm_remove_map] in H.
  - injection H as <- <- <-. split; intros id [].
  - destruct (mws_remove drop (mws_vec ws) false) as [[k r] i] eqn:Hr. destruct (wm_remove_map drop m) as [[m2 r2] i2] eqn:Hm. injection H as <- <- <-.
    destruct (IH _ _ _ eq_refl) as [I1 I2]; [intros b wb Hb; apply (Hs b); now right|]. split; intros id Hin; apply in_app_or in Hin; destruct Hin as [Hin|Hin].
    + destruct (mws_remove_rem _ _ _ _ _ _ _ Hr Hin) as (x & H1 & H2 & H3). exists a, ws, x. split; [now left|auto].
    + destruct (I1 id Hin) as (b & wb & x & H1 & H2 & H3 & H4). exists b, wb, x. split; [now right|auto].
    + destruct (mws_remove_inv _ _ _ _ _ _ _ Hr (Hs a ws (or_introl eq_refl)) Hin) as (x & H1 & H2 & [H3|(y & H3 & H4 & H5)]); [discriminate|]. exists a, ws, y. split; [now left|]. subst id. auto.
    + destruct (I2 id Hin) as (b & wb & x & H1 & H2 & H3 & H4). exists b, wb, x. split; [now right|auto].
Qed.

Lemma remove_byid : forall drop w u k, NoDup (map fst (wm_map w)) -> (forall a, StronglySorted gt_id (vec w a)) ->
  (aget (wm_byid (wm_remove drop w u)) k <> None -> aget (wm_byid w) k <> None) /\
  ((forall a m, In m (vec w a) -> drop m = true -> mw_id m < k) -> kept_ref w (wm_remove drop w u) k).
Proof.
  intros drop w u k Hn Hs. unfold kept_ref, wm_remove. destruct (wm_remove_map drop (wm_map w)) as [[mp rem] inv] eqn:Hr. cbn [wm_byid]. rewrite aget_invalidate, aget_remove.
  assert (Hv : forall a ws, In (a, ws) (wm_map w) -> vec w a = mws_vec ws) by (intros a ws Hin; rewrite vec_eq, (in_aget _ _ _ _ Hn Hin); reflexivity).
  destruct (wm_remove_map_ids _ _ _ _ _ Hr) as [I1 I2]; [intros a ws Hin; rewrite <- (Hv a ws Hin); apply Hs|]. split.
  - destruct (existsb _ rem); cbn; [congruence|]. destruct (aget (wm_byid w) k); cbn; congruence.
  - intros Hk. destruct (existsb (Z.eqb k) rem) eqn:H1.
    + apply existsb_in, I1 in H1. destruct H1 as (a & ws & x & G1 & G2 & G3 & G4). rewrite <- (Hv a ws G1) in G2. specialize (Hk a x G2 G3). lia.
    + destruct (existsb (Z.eqb k) inv) eqn:H2; [|destruct (aget (wm_byid w) k); reflexivity].
      apply existsb_in, I2 in H2. destruct H2 as (a & ws & x & G1 & G2 & G3 & G4). rewrite <- (Hv a ws G1) in G2. specialize (Hk a x G2 G3). lia.
Qed.

Lemma SX_finished : forall E S0 g f w r rs, wm_inv E S0 w rs -> SX g f w rs -> SX g f (wm_remove_finished w r) rs.
Proof.
  intros E S0 g f w r rs HW [A1 A2 A3 A4 A5 A6 A7]. unfold wm_remove_finished.
  match goal with |- SX _ _ (wm_remove ?d _ _) _ => set (drop := d) end.
  constructor; try assumption.
  - intros id Hid. rewrite wm_remove_cur. apply A3. eapply (proj1 (remove_byid drop w (wm_unspec w) id (wi_keys _ _ _ _ HW) (wi_sorted _ _ _ _ HW))). exact Hid.
  - intros e id He Hid. rewrite <- (A4 e id He Hid). apply (proj2 (remove_byid drop w (wm_unspec w) id (wi_keys _ _ _ _ HW) (wi_sorted _ _ _ _ HW))).
    intros a m Hm Hd. pose proof (wi_src _ _ _ _ HW a m Hm) as Hsrc. unfold drop in Hd. destruct (mw_ram m); [|discriminate]. destruct Hsrc as [_ Hsrc]. eapply Hsrc; eassumption.
Qed.

(** ---- fetching operands ---- *)

Section Machine.
Variable E : env.
Variable g : cfg.
Hypothesis wraps : e_mode E = Wrap.

Lemma read_memory_go : forall S0 w rs r gates a e, wm_inv E S0 w rs -> In e rs -> ram_inv S0 w r ->
  exists r' v, read_memory gates r w a (e_maxid e) = Ok (r', v) /\ ram_inv S0 w r'.
Proof.
  intros S0 w rs r gates a e HW He HR. unfold read_memory, wm_previous. destruct (wm_has_unspec w (e_maxid e)); [eauto|]. cbn [bind].
  pose proof (mws_latest_spec (vec w a) (e_maxid e) (wi_sorted _ _ _ _ HW a)) as Hl. fold (vec w a). destruct (mws_latest (vec w a) (e_maxid e)) as [m|].
  - destruct (mw_value m); eauto.
  - assert (Hg : exists r' v, ram_read gates r a = Ok (r', v)).
    { unfold ram_read. destruct (aget (ram_reads r) a) as [re|]; [destruct (re_rem re); eauto|]. destruct (Nat.eqb _ _); [eauto|].
      destruct (aget (ram_writes r) a) as [we|] eqn:Hw; [|destruct (mem_at (ram_mem r) a); eauto]. exfalso.
      apply aget_in in Hw. destruct (ra_wr _ _ _ HR a we Hw) as (m & H1 & H2). specialize (Hl m H1).
      pose proof (wi_outmax _ _ _ _ HW a m e H1 ltac:(congruence) He). lia. }
    destruct Hg as (r' & v & Hg). exists r', v. split; [exact Hg|]. apply (ram_read_inv _ _ _ _ _ _ _ HR Hg).
Qed.

Lemma read_reg_go : forall f t l, tab_ok g t -> length f = nphys g -> lreg_ok g l = true -> exists v, read_reg f t l = Ok v.
Proof.
  intros f t l Ht Hl Hk. unfold read_reg. destruct (tb_dom _ _ Ht l Hk) as [p Hp]. rewrite Hp.
  destruct (nth_error f p) eqn:Hn; [eauto|]. apply nth_error_None in Hn. pose proof (tb_img _ _ Ht p (rget_in _ _ _ Hp)). lia.
Qed.

Lemma good_need : forall o, good_op g o = true ->
  match requirement o with Some (NReg r) => lreg_ok g (LR r) = true | Some (NFReg k) => lreg_ok g (LF k) = true | _ => True end.
Proof.
  intros o H. unfold good_op in H.
  assert (Hr : forall r, has_reg (g_reg g) r = true -> lreg_ok g (LR r) = true) by (intros r Hr; destruct r; try reflexivity; exact Hr).
  destruct o; cbn [has_operand requirement] in *; try exact I; try (apply andb_true_iff in H; destruct H as [H H2]); auto.
Qed.

Lemma fetch_op_go : forall S0 w rs e f gates, wm_inv E S0 w rs -> In e rs -> tab_ok g (e_rrat e) -> length f = nphys g ->
  forall n o r x, (weight o < n)%nat -> good_op g o = true -> ram_inv S0 w r ->
  exists r' x' o', fetch_op n E gates f w (e_rrat e) (e_maxid e) r x o = Ok (r', x', o') /\ good_op g o' = true /\ ram_inv S0 w r'.
Proof.
  intros S0 w rs e f gates HW He Ht Hl. induction n as [|n IH]; intros o r x Hn Hg HR; [lia|]. cbn [fetch_op]. rewrite wraps.
  pose proof (good_need o Hg) as Hneed. destruct (requirement o) as [q|] eqn:Hq; [|eauto 6].
  assert (Hsup : forall v, exists o', supply Wrap o v = Ok o' /\ (weight o' < n)%nat /\ good_op g o' = true).
  { intros v. destruct (supply_wrap o v) as [o' Ho]; [congruence|]. exists o'. split; [exact Ho|]. split; [pose proof (supply_weight _ _ _ _ Ho); lia|]. eapply supply_has; eassumption. }
  destruct q as [rg|k|a].
  - destruct (read_reg_go f _ _ Ht Hl Hneed) as [v Hv]. rewrite Hv. cbn [bind]. destruct v as [v|].
    + destruct (Hsup v) as (o' & -> & H1 & H2). cbn [bind]. apply IH; assumption.
    + unfold stall_peek. destruct (Hsup 0) as (o' & -> & H1 & H2). cbn [bind]. pose proof (good_need o' H2) as Hn2. destruct (requirement o') as [[r2|k2|a2]|]; cbn [bind]; eauto 6.
      destruct (read_reg_go f _ _ Ht Hl Hn2) as [v2 ->]. cbn [bind]. eauto 6.
  - destruct (read_reg_go f _ _ Ht Hl Hneed) as [v Hv]. rewrite Hv. cbn [bind]. destruct v as [v|]; [|eauto 6].
    destruct (Hsup v) as (o' & -> & H1 & H2). cbn [bind]. apply IH; assumption.
  - destruct (read_memory_go S0 w rs r gates a e HW He HR) as (r' & v & Hv & HR'). rewrite Hv. cbn [bind]. destruct v as [v| |]; [| eauto 6 |].
    + destruct (Hsup v) as (o' & -> & H1 & H2). cbn [bind]. apply IH; assumption.
    + destruct (Hsup (-1)) as (o' & -> & H1 & H2). cbn [bind]. apply IH; assumption.
Qed.

Lemma fetch_ops_go : forall S0 w rs e f gates, wm_inv E S0 w rs -> In e rs -> tab_ok g (e_rrat e) -> length f = nphys g ->
  forall os r x, Forall (fun o => good_op g o = true) os -> ram_inv S0 w r ->
  exists r' x' os', fetch_ops E gates f w (e_rrat e) (e_maxid e) r x os = Ok (r', x', os') /\ Forall (fun o => good_op g o = true) os'.
Proof.
  intros S0 w rs e f gates HW He Ht Hl. induction os as [|o os IH]; intros r x Hg HR; cbn [fetch_ops]; [eauto 6|].
  apply Forall_cons_iff in Hg. destruct Hg as [Hg1 Hg2]. pose proof (weight_3 o) as Hw.
  destruct (fetch_op_go S0 w rs e f gates HW He Ht Hl 4 o r x ltac:(lia) Hg1 HR) as (r1 & x1 & o1 & H1 & H2 & H3). rewrite H1. cbn [bind].
  destruct (IH r1 x1 Hg2 H3) as (r2 & x2 & os2 & G1 & G2). rewrite G1. cbn [bind]. do 3 eexists. split; [reflexivity|]. constructor; assumption.
Qed.

Lemma SX_replace : forall f w d e e' t, SX g f w (d ++ e :: t) -> same e e' -> (e_state e' = Retiring <-> e_state e = Retiring) ->
  Forall (fun o => good_op g o = true) (e_ops e') -> SX g f w (d ++ e' :: t).
Proof.
  intros f w d e e' t [A1 A2 A3 A4 A5 A6 A7] Hsm Hst Hops. pose proof Hsm as (B1 & B2 & B3 & B4 & B5).
  assert (Hin : In e (d ++ e :: t)) by (apply in_mid; now left).
  constructor; try assumption.
  - intros x l p Hx Hu. apply in_mid in Hx. destruct Hx as [->|Hx]; [|apply (A1 x l p); [apply in_mid; now right|exact Hu]].
    rewrite B1, B3. apply A1; [exact Hin|]. unfold unfinished in *. rewrite <- B1. tauto.
  - eapply owned_replace; eassumption.
  - intros x id Hx Hid. apply in_mid in Hx. destruct Hx as [->|Hx]; [|apply A4; [apply in_mid; now right|exact Hid]].
    rewrite B4 in Hid. rewrite (A4 e id Hin Hid). unfold registered. rewrite B1. destruct (e_state e) eqn:S1, (e_state e') eqn:S2; try reflexivity; destruct Hst as [Ht1 Ht2]; exfalso; solve [discriminate (Ht1 eq_refl) | discriminate (Ht2 eq_refl)].
  - intros x Hx. apply in_mid in Hx. destruct Hx as [->|Hx]; [exact Hops|]. apply A5. apply in_mid. now right.
  - intros x Hx. apply in_mid in Hx. destruct Hx as [->|Hx]; [rewrite B2, B3; now apply A6|]. apply A6. apply in_mid. now right.
Qed.

Lemma poll_entry_go : forall den role X S0 prog rt r n f w a gates d e t,
  XI E den role X S0 prog rt r n f w a (d ++ e :: t) -> SX g f w (d ++ e :: t) ->
  exists r' a' e', poll_entry E gates f w r a e = Ok (r', a', e') /\ SX g f w (d ++ e' :: t).
Proof.
  intros den role X S0 prog rt r n f w a gates d e t HX HS. assert (Hin : In e (d ++ e :: t)) by (apply in_mid; now left).
  unfold poll_entry. destruct (e_state e) eqn:Hst; try (do 3 eexists; split; [reflexivity|exact HS]).
  - destruct (fetch_ops_go S0 w _ e f gates (x_wm _ _ _ _ _ _ _ _ _ _ _ _ _ HX) Hin (proj1 (sx_tab _ _ _ _ HS e Hin)) (sx_len _ _ _ _ HS) (e_ops e) r (e_exn e) (sx_ops _ _ _ _ HS e Hin) (x_ram _ _ _ _ _ _ _ _ _ _ _ _ _ HX)) as (r' & x' & os' & H1 & H2).
    rewrite H1. cbn [bind]. do 3 eexists. split; [reflexivity|]. eapply SX_replace; [exact HS|apply same_set_ops| |exact H2]. cbn. rewrite Hst. destruct (all_fetched os'); split; discriminate.
  - assert (Hk : SX g f w (d ++ set_ops e (e_ops e) Executing (e_time e) (e_exn e) :: t)).
    { eapply SX_replace; [exact HS|apply same_set_ops| |exact (sx_ops _ _ _ _ HS e Hin)]. cbn. rewrite Hst. split; discriminate. }
    destruct (needs_alu (e_ins e)); [destruct a|]; do 3 eexists; (split; [reflexivity|]); assumption.
Qed.

Lemma poll_loop_go : forall den role X S0 prog rt n f w gates es r a d,
  XI E den role X S0 prog rt r n f w a (d ++ es) -> SX g f w (d ++ es) ->
  exists r' a' es', poll_loop E gates f w r a es = Ok (r', a', es') /\ SX g f w (d ++ es').
Proof.
  intros den role X S0 prog rt n f w gates. induction es as [|e es IH]; intros r a d HX HS; cbn [poll_loop]; [eauto 6|].
  destruct (poll_entry_go _ _ _ _ _ _ _ _ _ _ _ gates _ _ _ HX HS) as (r1 & a1 & e1 & H1 & H2). rewrite H1. cbn [bind].
  pose proof (poll_entry_inv _ _ _ _ _ _ _ _ _ _ _ _ _ _ _ _ _ _ _ HX H1) as HX1.
  destruct (IH r1 a1 (d ++ [e1])) as (r2 & a2 & es2 & G1 & G2); [now rewrite <- app_assoc|now rewrite <- app_assoc|].
  rewrite G1. cbn [bind]. do 3 eexists. split; [reflexivity|]. rewrite <- app_assoc in G2. exact G2.
Qed.
End Machine.

(** ---- new entries ---- *)

Definition dull (f : pfile) (p : nat) : Prop := exists r, nth_error f p = Some r /\ p_ready r = false.

Lemma dull_same : forall f f' p, same_vals f f' -> dull f p -> dull f' p.
Proof. intros f f' p Hs (r & H1 & H2). destruct (same_vals_some _ _ _ _ Hs H1) as (r' & G1 & _ & G2). exists r'. split; [exact G1|congruence]. Qed.

Lemma rename_dull : forall c l c', rename c l = Ok c' ->
  (exists p, rget (c_rat c') l = Some p /\ dull (c_regs c') p) /\ (forall q, dull (c_regs c) q -> dull (c_regs c') q) /\
  (forall k, k <> l -> rget (c_rat c') k = rget (c_rat c) k).
Proof.
  intros c l c' H. unfold rename in H. destruct (next_free_from _ _ _) as [p|]; [|discriminate]. destruct (negb _); [discriminate|].
  apply bind_ok in H. destruct H as [f1 [H1 H]]. apply bind_ok in H. destruct H as [f2 [H2 H]]. apply opt_ok in H2. apply bind_ok in H. destruct H as [f3 [H3 H]]. apply opt_ok in H3. apply Ok_eq in H. subst c'.
  cbn [set_rat c_regs c_rat]. assert (S1 : same_vals (c_regs c) f1).
  { destruct (rget (c_rat c) l) as [old|]; [apply opt_ok in H1|apply Ok_eq in H1; subst; intros q; reflexivity]. apply same_vals_sym. eapply same_vals_addsubs. apply (punsub_spec _ _ _ H1). }
  assert (S2 : same_vals f1 f2) by (eapply same_vals_addsubs; apply (psub_spec _ _ _ H2)).
  unfold pset in H3. destruct (nth_error f2 p) as [r2|] eqn:Hp; [|discriminate]. injection H3 as <-. split; [|split].
  - exists p. split; [now rewrite rget_rset, lreg_eqb_refl|]. eexists. split; [eapply nth_set_nth_same; exact Hp|reflexivity].
  - intros q Hq. pose proof (dull_same _ _ _ (same_vals_trans _ _ _ S1 S2) Hq) as (r & G1 & G2). destruct (Nat.eq_dec q p) as [->|Hn].
    + eexists. split; [eapply nth_set_nth_same; exact Hp|reflexivity].
    + exists r. split; [rewrite nth_set_nth_other by exact Hn; exact G1|exact G2].
  - intros k Hk. rewrite rget_rset, (lreg_eqb_neq _ _ Hk). reflexivity.
Qed.

Lemma add_products_dull : forall S T X rs ps den role done c ids c' ids',
  TI den role S T X done rs (c_regs c) (c_rat c) -> add_products c ids ps = Ok (c', ids') ->
  (forall q, dull (c_regs c) q -> dull (c_regs c') q) /\
  (forall k, ~ In k (reg_prods ps) -> rget (c_rat c') k = rget (c_rat c) k) /\
  (forall l, In l (reg_prods ps) -> exists p, rget (c_rat c') l = Some p /\ dull (c_regs c') p /\ forall t k, In t (X ++ entry_tabs rs) -> rget t k <> Some p).
Proof.
  intros S T X rs. induction ps as [|[l|a|] ps IH]; intros den role done c ids c' ids' HT H; cbn [add_products reg_prods] in *.
  - apply Ok_eq in H. injection H as <- <-. split; [auto|]. split; [auto|]. intros l [].
  - destruct (is_pc l) eqn:Hl; [eapply IH; eassumption|]. apply bind_ok in H. destruct H as [c1 [H1 H]].
    destruct (rename_dull _ _ _ H1) as ((p & P1 & P2) & P3 & P4).
    destruct (rename_inv _ _ _ _ _ _ _ _ _ _ HT H1) as (p' & f1 & den1 & role1 & -> & T1 & _ & Fr & _). cbn [set_rat c_rat c_regs] in P1, P2, P3, P4.
    rewrite rget_rset, lreg_eqb_refl in P1. injection P1 as <-.
    destruct (IH den1 role1 (l :: done) (set_rat c f1 (rset (c_rat c) l p')) ids c' ids' T1 H) as (I1 & I2 & I3). cbn [set_rat c_rat c_regs] in I1, I2. split; [auto|]. split.
    + intros k Hk. rewrite I2; [|intros Hc; apply Hk; now right]. apply P4. intros ->. apply Hk. now left.
    + intros k Hk. destruct (in_dec_lreg k (reg_prods ps)) as [Hin|Hin]; [now apply I3|]. destruct Hk as [<-|Hk]; [|contradiction].
      exists p'. rewrite (I2 l Hin), rget_rset, lreg_eqb_refl. split; [reflexivity|]. split; [now apply I1|exact Fr].
  - destruct (wm_register_at (c_wm c) a) as [w1 id]. exact (IH den role done (set_wm c w1) _ _ _ HT H).
  - destruct (wm_register (c_wm c)) as [w1 id]. exact (IH den role done (set_wm c w1) _ _ _ HT H).
Qed.

Lemma add_fresh : forall E den role A c i pc c', J E den role [] [] A c -> add c i pc = Ok c' ->
  exists e, added c i c' e /\
    (forall l p, reg_prod i l -> l <> LR PC -> rget (e_wrat e) l = Some p -> dull (c_regs c') p /\ forall x k, In x (c_rs c) -> rget (e_wrat x) k <> Some p) /\
    (forall x k q, In x (c_rs c) -> rget (e_wrat x) k = Some q -> dull (c_regs c) q -> dull (c_regs c') q).
Proof.
  intros E den role A c i pc c' HJ H. pose proof (add_frame _ _ _ _ H) as [e Hadd]. exists e. split; [exact Hadd|]. unfold add in H.
  destruct (negb _); [discriminate|].
  apply bind_ok in H. destruct H as [c1 [H1 H]]. apply bind_ok in H. destruct H as [c2 [H2 H]].
  cbv zeta in H. apply bind_ok in H. destruct H as [f2 [H3 H]]. apply opt_ok in H3.
  destruct (produces i) as [ps|] eqn:Hps; [|discriminate].
  apply bind_ok in H. destruct H as [[c4 ids] [H4 H]]. apply bind_ok in H. destruct H as [f4 [H5 H]]. apply opt_ok in H5.
  destruct (operands i) as [ops|] eqn:Hops; [|discriminate]. apply Ok_eq in H. subst c'.
  pose proof (j_regs _ _ _ _ _ _ _ HJ) as R.
  set (rs := c_rs c) in *. set (S := sfold E A rs). set (T := eff E i S).
  pose proof (TI_start E den role A (c_regs c) (c_rat c) rs T R) as T0. fold S in T0.
  destruct (rename_dull _ _ _ H1) as (_ & D1 & _).
  destruct (rename_inv _ _ _ _ _ _ _ _ _ _ T0 H1) as [p [f1 [den1 [role1 [-> [T1 [X1 [Fr1 [[r1 Hr1] Rp]]]]]]]]].
  cbn [app] in X1, Fr1. cbn [set_rat c_regs] in D1.
  assert (Ht1 : rget (rset (c_rat c) (LR PC) p) (LR PC) = Some p) by (rewrite rget_rset, lreg_eqb_refl; reflexivity).
  unfold set_lreg in H2. cbn [set_rat c_rat c_regs] in H2. rewrite Ht1 in H2.
  unfold pset in H2. rewrite Hr1 in H2. apply Ok_eq in H2. subst c2.
  set (rr := rset (c_rat c) (LR PC) p) in *.
  cbn [set_regs set_rat c_rat c_regs] in H3.
  pose proof (set_pc_TI _ _ _ _ _ _ _ _ _ _ (s64 pc) _ T1 Ht1 Hr1) as T2.
  set (f1' := set_nth f1 p (mkPreg (s64 pc) true (p_subs r1))) in *.
  pose proof (psub_all_spec _ _ _ H3) as E3.
  assert (Sv3 : same_vals f1' f2) by (eapply same_vals_addsubs; exact E3).
  assert (T3 : TI den1 role1 S T [rr] [LR PC] rs f2 rr).
  { eapply TI_same; [exact T2|exact Sv3|]. intros q r Hq. rewrite E3 in Hq.
    destruct (nth_error f1' q) as [r'|] eqn:Hq'; [|discriminate]. cbn [option_map] in Hq. inversion Hq; subst r.
    pose proof (ti_subs _ _ _ _ _ _ _ _ _ T2 _ _ Hq') as Hs. unfold addsubs. cbn [p_subs].
    rewrite occ_tables in Hs |- *. rewrite occ_cons, occ_nil in *. lia. }
  destruct (add_products_dull S T [rr] rs ps den1 role1 [LR PC] (set_regs (set_regs (set_rat c f1 rr) f1') f2) [] c4 ids T3 H4) as (I1 & I2 & I3).
  cbn [set_regs c_regs] in I1. pose proof (psub_all_spec _ _ _ H5) as E5.
  assert (Sv5 : same_vals (c_regs c4) f4) by (eapply same_vals_addsubs; exact E5).
  assert (He : e_wrat e = c_rat c4).
  { destruct (ad_rs _ _ _ _ Hadd). destruct Hadd as [G _ _ _ _ _ _ _]. destruct (add_products_frame _ _ _ _ _ H4) as (_ & F & _). cbn [set_rs set_regs set_rat c_rs c_rat] in G, F. rewrite F in G.
    fold rs in G. apply app_inv_head in G. injection G as <-. reflexivity. }
  cbn [set_rs set_regs c_regs]. split.
  - intros l q [ps' [Hp1 Hp2]] Hl Hg. rewrite Hps in Hp1. injection Hp1 as <-. rewrite He in Hg. destruct (I3 l) as (p' & G1 & G2 & G3); [now apply reg_prods_in|].
    rewrite G1 in Hg. injection Hg as <-. split; [eapply dull_same; eassumption|]. intros x k Hx. apply G3. right. apply in_flat_map. exists x. split; [exact Hx|]. right. now left.
  - intros x k q Hx Hk Hd. eapply dull_same; [exact Sv5|]. apply I1. eapply dull_same; [exact Sv3|]. destruct (D1 q Hd) as (r & G1 & G2). exists r. split; [|exact G2].
    unfold f1'. rewrite nth_set_nth_other; [exact G1|]. intros ->. eapply (Fr1 (e_wrat x) k); [|exact Hk]. apply in_flat_map. exists x. split; [exact Hx|]. right. now left.
Qed.

Lemma added_SX : forall E den role A c i pc c', J E den role [] [] A c -> SX (c_cfg c) (c_regs c) (c_wm c) (c_rs c) -> D c' -> c_cfg c' = c_cfg c ->
  good_ins (c_cfg c) i = true -> add c i pc = Ok c' ->
  NoDup (saddrs E A (c_rs c')) -> SX (c_cfg c) (c_regs c') (c_wm c') (c_rs c').
Proof.
  intros E den role A c i pc c' HJ HS HD Hcfg Hgi H HA. destruct (add_fresh _ _ _ _ _ _ _ _ HJ H) as (e & Had & F1 & F2). set (g := c_cfg c) in *.
  pose proof (j_wm _ _ _ _ _ _ _ HJ) as HW. pose proof (entries_wf _ _ _ _ (j_ent _ _ _ _ _ _ _ HJ)) as Hwf.
  assert (Hst : e_state e <> Retiring) by (destruct (ad_state _ _ _ _ Had) as [->| ->]; discriminate).
  destruct (ad_wm _ _ _ _ Had) as (ps & Hps & Hwm). rewrite (wm_prods_eq _ _ _ Hps) in Hwm. set (w := c_wm c) in *. set (w' := c_wm c') in *.
  rewrite (ad_rs _ _ _ _ Had) in *.
  assert (Hmp : mem_prod (e_ins e) = prod_mem ps) by (unfold mem_prod; rewrite (ad_ins _ _ _ _ Had), Hps; reflexivity).
  assert (Hnew : aget (wm_byid w) (wm_cur w + 1) = None).
  { destruct (aget (wm_byid w) (wm_cur w + 1)) eqn:Hg; [|reflexivity]. pose proof (sx_keys _ _ _ _ HS (wm_cur w + 1) ltac:(congruence)). fold w in H0. lia. }
  assert (Hold : forall x id, In x (c_rs c) -> In id (e_wids x) -> id <= wm_cur w).
  { intros x id Hx Hid. apply in_split in Hx. destruct Hx as (pre & post & Hs). destruct (wi_max _ _ _ _ HW pre x post Hs) as (M1 & M2 & _). specialize (M2 id Hid). fold w in M1. lia. }
  constructor.
  - intros x l p Hx Hu Hp Hl Hg. apply in_app_or in Hx. destruct Hx as [Hx|[<-|[]]].
    + eapply F2; [exact Hx|exact Hg|]. eapply (sx_new _ _ _ _ HS); eassumption.
    + rewrite (ad_ins _ _ _ _ Had) in Hp. destruct (F1 l p Hp Hl Hg) as [Hd _]. exact Hd.
  - apply owned_snoc; [apply (sx_own _ _ _ _ HS)|]. apply Forall_forall. intros x Hx l p l' Hp Hl Hg. rewrite (ad_ins _ _ _ _ Had) in Hp. destruct (F1 l p Hp Hl Hg) as [_ Hf]. now apply Hf.
  - intros id Hid. destruct (prod_mem ps) as [[a|]|].
    + injection Hwm as Hw' Hids. rewrite <- Hw' in Hid |- *. rewrite wm_insert_cur. rewrite insert_byid in Hid. destruct (id =? wm_cur w + 1) eqn:Hq; [apply Z.eqb_eq in Hq; lia|]. cbn [andb] in Hid.
      destruct (aget (wm_byid w) id) eqn:Hg; [|now elim Hid]. pose proof (sx_keys _ _ _ _ HS id ltac:(fold w; congruence)). fold w in H0. lia.
    + injection Hwm as Hw' Hids. rewrite <- Hw' in Hid |- *. cbn [wm_byid wm_cur] in *. pose proof (sx_keys _ _ _ _ HS id Hid). fold w in H0. lia.
    + injection Hwm as Hw' Hids. rewrite <- Hw' in Hid |- *. apply (sx_keys _ _ _ _ HS id Hid).
  - intros x id Hx Hid. apply in_app_or in Hx. destruct Hx as [Hx|[<-|[]]].
    + rewrite <- (sx_refs _ _ _ _ HS x id Hx Hid). fold w. pose proof (Hold x id Hx Hid) as Hle. destruct (prod_mem ps) as [[a|]|].
      * injection Hwm as Hw' Hids. rewrite <- Hw'. apply insert_keeps; [lia|]. intros Hne m Hm Hmid. fold w in HW.
        pose proof (sx_refs _ _ _ _ HS x id Hx Hid) as Hb. fold w in Hb. assert (Hrx : registered x = true) by (destruct (registered x); [reflexivity|congruence]).
        destruct (in_split _ _ Hx) as (pre & post & Hs). pose proof (vec_registered E A w _ pre x post id a m HW Hwf Hs Hid Hrx Hm Hmid) as Hst1.
        rewrite Hs in HA. rewrite <- app_assoc in HA. cbn [app] in HA. eapply apart_pair; [exact HA|exact Hst1|]. unfold store_addr. rewrite Hmp. reflexivity.
      * injection Hwm as Hw' Hids. rewrite <- Hw'. reflexivity.
      * injection Hwm as Hw' Hids. rewrite <- Hw'. reflexivity.
    + unfold registered. rewrite Hmp. destruct (e_state e); [| | |now elim Hst]; (destruct (prod_mem ps) as [[a|]|]; injection Hwm as Hw' Hids; rewrite <- Hids in Hid; [| |destruct Hid]; destruct Hid as [<-|[]]; rewrite <- Hw'; [rewrite insert_byid, Z.eqb_refl, Hnew; reflexivity|exact Hnew]).
  - intros x Hx. apply in_app_or in Hx. destruct Hx as [Hx|[<-|[]]]; [now apply (sx_ops _ _ _ _ HS)|]. eapply good_operands; [exact Hgi|apply (ad_ops _ _ _ _ Had)].
  - intros x Hx. destruct HD as [_ HD]. rewrite Hcfg in HD. apply (dt_ents _ _ _ HD (e_rrat x) (e_wrat x)). rewrite (ad_rs _ _ _ _ Had). unfold tabs. apply in_map_iff. exists x. auto.
  - destruct HD as [HD _]. rewrite Hcfg in HD. exact HD.
Qed.
