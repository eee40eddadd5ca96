(** The write queue and the memory in the refinement proof. *)
From Coq Require Import ZArith NArith List Bool Sorted Lia.
From Verif Require Import Base Alu Isa Exec Ram Writes Rat Cpu InOrder PipeInv PipeBasics PipeActs.
Import ListNotations.
Open Scope Z_scope.

(** ---- sorted vectors ---- *)

Lemma ss_filter : forall (g : mwrite -> bool) l, StronglySorted gt_id l -> StronglySorted gt_id (filter g l).
Proof.
  induction l as [|x l IH]; intros H; cbn; [constructor|].
  inversion H; subst. destruct (g x); [|auto]. constructor; [auto|].
  apply Forall_forall. intros y Hy. apply filter_In in Hy.
  rewrite Forall_forall in H3. now apply H3.
Qed.

Lemma ss_upd : forall id f l, (forall m, mw_id (f m) = mw_id m) ->
  StronglySorted gt_id l -> StronglySorted gt_id (upd_id id f l).
Proof.
  intros id f l Hf H. induction H as [|x l H IH Hx]; cbn; [constructor|].
  constructor; [exact IH|]. apply Forall_forall. intros y Hy. unfold upd_id in Hy.
  apply in_map_iff in Hy. destruct Hy as [z [<- Hz]].
  rewrite Forall_forall in Hx. specialize (Hx z Hz). unfold gt_id in *.
  destruct (mw_id x =? id), (mw_id z =? id); rewrite ?Hf; exact Hx.
Qed.

Lemma split_gt_app : forall id l a b, split_gt id l = (a, b) -> l = a ++ b.
Proof.
  induction l as [|w l IH]; intros a b H; cbn in H.
  - inversion H. reflexivity.
  - destruct (mw_id w >? id).
    + destruct (split_gt id l) as [a' b'] eqn:Eq. inversion H; subst. cbn. f_equal. now apply IH.
    + inversion H. reflexivity.
Qed.

Lemma split_gt_left : forall id l a b, split_gt id l = (a, b) -> forall m, In m a -> id < mw_id m.
Proof.
  induction l as [|w l IH]; intros a b H m Hm; cbn in H.
  - inversion H; subst. destruct Hm.
  - destruct (Z.gtb_spec (mw_id w) id).
    + destruct (split_gt id l) as [a' b'] eqn:Eq. inversion H; subst. destruct Hm as [<-|Hm]; [lia|].
      eapply IH; eauto.
    + inversion H; subst. destruct Hm.
Qed.

Lemma split_gt_right : forall id l a b, StronglySorted gt_id l -> split_gt id l = (a, b) ->
  forall m, In m b -> mw_id m <= id.
Proof.
  induction l as [|w l IH]; intros a b S H m Hm; cbn in H.
  - inversion H; subst. destruct Hm.
  - inversion S; subst. destruct (Z.gtb_spec (mw_id w) id).
    + destruct (split_gt id l) as [a' b'] eqn:Eq. inversion H; subst. eapply IH; eauto.
    + inversion H; subst. destruct Hm as [<-|Hm]; [lia|].
      rewrite Forall_forall in H3. specialize (H3 _ Hm). unfold gt_id in H3. lia.
Qed.

(** [mws_latest] is the greatest write not above the bound *)
Lemma mws_latest_spec : forall l maxid, StronglySorted gt_id l ->
  match mws_latest l maxid with
  | Some m => In m l /\ mw_id m <= maxid /\ forall m', In m' l -> mw_id m' <= maxid -> mw_id m' <= mw_id m
  | None => forall m', In m' l -> maxid < mw_id m'
  end.
Proof.
  intros l maxid S. unfold mws_latest. destruct (split_gt maxid l) as [a b] eqn:Eq. cbn.
  pose proof (split_gt_app _ _ _ _ Eq) as Hl.
  pose proof (split_gt_left _ _ _ _ Eq) as Ha.
  pose proof (split_gt_right _ _ _ _ S Eq) as Hb.
  destruct b as [|m b].
  - intros m' Hm. apply Ha. rewrite Hl, app_nil_r in Hm. exact Hm.
  - split; [|split].
    + rewrite Hl. apply in_or_app. right. now left.
    + apply Hb. now left.
    + intros m' Hm Hle. rewrite Hl in Hm. apply in_app_or in Hm. destruct Hm as [Hm|Hm].
      * apply Ha in Hm. lia.
      * destruct Hm as [->|Hm]; [lia|].
        assert (Sb : StronglySorted gt_id (m :: b)).
        { rewrite Hl in S. clear - S. induction a as [|x a IH]; [exact S|].
          inversion S; auto. }
        inversion Sb; subst. rewrite Forall_forall in H2. specialize (H2 _ Hm). unfold gt_id in H2. lia.
Qed.

Lemma ss_insert : forall a b m, StronglySorted gt_id (a ++ b) ->
  (forall x, In x a -> mw_id m < mw_id x) -> (forall x, In x b -> mw_id x < mw_id m) ->
  StronglySorted gt_id (a ++ m :: b).
Proof.
  induction a as [|x a IH]; intros b m S Ha Hb; cbn in *.
  - constructor; [exact S|]. apply Forall_forall. exact Hb.
  - inversion S; subst. constructor.
    + apply IH; auto.
    + apply Forall_forall. intros y Hy. rewrite Forall_forall in H2. unfold gt_id.
      apply in_app_or in Hy. destruct Hy as [Hy|[<-|Hy]].
      * apply (H2 y). apply in_or_app. auto.
      * apply Ha. auto.
      * apply (H2 y). apply in_or_app. auto.
Qed.

(** two members of a sorted vector with the same id are the same *)
Lemma ss_uniq : forall l x y, StronglySorted gt_id l -> In x l -> In y l -> mw_id x = mw_id y -> x = y.
Proof.
  induction l as [|z l IH]; intros x y S Hx Hy E; [destruct Hx|].
  inversion S; subst. rewrite Forall_forall in H2. unfold gt_id in H2.
  destruct Hx as [->|Hx], Hy as [->|Hy]; auto.
  - apply H2 in Hy. lia.
  - apply H2 in Hx. lia.
Qed.

(** ---- operations on the queue ---- *)

Lemma vec_eq : forall w a, vec w a = match aget (wm_map w) a with Some ws => mws_vec ws | None => [] end.
Proof. intros. unfold vec, wm_get. destruct (aget (wm_map w) a); reflexivity. Qed.

Lemma wm_insert_vec : forall w id addr u cur a,
  vec (wm_insert w id addr u cur) a =
  if a =? addr then fst (split_gt id (vec w addr)) ++ mkMw id addr None None :: snd (split_gt id (vec w addr))
  else vec w a.
Proof.
  intros w id addr u cur a. unfold wm_insert.
  destruct (mws_add (wm_get w addr) id addr) as [ws inv] eqn:Ha.
  rewrite vec_eq. cbn [wm_map]. rewrite aget_aset. destruct (Z.eqb_spec a addr); [|now rewrite vec_eq].
  unfold mws_add in Ha. fold (vec w addr) in Ha.
  destruct (split_gt id (vec w addr)) as [b f]. cbn.
  destruct (Nat.ltb (length (vec w addr)) (mws_cap (wm_get w addr))); inversion Ha; reflexivity.
Qed.

Lemma wm_insert_in : forall w id addr u cur a m,
  In m (vec (wm_insert w id addr u cur) a) <->
  In m (vec w a) \/ (a = addr /\ m = mkMw id addr None None).
Proof.
  intros w id addr u cur a m. rewrite wm_insert_vec.
  destruct (split_gt id (vec w addr)) as [b f] eqn:Eq. cbn.
  pose proof (split_gt_app _ _ _ _ Eq) as Hl.
  destruct (Z.eqb_spec a addr).
  - subst a. rewrite Hl, !in_app_iff. cbn. intuition congruence.
  - intuition.
Qed.

Lemma wm_insert_sorted : forall w id addr u cur,
  (forall a, StronglySorted gt_id (vec w a)) -> (forall m, In m (vec w addr) -> mw_id m <> id) ->
  forall a, StronglySorted gt_id (vec (wm_insert w id addr u cur) a).
Proof.
  intros w id addr u cur S Hid a. rewrite wm_insert_vec.
  destruct (split_gt id (vec w addr)) as [b f] eqn:Eq. cbn.
  pose proof (split_gt_app _ _ _ _ Eq) as Hl.
  destruct (Z.eqb_spec a addr); [|auto].
  apply ss_insert.
  - rewrite <- Hl. auto.
  - cbn. eapply split_gt_left; eauto.
  - cbn. intros x Hx. pose proof (split_gt_right _ _ _ _ (S addr) Eq _ Hx).
    assert (mw_id x <> id). { apply Hid. rewrite Hl. apply in_or_app. auto. } lia.
Qed.

Lemma wm_insert_keys : forall w id addr u cur, NoDup (map fst (wm_map w)) ->
  NoDup (map fst (wm_map (wm_insert w id addr u cur))).
Proof.
  intros. unfold wm_insert. destruct (mws_add (wm_get w addr) id addr). cbn. now apply aset_nodup.
Qed.

Lemma wm_insert_cur : forall w id addr u cur, wm_cur (wm_insert w id addr u cur) = cur.
Proof. intros. unfold wm_insert. destruct (mws_add (wm_get w addr) id addr). reflexivity. Qed.

Lemma wm_insert_unspec : forall w id addr u cur, wm_unspec (wm_insert w id addr u cur) = u.
Proof. intros. unfold wm_insert. destruct (mws_add (wm_get w addr) id addr). reflexivity. Qed.

Lemma wm_update_vec : forall w id f a, vec (wm_update w id f) a = upd_id id f (vec w a).
Proof.
  intros. rewrite !vec_eq. unfold wm_update. cbn [wm_map].
  induction (wm_map w) as [|[k ws] l IH]; [reflexivity|]. cbn. destruct (a =? k); [reflexivity|exact IH].
Qed.

Lemma wm_update_in : forall w id f a m, In m (vec (wm_update w id f) a) <->
  exists m0, In m0 (vec w a) /\ m = if mw_id m0 =? id then f m0 else m0.
Proof.
  intros. rewrite wm_update_vec. unfold upd_id. rewrite in_map_iff. split; intros [x [H1 H2]]; eauto.
Qed.

Lemma wm_update_keys : forall w id f, map fst (wm_map (wm_update w id f)) = map fst (wm_map w).
Proof. intros. unfold wm_update. cbn. rewrite map_map. reflexivity. Qed.

Lemma wm_find_in : forall id m w, wm_find id m = Some w -> NoDup (map fst m) ->
  exists a ws, aget m a = Some ws /\ In w (mws_vec ws) /\ mw_id w = id.
Proof.
  induction m as [|[a ws] m IH]; intros w H N; cbn in H; [discriminate|].
  destruct (find_id id (mws_vec ws)) as [w'|] eqn:Hf.
  - inversion H; subst. exists a, ws. cbn. rewrite Z.eqb_refl. split; [reflexivity|].
    clear - Hf. induction (mws_vec ws) as [|x l IH]; cbn in Hf; [discriminate|].
    destruct (Z.eqb_spec (mw_id x) id); [inversion Hf; subst; cbn; auto|].
    destruct (IH Hf); cbn; auto.
  - inversion N; subst. destruct (IH _ H H3) as [a' [ws' [Ha [Hi He]]]].
    exists a', ws'. cbn. destruct (Z.eqb_spec a' a); [|auto].
    subst. exfalso. apply H2. apply aget_in in Ha. apply in_map_iff. now exists (a, ws').
Qed.

Lemma wm_get_write_in : forall w id m, NoDup (map fst (wm_map w)) -> wm_get_write w id = Ok m ->
  mw_id m = id /\ exists a, In m (vec w a).
Proof.
  intros w id m N H. unfold wm_get_write in H. destruct (aget (wm_byid w) id) as [[]|]; try discriminate.
  destruct (wm_find id (wm_map w)) as [m'|] eqn:Hf; [|discriminate].
  apply Ok_eq in H. subst. destruct (wm_find_in _ _ _ Hf N) as [a [ws [Ha [Hi He]]]].
  split; [exact He|]. exists a. rewrite vec_eq, Ha. exact Hi.
Qed.

Lemma wm_set_value_eq : forall w id v w', wm_set_value w id v = Ok w' ->
  w' = wm_update w id (fun w => mkMw (mw_id w) (mw_addr w) (Some v) (mw_ram w)).
Proof.
  intros w id v w' H. unfold wm_set_value in H. apply bind_ok in H. destruct H as [m [_ H]].
  destruct (mw_value m); [discriminate|]. destruct (mw_ram m); [discriminate|].
  apply Ok_eq in H. auto.
Qed.

Lemma mws_remove_kept : forall drop l e kept rem inv, mws_remove drop l e = (kept, rem, inv) ->
  kept = filter (fun m => negb (drop m)) l.
Proof.
  induction l as [|m l IH]; intros e kept rem inv H; cbn in H.
  - inversion H. reflexivity.
  - cbn. destruct (drop m) eqn:Ed.
    + destruct (mws_remove drop l true) as [[k r] i] eqn:Eq. inversion H; subst. cbn. eapply IH; eauto.
    + destruct (mws_remove drop l e) as [[k r] i] eqn:Eq. inversion H; subst. cbn. f_equal. eapply IH; eauto.
Qed.

Lemma wm_remove_map_get : forall drop m m' rem inv, wm_remove_map drop m = (m', rem, inv) ->
  map fst m' = map fst m /\
  forall a, match aget m' a with Some ws => mws_vec ws | None => [] end =
            filter (fun m => negb (drop m)) (match aget m a with Some ws => mws_vec ws | None => [] end).
Proof.
  induction m as [|[k ws] m IH]; intros m' rem inv H; cbn in H.
  - inversion H; subst. split; [reflexivity|]. reflexivity.
  - destruct (mws_remove drop (mws_vec ws) false) as [[kept r1] i1] eqn:E1.
    destruct (wm_remove_map drop m) as [[m2 r2] i2] eqn:E2.
    inversion H; subst. destruct (IH _ _ _ eq_refl) as [Hk Hg]. split; [cbn; congruence|].
    intros a. cbn. destruct (a =? k); [|apply Hg]. cbn. eapply mws_remove_kept; eauto.
Qed.

Lemma wm_remove_vec : forall drop w u a,
  vec (wm_remove drop w u) a = filter (fun m => negb (drop m)) (vec w a).
Proof.
  intros. rewrite !vec_eq. unfold wm_remove. destruct (wm_remove_map drop (wm_map w)) as [[m r] i] eqn:Eq.
  cbn [wm_map]. now apply wm_remove_map_get in Eq.
Qed.

Lemma wm_remove_keys : forall drop w u, map fst (wm_map (wm_remove drop w u)) = map fst (wm_map w).
Proof.
  intros. unfold wm_remove. destruct (wm_remove_map drop (wm_map w)) as [[m r] i] eqn:Eq.
  cbn [wm_map]. now apply wm_remove_map_get in Eq.
Qed.

Lemma wm_remove_cur : forall drop w u, wm_cur (wm_remove drop w u) = wm_cur w.
Proof. intros. unfold wm_remove. now destruct (wm_remove_map drop (wm_map w)) as [[m r] i]. Qed.

Lemma wm_remove_unspec : forall drop w u, wm_unspec (wm_remove drop w u) = u.
Proof. intros. unfold wm_remove. now destruct (wm_remove_map drop (wm_map w)) as [[m r] i]. Qed.

(** removal that keeps every write not yet sent to memory keeps the invariant *)
Lemma wm_inv_remove : forall E S0 drop w rs,
  wm_inv E S0 w rs -> (forall m, mw_ram m = None -> drop m = false) ->
  wm_inv E S0 (wm_remove drop w (wm_unspec w)) rs.
Proof.
  intros E S0 drop w rs [K S A Src C O Sh En M] Hd.
  assert (Hin : forall a m, In m (vec (wm_remove drop w (wm_unspec w)) a) <->
                            In m (vec w a) /\ drop m = false).
  { intros. rewrite wm_remove_vec, filter_In. now rewrite negb_true_iff. }
  constructor.
  - now rewrite wm_remove_keys.
  - intros a. rewrite wm_remove_vec. now apply ss_filter.
  - intros a m H. apply Hin in H. now apply A.
  - intros a m H. apply Hin in H. now apply (Src a).
  - intros a m H. rewrite wm_remove_cur. apply Hin in H. now apply (C a).
  - intros a m e H. apply Hin in H. now apply (O a).
  - exact Sh.
  - intros pre e post id Hr Hi. specialize (En _ _ _ _ Hr Hi). unfold entry_write in *.
    rewrite wm_remove_unspec.
    destruct (e_state e).
    4: { destruct En as [a [v [H1 [H2 H3]]]]. exists a, v. split; [exact H1|]. split.
         - apply Hin. split; [exact H2|]. now apply Hd.
         - intros a' m Hm. apply Hin in Hm. now apply H3. }
    all: destruct (mem_prod (e_ins e)) as [[a|]|];
      [ destruct En as [H1 H2]; split; [apply Hin; split; [exact H1|now apply Hd]|
          intros a' m Hm; apply Hin in Hm; now apply H2]
      | destruct En as [H1 H2]; split; [exact H1|intros a' m Hm; apply Hin in Hm; now apply (H2 a')]
      | destruct En as [H1 H2]; split; [exact H1|intros a' m Hm; apply Hin in Hm; now apply (H2 a')] ].
  - intros pre e post Hr. rewrite wm_remove_cur. apply (M _ _ _ Hr).
Qed.

(** the memory invariant depends only on the outgoing writes *)
Lemma ram_inv_ext : forall S0 w w' r,
  (forall a m, mw_ram m <> None -> (In m (vec w' a) <-> In m (vec w a))) ->
  ram_inv S0 w r -> ram_inv S0 w' r.
Proof.
  intros S0 w w' r X [M O P Wr Rd N Ri L La Wk Rk].
  assert (Hn : forall a m, newest_out w' a m <-> newest_out w a m).
  { intros a m. unfold newest_out. split; intros H m' Hm Hr; apply H; auto; now apply X. }
  constructor; auto.
  - intros a m H1 H2 H3. apply O; auto; [now apply X|now apply Hn].
  - intros a m rid H1 H2 H3. apply Hn. apply P with rid; auto. apply X; congruence.
  - intros a we H. destruct (Wr _ _ H) as [m [H1 H2]]. exists m. split; [|exact H2]. apply X; congruence.
  - intros a m rid H1 H2. apply (Ri a m); auto. apply X; congruence.
  - intros a m rid b we H1 H2 H3 H4. apply (L a m rid b we); auto. apply X; congruence.
Qed.

(** ---- L1: the clock of the memory ---- *)

Lemma tick_reads_in : forall m a e, In (a, e) (tick_reads m) <->
  exists n, e = mkRe n (re_val e) /\ In (a, mkRe (S n) (re_val e)) m.
Proof.
  induction m as [|[k x] m IH]; intros a e; cbn.
  - split; [intros []|intros [n [_ []]]].
  - destruct x as [[|n] v]; cbn.
    + rewrite IH. split; intros [k0 [H1 H2]]; exists k0; (split; [exact H1|]); auto.
      destruct H2 as [H2|H2]; [inversion H2|exact H2].
    + rewrite IH. split.
      * intros [H|[k0 [H1 H2]]].
        { inversion H; subst. exists n. cbn. auto. }
        { exists k0. auto. }
      * intros [k0 [H1 [H2|H2]]].
        { left. rewrite H1. inversion H2; subst. reflexivity. }
        { right. eauto. }
Qed.

Lemma tick_writes_in : forall m a e, In (a, e) (tick_writes m) <->
  exists n, e = mkWe (we_id e) n /\ In (a, mkWe (we_id e) (S n)) m.
Proof.
  induction m as [|[k x] m IH]; intros a e; cbn.
  - split; [intros []|intros [n [_ []]]].
  - destruct x as [v [|n]]; cbn.
    + rewrite IH. split; intros [k0 [H1 H2]]; exists k0; (split; [exact H1|]); auto.
      destruct H2 as [H2|H2]; [inversion H2|exact H2].
    + rewrite IH. split.
      * intros [H|[k0 [H1 H2]]].
        { inversion H; subst. exists n. cbn. auto. }
        { exists k0. auto. }
      * intros [k0 [H1 [H2|H2]]].
        { left. rewrite H1. inversion H2; subst. reflexivity. }
        { right. eauto. }
Qed.

Lemma tick_reads_keys : forall m k, In k (map fst (tick_reads m)) -> In k (map fst m).
Proof.
  intros m k H. apply in_map_iff in H. destruct H as [[a e] [<- H]].
  apply tick_reads_in in H. destruct H as [n [_ H]]. apply in_map_iff. eexists. split; [|exact H]. reflexivity.
Qed.

Lemma tick_writes_keys : forall m k, In k (map fst (tick_writes m)) -> In k (map fst m).
Proof.
  intros m k H. apply in_map_iff in H. destruct H as [[a e] [<- H]].
  apply tick_writes_in in H. destruct H as [n [_ H]]. apply in_map_iff. eexists. split; [|exact H]. reflexivity.
Qed.

Lemma tick_reads_nodup : forall m, NoDup (map fst m) -> NoDup (map fst (tick_reads m)).
Proof.
  induction m as [|[k x] m IH]; intros N; cbn; [constructor|]. inversion N; subst.
  destruct (re_rem x); [auto|]. cbn. constructor; [|auto]. intros H. now apply tick_reads_keys in H.
Qed.

Lemma tick_writes_nodup : forall m, NoDup (map fst m) -> NoDup (map fst (tick_writes m)).
Proof.
  induction m as [|[k x] m IH]; intros N; cbn; [constructor|]. inversion N; subst.
  destruct (we_rem x); [auto|]. cbn. constructor; [|auto]. intros H. now apply tick_writes_keys in H.
Qed.

Lemma pending_in : forall r rid, ram_pending r rid = true <-> exists a we, In (a, we) (ram_writes r) /\ we_id we = rid.
Proof.
  intros r rid. unfold ram_pending. rewrite existsb_exists. split.
  - intros [[a we] [H1 H2]]. apply Z.eqb_eq in H2. eauto.
  - intros [a [we [H1 H2]]]. exists (a, we). split; [exact H1|]. now apply Z.eqb_eq.
Qed.

Lemma pending_tick : forall r rid, ram_pending (ram_tick r) rid = true -> ram_pending r rid = true.
Proof.
  intros r rid H. apply pending_in in H. destruct H as [a [we [H1 H2]]]. cbn in H1.
  apply tick_writes_in in H1. destruct H1 as [n [H3 H1]]. apply pending_in. eauto.
Qed.

Lemma tick_mem_inv : forall E S0 w r rs, wm_inv E S0 w rs -> ram_inv S0 w r ->
  wm_inv E S0 (wm_remove_finished w (ram_tick r)) rs /\
  ram_inv S0 (wm_remove_finished w (ram_tick r)) (ram_tick r).
Proof.
  intros E S0 w r rs W [M O P Wr Rd N Ri L La Wk Rk]. unfold wm_remove_finished. split.
  { apply wm_inv_remove; [exact W|]. intros m Hm. now rewrite Hm. }
  set (drop := fun w0 : mwrite => match mw_ram w0 with
               | Some rid => negb (ram_pending (ram_tick r) rid) | None => false end).
  assert (Hin : forall a m, In m (vec (wm_remove drop w (wm_unspec w)) a) <->
                            In m (vec w a) /\ drop m = false).
  { intros. rewrite wm_remove_vec, filter_In. now rewrite negb_true_iff. }
  assert (Hp : forall m rid, mw_ram m = Some rid -> drop m = false -> ram_pending (ram_tick r) rid = true).
  { intros m rid H1 H2. unfold drop in H2. rewrite H1 in H2. now rewrite negb_false_iff in H2. }
  constructor; cbn [ram_tick ram_mem ram_reads ram_writes ram_next].
  - exact M.
  - intros a m H1 H2 H3. apply Hin in H1. destruct H1 as [H1 Hd].
    apply O; auto. destruct (mw_ram m) as [rid|] eqn:Er; [|congruence].
    apply P with rid; auto. apply pending_tick. eapply Hp; eauto.
  - intros a m rid H1 H2 H3. apply Hin in H1. destruct H1 as [H1 Hd].
    assert (Hw : newest_out w a m) by (apply P with rid; auto using pending_tick).
    intros m' Hm Hr. apply Hin in Hm. now apply Hw.
  - intros a we H. apply tick_writes_in in H as H'. destruct H' as [n [He Hi]].
    destruct (Wr _ _ Hi) as [m [Hm Hr]]. cbn in Hr. exists m. split; [|exact Hr].
    apply Hin. split; [exact Hm|]. unfold drop. rewrite Hr. apply negb_false_iff.
    apply pending_in. exists a, we. split; [exact H|reflexivity].
  - intros a re H. apply tick_reads_in in H. destruct H as [n [He Hi]].
    destruct (Rd _ _ Hi) as [H|[we [Hw Hle]]]; [left; exact H|right].
    cbn in Hle. destruct we as [id [|k]]; cbn in Hle; [lia|].
    exists (mkWe id k). split.
    + apply tick_writes_in. exists k. cbn. auto.
    + rewrite He. cbn. lia.
  - intros a we H. apply tick_writes_in in H. destruct H as [n [He Hi]]. apply N in Hi. exact Hi.
  - intros a m rid H1 H2. apply Hin in H1. apply (Ri a m); tauto.
  - intros a m rid b we H1 H2 H3 H4. apply Hin in H1. apply tick_writes_in in H3.
    destruct H3 as [n [He Hi]]. apply (L a m rid b _ (proj1 H1) H2 Hi). exact H4.
  - intros a re H. apply tick_reads_in in H. destruct H as [n [He Hi]]. apply La in Hi. cbn in Hi.
    rewrite He. cbn. lia.
  - now apply tick_writes_nodup.
  - now apply tick_reads_nodup.
Qed.
