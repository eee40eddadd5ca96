(** A harmless program never makes the VM stumble: the execution of instructions. *)
From Coq Require Import ZArith NArith List Bool Sorted Lia.
From Verif Require Import Base Alu Isa Exec Ram Writes Rat Cpu LiveSpec InOrder PipeInv PipeBasics PipeActs PipeMem
  PipeExec PipePoll PipeRetire PipeAdd PipeTick PipeBoot PipeDom PipeLive SafeSpec PipeSafe.
Import ListNotations.
Open Scope Z_scope.

(** The destinations of the later of two entries are not known to the earlier one. *)
Definition own (e1 e2 : entry) : Prop := forall l p l', reg_prod (e_ins e2) l -> l <> LR PC -> rget (e_wrat e2) l = Some p -> rget (e_wrat e1) l' <> Some p.
Fixpoint owned (rs : list entry) : Prop := match rs with [] => True | e :: rs' => Forall (own e) rs' /\ owned rs' end.

Lemma own_same : forall a a' b b', same a a' -> same b b' -> own a b -> own a' b'.
Proof. intros a a' b b' (A1 & A2 & A3 & A4 & A5) (B1 & B2 & B3 & B4 & B5) H l p l'. rewrite A3, B1, B3. apply H. Qed.
Lemma same_refl : forall e, same e e.
Proof. intros e. repeat split. Qed.
Lemma owned_replace : forall d e e' t, same e e' -> owned (d ++ e :: t) -> owned (d ++ e' :: t).
Proof.
  induction d as [|x d IH]; intros e e' t Hs [H1 H2]; cbn [owned app] in *.
  - split; [|exact H2]. eapply Forall_impl; [|exact H1]. intros y. apply own_same; [exact Hs|apply same_refl].
  - split; [|eauto]. apply Forall_app in H1. destruct H1 as [H1 H3]. apply Forall_cons_iff in H3. destruct H3 as [H3 H4].
    apply Forall_app. split; [exact H1|]. constructor; [|exact H4]. eapply own_same; [apply same_refl|exact Hs|exact H3].
Qed.
Lemma owned_mid : forall d e t x, owned (d ++ e :: t) -> (In x d -> own x e) /\ (In x t -> own e x).
Proof.
  induction d as [|y d IH]; intros e t x [H1 H2]; cbn [owned app] in *.
  - split; [intros []|]. intros Hx. rewrite Forall_forall in H1. now apply H1.
  - split; [|intros Hx; now apply (IH e t x H2)]. intros [<-|Hx]; [|now apply (IH e t x H2)]. rewrite Forall_forall in H1. apply H1. apply in_or_app. right. now left.
Qed.
Lemma owned_snoc : forall rs e, owned rs -> Forall (fun x => own x e) rs -> owned (rs ++ [e]).
Proof.
  induction rs as [|x rs IH]; intros e H1 H2; cbn [owned app] in *; [repeat constructor|]. destruct H1 as [H1 H3]. apply Forall_cons_iff in H2. destruct H2 as [H2 H4].
  split; [|eauto]. apply Forall_app. split; [exact H1|]. constructor; [exact H2|constructor].
Qed.

(** The write of the entry is in the queue. *)
Definition registered (e : entry) : bool :=
  match e_state e with Retiring => true | _ => match mem_prod (e_ins e) with Some (Some _) => true | _ => false end end.

(** What holds in addition to the invariant of PipeInv.v as long as the VM has not stumbled. *)
Record SX (g : cfg) (f : pfile) (w : wman) (rs : list entry) : Prop := mkSX {
  sx_new : forall e l p, In e rs -> unfinished e -> reg_prod (e_ins e) l -> l <> LR PC -> rget (e_wrat e) l = Some p ->
             exists r, nth_error f p = Some r /\ p_ready r = false;
  sx_own : owned rs;
  sx_keys : forall id, aget (wm_byid w) id <> None -> id <= wm_cur w;
  sx_refs : forall e id, In e rs -> In id (e_wids e) -> aget (wm_byid w) id = if registered e then Some true else None;
  sx_ops : forall e, In e rs -> Forall (fun o => good_op g o = true) (e_ops e);
  sx_tab : forall e, In e rs -> tab_ok g (e_rrat e) /\ tab_ok g (e_wrat e);
  sx_len : length f = nphys g
}.

(** ---- the calls of an instruction ---- *)

Lemma memacts_frame : forall e acts f w ops f1 w1 o1, do_acts e (memacts acts) (f, w, ops) = Ok (f1, w1, o1) ->
  forall f2 o2, do_acts e (memacts acts) (f2, w, o2) = Ok (f2, w1, o2).
Proof.
  intros e. induction acts as [|a acts IH]; intros f w ops f1 w1 o1 H f2 o2.
  - cbn in *. apply Ok_eq in H. congruence.
  - destruct a as [l v|a|v|v]; cbn [memacts filter is_mem_act] in *; fold (memacts acts) in *; try (eapply IH; exact H); cbn [do_acts do_act] in *;
      destruct (e_wids e) as [|id [|]]; try discriminate; cbn [bind] in *; apply bind_ok in H; destruct H as [[[f3 w3] o3] [H1 H2]]; apply bind_ok in H1; destruct H1 as [w' [H0 H1]];
      apply Ok_eq in H1; injection H1 as <- <- <-; rewrite H0; cbn [bind]; eapply IH; exact H2.
Qed.

Lemma do_acts_go : forall e acts f w ops, inj_tab (e_wrat e) -> NoDup (sets acts) ->
  (forall l v, In (ASet l v) acts -> exists p r, rget (e_wrat e) l = Some p /\ nth_error f p = Some r /\ (is_pc l = false -> p_ready r = false)) ->
  (exists s, do_acts e (memacts acts) (f, w, ops) = Ok s) -> exists s, do_acts e acts (f, w, ops) = Ok s.
Proof.
  intros e. induction acts as [|a acts IH]; intros f w ops Hi Hn Hr Hm; [eauto|].
  assert (Hn' : NoDup (sets acts)) by (cbn [sets flat_map] in Hn; apply nodup_r in Hn; exact Hn).
  destruct a as [l v|a|v|v]; cbn [memacts filter is_mem_act] in Hm; fold (memacts acts) in Hm; cbn [do_acts do_act].
  - destruct (Hr l v) as (p & r & H1 & H2 & H3); [now left|]. unfold entry_set. rewrite H1, H2.
    assert (Hc : is_lr l && negb (is_pc l) && p_ready r = false).
    { destruct (is_pc l) eqn:Hp; [now rewrite andb_false_r|]. rewrite H3 by reflexivity. now rewrite andb_false_r. }
    rewrite Hc. cbn [bind]. apply IH; try assumption.
    + intros l2 v2 Hin. destruct (Hr l2 v2) as (p2 & r2 & G1 & G2 & G3); [now right|]. destruct (Nat.eq_dec p2 p) as [->|Hp].
      * assert (l2 = l) by (eapply Hi; eassumption). subst l2. exists p. eexists. split; [exact G1|]. split; [eapply nth_set_nth_same; exact H2|]. intros Hf. exfalso.
        cbn [sets flat_map] in Hn. rewrite Hf in Hn. cbn [app] in Hn. apply NoDup_cons_iff in Hn. destruct Hn as [Hn _]. apply Hn. apply in_flat_map. exists (ASet l v2). split; [exact Hin|]. rewrite Hf. now left.
      * exists p2, r2. split; [exact G1|]. split; [rewrite nth_set_nth_other by exact Hp; exact G2|exact G3].
    + destruct Hm as [[[f1 w1] o1] Hm]. eexists. eapply memacts_frame. exact Hm.
  - destruct Hm as [[[f1 w1] o1] Hm]. cbn [do_acts do_act] in Hm. destruct (e_wids e) as [|id [|]]; try discriminate. cbn [bind] in *. apply bind_ok in Hm. destruct Hm as [[[f3 w3] o3] [H1 H2]]. rewrite H1.
    cbn [bind]. apply bind_ok in H1. destruct H1 as [w' [H0 H1]]. apply Ok_eq in H1. injection H1 as <- <- <-.
    apply IH; [assumption|assumption| |eauto]. intros l2 v2 Hin. apply (Hr l2 v2). now right.
  - destruct Hm as [[[f1 w1] o1] Hm]. cbn [do_acts do_act] in Hm. destruct (e_wids e) as [|id [|]]; try discriminate. cbn [bind] in *. apply bind_ok in Hm. destruct Hm as [[[f3 w3] o3] [H1 H2]]. rewrite H1.
    cbn [bind]. apply bind_ok in H1. destruct H1 as [w' [H0 H1]]. apply Ok_eq in H1. injection H1 as <- <- <-.
    apply IH; [assumption|assumption| |eauto]. intros l2 v2 Hin. apply (Hr l2 v2). now right.
  - cbn [bind]. apply IH; [assumption|assumption| |].
    + intros l2 v2 Hin. apply (Hr l2 v2). now right.
    + destruct Hm as [[[f1 w1] o1] Hm]. eexists. eapply memacts_frame. exact Hm.
Qed.

Section Machine.
Variable E : env.
Variable g : cfg.
Hypothesis wraps : e_mode E = Wrap.

(** The calls that concern memory, and what they do to references. *)
Lemma mem_go : forall S0 w d e t i acts f ops,
  wm_inv E S0 w (d ++ e :: t) -> i = e_ins e -> e_state e <> Retiring -> acts_ok i acts ->
  (forall x id, In x (d ++ e :: t) -> In id (e_wids x) -> aget (wm_byid w) id = if registered x then Some true else None) ->
  exists s, do_acts e (memacts acts) (f, w, ops) = Ok s.
Proof.
  intros S0 w d e t i acts f ops Hw -> Hst (_ & _ & _ & Ha) Hr. pose proof (wi_shape _ _ _ _ Hw e) as Hs.
  assert (Hin : In e (d ++ e :: t)) by (apply in_or_app; right; now left). specialize (Hs Hin).
  destruct (mem_prod (e_ins e)) as [[a|]|] eqn:Hm.
  - destruct Ha as [v [-> _]]. destruct Hs as [id Hid]. assert (Hi : In id (e_wids e)) by (rewrite Hid; now left).
    pose proof (wi_ent _ _ _ _ Hw d e t id eq_refl Hi) as He. unfold entry_write in He. specialize (Hr e id Hin Hi). unfold registered in Hr. rewrite Hm in He, Hr.
    assert (He' : In (mkMw id a None None) (vec w a) /\ forall a' m, In m (vec w a') -> mw_id m = id -> a' = a /\ m = mkMw id a None None) by (destruct (e_state e); congruence || exact He).
    assert (Hr' : aget (wm_byid w) id = Some true) by (destruct (e_state e); congruence || exact Hr).
    destruct He' as [He1 He2]. cbn [do_acts do_act]. rewrite Hid. unfold wm_set_value.
    rewrite (get_write_go w id a (mkMw id a None None)); [cbn; eauto|apply (wi_keys _ _ _ _ Hw)|exact Hr'|exact He1|reflexivity|]. intros a' m' H1 H2. now apply He2 in H1.
  - destruct Ha as (a & v & -> & _). destruct Hs as [id Hid]. assert (Hi : In id (e_wids e)) by (rewrite Hid; now left).
    pose proof (wi_ent _ _ _ _ Hw d e t id eq_refl Hi) as He. unfold entry_write in He. specialize (Hr e id Hin Hi). unfold registered in Hr. rewrite Hm in He, Hr.
    assert (He' : In id (wm_unspec w) /\ forall a m, In m (vec w a) -> mw_id m <> id) by (destruct (e_state e); congruence || exact He).
    assert (Hr' : aget (wm_byid w) id = None) by (destruct (e_state e); congruence || exact Hr).
    destruct He' as [He1 He2]. cbn [do_acts do_act]. rewrite Hid. unfold wm_specify. rewrite (proj2 (existsb_in id _) He1). cbn [bind]. cbn [do_acts do_act]. rewrite Hid. unfold wm_set_value.
    rewrite (get_write_go _ id a (mkMw id a None None)); [cbn; eauto| | | |reflexivity|].
    + apply wm_insert_keys, (wi_keys _ _ _ _ Hw).
    + rewrite insert_byid, Z.eqb_refl, Hr'. reflexivity.
    + apply wm_insert_in. right. auto.
    + intros a' m' H1 H2. apply wm_insert_in in H1. destruct H1 as [H1|[_ ->]]; [|reflexivity]. exfalso. eapply He2; eassumption.
  - rewrite Ha. cbn. eauto.
Qed.

Lemma vec_registered : forall S0 w rs pre x post id a m, wm_inv E S0 w rs -> Forall wf_ins rs -> rs = pre ++ x :: post -> In id (e_wids x) ->
  registered x = true -> In m (vec w a) -> mw_id m = id -> store_addr E (e_ins x) (sfold E S0 pre) = Some a.
Proof.
  intros S0 w rs pre x post id a m Hw Hwf Hs Hid Hr Hin Hm. pose proof (wi_ent _ _ _ _ Hw pre x post id Hs Hid) as He. unfold entry_write in He. unfold registered in Hr.
  assert (Hx : In x rs) by (rewrite Hs; apply in_or_app; right; now left). rewrite Forall_forall in Hwf. specialize (Hwf x Hx). destruct Hwf as [_ Hp].
  assert (Hc : (exists v, eff_store E (e_ins x) (sfold E S0 pre) = Some (a, v)) \/ mem_prod (e_ins x) = Some (Some a)).
  { destruct (e_state x).
    1-3: right; destruct (mem_prod (e_ins x)) as [[b|]|]; try discriminate; destruct He as [_ He]; apply He in Hin; [destruct Hin as [-> _]; reflexivity|exact Hm].
    left. destruct He as (b & v & H1 & _ & He). apply He in Hin; [|exact Hm]. destruct Hin as [-> _]. eauto. }
  unfold store_addr. destruct Hc as [[v Hc]|Hc]; [|now rewrite Hc]. destruct (eff_store_prod _ _ _ _ _ Hp Hc) as [->| ->]; [reflexivity|]. rewrite Hc. reflexivity.
Qed.

Lemma in_split_pre : forall (rs : list entry) x, In x rs -> exists pre post, rs = pre ++ x :: post.
Proof. intros rs x H. apply in_split in H. exact H. Qed.

Lemma exec_entry_go : forall den role X S0 prog rt r n f w a d e t,
  XI E den role X S0 prog rt r n f w a (d ++ e :: t) -> SX g f w (d ++ e :: t) -> Forall (fun x => good_ins g (e_ins x) = true) (d ++ e :: t) ->
  NoDup (saddrs E S0 (d ++ e :: t)) ->
  exists f' w' a' e', exec_entry E f w a e = Ok (f', w', a', e') /\ SX g f' w' (d ++ e' :: t) /\ same e e'.
Proof.
  intros den role X S0 prog rt r n f w a d e t HX HS HG HA.
  assert (Hin : In e (d ++ e :: t)) by (apply in_or_app; right; now left).
  assert (Keep : forall e', same e e' -> e_state e' = e_state e -> e_ops e' = e_ops e -> SX g f w (d ++ e' :: t)).
  { intros e' Hsm Hst Hops. pose proof Hsm as (B1 & B2 & B3 & B4 & B5).
    assert (Hb : forall x, In x (d ++ e' :: t) -> exists y, In y (d ++ e :: t) /\ e_state x = e_state y /\ e_ops x = e_ops y /\ same y x).
    { intros x Hx. apply in_mid in Hx. destruct Hx as [->|Hx]; [exists e; auto|]. exists x. split; [apply in_mid; now right|]. repeat split. }
    constructor.
    - intros x l p Hx Hu Hp Hl Hg. destruct (Hb x Hx) as (y & Hy & Y1 & Y2 & (C1 & C2 & C3 & C4 & C5)). apply (sx_new _ _ _ _ HS y l p Hy); [|rewrite <- C1; exact Hp|exact Hl|rewrite <- C3; exact Hg].
      unfold unfinished in *. rewrite <- Y1, <- C1. exact Hu.
    - eapply owned_replace; [exact Hsm|apply (sx_own _ _ _ _ HS)].
    - apply (sx_keys _ _ _ _ HS).
    - intros x id Hx Hid. destruct (Hb x Hx) as (y & Hy & Y1 & Y2 & (C1 & C2 & C3 & C4 & C5)). unfold registered. rewrite Y1, C1. apply (sx_refs _ _ _ _ HS); [exact Hy|rewrite <- C4; exact Hid].
    - intros x Hx. destruct (Hb x Hx) as (y & Hy & Y1 & Y2 & _). rewrite Y2. apply (sx_ops _ _ _ _ HS y Hy).
    - intros x Hx. destruct (Hb x Hx) as (y & Hy & Y1 & Y2 & (C1 & C2 & C3 & C4 & C5)). rewrite C2, C3. apply (sx_tab _ _ _ _ HS y Hy).
    - apply (sx_len _ _ _ _ HS). }
  unfold exec_entry. destruct (e_state e) eqn:Hst; try (exists f, w, a, e; split; [reflexivity|]; split; [exact HS|apply same_refl]).
  destruct (Nat.pred (e_time e)) as [|k].
  2:{ do 4 eexists. split; [reflexivity|]. split; [|apply same_set_ops]. apply Keep; [apply same_set_ops|cbn; congruence|reflexivity]. }
  destruct (x_ent _ _ _ _ _ _ _ _ _ _ _ _ _ HX d e t eq_refl) as (Hpg & os & Ho & Hp & Hvs). rewrite Hst in Hvs. destruct Hvs as (vs & Hvs & Hev).
  pose proof HG as HG'. rewrite Forall_forall in HG'. pose proof (HG' e Hin) as Hge.
  destruct (exec_total E _ _ _ _ _ _ _ wraps Hge Ho Hev) as (acts & Hx & Hnd).
  pose proof (exec_acts_ok E _ _ _ _ Ho Hp Hx) as Hok. pose proof Hok as (Hok1 & Hok2 & Hok3 & Hok4).
  pose proof (x_regs _ _ _ _ _ _ _ _ _ _ _ _ _ HX) as HR. pose proof (x_wm _ _ _ _ _ _ _ _ _ _ _ _ _ HX) as HW.
  pose proof (wtab_inj _ _ _ _ _ _ _ _ _ _ HR) as Hinj.
  pose proof (entries_wf _ _ _ _ (x_ent _ _ _ _ _ _ _ _ _ _ _ _ _ HX)) as Hwf.
  assert (Hgo : exists s, do_acts e acts (f, w, e_ops e) = Ok s).
  { apply do_acts_go; [exact Hinj|exact Hnd| |].
    - intros l v Hl. apply Hok1 in Hl. destruct (sx_tab _ _ _ _ HS e Hin) as [_ Ht]. destruct (tb_dom _ _ Ht l (good_products g _ _ Hge Hl)) as [p Hp2].
      exists p. assert (Hlt : (p < length f)%nat) by (rewrite (sx_len _ _ _ _ HS); apply (tb_img _ _ Ht); eapply rget_in; exact Hp2).
      destruct (nth_error f p) as [rr|] eqn:Hn; [|apply nth_error_None in Hn; lia]. exists rr. split; [exact Hp2|]. split; [reflexivity|]. intros Hpc.
      destruct (sx_new _ _ _ _ HS e l p Hin) as (r2 & H1 & H2); [left; congruence|exact Hl|intros ->; discriminate|exact Hp2|]. congruence.
    - eapply mem_go; [exact HW|reflexivity|congruence|exact Hok|]. apply (sx_refs _ _ _ _ HS). }
  destruct Hgo as [[[f' w'] ops'] Hgo]. rewrite Hvs. cbn [opt bind]. rewrite Hx. cbn [bind]. rewrite Hgo. cbn [bind]. do 4 eexists. split; [reflexivity|]. split; [|apply same_set_ops].
  destruct (do_acts_spec _ _ _ _ _ _ _ _ Hinj Hgo) as (Hrs & Hops & f1 & o1 & Hmem). apply (do_acts_mem _ _ _ _ _ _ _ _ _ Hok) in Hmem.
  set (e' := set_ops e ops' Retiring 0 (e_exn e)).
  assert (Hsm : same e e') by apply same_set_ops.
  assert (Hst_addr : forall a0 v0, store_of (e_ins e) acts = Some (a0, v0) -> mem_prod (e_ins e) <> None -> store_addr E (e_ins e) (sfold E S0 d) = Some a0).
  { intros a0 v0 Hs Hne. pose proof (eff_store_eq _ _ _ _ _ _ _ Ho Hev Hx) as Hes. rewrite Hs in Hes. unfold store_addr. destruct (eff_store_prod _ _ _ _ _ Hp Hes) as [->| ->]; [reflexivity|]. now rewrite Hes. }
  (* references to the writes of other entries *)
  assert (Hother : forall x id, In x (d ++ t) -> In id (e_wids x) -> aget (wm_byid w') id = if registered x then Some true else None).
  { intros x id Hx2 Hid. assert (Hx3 : In x (d ++ e :: t)) by (apply in_mid; now right). pose proof (sx_refs _ _ _ _ HS x id Hx3 Hid) as Hb.
    destruct (mem_prod (e_ins e)) as [[a0|]|] eqn:Hm.
    - destruct Hmem as (v & i0 & H1 & H2 & H3). rewrite (wm_set_value_eq _ _ _ _ H3). exact Hb.
    - destruct Hmem as (a0 & v & i0 & w1 & H1 & H2 & H3 & H4). rewrite (wm_set_value_eq _ _ _ _ H4). cbn [wm_update wm_byid]. unfold wm_specify in H3. destruct (existsb _ _); [|discriminate]. apply Ok_eq in H3. subst w1.
      rewrite <- Hb. apply insert_keeps.
      + intros ->. eapply (ids_distinct _ _ _ _ _ _ _ i0 i0 HW Hx2); [rewrite H2; now left|exact Hid|reflexivity].
      + intros Hne m Hmin Hmid. assert (Hrx : registered x = true) by (destruct (registered x); [reflexivity|congruence]).
        assert (Hpos : exists pre post, d ++ e :: t = pre ++ x :: post /\ pre <> d).
        { apply in_app_or in Hx2. destruct Hx2 as [Hx2|Hx2]; apply in_split in Hx2; destruct Hx2 as (u & v' & ->).
          - exists u, (v' ++ e :: t). split; [now rewrite <- app_assoc|]. intros Hc. apply (f_equal (@length entry)) in Hc. rewrite app_length in Hc. cbn in Hc. lia.
          - exists (d ++ e :: u), v'. split; [now rewrite <- app_assoc|]. intros Hc. apply (f_equal (@length entry)) in Hc. rewrite app_length in Hc. cbn in Hc. lia. }
        destruct Hpos as (pre & post & Hsplit & Hpd).
        eapply (apart_two E S0 d e t pre x post a0 a0 HA Hsplit); [now right| |eapply Hst_addr; [exact H1|discriminate]|reflexivity].
        eapply (vec_registered S0 w _ pre x post id a0 m HW Hwf Hsplit); assumption.
    - subst w'. exact Hb. }
  constructor.
  - intros x l p Hx2 Hu Hp2 Hl Hg2. apply in_mid in Hx2. destruct Hx2 as [->|Hx2].
    + (* the entry itself, if it writes its register late *)
      assert (Hlate : late (e_ins e) = true) by (destruct Hu as [Hu|Hu]; [elim Hu; reflexivity|exact Hu]).
      destruct (sx_new _ _ _ _ HS e l p Hin) as (r2 & G1 & G2); [left; congruence|exact Hp2|exact Hl|exact Hg2|].
      exists r2. split; [|exact G2]. specialize (Hrs p). rewrite G1 in Hrs. destruct Hrs as [[Hrs _]|(l2 & v & _ & Hls & _)]; [exact Hrs|]. rewrite (Hok2 Hlate l2) in Hls. discriminate.
    + assert (Hx3 : In x (d ++ e :: t)) by (apply in_mid; now right). destruct (sx_new _ _ _ _ HS x l p Hx3 Hu Hp2 Hl Hg2) as (r2 & G1 & G2).
      exists r2. split; [|exact G2]. specialize (Hrs p). rewrite G1 in Hrs. destruct Hrs as [[Hrs _]|(l2 & v & Hl2 & Hls & _)]; [exact Hrs|]. exfalso.
      apply last_set_in, Hok1 in Hls.
      destruct (in_split_pre _ _ Hx3) as (pre & post & Hsplit).
      pose proof (proj1 (ri_wtab _ _ _ _ _ _ _ _ HR pre x post Hsplit l p Hg2)) as R1.
      pose proof (proj1 (ri_wtab _ _ _ _ _ _ _ _ HR d e t eq_refl l2 p Hl2)) as R2.
      assert (l2 <> LR PC) by congruence.
      apply in_app_or in Hx2. destruct (owned_mid d e t x (sx_own _ _ _ _ HS)) as [O1 O2]. destruct Hx2 as [Hx2|Hx2].
      * eapply (O1 Hx2 l2 p l); eassumption.
      * eapply (O2 Hx2 l p l2); eassumption.
  - eapply owned_replace; [exact Hsm|apply (sx_own _ _ _ _ HS)].
  - destruct (mem_prod (e_ins e)) as [[a0|]|] eqn:Hm.
    + destruct Hmem as (v & i0 & H1 & H2 & H3). rewrite (wm_set_value_eq _ _ _ _ H3). apply (sx_keys _ _ _ _ HS).
    + destruct Hmem as (a0 & v & i0 & w1 & H1 & H2 & H3 & H4). rewrite (wm_set_value_eq _ _ _ _ H4). cbn [wm_update wm_byid wm_cur]. unfold wm_specify in H3. destruct (existsb _ _); [|discriminate]. apply Ok_eq in H3. subst w1.
      intros id Hid. rewrite insert_byid in Hid. rewrite wm_insert_cur. destruct (id =? i0) eqn:Hi0.
      * apply Z.eqb_eq in Hi0. subst id. destruct (wi_max _ _ _ _ HW d e t eq_refl) as (M1 & M2 & _). specialize (M2 i0). rewrite H2 in M2. specialize (M2 (or_introl eq_refl)). lia.
      * cbn [andb] in Hid. destruct (aget (wm_byid w) id) eqn:Hg2; [|now elim Hid]. apply (sx_keys _ _ _ _ HS). congruence.
    + subst w'. apply (sx_keys _ _ _ _ HS).
  - intros x id Hx2 Hid. apply in_mid in Hx2. destruct Hx2 as [->|Hx2]; [|apply Hother; assumption]. change (registered e') with true. cbv iota.
    change (e_wids e') with (e_wids e) in Hid. pose proof (sx_refs _ _ _ _ HS e id Hin Hid) as Hb. unfold registered in Hb. rewrite Hst in Hb.
    pose proof (wi_shape _ _ _ _ HW e Hin) as Hshape. destruct (mem_prod (e_ins e)) as [[a0|]|] eqn:Hm.
    + destruct Hmem as (v & i0 & H1 & H2 & H3). rewrite (wm_set_value_eq _ _ _ _ H3). exact Hb.
    + destruct Hmem as (a0 & v & i0 & w1 & H1 & H2 & H3 & H4). rewrite (wm_set_value_eq _ _ _ _ H4). cbn [wm_update wm_byid]. unfold wm_specify in H3. destruct (existsb _ _); [|discriminate]. apply Ok_eq in H3. subst w1.
      rewrite H2 in Hid. destruct Hid as [<-|[]]. rewrite insert_byid, Z.eqb_refl, Hb. reflexivity.
    + rewrite Hshape in Hid. destruct Hid.
  - intros x Hx2. apply in_mid in Hx2. destruct Hx2 as [->|Hx2].
    + change (e_ops e') with ops'. rewrite Hops. apply Forall_app. split; [apply (sx_ops _ _ _ _ HS e Hin)|].
      clear. induction acts as [|[] acts IH]; cbn [act_ops]; try exact IH; [constructor|constructor; [reflexivity|exact IH]].
    + apply (sx_ops _ _ _ _ HS). apply in_mid. now right.
  - intros x Hx2. apply in_mid in Hx2. destruct Hx2 as [->|Hx2]; [exact (sx_tab _ _ _ _ HS e Hin)|]. apply (sx_tab _ _ _ _ HS). apply in_mid. now right.
  - rewrite (do_acts_len _ _ _ _ _ _ _ _ Hgo). apply (sx_len _ _ _ _ HS).
Qed.

Lemma exec_loop_go : forall den role X S0 prog rt r n es f w a d,
  XI E den role X S0 prog rt r n f w a (d ++ es) -> SX g f w (d ++ es) -> Forall (fun x => good_ins g (e_ins x) = true) (d ++ es) ->
  NoDup (saddrs E S0 (d ++ es)) ->
  exists f' w' a' es', exec_loop E f w a es = Ok (f', w', a', es') /\ SX g f' w' (d ++ es').
Proof.
  intros den role X S0 prog rt r n. induction es as [|e es IH]; intros f w a d HX HS HG HA; cbn [exec_loop]; [eauto 6|].
  destruct (exec_entry_go _ _ _ _ _ _ _ _ _ _ _ _ _ _ HX HS HG HA) as (f1 & w1 & a1 & e1 & H1 & H2 & H3). rewrite H1. cbn [bind].
  pose proof (exec_entry_inv _ _ _ _ _ _ _ _ _ _ _ _ _ _ _ _ _ _ _ HX H1) as HX1.
  assert (Hins : map e_ins (d ++ e1 :: es) = map e_ins (d ++ e :: es)) by (destruct H3 as (H3 & _); rewrite !map_app; cbn; now rewrite H3).
  destruct (IH f1 w1 a1 (d ++ [e1])) as (f2 & w2 & a2 & es2 & G1 & G2); [now rewrite <- app_assoc|now rewrite <- app_assoc| | |].
  - rewrite <- app_assoc. cbn [app]. apply Forall_app in HG. destruct HG as [HG1 HG2]. apply Forall_cons_iff in HG2. destruct HG2 as [HG2 HG3]. apply Forall_app. split; [exact HG1|]. constructor; [|exact HG3]. destruct H3 as (-> & _). exact HG2.
  - rewrite <- app_assoc. cbn [app]. rewrite (saddrs_ins E _ _ _ Hins). exact HA.
  - rewrite G1. cbn [bind]. do 4 eexists. split; [reflexivity|]. rewrite <- app_assoc in G2. exact G2.
Qed.
End Machine.
