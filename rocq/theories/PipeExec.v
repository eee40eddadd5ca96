(** L2: the execution units preserve the invariant. *)
From Coq Require Import ZArith NArith List Bool Sorted Lia.
From Verif Require Import Base Alu Isa Exec Ram Writes Rat Cpu InOrder PipeInv PipeBasics PipeActs PipeMem.
Import ListNotations.
Open Scope Z_scope.

(** [e'] is [e] in a later state *)
Definition same (e e' : entry) : Prop :=
  e_ins e' = e_ins e /\ e_rrat e' = e_rrat e /\ e_wrat e' = e_wrat e /\
  e_wids e' = e_wids e /\ e_maxid e' = e_maxid e.

Lemma same_set_ops : forall e ops st t x, same e (set_ops e ops st t x).
Proof. intros. unfold same. cbn. auto. Qed.

Lemma sfold_replace : forall E S0 d e e' mid, e_ins e' = e_ins e ->
  sfold E S0 (d ++ e' :: mid) = sfold E S0 (d ++ e :: mid).
Proof. intros. rewrite !sfold_app, !sfold_cons. now rewrite H. Qed.

(** case analysis: a split of the changed list comes from a split of the old one *)
Lemma split_replace : forall (d : list entry) e e' t pre x post,
  d ++ e' :: t = pre ++ x :: post ->
  (pre = d /\ x = e' /\ post = t) \/
  (exists mid, d = pre ++ x :: mid /\ post = mid ++ e' :: t /\ d ++ e :: t = pre ++ x :: (mid ++ e :: t)) \/
  (exists mid, pre = d ++ e' :: mid /\ t = mid ++ x :: post /\ d ++ e :: t = (d ++ e :: mid) ++ x :: post).
Proof.
  intros d e e' t pre x post H. apply split_mid in H. destruct H as [H|[[mid [H1 H2]]|[mid [H1 H2]]]].
  - auto.
  - right; left. exists mid. subst d post. split; [reflexivity|]. split; [reflexivity|].
    now rewrite <- app_assoc.
  - right; right. exists mid. subst pre t. split; [reflexivity|]. split; [reflexivity|].
    now rewrite <- app_assoc.
Qed.

Lemma entries_ok_replace : forall E p S0 d e e' t, e_ins e' = e_ins e ->
  entries_ok E p S0 (d ++ e :: t) -> entry_ok E p (sfold E S0 d) e' -> entries_ok E p S0 (d ++ e' :: t).
Proof.
  intros E p S0 d e e' t Hi H He pre x post Hs.
  destruct (split_replace _ e _ _ _ _ _ Hs) as [[-> [-> _]]|[[mid [_ [_ H2]]]|[mid [-> [_ H2]]]]].
  - exact He.
  - exact (H _ _ _ H2).
  - rewrite (sfold_replace _ _ _ e e'); [|exact Hi]. exact (H _ _ _ H2).
Qed.

(** ---- write queue ---- *)

Lemma in_mid : forall (d : list entry) e t x, In x (d ++ e :: t) <-> x = e \/ In x (d ++ t).
Proof. intros. rewrite !in_app_iff. cbn. intuition. Qed.

Lemma ids_distinct : forall E S0 w d e t x i j, wm_inv E S0 w (d ++ e :: t) ->
  In x (d ++ t) -> In i (e_wids e) -> In j (e_wids x) -> i <> j.
Proof.
  intros E S0 w d e t x i j W Hx Hi Hj. apply in_app_or in Hx. destruct Hx as [Hx|Hx].
  - apply in_split in Hx. destruct Hx as [l1 [l2 ->]].
    assert (Hs : (l1 ++ x :: l2) ++ e :: t = l1 ++ x :: (l2 ++ e :: t)) by now rewrite <- app_assoc.
    destruct (wi_max _ _ _ _ W _ _ _ Hs) as [_ [H1 H2]].
    specialize (H1 _ Hj). destruct (H2 e) as [_ H3]. { apply in_or_app. right. now left. }
    specialize (H3 _ Hi). lia.
  - destruct (wi_max _ _ _ _ W _ _ _ eq_refl) as [_ [H1 H2]].
    specialize (H1 _ Hi). destruct (H2 _ Hx) as [_ H3]. specialize (H3 _ Hj). lia.
Qed.

Lemma wi_max_replace : forall (d : list entry) e e' t cur, same e e' ->
  (forall pre x post, d ++ e :: t = pre ++ x :: post ->
     e_maxid x <= cur /\ (forall id, In id (e_wids x) -> id <= e_maxid x) /\
     forall y, In y post -> e_maxid x <= e_maxid y /\ forall id, In id (e_wids y) -> e_maxid x < id) ->
  (forall pre x post, d ++ e' :: t = pre ++ x :: post ->
     e_maxid x <= cur /\ (forall id, In id (e_wids x) -> id <= e_maxid x) /\
     forall y, In y post -> e_maxid x <= e_maxid y /\ forall id, In id (e_wids y) -> e_maxid x < id).
Proof.
  intros d e e' t cur [_ [_ [_ [Hw Hm]]]] M pre x post Hs.
  destruct (split_replace _ e _ _ _ _ _ Hs) as [[-> [-> ->]]|[[mid [_ [-> H2]]]|[mid [-> [_ H2]]]]].
  - rewrite Hw, Hm. exact (M _ _ _ eq_refl).
  - destruct (M _ _ _ H2) as [H3 [H4 H5]]. split; [exact H3|]. split; [exact H4|].
    intros y Hy. apply in_mid in Hy. destruct Hy as [->|Hy].
    + rewrite Hw, Hm. apply H5. apply in_mid. now left.
    + apply H5. apply in_mid. now right.
  - exact (M _ _ _ H2).
Qed.

Lemma wm_inv_replace : forall E S0 w d e e' t, same e e' ->
  wm_inv E S0 w (d ++ e :: t) ->
  (forall id, In id (e_wids e') -> entry_write E (sfold E S0 d) w e' id) ->
  wm_inv E S0 w (d ++ e' :: t).
Proof.
  intros E S0 w d e e' t Sm W He. pose proof Sm as [Hi [_ [_ [Hw Hm]]]].
  pose proof W as [K S A Src C O Sh En M]. constructor; auto.
  - intros a m H. specialize (Src a m H). destruct (mw_ram m).
    + destruct Src as [H1 H2]. split; [exact H1|]. intros x id Hx Hid.
      apply in_mid in Hx. destruct Hx as [->|Hx].
      * rewrite Hw in Hid. apply H2 with e; [apply in_mid; now left|exact Hid].
      * apply H2 with x; [apply in_mid; now right|exact Hid].
    + destruct Src as [x [Hx Hid]]. apply in_mid in Hx. destruct Hx as [->|Hx].
      * exists e'. rewrite Hw. split; [apply in_mid; now left|exact Hid].
      * exists x. split; [apply in_mid; now right|exact Hid].
  - intros a m x H1 H2 Hx. apply in_mid in Hx. destruct Hx as [->|Hx].
    + rewrite Hm. apply (O a m e); auto. apply in_mid. now left.
    + apply (O a m x); auto. apply in_mid. now right.
  - intros x Hx. apply in_mid in Hx. destruct Hx as [->|Hx].
    + rewrite Hi, Hw. apply Sh. apply in_mid. now left.
    + apply Sh. apply in_mid. now right.
  - intros pre x post id Hs Hid.
    destruct (split_replace _ e _ _ _ _ _ Hs) as [[-> [-> ->]]|[[mid [_ [-> H2]]]|[mid [-> [_ H2]]]]].
    + auto.
    + exact (En _ _ _ _ H2 Hid).
    + rewrite (sfold_replace _ _ _ e e'); [|exact Hi]. exact (En _ _ _ _ H2 Hid).
  - eapply wi_max_replace; eauto.
Qed.

(** the write of an executed instruction: write [id] now is [Some v] at [a] *)
Record wrote (w w' : wman) (id a v : Z) : Prop := mkWrote {
  wr_keys : NoDup (map fst (wm_map w'));
  wr_sorted : forall b, StronglySorted gt_id (vec w' b);
  wr_in : forall b m, In m (vec w' b) <->
            (In m (vec w b) /\ mw_id m <> id) \/ (b = a /\ m = mkMw id a (Some v) None);
  wr_cur : wm_cur w' = wm_cur w;
  wr_unspec : forall i, i <> id -> In i (wm_unspec w) -> In i (wm_unspec w')
}.

Lemma wrote_value : forall E S0 w rs w' id a v, wm_inv E S0 w rs ->
  In (mkMw id a None None) (vec w a) ->
  (forall b m, In m (vec w b) -> mw_id m = id -> b = a /\ m = mkMw id a None None) ->
  wm_set_value w id v = Ok w' -> wrote w w' id a v.
Proof.
  intros E S0 w rs w' id a v [K S A Src C O Sh En M] H1 H2 H.
  apply wm_set_value_eq in H. subst w'. constructor.
  - now rewrite wm_update_keys.
  - intros b. rewrite wm_update_vec. apply ss_upd; auto.
  - intros b m. rewrite wm_update_in. split.
    + intros [m0 [Hm ->]]. destruct (Z.eqb_spec (mw_id m0) id) as [He|He].
      * right. destruct (H2 _ _ Hm He) as [-> ->]. auto.
      * left. auto.
    + intros [[Hm He]|[-> ->]].
      * exists m. split; [exact Hm|]. destruct (Z.eqb_spec (mw_id m) id); [congruence|reflexivity].
      * exists (mkMw id a None None). split; [exact H1|]. cbn. now rewrite Z.eqb_refl.
  - reflexivity.
  - auto.
Qed.

Lemma wrote_address : forall E S0 w rs w1 w' id a v, wm_inv E S0 w rs ->
  (forall b m, In m (vec w b) -> mw_id m <> id) ->
  wm_specify w id a = Ok w1 -> wm_set_value w1 id v = Ok w' -> wrote w w' id a v.
Proof.
  intros E S0 w rs w1 w' id a v [K S A Src C O Sh En M] H2 Hs H.
  unfold wm_specify in Hs. destruct (existsb (Z.eqb id) (wm_unspec w)); [|discriminate].
  apply Ok_eq in Hs. subst w1. apply wm_set_value_eq in H. subst w'. constructor.
  - rewrite wm_update_keys. now apply wm_insert_keys.
  - intros b. rewrite wm_update_vec. apply ss_upd; auto. apply wm_insert_sorted; [exact S|exact (H2 a)].
  - intros b m. rewrite wm_update_in. split.
    + intros [m0 [Hm ->]]. apply wm_insert_in in Hm. destruct Hm as [Hm|[-> ->]].
      * pose proof (H2 _ _ Hm). destruct (Z.eqb_spec (mw_id m0) id); [congruence|]. auto.
      * cbn. rewrite Z.eqb_refl. auto.
    + intros [[Hm He]|[-> ->]].
      * exists m. split; [apply wm_insert_in; auto|]. destruct (Z.eqb_spec (mw_id m) id); [congruence|reflexivity].
      * exists (mkMw id a None None). split; [apply wm_insert_in; auto|]. cbn. now rewrite Z.eqb_refl.
  - cbn. apply wm_insert_cur.
  - intros i Hi Hin. cbn [wm_update wm_unspec]. rewrite wm_insert_unspec. apply filter_In. split; [exact Hin|].
    apply negb_true_iff. now apply Z.eqb_neq.
Qed.

Lemma wm_inv_wrote : forall E S0 w w' d e e' t id a v, same e e' ->
  wm_inv E S0 w (d ++ e :: t) -> e_state e <> Retiring -> e_state e' = Retiring -> e_wids e = [id] ->
  (forall b m, In m (vec w b) -> mw_id m = id -> mw_ram m = None) ->
  eff_store E (e_ins e) (sfold E S0 d) = Some (a, v) -> wrote w w' id a v ->
  wm_inv E S0 w' (d ++ e' :: t) /\
  (forall b m, mw_ram m <> None -> (In m (vec w' b) <-> In m (vec w b))).
Proof.
  intros E S0 w w' d e e' t id a v Sm W He He' Hid Hnr Hst [Wk Wso Win Wc Wu].
  pose proof Sm as [Hi [_ [_ [Hw Hm]]]]. pose proof W as [K S A Src C O Sh En M].
  assert (Hout : forall b m, mw_ram m <> None -> (In m (vec w' b) <-> In m (vec w b))).
  { intros b m Hr. rewrite Win. split.
    - intros [[H _]|[-> ->]]; [exact H|]. cbn in Hr. congruence.
    - intros H. left. split; [exact H|]. intros Heq. apply Hr. eauto. }
  split; [|exact Hout].
  assert (Hine : In e (d ++ e :: t)) by (apply in_mid; now left).
  constructor.
  - exact Wk.
  - exact Wso.
  - intros b m H. apply Win in H. destruct H as [[H _]|[-> ->]]; [auto|reflexivity].
  - intros b m H. apply Win in H. destruct H as [[H Hne]|[-> ->]].
    + specialize (Src b m H). destruct (mw_ram m).
      * destruct Src as [H1 H2]. split; [exact H1|]. intros x i Hx Hxi.
        apply in_mid in Hx. destruct Hx as [->|Hx].
        { rewrite Hw in Hxi. apply H2 with e; auto. }
        { apply H2 with x; auto. apply in_mid. now right. }
      * destruct Src as [x [Hx Hxi]]. apply in_mid in Hx. destruct Hx as [->|Hx].
        { rewrite Hid in Hxi. destruct Hxi as [Hxi|[]]. congruence. }
        { exists x. split; [apply in_mid; now right|exact Hxi]. }
    + cbn. exists e'. split; [apply in_mid; now left|]. rewrite Hw, Hid. now left.
  - intros b m H. rewrite Wc. apply Win in H. destruct H as [[H _]|[-> ->]]; [eauto|].
    cbn. destruct (M _ _ _ eq_refl) as [H1 [H2 _]].
    assert (id <= e_maxid e) by (apply H2; rewrite Hid; now left). lia.
  - intros b m x H Hr Hx. apply Hout in H; [|exact Hr]. apply in_mid in Hx. destruct Hx as [->|Hx].
    + rewrite Hm. apply (O b m e); auto.
    + apply (O b m x); auto. apply in_mid. now right.
  - intros x Hx. apply in_mid in Hx. destruct Hx as [->|Hx].
    + rewrite Hi, Hw. apply Sh. exact Hine.
    + apply Sh. apply in_mid. now right.
  - (* entries *)
    assert (Hother : forall x i S, In x (d ++ t) -> In i (e_wids x) ->
              entry_write E S w x i -> entry_write E S w' x i).
    { intros x i S1 Hx Hxi Hent.
      assert (Hne : id <> i).
      { eapply ids_distinct; eauto. rewrite Hid. now left. }
      unfold entry_write in *. destruct (e_state x).
      4: { destruct Hent as [b [u [H1 [H2 H3]]]]. exists b, u. split; [exact H1|]. split.
           - apply Win. left. split; [exact H2|]. cbn. congruence.
           - intros b' m Hm' Hmi. apply Win in Hm'. destruct Hm' as [[Hm' _]|[-> ->]]; [auto|].
             cbn in Hmi. congruence. }
      all: destruct (mem_prod (e_ins x)) as [[b|]|]; destruct Hent as [H1 H2]; split;
        try (apply Win; left; split; [exact H1|cbn; congruence]);
        try (apply Wu; [congruence|exact H1]);
        intros b' m Hm' Hmi; apply Win in Hm';
        (destruct Hm' as [[Hm' _]|[-> ->]];
         [first [exact (H2 _ _ Hm' Hmi)|auto]|cbn in Hmi; congruence]). }
    intros pre x post i Hs Hxi.
    destruct (split_replace _ e _ _ _ _ _ Hs) as [[-> [-> ->]]|[[mid [-> [-> H2]]]|[mid [-> [-> H2]]]]].
    + rewrite Hw, Hid in Hxi. destruct Hxi as [<-|[]].
      unfold entry_write. rewrite He'. exists a, v. rewrite Hi. split; [exact Hst|]. split.
      * apply Win. auto.
      * intros b m Hmm Hmi. apply Win in Hmm. destruct Hmm as [[_ Hc]|Hmm]; [congruence|exact Hmm].
    + apply Hother.
      * apply in_or_app. left. apply in_or_app. right. now left.
      * exact Hxi.
      * exact (En _ _ _ _ H2 Hxi).
    + apply Hother.
      * apply in_or_app. right. apply in_or_app. right. now left.
      * exact Hxi.
      * rewrite (sfold_replace _ _ _ e e'); [|exact Hi]. exact (En _ _ _ _ H2 Hxi).
  - rewrite Wc. eapply wi_max_replace; eauto.
Qed.

(** ---- registers ---- *)

Definition regs_le (f f' : pfile) : Prop :=
  forall p, match nth_error f p, nth_error f' p with
  | None, None => True
  | Some r, Some r' => p_subs r' = p_subs r /\ (p_ready r = true -> p_ready r' = true)
  | _, _ => False
  end.

Lemma regs_le_refl : forall f, regs_le f f.
Proof. intros f p. destruct (nth_error f p); auto. Qed.

Lemma ready_le : forall f f' p, regs_le f f' -> ready_at f p -> ready_at f' p.
Proof.
  intros f f' p L [r [H1 H2]]. specialize (L p). rewrite H1 in L.
  destruct (nth_error f' p) as [r'|] eqn:Er; [|destruct L]. exists r'. split; [exact Er|]. now apply L.
Qed.

Definition writes_ready (f : pfile) (e : entry) : Prop :=
  forall l p, reg_prod (e_ins e) l -> l <> LR PC -> rget (e_wrat e) l = Some p -> ready_at f p.

Lemma pendp_in : forall es es' p, (forall e, In e es -> In e es') -> pendp es p -> pendp es' p.
Proof. intros es es' p H [e [l [H1 H2]]]. exists e, l. split; auto. Qed.

Lemma pendp_replace : forall f' d e e' t p, same e e' ->
  (unfinished e -> unfinished e' \/ writes_ready f' e) ->
  pendp (d ++ e :: t) p -> ready_at f' p \/ pendp (d ++ e' :: t) p.
Proof.
  intros f' d e e' t p [Hi [_ [Hw _]]] Hu [x [l [Hx [Hux [Hp [Hl Hr]]]]]].
  apply in_mid in Hx. destruct Hx as [->|Hx].
  - destruct (Hu Hux) as [H|H].
    + right. exists e', l. rewrite Hi, Hw. split; [apply in_mid; now left|auto].
    + left. exact (H l p Hp Hl Hr).
  - right. exists x, l. split; [apply in_mid; now right|auto].
Qed.

Lemma rdy_replace : forall f f' t0 d e e' t, same e e' -> regs_le f f' ->
  (unfinished e -> unfinished e' \/ writes_ready f' e) ->
  rdy_table f t0 (d ++ e :: t) -> rdy_table f' t0 (d ++ e' :: t).
Proof.
  intros f f' t0 d e e' t Sm L Hu H l p Hl Hr. destruct (H l p Hl Hr) as [H1|H1].
  - left. eapply ready_le; eauto.
  - eapply pendp_replace; eauto.
Qed.

Lemma rdy_le : forall f f' t0 es, regs_le f f' -> rdy_table f t0 es -> rdy_table f' t0 es.
Proof.
  intros f f' t0 es L H l p Hl Hr. destruct (H l p Hl Hr) as [H1|H1]; [left; eapply ready_le; eauto|now right].
Qed.

Lemma regs_inv_replace : forall E den role X S0 f f' rt d e e' t, same e e' ->
  regs_inv E den role X S0 f rt (d ++ e :: t) -> regs_le f f' ->
  (unfinished e -> unfinished e' \/ writes_ready f' e) ->
  pc_reg E f' (sfold E S0 d) e' ->
  (forall x p, In x (d ++ t) -> rget (e_rrat x) (LR PC) = Some p -> nth_error f' p = nth_error f p) ->
  (forall p r, nth_error f' p = Some r -> p_ready r = true -> role p <> LR PC -> p_val r = den p) ->
  regs_inv E den role X S0 f' rt (d ++ e' :: t).
Proof.
  intros E den role X S0 f f' rt d e e' t Sm [Rt Wt Tt Pc Pn Va Rr Wr Rd Su] L Hu Hpc Hox Hva.
  pose proof Sm as [Hi [Hr [Hw _]]].
  assert (Hpx : forall x S, In x (d ++ t) -> pc_reg E f S x -> pc_reg E f' S x).
  { intros x S Hx [p [r [H1 [H2 [H3 H4]]]]]. exists p, r. split; [exact H1|]. split; [exact H2|].
    split; [|exact H4]. rewrite (Hox x p Hx H1). exact H3. }
  constructor.
  - intros pre x post Hs.
    destruct (split_replace _ e _ _ _ _ _ Hs) as [[-> [-> ->]]|[[mid [-> [-> H2]]]|[mid [-> [-> H2]]]]].
    + rewrite Hr. exact (Rt _ _ _ eq_refl).
    + exact (Rt _ _ _ H2).
    + rewrite (sfold_replace _ _ _ e e'); [|exact Hi]. exact (Rt _ _ _ H2).
  - intros pre x post Hs.
    destruct (split_replace _ e _ _ _ _ _ Hs) as [[-> [-> ->]]|[[mid [-> [-> H2]]]|[mid [-> [-> H2]]]]].
    + rewrite Hw, Hi. exact (Wt _ _ _ eq_refl).
    + exact (Wt _ _ _ H2).
    + rewrite (sfold_replace _ _ _ e e'); [|exact Hi]. exact (Wt _ _ _ H2).
  - rewrite (sfold_replace _ _ _ e e'); [|exact Hi]. exact Tt.
  - intros pre x post Hs.
    destruct (split_replace _ e _ _ _ _ _ Hs) as [[-> [-> ->]]|[[mid [-> [-> H2]]]|[mid [-> [-> H2]]]]].
    + exact Hpc.
    + apply Hpx; [|exact (Pc _ _ _ H2)]. apply in_or_app. left. apply in_or_app. right. now left.
    + apply Hpx; [apply in_or_app; right; apply in_or_app; right; now left|].
      rewrite (sfold_replace _ _ _ e e'); [|exact Hi]. exact (Pc _ _ _ H2).
  - intros pre x post y Hs Hy.
    destruct (split_replace _ e _ _ _ _ _ Hs) as [[-> [-> ->]]|[[mid [-> [-> H2]]]|[mid [-> [-> H2]]]]].
    + rewrite Hr. exact (Pn _ _ _ _ eq_refl Hy).
    + rewrite !in_app_iff in Hy. cbn in Hy.
      destruct Hy as [Hy|[Hy|[<-|Hy]]].
      * apply (Pn _ _ _ _ H2). rewrite !in_app_iff. auto.
      * apply (Pn _ _ _ _ H2). rewrite !in_app_iff. auto.
      * rewrite Hr. apply (Pn _ _ _ _ H2). rewrite !in_app_iff. cbn. auto.
      * apply (Pn _ _ _ _ H2). rewrite !in_app_iff. cbn. auto.
    + rewrite !in_app_iff in Hy. cbn in Hy.
      destruct Hy as [[Hy|[<-|Hy]]|Hy].
      * apply (Pn _ _ _ _ H2). rewrite !in_app_iff. auto.
      * rewrite Hr. apply (Pn _ _ _ _ H2). rewrite !in_app_iff. cbn. auto.
      * apply (Pn _ _ _ _ H2). rewrite !in_app_iff. cbn. auto.
      * apply (Pn _ _ _ _ H2). rewrite !in_app_iff. cbn. auto.
  - exact Hva.
  - intros pre x post Hs.
    destruct (split_replace _ e _ _ _ _ _ Hs) as [[-> [-> ->]]|[[mid [-> [-> H2]]]|[mid [-> [-> H2]]]]].
    + rewrite Hr. eapply rdy_le; [exact L|]. exact (Rr _ _ _ eq_refl).
    + eapply rdy_le; [exact L|]. exact (Rr _ _ _ H2).
    + eapply rdy_replace; eauto.
  - intros pre x post Hs.
    destruct (split_replace _ e _ _ _ _ _ Hs) as [[-> [-> ->]]|[[mid [-> [-> H2]]]|[mid [-> [-> H2]]]]].
    + rewrite Hw. eapply (rdy_replace f f' _ d e e' []); eauto.
    + eapply rdy_le; [exact L|]. exact (Wr _ _ _ H2).
    + rewrite <- app_assoc. cbn [app]. eapply (rdy_replace f f' _ d e e'); eauto.
      specialize (Wr _ _ _ H2). rewrite <- app_assoc in Wr. exact Wr.
  - eapply rdy_replace; eauto.
  - intros p r Hp. specialize (L p). rewrite Hp in L. destruct (nth_error f p) as [r0|] eqn:Ef; [|destruct L].
    destruct L as [L _]. rewrite L, (Su _ _ Ef). unfold tables. rewrite !flat_map_app. cbn [flat_map].
    now rewrite Hr, Hw.
Qed.

(** ---- one entry, then all of them ---- *)

Record XI (E : env) (den : nat -> Z) (role : nat -> lreg) (X : list rat) (S0 : arch) (prog : list instr)
  (rt : rat) (r : ram) (n : nat) (f : pfile) (w : wman) (a : nat) (rs : list entry) : Prop := mkXI {
  x_ent : entries_ok E prog S0 rs;
  x_regs : regs_inv E den role X S0 f rt rs;
  x_wm : wm_inv E S0 w rs;
  x_ram : ram_inv S0 w r;
  x_alus : (a + count_alus rs)%nat = n
}.

Lemma count_alus_app : forall a b, count_alus (a ++ b) = (count_alus a + count_alus b)%nat.
Proof. intros. unfold count_alus. rewrite filter_app, app_length. reflexivity. Qed.

Lemma count_alus_cons : forall e es, count_alus (e :: es) = ((if executing_alu e then 1 else 0) + count_alus es)%nat.
Proof. intros. unfold count_alus. cbn. destruct (executing_alu e); reflexivity. Qed.

Lemma wtab_inj : forall E den role X S0 f rt d e t, regs_inv E den role X S0 f rt (d ++ e :: t) ->
  inj_tab (e_wrat e).
Proof.
  intros E den role X S0 f rt d e t R k l p Hk Hl.
  destruct (ri_wtab _ _ _ _ _ _ _ _ R _ _ _ eq_refl _ _ Hk) as [H1 _].
  destruct (ri_wtab _ _ _ _ _ _ _ _ R _ _ _ eq_refl _ _ Hl) as [H2 _]. congruence.
Qed.

Lemma regs_set_le : forall t acts f f', regs_set t acts f f' -> regs_le f f'.
Proof.
  intros t acts f f' H p. specialize (H p). destruct (nth_error f p) as [r|].
  - destruct H as [[-> _]|[l [v [_ [_ ->]]]]]; cbn; auto.
  - now rewrite H.
Qed.

Lemma entry_write_nr : forall E S w e e' id, same e e' -> e_state e <> Retiring -> e_state e' <> Retiring ->
  entry_write E S w e id -> entry_write E S w e' id.
Proof.
  intros E S w e e' id [Hi _] H1 H2 H. unfold entry_write in *. rewrite Hi.
  destruct (e_state e), (e_state e'); congruence || exact H.
Qed.

(** a change of state that is no execution *)
Lemma XI_step : forall E den role X S0 prog rt r n f w a a' d e e' t,
  XI E den role X S0 prog rt r n f w a (d ++ e :: t) ->
  same e e' -> e_state e <> Retiring -> e_state e' <> Retiring ->
  entry_ok E prog (sfold E S0 d) e' ->
  (a' + (if executing_alu e' then 1 else 0) = a + (if executing_alu e then 1 else 0))%nat ->
  XI E den role X S0 prog rt r n f w a' (d ++ e' :: t).
Proof.
  intros E den role X S0 prog rt r n f w a a' d e e' t [He Hr Hw Hm Ha] Sm N1 N2 Hok Hal.
  constructor.
  - eapply entries_ok_replace; [apply Sm|exact He|exact Hok].
  - eapply regs_inv_replace; eauto using regs_le_refl.
    + intros _. left. now left.
    + destruct (ri_pc _ _ _ _ _ _ _ _ Hr _ _ _ eq_refl) as [p [q [H1 [H2 [H3 [H4 H5]]]]]].
      destruct Sm as [Hi [Hrr [Hww _]]]. exists p, q. rewrite Hrr, Hww.
      split; [exact H1|]. split; [exact H2|]. split; [exact H3|]. split; [exact H4|].
      destruct (e_state e), (e_state e'); congruence || exact H5.
    + apply (ri_val _ _ _ _ _ _ _ _ Hr).
  - eapply wm_inv_replace; eauto. intros id Hid.
    eapply entry_write_nr; eauto. apply (wi_ent _ _ _ _ Hw _ _ _ _ eq_refl).
    destruct Sm as [_ [_ [_ [Hww _]]]]. now rewrite <- Hww.
  - exact Hm.
  - rewrite count_alus_app, count_alus_cons in *. lia.
Qed.

Lemma do_acts_dom : forall e l p v acts f w ops s, last_set l acts = Some v -> rget (e_wrat e) l = Some p ->
  do_acts e acts (f, w, ops) = Ok s -> nth_error f p <> None.
Proof.
  intros e l p v acts. induction acts as [|x acts IH]; intros f w ops s Ls Hg H Hn; [discriminate|].
  cbn [do_acts] in H. apply bind_ok in H. destruct H as [[[fa wa] oa] [H1 H2]].
  assert (Hfa : nth_error fa p = None).
  { destruct x; cbn [do_act] in H1.
    - apply bind_ok in H1. destruct H1 as [fb [H1 H3]]. apply Ok_eq in H3. inversion H3; subst.
      apply entry_set_spec in H1. destruct H1 as [p0 [q [_ [_ ->]]]]. rewrite nth_set_nth.
      destruct (Nat.eqb_spec p p0); [subst; now rewrite Hn|exact Hn].
    - destruct (e_wids e) as [|id [|? ?]]; try discriminate H1.
      apply bind_ok in H1. destruct H1 as [fb [H1 H3]]. apply Ok_eq in H3. inversion H3; subst. exact Hn.
    - destruct (e_wids e) as [|id [|? ?]]; try discriminate H1.
      apply bind_ok in H1. destruct H1 as [fb [H1 H3]]. apply Ok_eq in H3. inversion H3; subst. exact Hn.
    - apply Ok_eq in H1. inversion H1; subst. exact Hn. }
  destruct x as [k u|k|k|k]; cbn [last_set] in Ls; try (eapply IH; eauto; fail).
  destruct (last_set l acts) eqn:Ll.
  - eapply IH; eauto.
  - destruct (lreg_eqb_spec l k); [|discriminate]. subst k. cbn [do_act] in H1.
    apply bind_ok in H1. destruct H1 as [fb [H1 H3]]. apply entry_set_spec in H1.
    destruct H1 as [p0 [q [Hp0 [Hq _]]]]. congruence.
Qed.

Lemma exec_entry_inv : forall E den role X S0 prog rt r n f w a d e t f' w' a' e',
  XI E den role X S0 prog rt r n f w a (d ++ e :: t) ->
  exec_entry E f w a e = Ok (f', w', a', e') ->
  XI E den role X S0 prog rt r n f' w' a' (d ++ e' :: t).
Proof.
  intros E den role X S0 prog rt r n f w a d e t f' w' a' e' I H.
  unfold exec_entry in H. destruct (e_state e) eqn:Es.
  1,2,4: apply Ok_eq in H; inversion H; subst; exact I.
  destruct (Nat.pred (e_time e)).
  2: { apply Ok_eq in H. inversion H; subst. eapply XI_step; eauto using same_set_ops; cbn; try congruence.
       - destruct I as [He _ _ _ _]. destruct (He _ _ _ eq_refl) as [H1 [os [H2 [H3 H4]]]].
         rewrite Es in H4. split; [exact H1|]. exists os. auto.
       - unfold executing_alu. cbn. rewrite Es. reflexivity. }
  apply bind_ok in H. destruct H as [vs [Hvs H]]. apply opt_ok in Hvs.
  apply bind_ok in H. destruct H as [acts [Hex H]].
  apply bind_ok in H. destruct H as [[[f1 w1] ops1] [Hact H]].
  apply Ok_eq in H. injection H as <- <- <- <-. rename f1 into f', w1 into w', ops1 into ops'.
  pose proof I as [He Hr Hw Hm Ha].
  destruct (He _ _ _ eq_refl) as [Hpc [os [Hos [Hpr Hst]]]]. rewrite Es in Hst.
  destruct Hst as [vs' [Hvs' Hev]]. rewrite Hvs in Hvs'. inversion Hvs'; subst vs'. clear Hvs'.
  pose proof (exec_acts_ok _ _ _ _ _ Hos Hpr Hex) as Hok.
  pose proof (wtab_inj _ _ _ _ _ _ _ _ _ _ Hr) as Hinj.
  destruct (do_acts_spec _ _ _ _ _ _ _ _ Hinj Hact) as [Hrs [Hops [f2 [ops2 Hmem]]]].
  pose proof (do_acts_mem _ _ _ _ _ _ _ _ _ Hok Hmem) as Hq.
  set (S := sfold E S0 d) in *.
  pose proof (eff_commit _ _ _ _ _ _ _ Hos Hev Hex) as Hcom.
  pose proof (eff_store_eq _ _ _ _ _ _ _ Hos Hev Hex) as Hsto.
  set (e' := set_ops e ops' Retiring 0 (e_exn e)).
  assert (Sm : same e e') by apply same_set_ops.
  destruct Hok as [Hset [Hlate [Hnl _]]].
  pose proof (ri_wtab _ _ _ _ _ _ _ _ Hr _ _ _ eq_refl) as Hwt. fold S in Hwt.
  assert (Hva : forall p q, nth_error f' p = Some q -> p_ready q = true -> role p <> LR PC -> p_val q = den p).
  { intros p q Hp Hrd Hro. specialize (Hrs p). destruct (nth_error f p) as [q0|] eqn:Ep; [|congruence].
    destruct Hrs as [[H1 _]|[l [v [H1 [H2 H3]]]]].
    - rewrite H1 in Hp. inversion Hp; subst. apply (ri_val _ _ _ _ _ _ _ _ Hr _ _ Ep Hrd Hro).
    - rewrite H3 in Hp. inversion Hp; subst. cbn. destruct (Hwt _ _ H1) as [H4 H5].
      rewrite H5 by congruence. rewrite Hcom. cbn [commit a_reg].
      destruct (late_reg (e_ins e) S l) eqn:El.
      + apply late_prod in El. destruct El as [El _]. rewrite (Hlate El) in H2. discriminate.
      + now rewrite H2. }
  destruct (ri_pc _ _ _ _ _ _ _ _ Hr _ _ _ eq_refl) as [pp [pr [P1 [P2 [P3 [P4 P5]]]]]].
  fold S in P5. rewrite Es in P5.
  constructor.
  - eapply entries_ok_replace; [apply Sm|exact He|]. fold S. split; [exact Hpc|].
    exists os. split; [exact Hos|]. split; [exact Hpr|]. cbn [e' set_ops e_state e_ops e_exn e_ins].
    destruct (act_ops_vals acts) as [ws Hws]. exists vs, ws, acts.
    split; [exact Hev|]. split; [exact Hex|]. split; [exact Hws|].
    rewrite Hops. now apply op_vals_app.
  - eapply regs_inv_replace; [exact Sm|exact Hr|eapply regs_set_le; eauto| | | |exact Hva].
    + intros _. destruct (late (e_ins e)) eqn:El.
      * left. right. exact El.
      * right. intros l p Hp Hl Hg. specialize (Hnl l eq_refl Hl Hp). specialize (Hrs p).
        destruct (nth_error f p) as [q|] eqn:Ep.
        { destruct Hrs as [[_ H1]|[k [v [_ [_ H1]]]]].
          - exfalso. apply Hnl. now apply H1.
          - eexists. split; [exact H1|]. reflexivity. }
        { exfalso. destruct (last_set l acts) as [v|] eqn:Ls; [|congruence].
          exact (do_acts_dom _ _ _ _ _ _ _ _ _ Ls Hg Hact Ep). }
    + fold S. unfold pc_reg. specialize (Hrs pp). rewrite P3 in Hrs.
      cbn [e' set_ops e_rrat e_wrat e_state e_ins].
      destruct Hrs as [[H1 H2]|[l [v [H1 [H2 H3]]]]].
      * exists pp, pr. split; [exact P1|]. split; [exact P2|]. split; [exact H1|]. split; [exact P4|].
        rewrite P5, u64_s64, u64_idem, Hcom. cbn [commit a_pc]. now rewrite (H2 _ P2).
      * assert (l = LR PC) by (eapply Hinj; eauto). subst l.
        eexists pp, _. split; [exact P1|]. split; [exact P2|]. split; [exact H3|]. split; [reflexivity|].
        cbn [p_val]. rewrite Hcom. cbn [commit a_pc]. now rewrite H2.
    + intros x p Hx Hg. specialize (Hrs p). destruct (nth_error f p) as [q|] eqn:Ep; [|exact Hrs].
      destruct Hrs as [[H1 _]|[l [v [H1 _]]]]; [exact H1|]. exfalso.
      apply in_app_or in Hx.
      assert (Hro : role p = LR PC).
      { destruct Hx as [Hx|Hx]; apply in_split in Hx; destruct Hx as [l1 [l2 ->]].
        - assert (Hs : (l1 ++ x :: l2) ++ e :: t = l1 ++ x :: (l2 ++ e :: t)) by now rewrite <- app_assoc.
          apply (ri_rtab _ _ _ _ _ _ _ _ Hr _ _ _ Hs _ _ Hg).
        - assert (Hs : d ++ e :: l1 ++ x :: l2 = (d ++ e :: l1) ++ x :: l2) by now rewrite <- app_assoc.
          apply (ri_rtab _ _ _ _ _ _ _ _ Hr _ _ _ Hs _ _ Hg). }
      destruct (Hwt _ _ H1) as [H2 _]. rewrite Hro in H2. subst l.
      apply (ri_pcnd _ _ _ _ _ _ _ _ Hr _ _ _ x eq_refl); [apply in_or_app; exact Hx|]. congruence.
  - destruct (mem_prod (e_ins e)) as [[b|]|] eqn:Em.
    + destruct Hq as [v [id [Q1 [Q2 Q3]]]].
      pose proof (wi_ent _ _ _ _ Hw _ _ _ id eq_refl) as Hen. rewrite Q2 in Hen.
      specialize (Hen (or_introl eq_refl)). unfold entry_write in Hen. rewrite Es, Em in Hen.
      destruct Hen as [Hen1 Hen2].
      eapply (wm_inv_wrote E S0 w w' d e e' t id b v); eauto; try congruence.
      * intros b0 m Hm1 Hm2. destruct (Hen2 _ _ Hm1 Hm2) as [_ ->]. reflexivity.
      * fold S. congruence.
      * eapply wrote_value; eauto.
    + destruct Hq as [b [v [id [w3 [Q1 [Q2 [Q3 Q4]]]]]]].
      pose proof (wi_ent _ _ _ _ Hw _ _ _ id eq_refl) as Hen. rewrite Q2 in Hen.
      specialize (Hen (or_introl eq_refl)). unfold entry_write in Hen. rewrite Es, Em in Hen.
      destruct Hen as [Hen1 Hen2].
      eapply (wm_inv_wrote E S0 w w' d e e' t id b v); eauto; try congruence.
      * intros b0 m Hm1 Hm2. exfalso. eapply Hen2; eauto.
      * fold S. congruence.
      * eapply wrote_address; eauto.
    + subst w'. eapply wm_inv_replace; eauto. intros id Hid. exfalso.
      pose proof (wi_shape _ _ _ _ Hw e) as Hsh. rewrite Em in Hsh.
      cbn [e' set_ops e_wids] in Hid. rewrite Hsh in Hid; [destruct Hid|].
      apply in_mid. now left.
  - destruct (mem_prod (e_ins e)) as [[b|]|] eqn:Em.
    + destruct Hq as [v [id [Q1 [Q2 Q3]]]].
      pose proof (wi_ent _ _ _ _ Hw _ _ _ id eq_refl) as Hen. rewrite Q2 in Hen.
      specialize (Hen (or_introl eq_refl)). unfold entry_write in Hen. rewrite Es, Em in Hen.
      destruct Hen as [Hen1 Hen2].
      eapply ram_inv_ext; [|exact Hm].
      eapply (wm_inv_wrote E S0 w w' d e e' t id b v); eauto; try congruence.
      * intros b0 m Hm1 Hm2. destruct (Hen2 _ _ Hm1 Hm2) as [_ ->]. reflexivity.
      * fold S. congruence.
      * eapply wrote_value; eauto.
    + destruct Hq as [b [v [id [w3 [Q1 [Q2 [Q3 Q4]]]]]]].
      pose proof (wi_ent _ _ _ _ Hw _ _ _ id eq_refl) as Hen. rewrite Q2 in Hen.
      specialize (Hen (or_introl eq_refl)). unfold entry_write in Hen. rewrite Es, Em in Hen.
      destruct Hen as [Hen1 Hen2].
      eapply ram_inv_ext; [|exact Hm].
      eapply (wm_inv_wrote E S0 w w' d e e' t id b v); eauto; try congruence.
      * intros b0 m Hm1 Hm2. exfalso. eapply Hen2; eauto.
      * fold S. congruence.
      * eapply wrote_address; eauto.
    + subst w'. exact Hm.
  - rewrite count_alus_app, count_alus_cons in *. unfold executing_alu in *. cbn [e' set_ops e_state].
    rewrite Es in Ha. destruct (needs_alu (e_ins e)); lia.
Qed.

Lemma exec_loop_inv : forall E den role X S0 prog rt r n es f w a d f' w' a' es',
  XI E den role X S0 prog rt r n f w a (d ++ es) ->
  exec_loop E f w a es = Ok (f', w', a', es') ->
  XI E den role X S0 prog rt r n f' w' a' (d ++ es').
Proof.
  induction es as [|e es IH]; intros f w a d f' w' a' es' I H; cbn [exec_loop] in H.
  - apply Ok_eq in H. inversion H; subst. exact I.
  - apply bind_ok in H. destruct H as [[[[f1 w1] a1] e1] [H1 H]].
    apply bind_ok in H. destruct H as [[[[f2 w2] a2] es2] [H2 H]].
    apply Ok_eq in H. inversion H; subst.
    pose proof (exec_entry_inv _ _ _ _ _ _ _ _ _ _ _ _ _ _ _ _ _ _ _ I H1) as I1.
    change (d ++ e1 :: es) with (d ++ [e1] ++ es) in I1. rewrite app_assoc in I1.
    specialize (IH _ _ _ _ _ _ _ _ I1 H2). rewrite <- app_assoc in IH. exact IH.
Qed.

Lemma exec_loop_length : forall E es f w a f' w' a' es', exec_loop E f w a es = Ok (f', w', a', es') ->
  length es' = length es /\ map e_ins es' = map e_ins es.
Proof.
  induction es as [|e es IH]; intros f w a f' w' a' es' H; cbn [exec_loop] in H.
  - apply Ok_eq in H. inversion H; subst. auto.
  - apply bind_ok in H. destruct H as [[[[f1 w1] a1] e1] [H1 H]].
    apply bind_ok in H. destruct H as [[[[f2 w2] a2] es2] [H2 H]].
    apply Ok_eq in H. inversion H; subst. destruct (IH _ _ _ _ _ _ _ H2) as [H3 H4].
    cbn. rewrite H3, H4. split; [reflexivity|]. f_equal.
    unfold exec_entry in H1. destruct (e_state e); try (apply Ok_eq in H1; inversion H1; reflexivity).
    destruct (Nat.pred (e_time e)); [|apply Ok_eq in H1; inversion H1; reflexivity].
    apply bind_ok in H1. destruct H1 as [vs [_ H1]]. apply bind_ok in H1. destruct H1 as [ac [_ H1]].
    apply bind_ok in H1. destruct H1 as [[[? ?] ?] [_ H1]]. apply Ok_eq in H1. inversion H1. reflexivity.
Qed.
