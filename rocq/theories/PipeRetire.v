(** L3: retirement makes one step of the in-order machine. *)
From Coq Require Import ZArith NArith List Bool Sorted Lia.
From Verif Require Import Base Alu Isa Exec Ram Writes Rat Cpu InOrder LiveSpec PipeInv PipeBasics PipeActs PipeMem
  PipeExec PipePoll.
Import ListNotations.
Open Scope Z_scope.

Lemma set_pc_id : forall S, set_pc S (a_pc S) = S.
Proof. now intros []. Qed.

Lemma eff_pc_in : forall E i S, in_u64 (a_pc (eff E i S)).
Proof.
  intros E i S. unfold eff. destruct (operands i); [|apply u64_in].
  destruct (evs E S l) as [[vs b]|]; [|apply u64_in].
  destruct (exec_acts E i vs); try apply u64_in. cbn. destruct (last_set (LR PC) a); apply u64_in.
Qed.

Lemma spec_step_eq : forall E i S, spec_step E i S = set_pc (eff E i S) (guess i (a_pc S)).
Proof. reflexivity. Qed.

(** ---- popping the oldest entry ---- *)

Lemma regs_pop : forall E den role X S0 f rt e es,
  regs_inv E den role X S0 f rt (e :: es) -> writes_ready f e ->
  regs_inv E den role (e_rrat e :: e_wrat e :: X) (spec_step E (e_ins e) S0) f rt es.
Proof.
  intros E den role X S0 f rt e es [Rt Wt Tt Pc Pn Va Rr Wr Rd Su] Hw.
  assert (Hc : forall pre x post, es = pre ++ x :: post -> e :: es = (e :: pre) ++ x :: post)
    by (intros; subst; reflexivity).
  assert (Hr : forall t0 l, rdy_table f t0 (e :: l) -> rdy_table f t0 l).
  { intros t0 l H k p Hk Hg. destruct (H k p Hk Hg) as [H1|[x [j [[<-|Hx] [Hu [Hp [Hj Hj2]]]]]]]; auto.
    - left. eapply Hw; eauto.
    - right. exists x, j. auto. }
  constructor.
  - intros pre x post H. apply (Rt _ _ _ (Hc _ _ _ H)).
  - intros pre x post H. apply (Wt _ _ _ (Hc _ _ _ H)).
  - exact Tt.
  - intros pre x post H. apply (Pc _ _ _ (Hc _ _ _ H)).
  - intros pre x post y H Hy. apply (Pn _ _ _ _ (Hc _ _ _ H)). now right.
  - exact Va.
  - intros pre x post H. apply Hr. apply (Rr _ _ _ (Hc _ _ _ H)).
  - intros pre x post H. apply Hr. apply (Wr _ _ _ (Hc _ _ _ H)).
  - apply Hr. exact Rd.
  - intros p r Hp. rewrite (Su _ _ Hp), !occ_tables. rewrite !occ_cons.
    change (entry_tabs (e :: es)) with (e_rrat e :: e_wrat e :: entry_tabs es).
    rewrite !occ_cons. lia.
Qed.

Lemma entries_pop : forall E p S0 e es, entries_ok E p S0 (e :: es) ->
  entries_ok E p (spec_step E (e_ins e) S0) es.
Proof. intros E p S0 e es H pre x post Hs. subst. apply (H (e :: pre) x post eq_refl). Qed.

Lemma wm_pop : forall E S0 w e es, wm_inv E S0 w (e :: es) -> e_wids e = [] ->
  wm_inv E (spec_step E (e_ins e) S0) w es.
Proof.
  intros E S0 w e es [K S A Src C O Sh En M] Hw.
  constructor; auto.
  - intros a m H. specialize (Src a m H). destruct (mw_ram m).
    + destruct Src as [H1 H2]. split; [exact H1|]. intros x id Hx. apply H2. now right.
    + destruct Src as [x [[<-|Hx] Hi]]; [rewrite Hw in Hi; destruct Hi|]. eauto.
  - intros a m x H1 H2 Hx. apply (O a m x H1 H2). now right.
  - intros x Hx. apply Sh. now right.
  - intros pre x post id Hs. subst es. apply (En (e :: pre) x post id eq_refl).
  - intros pre x post Hs. subst es. apply (M (e :: pre) x post eq_refl).
Qed.

Lemma ram_inv_mem : forall S S' w r, (forall a, a_mem S' a = a_mem S a) -> ram_inv S w r -> ram_inv S' w r.
Proof.
  intros S S' w r H [M O P Wr Rd N Ri L La Wk Rk]. constructor; auto.
  intros a. rewrite H. apply M.
Qed.

Lemma mem_at_set : forall m a v b, mem_at m a <> None ->
  mem_at (mem_set m a v) b = if b =? a then Some v else mem_at m b.
Proof.
  intros m a v b H. unfold mem_set. unfold mem_at in H.
  destruct ((0 <=? a) && (a <? Z.of_nat (length m))) eqn:Ea; [|congruence].
  unfold mem_at. rewrite set_nth_length.
  destruct (Z.eqb_spec b a) as [->|Hne].
  - rewrite Ea. destruct (nth_error m (Z.to_nat a)) eqn:En; [|congruence].
    eapply nth_set_nth_same; eauto.
  - destruct ((0 <=? b) && (b <? Z.of_nat (length m))) eqn:Eb; [|reflexivity].
    apply nth_set_nth_other. apply andb_prop in Ea, Eb. destruct Ea, Eb. lia.
Qed.

Lemma mem_set_length : forall m a v, length (mem_set m a v) = length m.
Proof.
  intros. unfold mem_set. destruct ((0 <=? a) && (a <? Z.of_nat (length m))); [apply set_nth_length|reflexivity].
Qed.

Lemma retire_write : forall E S0 w r e es id w' r' m,
  wm_inv E S0 w (e :: es) -> ram_inv S0 w r -> e_state e = Retiring -> e_wids e = [id] ->
  wm_get_write w id = Ok m -> wm_start w r id = Ok (Some (w', r')) ->
  exists a v, eff_store E (e_ins e) S0 = Some (a, v) /\ mw_addr m = a /\ a_mem S0 a <> None /\
    wm_inv E (spec_step E (e_ins e) S0) w' es /\ ram_inv (spec_step E (e_ins e) S0) w' r'.
Proof.
  intros E S0 w r e es id w' r' m W I Hst Hid Hg Hs.
  unfold wm_start in Hs. rewrite Hg in Hs. cbn [bind] in Hs.
  destruct (mw_value m) as [v|] eqn:Hv; [|discriminate]. destruct (mw_ram m) eqn:Hr; [discriminate|].
  destruct (ram_write r (mw_addr m) v) as [[r1 rid]|] eqn:Hw; [|discriminate].
  apply Ok_eq in Hs. inversion Hs; subst. clear Hs.
  pose proof W as [K S A Src C O Sh En M].
  destruct (wm_get_write_in _ _ _ K Hg) as [Hmid [a0 Hm]].
  pose proof (En [] e es id eq_refl) as Hen. rewrite Hid in Hen. specialize (Hen (or_introl eq_refl)).
  unfold entry_write in Hen. rewrite Hst in Hen. destruct Hen as [a [v' [He [Hin Hun]]]].
  change (sfold E S0 []) with S0 in He.
  destruct (Hun _ _ Hm Hmid) as [-> ->]. cbn [mw_value mw_addr mw_id] in *. inversion Hv; subst v'. clear Hv.
  exists a, v. split; [exact He|]. split; [reflexivity|].
  unfold ram_write in Hw. destruct (mem_at (ram_mem r) a) as [old|] eqn:Hat; [|discriminate].
  inversion Hw; subst r' rid. clear Hw.
  assert (Hnn : a_mem S0 a <> None). { rewrite (ra_mem _ _ _ I). congruence. }
  split; [exact Hnn|].
  set (rid := ram_next r). set (g := fun w0 : mwrite => mkMw (mw_id w0) (mw_addr w0) (mw_value w0) (Some rid)).
  assert (Win : forall b x, In x (vec (wm_update w id g) b) <->
            (In x (vec w b) /\ mw_id x <> id) \/ (b = a /\ x = mkMw id a (Some v) (Some rid))).
  { intros b x. rewrite wm_update_in. split.
    - intros [m0 [Hm0 ->]]. destruct (Z.eqb_spec (mw_id m0) id) as [Hq|Hq].
      + destruct (Hun _ _ Hm0 Hq) as [-> ->]. right. auto.
      + left. auto.
    - intros [[H1 H2]|[-> ->]].
      + exists x. split; [exact H1|]. destruct (Z.eqb_spec (mw_id x) id); [congruence|reflexivity].
      + eexists. split; [exact Hin|]. cbn. now rewrite Z.eqb_refl. }
  destruct (M [] e es eq_refl) as [Mc [Mi Mx]].
  assert (Hidm : id <= e_maxid e). { apply Mi. rewrite Hid. now left. }
  assert (Hlt : forall x i, In x es -> In i (e_wids x) -> id < i).
  { intros x i Hx Hi. destruct (Mx x Hx) as [_ H]. specialize (H i Hi). lia. }
  assert (Hold : forall b x, In x (vec w b) -> mw_ram x <> None -> mw_id x < id).
  { intros b x Hx Hxr. specialize (Src b x Hx). destruct (mw_ram x); [|congruence].
    destruct Src as [_ H]. apply (H e); [now left|]. rewrite Hid. now left. }
  split.
  - constructor.
    + now rewrite wm_update_keys.
    + intros b. rewrite wm_update_vec. apply ss_upd; auto.
    + intros b x H. apply Win in H. destruct H as [[H _]|[-> ->]]; [auto|reflexivity].
    + intros b x H. apply Win in H. destruct H as [[H Hne]|[-> ->]].
      * specialize (Src b x H). destruct (mw_ram x).
        { destruct Src as [H1 H2]. split; [exact H1|]. intros y i Hy. apply H2. now right. }
        { destruct Src as [y [[<-|Hy] Hi]]; [rewrite Hid in Hi; destruct Hi as [Hi|[]]; congruence|]. eauto. }
      * cbn. split; [discriminate|]. intros y i Hy Hi. eauto.
    + intros b x H. cbn [wm_update wm_cur]. apply Win in H. destruct H as [[H _]|[-> ->]]; [eauto|]. cbn. lia.
    + intros b x y H Hxr Hy. apply Win in H. destruct H as [[H _]|[-> ->]].
      * apply (O b x y H Hxr). now right.
      * cbn. destruct (Mx y Hy) as [H _]. lia.
    + intros y Hy. apply Sh. now right.
    + intros pre x post i Hs Hxi. subst es.
      assert (Hne : id <> i). { assert (id < i) by (eapply Hlt; [|exact Hxi]; apply in_or_app; right; now left). lia. }
      pose proof (En (e :: pre) x post i eq_refl Hxi) as Hent.
      change (sfold E S0 (e :: pre)) with (sfold E (spec_step E (e_ins e) S0) pre) in Hent.
      unfold entry_write in *. destruct (e_state x).
      4: { destruct Hent as [b [u [H1 [H2 H3]]]]. exists b, u. split; [exact H1|]. split.
           - apply Win. left. split; [exact H2|]. cbn. congruence.
           - intros b' y Hy Hyi. apply Win in Hy. destruct Hy as [[Hy _]|[-> ->]]; [auto|].
             cbn in Hyi. congruence. }
      all: destruct (mem_prod (e_ins x)) as [[b|]|]; destruct Hent as [H1 H2]; split;
        try (apply Win; left; split; [exact H1|cbn; congruence]);
        try exact H1;
        intros b' y Hy Hyi; apply Win in Hy;
        (destruct Hy as [[Hy _]|[-> ->]];
         [first [exact (H2 _ _ Hy Hyi)|auto]|cbn in Hyi; congruence]).
    + intros pre x post Hs. subst es. apply (M (e :: pre) x post eq_refl).
  - destruct I as [Rm Ro Rp Rw Rd Rn Ri Rl La Wk Rk].
    assert (Hnew : newest_out (wm_update w id g) a (mkMw id a (Some v) (Some rid))).
    { intros x Hx Hxr. apply Win in Hx. destruct Hx as [[Hx _]|[_ ->]]; [|cbn; lia].
      cbn. assert (mw_id x < id) by (eapply Hold; eauto). lia. }
    assert (Hnb : forall b x, b <> a -> (newest_out (wm_update w id g) b x <-> newest_out w b x)).
    { intros b x Hb. unfold newest_out. split; intros H y Hy Hyr; apply H; auto.
      - apply Win. left. split; [exact Hy|]. intros Hyi. apply Hb. apply (Hun b y Hy Hyi).
      - apply Win in Hy. destruct Hy as [[Hy _]|[? _]]; [exact Hy|congruence]. }
    assert (Hat' : mem_at (ram_mem r) a <> None) by congruence.
    assert (Hold2 : forall x, In x (vec w a) -> mw_id x <> id -> mw_ram x <> None ->
              ~ newest_out (wm_update w id g) a x).
    { intros x Hx _ Hxr Hn. assert (mw_id x < id) by (eapply Hold; eauto).
      assert (id <= mw_id x). { apply (Hn (mkMw id a (Some v) (Some rid))); [apply Win; auto|discriminate]. }
      lia. }
    constructor; cbn [ram_mem ram_reads ram_writes ram_next].
    + intros b. rewrite spec_mem, eff_mem, He, mem_at_set by exact Hat'. unfold mupd. now rewrite Rm.
    + intros b x Hx Hxr Hn. rewrite mem_at_set by exact Hat'. apply Win in Hx. destruct Hx as [[Hx Hne]|[-> ->]].
      * destruct (Z.eqb_spec b a) as [->|Hb].
        { exfalso. eapply Hold2; eauto. }
        { apply Ro; auto. now apply Hnb. }
      * now rewrite Z.eqb_refl.
    + intros b x i Hx Hxr Hp. apply pending_in in Hp. cbn [ram_writes] in Hp.
      destruct Hp as [b' [we [Hwe Hwi]]]. apply aset_in in Hwe; [|exact Wk].
      apply Win in Hx. destruct Hx as [[Hx Hne]|[-> ->]]; [|exact Hnew].
      pose proof (Ri _ _ _ Hx Hxr) as Hrn.
      destruct Hwe as [[-> ->]|[Hb' Hwe]].
      * cbn in Hwi. unfold rid in *. lia.
      * pose proof (Rl _ _ _ _ _ Hx Hxr Hwe Hwi). subst b'. apply Hnb; [exact Hb'|].
        apply Rp with i; auto. apply pending_in. eauto.
    + intros b we Hwe. apply aset_in in Hwe; [|exact Wk]. destruct Hwe as [[-> ->]|[Hb Hwe]].
      * eexists. split; [apply Win; right; split; reflexivity|]. reflexivity.
      * destruct (Rw _ _ Hwe) as [x [Hx Hxr]]. exists x. split; [|exact Hxr]. apply Win. left.
        split; [exact Hx|]. intros Hxi. destruct (Hun _ _ Hx Hxi) as [? _]. congruence.
    + intros b re Hre. destruct (Z.eqb_spec b a) as [->|Hb].
      * right. exists (mkWe rid write_latency). split; [apply aset_in; auto|]. cbn. eapply La; eauto.
      * rewrite mem_at_set by exact Hat'. destruct (Z.eqb_spec b a); [congruence|].
        destruct (Rd _ _ Hre) as [H|[we [H1 H2]]]; [now left|]. right. exists we. split; [|exact H2].
        apply aset_in; auto.
    + intros b we Hwe. apply aset_in in Hwe; [|exact Wk]. destruct Hwe as [[-> ->]|[Hb Hwe]].
      * cbn. unfold rid. lia.
      * apply Rn in Hwe. unfold rid. lia.
    + intros b x i Hx Hxr. apply Win in Hx. destruct Hx as [[Hx _]|[-> ->]].
      * pose proof (Ri _ _ _ Hx Hxr). unfold rid. lia.
      * cbn in Hxr. inversion Hxr. lia.
    + intros b x i b' we Hx Hxr Hwe Hwi. apply aset_in in Hwe; [|exact Wk].
      apply Win in Hx. destruct Hx as [[Hx Hne]|[-> ->]].
      * destruct Hwe as [[-> ->]|[Hb Hwe]].
        { cbn in Hwi. pose proof (Ri _ _ _ Hx Hxr). unfold rid in *. lia. }
        { eapply Rl; eauto. }
      * cbn in Hxr. destruct Hwe as [[-> ->]|[Hb Hwe]]; [reflexivity|].
        exfalso. apply Rn in Hwe. inversion Hxr. unfold rid in *. lia.
    + exact La.
    + now apply aset_nodup.
    + exact Rk.
Qed.

(** ---- the write table of the retiring instruction ---- *)

Record wdone (den : nat -> Z) (role : nat -> lreg) (T : arch) (f : pfile) (t : rat) : Prop := mkWdone {
  wd_tab : table_ok den role t T;
  wd_rdy : forall l p, l <> LR PC -> rget t l = Some p -> ready_at f p;
  wd_pc : exists p r, rget t (LR PC) = Some p /\ nth_error f p = Some r /\ p_ready r = true /\ u64 (p_val r) = a_pc T
}.

Lemma wdone_intro : forall E den role X A f rt e es, regs_inv E den role X A f rt (e :: es) ->
  e_state e = Retiring -> writes_ready f e -> wdone den role (eff E (e_ins e) A) f (e_wrat e).
Proof.
  intros E den role X A f rt e es R Hst Hw. constructor.
  - apply (ri_wtab _ _ _ _ _ _ _ _ R [] e es eq_refl).
  - intros l p Hl Hg. destruct (ri_wrdy _ _ _ _ _ _ _ _ R [] e es eq_refl l p Hl Hg) as [H|H]; [exact H|].
    destruct H as [x [k [[<-|[]] [_ [Hp [Hk Hk2]]]]]]. eapply Hw; eauto.
  - destruct (ri_pc _ _ _ _ _ _ _ _ R [] e es eq_refl) as [p [r [_ [H2 [H3 [H4 H5]]]]]].
    rewrite Hst in H5. exists p, r. auto.
Qed.

(** register files that differ in the subscription counts only *)
Definition same_vals (f f' : pfile) : Prop :=
  forall p, option_map (fun r => (p_val r, p_ready r)) (nth_error f' p) =
            option_map (fun r => (p_val r, p_ready r)) (nth_error f p).

Lemma same_vals_some : forall f f' p r, same_vals f f' -> nth_error f p = Some r ->
  exists r', nth_error f' p = Some r' /\ p_val r' = p_val r /\ p_ready r' = p_ready r.
Proof.
  intros f f' p r H Hp. specialize (H p). rewrite Hp in H. cbn in H.
  destruct (nth_error f' p) as [r'|]; [|discriminate]. cbn in H. inversion H. eauto.
Qed.

Lemma same_vals_sym : forall f f', same_vals f f' -> same_vals f' f.
Proof. intros f f' H p. now rewrite H. Qed.

Lemma same_vals_trans : forall f g h, same_vals f g -> same_vals g h -> same_vals f h.
Proof. intros f g h H1 H2 p. now rewrite H2, H1. Qed.

Lemma same_vals_addsubs : forall n f f', (forall q, nth_error f' q = option_map (addsubs (n q)) (nth_error f q)) ->
  same_vals f f'.
Proof. intros n f f' H p. rewrite H. destruct (nth_error f p); reflexivity. Qed.

Lemma ready_same : forall f f' p, same_vals f f' -> ready_at f p -> ready_at f' p.
Proof.
  intros f f' p H [r [H1 H2]]. destruct (same_vals_some _ _ _ _ H H1) as [r' [H3 [_ H5]]].
  exists r'. split; [exact H3|]. congruence.
Qed.

Lemma wdone_same : forall den role T f f' t, same_vals f f' -> wdone den role T f t -> wdone den role T f' t.
Proof.
  intros den role T f f' t H [H1 H2 [p [r [H3 [H4 [H5 H6]]]]]]. constructor; auto.
  - intros l p0 Hl Hg. eapply ready_same; eauto.
  - destruct (same_vals_some _ _ _ _ H H4) as [r' [H7 [H8 H9]]]. exists p, r'.
    split; [exact H3|]. split; [exact H7|]. split; congruence.
Qed.

Lemma regs_inv_subs : forall E den role X X' S0 f f' rt rs, regs_inv E den role X S0 f rt rs ->
  same_vals f f' ->
  (forall p r, nth_error f' p = Some r -> p_subs r = occ p (tables X' rt rs)) ->
  regs_inv E den role X' S0 f' rt rs.
Proof.
  intros E den role X X' S0 f f' rt rs [Rt Wt Tt Pc Pn Va Rr Wr Rd Su] Hs Hsub.
  assert (Hr : forall t0 l, rdy_table f t0 l -> rdy_table f' t0 l).
  { intros t0 l H k p Hk Hg. destruct (H k p Hk Hg) as [H1|H1]; [left; eapply ready_same; eauto|now right]. }
  constructor; auto.
  - intros pre e post He. destruct (Pc _ _ _ He) as [p [r [H1 [H2 [H3 [H4 H5]]]]]].
    destruct (same_vals_some _ _ _ _ Hs H3) as [r' [H6 [H7 H8]]]. exists p, r'.
    split; [exact H1|]. split; [exact H2|]. split; [exact H6|]. split; [congruence|].
    destruct (e_state e); congruence.
  - intros p r Hp Hrd Hro. destruct (same_vals_some _ _ _ _ (same_vals_sym _ _ Hs) Hp) as [r' [H6 [H7 H8]]].
    rewrite <- H7. apply (Va p r'); congruence.
  - intros pre e post He. apply Hr. eauto.
  - intros pre e post He. apply Hr. eauto.
Qed.

(** ---- unrolling the speculation ---- *)

Lemma unroll_inv : forall E den role X pp T g c t c',
  J E den role X pp (set_pc T g) c -> wdone den role T (c_regs c) t -> in_u64 (a_pc T) ->
  unroll c t = Ok c' ->
  J E den role X [] T c' /\ at_rest T c' /\ wdone den role T (c_regs c') t /\
  c_prog c' = c_prog c /\ c_cfg c' = c_cfg c /\ c_halted c' = c_halted c /\ c_int c' = c_int c /\
  c_single c' = c_single c /\ c_trap c' = c_trap c /\ c_dbg c' = c_dbg c /\ c_rs c' = [].
Proof.
  intros E den role X pp T g c t c' [Jp Je Jr Jw Jm Ja Jl Jo Ji] Wd Hpc H. unfold unroll in H.
  apply bind_ok in H. destruct H as [f1 [H1 H]]. apply opt_ok in H1.
  apply bind_ok in H. destruct H as [f2 [H2 H]]. apply opt_ok in H2.
  apply bind_ok in H. destruct H as [f3 [H3 H]]. apply opt_ok in H3.
  cbv zeta in H.
  match type of H with (match ?g with _ => _ end = _) => destruct g as [v|] eqn:Hg; [|discriminate] end.
  apply Ok_eq in H. subst c'.
  pose proof (unsub_entries_spec _ _ _ H1) as E1.
  pose proof (punsub_all_spec _ _ _ H2) as E2.
  pose proof (psub_all_spec _ _ _ H3) as E3.
  assert (Hsv : same_vals (c_regs c) f3).
  { apply same_vals_trans with f2; [|eapply same_vals_addsubs; eauto].
    apply same_vals_trans with f1; apply same_vals_sym; eapply same_vals_addsubs; eauto. }
  pose proof (wdone_same _ _ _ _ _ _ Hsv Wd) as Wd'.
  assert (Hva : forall p r, nth_error f3 p = Some r -> p_ready r = true -> role p <> LR PC -> p_val r = den p).
  { intros p r Hp Hrd Hro. destruct (same_vals_some _ _ _ _ (same_vals_sym _ _ Hsv) Hp) as [r' [H6 [H7 H8]]].
    rewrite <- H7. apply (ri_val _ _ _ _ _ _ _ _ Jr p r'); congruence. }
  assert (Hspec : u64 v = a_pc T).
  { destruct (wd_pc _ _ _ _ _ Wd') as [p [r [P1 [P2 [P3 P4]]]]].
    unfold get_lreg in Hg. cbn [c_rat] in Hg. rewrite P1 in Hg. unfold get_preg in Hg. cbn [c_regs] in Hg.
    rewrite P2 in Hg. cbn in Hg. inversion Hg; subst. exact P4. }
  split; [|split; [|split; [exact Wd'|repeat split]]].
  - constructor; cbn [c_rs c_prog c_cfg c_regs c_rat c_wm c_ram c_alus c_out c_in set_wm set_spec].
    + constructor; cbn [c_rs c_prog c_decode c_fetch c_spec c_pred set_wm set_spec front optl map app gpc gpreds fpath].
      * symmetry. exact Hspec.
      * reflexivity.
      * apply (pi_valid _ _ _ Jp).
      * exact Hpc.
    + intros pre e post Hs. destruct pre; discriminate.
    + constructor; try (intros pre e post Hs; destruct pre; discriminate);
        try (intros pre e post x Hs; destruct pre; discriminate).
      * apply (wd_tab _ _ _ _ _ Wd').
      * exact Hva.
      * intros l p Hl Hgl. left. eapply (wd_rdy _ _ _ _ _ Wd'); eauto.
      * intros p r Hp. rewrite E3 in Hp. destruct (nth_error f2 p) as [r2|] eqn:F2; [|discriminate].
        cbn in Hp. inversion Hp; subst. cbn.
        assert (F1 : nth_error f1 p = Some (addsubs (cnt p (c_rat c)) r2)) by (rewrite E2, F2; reflexivity).
        assert (F0 : nth_error (c_regs c) p = Some (addsubs (occ p (entry_tabs (c_rs c))) (addsubs (cnt p (c_rat c)) r2)))
          by (rewrite E1, F1; reflexivity).
        apply (ri_subs _ _ _ _ _ _ _ _ Jr) in F0. cbn in F0. rewrite occ_tables in F0 |- *.
        cbn [entry_tabs flat_map]. rewrite occ_nil. lia.
    + assert (Hin : forall a m, In m (vec (wm_remove_pending (c_wm c)) a) <-> In m (vec (c_wm c) a) /\ mw_ram m <> None).
      { intros a m. unfold wm_remove_pending. rewrite wm_remove_vec, filter_In, negb_true_iff.
        destruct (mw_ram m); intuition congruence. }
      destruct Jw as [K S A Src C O Sh En M]. constructor.
      * unfold wm_remove_pending. now rewrite wm_remove_keys.
      * intros a. unfold wm_remove_pending. rewrite wm_remove_vec. now apply ss_filter.
      * intros a m Hm. apply Hin in Hm. now apply A.
      * intros a m Hm. apply Hin in Hm. destruct Hm as [Hm Hr]. specialize (Src a m Hm).
        destruct (mw_ram m); [|congruence]. split; [apply Src|]. intros e id [].
      * intros a m Hm. apply Hin in Hm. unfold wm_remove_pending. rewrite wm_remove_cur. eapply C. apply Hm.
      * intros a m e _ _ [].
      * intros e [].
      * intros pre e post id Hs. destruct pre; discriminate.
      * intros pre e post Hs. destruct pre; discriminate.
    + eapply ram_inv_ext; [|eapply ram_inv_mem; [|exact Jm]; reflexivity].
      intros a m Hr. unfold wm_remove_pending. rewrite wm_remove_vec, filter_In, negb_true_iff.
      destruct (mw_ram m); intuition congruence.
    + cbn [count_alus filter length]. unfold count_alus in *. cbn. lia.
    + cbn. lia.
    + exact Jo.
    + exact Ji.
  - unfold at_rest. cbn [c_rs c_decode c_fetch c_pred c_spec c_ram c_out c_in set_wm set_spec].
    repeat (split; [reflexivity|]). split; [exact Hspec|]. split.
    { intros l u Hl Hgl. unfold get_lreg in Hgl. cbn [c_rat set_wm set_spec] in Hgl.
      destruct (rget t l) as [p|] eqn:Hp; [|discriminate]. unfold get_preg in Hgl. cbn [c_regs set_wm set_spec] in Hgl.
      destruct (wd_rdy _ _ _ _ _ Wd' _ _ Hl Hp) as [r [R1 R2]]. rewrite R1 in Hgl. cbn in Hgl. inversion Hgl; subst.
      destruct (wd_tab _ _ _ _ _ Wd' _ _ Hp) as [Q1 Q2]. rewrite (Hva _ _ R1 R2) by congruence. auto. }
    split; [exists v; split; [exact Hg|exact Hspec]|].
    split; [|split; [symmetry; exact Jo|symmetry; exact Ji]].
    intros a. rewrite <- (ra_mem _ _ _ Jm). reflexivity.
Qed.

(** ---- from the retired entry to the in-order step ---- *)

Lemma late_set : forall E den role A f rt e es l v f',
  regs_inv E den role [] A f rt (e :: es) -> e_state e = Retiring -> l <> LR PC ->
  (forall k, reg_prod (e_ins e) k -> k = l) -> v = a_reg (eff E (e_ins e) A) l ->
  entry_set f (e_wrat e) l v = Ok f' ->
  regs_inv E den role [] A f' rt (e :: es) /\ writes_ready f' e.
Proof.
  intros E den role A f rt e es l v f' R Hst Hl Hk Hv H.
  apply entry_set_spec in H. destruct H as [p [r [Hp [Hr ->]]]].
  assert (Hn : forall q, nth_error (set_nth f p (mkPreg v true (p_subs r))) q =
            if Nat.eqb q p then Some (mkPreg v true (p_subs r)) else nth_error f q).
  { intros q. destruct (Nat.eqb_spec q p) as [->|Hq].
    - eapply nth_set_nth_same; eauto.
    - apply nth_set_nth_other; auto. }
  destruct (ri_wtab _ _ _ _ _ _ _ _ R [] e es eq_refl _ _ Hp) as [Hro Hden].
  change (sfold E A []) with A in Hden.
  assert (Hw : writes_ready (set_nth f p (mkPreg v true (p_subs r))) e).
  { intros k q Hkp Hkl Hq. rewrite (Hk _ Hkp) in Hq. assert (q = p) by congruence. subst q.
    eexists. split; [rewrite Hn, Nat.eqb_refl; reflexivity|reflexivity]. }
  split; [|exact Hw].
  apply (regs_inv_replace E den role [] A f _ rt [] e e es).
  - repeat split.
  - exact R.
  - intros q. rewrite Hn. destruct (Nat.eqb_spec q p) as [->|Hq].
    + rewrite Hr. cbn. auto.
    + destruct (nth_error f q); auto.
  - intros _. right. exact Hw.
  - destruct (ri_pc _ _ _ _ _ _ _ _ R [] e es eq_refl) as [q [rq [H1 [H2 [H3 [H4 H5]]]]]].
    exists q, rq. split; [exact H1|]. split; [exact H2|]. split; [|auto].
    rewrite Hn. destruct (Nat.eqb_spec q p) as [->|]; [|exact H3].
    destruct (ri_wtab _ _ _ _ _ _ _ _ R [] e es eq_refl _ _ H2) as [Hro2 _]. congruence.
  - intros x q Hx Hq. rewrite Hn. destruct (Nat.eqb_spec q p) as [->|]; [|reflexivity].
    cbn in Hx. destruct (in_split _ _ Hx) as [d [t ->]].
    destruct (ri_rtab _ _ _ _ _ _ _ _ R (e :: d) x t eq_refl _ _ Hq) as [Hro2 _]. congruence.
  - intros q rq Hq. rewrite Hn in Hq. revert Hq. destruct (Nat.eqb_spec q p) as [->|]; intros Hq Hrd Hrq.
    + inversion Hq; subst rq. cbn. rewrite Hden by exact Hl. exact Hv.
    + eapply (ri_val _ _ _ _ _ _ _ _ R); eauto.
Qed.

Lemma early_ready : forall E den role X A f rt e es, regs_inv E den role X A f rt (e :: es) ->
  e_state e = Retiring -> late (e_ins e) = false -> writes_ready f e.
Proof.
  intros E den role X A f rt e es R Hst Hl l p Hp Hpc Hg.
  destruct (ri_wrdy _ _ _ _ _ _ _ _ R [] e es eq_refl l p Hpc Hg) as [H|[x [k [[<-|[]] [Hu _]]]]]; [exact H|].
  destruct Hu as [H|H]; congruence.
Qed.

Definition jpred (i : instr) (pc : Z) : list Z :=
  match jump_dest i with Some _ => [guess i pc] | None => [] end.

Lemma pop_J : forall E den role A c e es c1,
  J E den role [] [] A c -> c_rs c = e :: es -> e_state e = Retiring ->
  c_prog c1 = c_prog c -> c_cfg c1 = c_cfg c -> c_spec c1 = c_spec c -> c_fetch c1 = c_fetch c ->
  c_decode c1 = c_decode c -> c_pred c1 = c_pred c -> c_rat c1 = c_rat c -> c_alus c1 = c_alus c ->
  c_rs c1 = es ->
  regs_inv E den role [] A (c_regs c1) (c_rat c) (e :: es) -> writes_ready (c_regs c1) e ->
  wm_inv E (spec_step E (e_ins e) A) (c_wm c1) es ->
  ram_inv (spec_step E (e_ins e) A) (c_wm c1) (c_ram c1) ->
  a_out (eff E (e_ins e) A) = c_out c1 -> a_in (eff E (e_ins e) A) = c_in c1 ->
  J E den role [e_rrat e; e_wrat e] (jpred (e_ins e) (a_pc A)) (set_pc (eff E (e_ins e) A) (guess (e_ins e) (a_pc A))) c1.
Proof.
  intros E den role A c e es c1 [Jp Je Jr Jw Jm Ja Jl Jo Ji] Hrs Hst E1 E2 E3 E4 E5 E6 E7 E8 E9 R Hw W M Ho Hi.
  fold (spec_step E (e_ins e) A). rewrite Hrs in *. constructor.
  - destruct Jp as [P1 P2 P3 P4]. constructor.
    + unfold front. rewrite E1, E3, E4, E5, E9. unfold front in P1. rewrite Hrs in P1. exact P1.
    + unfold front. rewrite E4, E5, E6, E9. unfold front in P2. rewrite Hrs in P2. exact P2.
    + now rewrite E1.
    + cbn. apply guess_in.
  - rewrite E1, E9. now apply entries_pop.
  - rewrite E7, E9. now apply regs_pop.
  - now rewrite E9.
  - exact M.
  - rewrite E8, E9, E2. rewrite count_alus_cons in Ja. unfold executing_alu in Ja at 1.
    rewrite Hst in Ja. exact Ja.
  - rewrite E9, E2. cbn in Jl. lia.
  - exact Ho.
  - exact Hi.
Qed.

(** Effect of an instruction on the debug registers and the interrupt number *)
Definition step_dbg (E : env) (i : instr) (S : arch) (s : list Z * Z) : list Z * Z :=
  match eff_store E i S with
  | Some (a, _) => check_write a s
  | None => match i with IBkpt => (fst s, 3) | _ => s end
  end.

Definition stop (c : cpu) : Prop := c_halted c = true \/ c_single c = true \/ c_int c <> 0.

(** what the retire actions of the entry [e] lead to *)
Record retired (E : env) (den : nat -> Z) (role : nat -> lreg) (A : arch) (e : entry) (c c1 : cpu) : Prop := mkRetired {
  rt_J : J E den role [e_rrat e; e_wrat e] [] (eff E (e_ins e) A) c1;
  rt_wd : wdone den role (eff E (e_ins e) A) (c_regs c1) (e_wrat e);
  rt_prog : c_prog c1 = c_prog c;
  rt_cfg : c_cfg c1 = c_cfg c;
  rt_halt : c_halted c1 = c_halted c || is_halt (e_ins e);
  rt_rest : is_halt (e_ins e) = true -> at_rest (eff E (e_ins e) A) c1;
  rt_single : c_single c1 = c_single c;
  rt_trap : c_trap c1 = c_trap c;
  rt_dbg : (c_dbg c1, c_int c1) = step_dbg E (e_ins e) A (c_dbg c, c_int c);
  rt_len : (length (c_rs c1) <= length (c_rs c))%nat
}.

Lemma eff_pc_nojump : forall E i S, pc_ok i -> produces i <> None -> jump_dest i = None ->
  a_pc (eff E i S) = u64 (a_pc S + 1).
Proof.
  intros E i S Hp Hn Hj. unfold eff. destruct (operands i) as [os|] eqn:Ho; [|reflexivity].
  destruct (evs E S os) as [[vs b]|] eqn:Ev; [|reflexivity].
  destruct (exec_acts E i vs) as [acts| |] eqn:Ex; try reflexivity.
  cbn [commit a_pc]. destruct (last_set (LR PC) acts) as [v|] eqn:Hl; [|reflexivity].
  apply last_set_in in Hl. destruct (exec_acts_ok _ _ _ _ _ Ho Hn Ex) as [Hs _].
  destruct (Hs _ _ Hl) as [ps [Hps Hin]]. specialize (Hp Hj). rewrite Hps in Hp. contradiction.
Qed.

Lemma nojump_T : forall E i A, pc_ok i -> produces i <> None -> jump_dest i = None ->
  set_pc (eff E i A) (guess i (a_pc A)) = eff E i A.
Proof.
  intros E i A Hp Hn Hj. unfold guess. rewrite Hj, <- (eff_pc_nojump E i A Hp Hn Hj). apply set_pc_id.
Qed.

(** control part of retire(): nothing *)
Lemma ctl_none : forall E den role A e c1, pc_ok (e_ins e) -> produces (e_ins e) <> None -> jump_dest (e_ins e) = None ->
  J E den role [e_rrat e; e_wrat e] (jpred (e_ins e) (a_pc A)) (set_pc (eff E (e_ins e) A) (guess (e_ins e) (a_pc A))) c1 ->
  J E den role [e_rrat e; e_wrat e] [] (eff E (e_ins e) A) c1.
Proof.
  intros E den role A e c1 Hp Hn Hj H. rewrite nojump_T in H by assumption. unfold jpred in H. now rewrite Hj in H.
Qed.

Lemma set_pred_J : forall E den role X g T c rest, J E den role X [g] T c -> c_pred c = g :: rest ->
  J E den role X [] T (set_pred c rest).
Proof.
  intros E den role X g T c rest [Jp Je Jr Jw Jm Ja Jl Jo Ji] Hp. constructor; auto.
  destruct Jp as [P1 P2 P3 P4]. constructor; auto.
  rewrite Hp in P2. cbn in P2 |- *. now inversion P2.
Qed.

(** control part of retire(): a jump *)
Lemma ctl_jump : forall E den role A e c1 c2 d, jump_dest (e_ins e) = Some d -> is_halt (e_ins e) = false ->
  J E den role [e_rrat e; e_wrat e] (jpred (e_ins e) (a_pc A)) (set_pc (eff E (e_ins e) A) (guess (e_ins e) (a_pc A))) c1 ->
  wdone den role (eff E (e_ins e) A) (c_regs c1) (e_wrat e) ->
  do_jump c1 e = Ok c2 ->
  J E den role [e_rrat e; e_wrat e] [] (eff E (e_ins e) A) c2 /\
  wdone den role (eff E (e_ins e) A) (c_regs c2) (e_wrat e) /\
  c_prog c2 = c_prog c1 /\ c_cfg c2 = c_cfg c1 /\ c_halted c2 = c_halted c1 /\ c_int c2 = c_int c1 /\
  c_single c2 = c_single c1 /\ c_trap c2 = c_trap c1 /\ c_dbg c2 = c_dbg c1 /\
  (length (c_rs c2) <= length (c_rs c1))%nat.
Proof.
  intros E den role A e c1 c2 d Hj Hh HJ Wd H. unfold do_jump in H.
  destruct (rget (e_wrat e) (LR PC)) as [p|] eqn:Hp; [|discriminate].
  destruct (rget (e_rrat e) (LR PC)) as [q|] eqn:Hq; [|discriminate].
  destruct (get_preg c1 p) as [v|] eqn:Hv; [|discriminate].
  destruct (nth_error (c_regs c1) q) as [rq|]; [|discriminate].
  destruct (negb (p_ready rq)); [discriminate|].
  unfold jpred in HJ. rewrite Hj in HJ.
  assert (Hpr : exists rest, c_pred c1 = guess (e_ins e) (a_pc A) :: rest).
  { destruct (j_path _ _ _ _ _ _ _ HJ) as [_ P2 _ _]. eexists. exact P2. }
  destruct Hpr as [rest Hpr]. rewrite Hpr in H.
  assert (Hu : u64 v = a_pc (eff E (e_ins e) A)).
  { destruct (wd_pc _ _ _ _ _ Wd) as [p' [r [P1 [P2 [P3 P4]]]]]. assert (p' = p) by congruence. subst p'.
    unfold get_preg in Hv. rewrite P2 in Hv. cbn in Hv. inversion Hv; subst. exact P4. }
  cbv zeta in H. destruct (Z.eqb_spec (guess (e_ins e) (a_pc A)) (u64 v)) as [Hg|Hg].
  - apply Ok_eq in H. subst c2. rewrite Hg, Hu, set_pc_id in HJ. rewrite Hg, Hu in Hpr.
    split; [eapply set_pred_J; eauto|]. split; [exact Wd|]. repeat split. cbn. lia.
  - pose proof (set_pred_J _ _ _ _ _ _ _ _ HJ Hpr) as HJ2.
    destruct (unroll_inv _ _ _ _ _ _ _ _ _ _ HJ2 Wd (eff_pc_in _ _ _) H)
      as [R1 [_ [R3 [R4 [R5 [R6 [R7 [R8 [R9 [R10 R11]]]]]]]]]].
    rewrite R11. cbn [length]. split; [exact R1|]. split; [exact R3|]. repeat (split; [assumption|]). lia.
Qed.

Lemma eff_parts : forall E i S os vs b acts, operands i = Some os -> evs E S os = Some (vs, b) ->
  exec_acts E i vs = Ok acts ->
  a_out (eff E i S) = a_out S ++ out_of i vs /\ a_in (eff E i S) = in_after i (a_in S) /\
  a_halted (eff E i S) = a_halted S || is_halt i /\
  forall l, a_reg (eff E i S) l = match late_reg i S l with
              | Some v => v
              | None => match last_set l acts with Some v => v | None => a_reg S l end
              end.
Proof.
  intros E i S os vs b acts Ho Ev Ex. rewrite (eff_commit _ _ _ _ _ _ _ Ho Ev Ex). repeat split.
Qed.

Lemma eff_store_none : forall E i S, produces i <> None -> mem_prod i = None -> eff_store E i S = None.
Proof.
  intros E i S Hn Hm. destruct (eff_store E i S) as [[a v]|] eqn:H; [|reflexivity].
  apply eff_store_prod in H; [|exact Hn]. destruct H as [H|H]; congruence.
Qed.

Lemma racts_one : forall e a c c', do_racts e [a] c = Ok c' -> do_ract e a c = Ok c'.
Proof.
  intros e a c c' H. cbn [do_racts] in H. apply bind_ok in H. destruct H as [c1 [H1 H2]].
  apply Ok_eq in H2. now subst.
Qed.

Lemma racts_cons : forall e a l c c', do_racts e (a :: l) c = Ok c' ->
  exists c1, do_ract e a c = Ok c1 /\ do_racts e l c1 = Ok c'.
Proof. intros e a l c c' H. cbn [do_racts] in H. apply bind_ok in H. exact H. Qed.

(** the shapes retire() can take *)
Lemma retire_shape : forall i vs acts, produces i <> None -> retire_acts i vs = Ok acts ->
  (acts = [] /\ mem_prod i = None /\ late i = false /\ jump_dest i = None /\ is_halt i = false /\ i <> IBkpt /\
     (forall vs', out_of i vs' = [])) \/
  (acts = [RWrite] /\ mem_prod i <> None /\ late i = false /\ jump_dest i = None /\ is_halt i = false) \/
  (acts = [RWrite; RJump] /\ mem_prod i <> None /\ late i = false /\ (exists d, jump_dest i = Some d)) \/
  (acts = [RJump] /\ mem_prod i = None /\ late i = false /\ exists d, jump_dest i = Some d) \/
  (acts = [RSet (LR Flags) (flags_to_word (mkFlags false false false false))] /\ i = IClf) \/
  (exists r, acts = [RGetchar r] /\ i = IGetchar r) \/
  (exists r v, vs = [v] /\ acts = [RPutchar v] /\ i = IPutchar r) \/
  (exists r v, vs = [v] /\ acts = [RPutnum v] /\ i = IPutnum r) \/
  (acts = [RUnroll; RInterrupt 3] /\ i = IBkpt) \/
  (acts = [RUnroll] /\ i = IBreak) \/
  (acts = [RUnroll; RHalt] /\ i = IHalt).
Proof.
  intros i vs acts Hp H.
  destruct i as [op d r v st|op r|op f v|d v|r m|  | | | | |r v|f v|a|r a|cc a|a| |v|v|r|f|r|r|r|f r|r f]; cbn [retire_acts] in H;
    repeat match type of H with match ?l with _ => _ end = Ok _ => destruct l; try discriminate H end;
    apply Ok_eq in H; subst acts.
  all: try (left; repeat split; try discriminate; reflexivity).
  all: try (do 3 right; left; repeat split; solve [discriminate | eexists; reflexivity]).
  all: try (right; left; repeat split; try discriminate; reflexivity).
  all: try (do 2 right; left; repeat split; solve [discriminate | eexists; reflexivity]).
  all: try (do 4 right; left; repeat split; fail).
  all: try (do 5 right; left; eexists; repeat split; fail).
  all: try (do 6 right; left; do 2 eexists; repeat split; fail).
  all: try (do 7 right; left; do 2 eexists; repeat split; fail).
  all: try (do 8 right; left; repeat split; fail).
  all: try (do 9 right; left; repeat split; fail).
  all: try (do 10 right; repeat split; fail).
  - destruct d; cbn in Hp; try congruence; cbn [is_reg_dest].
    all: try (left; repeat split; try discriminate; reflexivity).
    all: right; left; repeat split; try discriminate; reflexivity.
Qed.

Lemma prog_pc_ok : forall p pc, valid_prog p -> pc_ok (prog_at p pc).
Proof.
  intros p pc H. unfold prog_at. destruct ((0 <=? pc) && (pc <? Z.of_nat (length p))).
  - destruct (nth_in_or_default (Z.to_nat pc) p INop) as [Hin| ->].
    + exact (proj1 (Forall_forall _ _) H _ Hin).
    + intros _. cbn. tauto.
  - intros _. cbn. tauto.
Qed.

Lemma out_mem : forall i vs, mem_prod i <> None -> out_of i vs = [].
Proof. intros i vs H. destruct i; try reflexivity; exfalso; now apply H. Qed.

Lemma out_jump : forall i vs d, jump_dest i = Some d -> out_of i vs = [].
Proof. intros i vs d H. destruct i; try reflexivity; discriminate H. Qed.

Lemma halt_jump : forall i d, jump_dest i = Some d -> is_halt i = false.
Proof. intros i d H. destruct i; try reflexivity; discriminate H. Qed.

Lemma do_racts_inv : forall E den role A c e es os vs ws acts racts c1,
  J E den role [] [] A c -> c_rs c = e :: es -> e_state e = Retiring ->
  operands (e_ins e) = Some os -> produces (e_ins e) <> None -> e_ins e = prog_at (c_prog c) (a_pc A) ->
  evs E A os = Some (vs, e_exn e) -> exec_acts E (e_ins e) vs = Ok acts ->
  op_vals (act_ops acts) = Some ws ->
  retire_acts (e_ins e) (vs ++ ws) = Ok racts ->
  do_racts e racts (set_rs c es) = Ok c1 ->
  retired E den role A e (set_rs c es) c1 /\
  (forall a v, eff_store E (e_ins e) A = Some (a, v) -> a_mem A a <> None) /\
  (forall r, e_ins e = IGetchar r -> get_char (a_in A) <> None).
Proof.
  intros E den role A c e es os vs ws acts racts c1 HJ Hrs Hst Hos Hpr Hpa Hev Hex Hws Hra Hdo.
  set (i := e_ins e) in *. set (T := eff E i A) in *.
  destruct (eff_parts _ _ _ _ _ _ _ Hos Hev Hex) as [Eo [Ei [Eh Er]]]. fold T in Eo, Ei, Eh, Er.
  assert (Hpc : pc_ok i). { unfold i in *. rewrite Hpa. apply prog_pc_ok. apply (pi_valid _ _ _ (j_path _ _ _ _ _ _ _ HJ)). }
  pose proof (j_regs _ _ _ _ _ _ _ HJ) as R. rewrite Hrs in R.
  pose proof (j_wm _ _ _ _ _ _ _ HJ) as W. rewrite Hrs in W.
  pose proof (j_ram _ _ _ _ _ _ _ HJ) as M.
  pose proof (j_out _ _ _ _ _ _ _ HJ) as Jo. pose proof (j_in _ _ _ _ _ _ _ HJ) as Ji.
  assert (Hwid : mem_prod i = None -> e_wids e = []).
  { intros Hm. pose proof (wi_shape _ _ _ _ W e (or_introl eq_refl)) as Hs. fold i in Hs. now rewrite Hm in Hs. }
  assert (Hmem : mem_prod i = None -> wm_inv E (spec_step E i A) (c_wm c) es /\ ram_inv (spec_step E i A) (c_wm c) (c_ram c)).
  { intros Hm. split; [apply wm_pop; auto|]. eapply ram_inv_mem; [|exact M]. intros a.
    rewrite spec_mem, eff_mem, eff_store_none by assumption. reflexivity. }
  assert (Hns : mem_prod i = None -> forall a v, eff_store E i A = Some (a, v) -> a_mem A a <> None).
  { intros Hm a v Hs. rewrite eff_store_none in Hs by assumption. discriminate. }
  assert (Hdbg : mem_prod i = None -> i <> IBkpt -> forall s, step_dbg E i A s = s).
  { intros Hm Hb s. unfold step_dbg. rewrite eff_store_none by assumption. now destruct i. }
  assert (Hout0 : late i = false -> (forall vs', out_of i vs' = []) -> a_out T = c_out c /\ a_in T = c_in c).
  { intros Hl Ho. rewrite Eo, Ei, Ho, app_nil_r. split; [exact Jo|]. rewrite <- Ji. destruct i; try reflexivity. discriminate. }
  (* the write of the instruction *)
  assert (Hwr : forall c2, mem_prod i <> None -> late i = false -> do_ract e RWrite (set_rs c es) = Ok c2 ->
     (forall vs', out_of i vs' = []) ->
     J E den role [e_rrat e; e_wrat e] (jpred i (a_pc A)) (set_pc T (guess i (a_pc A))) c2 /\
     wdone den role T (c_regs c2) (e_wrat e) /\
     c_prog c2 = c_prog c /\ c_cfg c2 = c_cfg c /\ c_halted c2 = c_halted c /\ c_single c2 = c_single c /\
     c_trap c2 = c_trap c /\ (c_dbg c2, c_int c2) = step_dbg E i A (c_dbg c, c_int c) /\ c_rs c2 = es /\
     forall a v, eff_store E i A = Some (a, v) -> a_mem A a <> None).
  { intros c2 Hm Hl H Hout. cbn [do_ract] in H. destruct (e_wids e) as [|id [|? ?]] eqn:Hid; try discriminate.
    unfold write_memory in H. apply bind_ok in H. destruct H as [m [H1 H]]. apply lift_ok in H1.
    apply bind_ok in H. destruct H as [o [H2 H]]. apply lift_ok in H2.
    destruct o as [[w' r']|]; [|discriminate]. cbv zeta in H.
    match type of H with context [check_write ?x ?y] => destruct (check_write x y) as [d' int'] eqn:Hcw end.
    apply Ok_eq in H. subst c2.
    destruct (retire_write _ _ _ _ _ _ _ _ _ _ W M Hst Hid H1 H2) as [a [v [Hs [Ha [Hn [W' M']]]]]].
    pose proof (early_ready _ _ _ _ _ _ _ _ _ R Hst Hl) as Hrd.
    destruct (Hout0 Hl Hout) as [Ho Hi].
    split.
    { eapply pop_J; eauto. }
    split; [eapply wdone_intro; eauto|]. repeat (split; [reflexivity|]).
    split. { unfold step_dbg. fold i in Hs. rewrite Hs. rewrite <- Ha. symmetry. exact Hcw. }
    split; [reflexivity|]. intros a' v' Hs'. fold i in Hs. rewrite Hs in Hs'. inversion Hs'; subst. exact Hn. }
  assert (Hplain : mem_prod i = None -> late i = false -> forall c2,
     c_prog c2 = c_prog c -> c_cfg c2 = c_cfg c -> c_spec c2 = c_spec c -> c_fetch c2 = c_fetch c ->
     c_decode c2 = c_decode c -> c_pred c2 = c_pred c -> c_rat c2 = c_rat c -> c_alus c2 = c_alus c ->
     c_rs c2 = es -> c_regs c2 = c_regs c -> c_wm c2 = c_wm c -> c_ram c2 = c_ram c ->
     a_out T = c_out c2 -> a_in T = c_in c2 ->
     J E den role [e_rrat e; e_wrat e] (jpred i (a_pc A)) (set_pc T (guess i (a_pc A))) c2 /\
     wdone den role T (c_regs c2) (e_wrat e)).
  { intros Hm Hl c2 E1 E2 E3 E4 E5 E6 E7 E8 E9 E10 E11 E12 Ho Hi.
    pose proof (early_ready _ _ _ _ _ _ _ _ _ R Hst Hl) as Hrd. destruct (Hmem Hm) as [W' M'].
    split; [eapply pop_J; eauto; fold i; rewrite ?E10, ?E11, ?E12; auto|]. rewrite E10. eapply wdone_intro; eauto. }
  destruct (retire_shape _ _ _ Hpr Hra) as
    [[-> [Hm [Hl [Hj [Hh [Hb Hout]]]]]]|[[-> [Hm [Hl [Hj Hh]]]]|[[-> [Hm [Hl [d Hj]]]]|[[-> [Hm [Hl [d Hj]]]]|
     [[-> Hi]|[[r [-> Hi]]|[[r [v [Hv [-> Hi]]]]|[[r [v [Hv [-> Hi]]]]|[[-> Hi]|[[-> Hi]|[-> Hi]]]]]]]]]]].
  - (* nothing *)
    cbn [do_racts] in Hdo. apply Ok_eq in Hdo. subst c1.
    destruct (Hout0 Hl Hout) as [Ho Hi].
    destruct (Hplain Hm Hl (set_rs c es)) as [J1 Wd]; auto.
    split; [|split; [first [exact (Hns Hm)|exact K8]|intros r' Hr; rewrite Hr in Hl; discriminate]].
    constructor; auto.
    + apply ctl_none with (A := A); auto.
    + fold i. rewrite Hh. now rewrite orb_false_r.
    + fold i. congruence.
    + fold i. rewrite Hdbg; auto.
  - (* a store *)
    apply racts_one in Hdo. apply Hwr in Hdo; auto using out_mem.
    destruct Hdo as [J1 [Wd [K1 [K2 [K3 [K4 [K5 [K6 [K7 K8]]]]]]]]].
    split; [|split; [first [exact (Hns Hm)|exact K8]|intros r' Hr; rewrite Hr in Hl; discriminate]].
    constructor; auto.
    + apply ctl_none with (A := A); auto.
    + fold i. rewrite Hh. now rewrite orb_false_r.
    + fold i. congruence.
    + rewrite K7. cbn. lia.
  - (* a store and a jump *)
    apply racts_cons in Hdo. destruct Hdo as [c2 [H1 H2]]. apply racts_one in H2. cbn [do_ract] in H2.
    assert (Hh : is_halt i = false) by (eapply halt_jump; eauto).
    apply Hwr in H1; auto using out_mem.
    destruct H1 as [J1 [Wd [K1 [K2 [K3 [K4 [K5 [K6 [K7 K8]]]]]]]]].
    destruct (ctl_jump _ _ _ _ _ _ _ _ Hj Hh J1 Wd H2) as [R1 [R2 [R3 [R4 [R5 [R6 [R7 [R8 [R9 R10]]]]]]]]].
    split; [|split; [first [exact (Hns Hm)|exact K8]|intros r' Hr; rewrite Hr in Hl; discriminate]].
    constructor; fold i; fold T; cbn [set_rs c_prog c_cfg c_halted c_single c_trap c_dbg c_int c_rs];
      rewrite ?Hh, ?orb_false_r; auto; try congruence.
  - (* a jump *)
    apply racts_one in Hdo. cbn [do_ract] in Hdo.
    assert (Hh : is_halt i = false) by (eapply halt_jump; eauto).
    destruct (Hout0 Hl) as [Ho Hi]; [intros; eapply out_jump; eauto|].
    destruct (Hplain Hm Hl (set_rs c es)) as [J1 Wd]; auto.
    destruct (ctl_jump _ _ _ _ _ _ _ _ Hj Hh J1 Wd Hdo) as [R1 [R2 [R3 [R4 [R5 [R6 [R7 [R8 [R9 R10]]]]]]]]].
    split; [|split; [first [exact (Hns Hm)|exact K8]|intros r' Hr; rewrite Hr in Hl; discriminate]].
    constructor; fold i; fold T; cbn [set_rs c_prog c_cfg c_halted c_single c_trap c_dbg c_int c_rs];
      rewrite ?Hh, ?orb_false_r; auto; try congruence.
    + rewrite R9, R6. cbn. rewrite Hdbg; auto. intros Hb. rewrite Hb in Hj. discriminate.
  - (* CLF *)
    apply racts_one in Hdo. cbn [do_ract] in Hdo. apply bind_ok in Hdo. destruct Hdo as [f [H1 H2]].
    apply lift_ok in H1. apply Ok_eq in H2. subst c1.
    assert (Hm : mem_prod i = None) by (rewrite Hi; reflexivity). destruct (Hmem Hm) as [W' M'].
    assert (Hj : jump_dest i = None) by (rewrite Hi; reflexivity).
    cbn [set_rs c_regs] in H1.
    destruct (late_set E den role A (c_regs c) (c_rat c) e es (LR Flags)
      (flags_to_word (mkFlags false false false false)) f R Hst) as [R' Hrd].
    { discriminate. }
    { intros k [ps [Hps Hin]]. fold i in Hps. rewrite Hi in Hps. cbn in Hps. inversion Hps; subst.
      destruct Hin as [Hin|[]]. now inversion Hin. }
    { fold i T. rewrite Er, Hi. reflexivity. }
    { exact H1. }
    assert (J1 : J E den role [e_rrat e; e_wrat e] (jpred i (a_pc A)) (set_pc T (guess i (a_pc A))) (set_regs (set_rs c es) f)).
    { eapply pop_J; eauto; fold i T; rewrite ?Eo, ?Ei, Hi; cbn; rewrite ?app_nil_r; auto. }
    split; [|split; [first [exact (Hns Hm)|exact K8]|intros r' Hr; fold i in Hr; congruence]].
    constructor; auto.
    + apply ctl_none with (A := A); auto.
    + eapply wdone_intro; eauto.
    + fold i. rewrite Hi. cbn. now rewrite orb_false_r.
    + fold i. rewrite Hi. discriminate.
    + fold i. rewrite Hdbg; auto. rewrite Hi. discriminate.
  - (* GETCHAR *)
    apply racts_one in Hdo. cbn [do_ract] in Hdo. cbn [set_rs c_in] in Hdo.
    destruct (get_char (c_in c)) as [[ch rest]|] eqn:Hg; [|discriminate].
    apply bind_ok in Hdo. destruct Hdo as [f [H1 H2]].
    apply lift_ok in H1. apply Ok_eq in H2. subst c1.
    assert (Hm : mem_prod i = None) by (rewrite Hi; reflexivity). destruct (Hmem Hm) as [W' M'].
    assert (Hj : jump_dest i = None) by (rewrite Hi; reflexivity).
    cbn [set_rs c_regs] in H1.
    destruct (late_set E den role A (c_regs c) (c_rat c) e es (LR r) ch f R Hst) as [R' Hrd].
    { intros Hr. specialize (Hpc Hj). rewrite Hi in Hpc. apply Hpc. left. now rewrite Hr. }
    { intros k [ps [Hps Hin]]. fold i in Hps. rewrite Hi in Hps. cbn in Hps. inversion Hps; subst.
      destruct Hin as [Hin|[]]. now inversion Hin. }
    { fold i T. rewrite Er, Hi. cbn [late_reg]. rewrite lreg_eqb_refl, Ji, Hg. reflexivity. }
    { exact H1. }
    assert (J1 : J E den role [e_rrat e; e_wrat e] (jpred i (a_pc A)) (set_pc T (guess i (a_pc A))) (set_in (set_rs c es) f rest)).
    { eapply pop_J; eauto; fold i T; rewrite ?Eo, ?Ei, Hi; cbn; rewrite ?app_nil_r; auto.
      now rewrite Ji, Hg. }
    split; [|split; [first [exact (Hns Hm)|exact K8]|intros r' Hr; rewrite Ji, Hg; discriminate]].
    constructor; auto.
    + apply ctl_none with (A := A); auto.
    + eapply wdone_intro; eauto.
    + fold i. rewrite Hi. cbn. now rewrite orb_false_r.
    + fold i. rewrite Hi. discriminate.
    + fold i. rewrite Hdbg; auto. rewrite Hi. discriminate.
  - (* PUTCHAR *)
    apply racts_one in Hdo. cbn [do_ract] in Hdo. apply Ok_eq in Hdo. subst c1.
    assert (Hm : mem_prod i = None) by (rewrite Hi; reflexivity).
    assert (Hj : jump_dest i = None) by (rewrite Hi; reflexivity).
    assert (Hvs : vs = [v]).
    { rewrite Hi in Hos, Hex. cbn in Hos. inversion Hos; subst os.
      destruct vs as [|x [|y vs']]; cbn in Hex; try discriminate. cbn in Hv. inversion Hv; reflexivity. }
    destruct (Hplain Hm) with (c2 := set_out (set_rs c es) (c_out (set_rs c es) ++ [OutChar (char_of v)])) as [J1 Wd]; auto.
    { now rewrite Hi. }
    { rewrite Eo, Hi, Hvs, Jo. reflexivity. }
    { rewrite Ei, Hi. exact Ji. }
    split; [|split; [first [exact (Hns Hm)|exact K8]|intros r' Hr; fold i in Hr; congruence]].
    constructor; auto.
    + apply ctl_none with (A := A); auto.
    + fold i. rewrite Hi. cbn. now rewrite orb_false_r.
    + fold i. rewrite Hi. discriminate.
    + fold i. rewrite Hdbg; auto. rewrite Hi. discriminate.
  - (* PUTNUM *)
    apply racts_one in Hdo. cbn [do_ract] in Hdo. apply Ok_eq in Hdo. subst c1.
    assert (Hm : mem_prod i = None) by (rewrite Hi; reflexivity).
    assert (Hj : jump_dest i = None) by (rewrite Hi; reflexivity).
    assert (Hvs : vs = [v]).
    { rewrite Hi in Hos, Hex. cbn in Hos. inversion Hos; subst os.
      destruct vs as [|x [|y vs']]; cbn in Hex; try discriminate. cbn in Hv. inversion Hv; reflexivity. }
    destruct (Hplain Hm) with (c2 := set_out (set_rs c es) (c_out (set_rs c es) ++ [OutNum (int_of v)])) as [J1 Wd]; auto.
    { now rewrite Hi. }
    { rewrite Eo, Hi, Hvs, Jo. reflexivity. }
    { rewrite Ei, Hi. exact Ji. }
    split; [|split; [first [exact (Hns Hm)|exact K8]|intros r' Hr; fold i in Hr; congruence]].
    constructor; auto.
    + apply ctl_none with (A := A); auto.
    + fold i. rewrite Hi. cbn. now rewrite orb_false_r.
    + fold i. rewrite Hi. discriminate.
    + fold i. rewrite Hdbg; auto. rewrite Hi. discriminate.
  - (* BKPT *)
    apply racts_cons in Hdo. destruct Hdo as [c2 [H1 H2]]. apply racts_one in H2. cbn [do_ract] in H1, H2.
    apply Ok_eq in H2. subst c1.
    assert (Hm : mem_prod i = None) by (rewrite Hi; reflexivity).
    destruct (Hout0) as [Ho Hin]; [now rewrite Hi|now rewrite Hi|].
    destruct (Hplain Hm) with (c2 := set_rs c es) as [J1 Wd]; auto; [now rewrite Hi|].
    destruct (unroll_inv _ _ _ _ _ _ _ _ _ _ J1 Wd (eff_pc_in _ _ _) H1)
      as [R1 [R2 [R3 [R4 [R5 [R6 [R7 [R8 [R9 [R10 R11]]]]]]]]]].
    split; [|split; [first [exact (Hns Hm)|exact K8]|intros r' Hr; fold i in Hr; congruence]].
    constructor; auto.
    + destruct R1 as [Q1 Q2 Q3 Q4 Q5 Q6 Q7 Q8 Q9]. constructor; auto. destruct Q1; constructor; auto.
    + fold i. rewrite Hi. cbn. rewrite orb_false_r. exact R6.
    + fold i. unfold step_dbg. rewrite eff_store_none by assumption. rewrite Hi. cbn. cbn in R10. now rewrite R10.
    + cbn [set_stop c_rs]. rewrite R11. cbn. lia.
  - (* BREAK *)
    apply racts_one in Hdo. cbn [do_ract] in Hdo.
    assert (Hm : mem_prod i = None) by (rewrite Hi; reflexivity).
    destruct (Hout0) as [Ho Hin]; [now rewrite Hi|now rewrite Hi|].
    destruct (Hplain Hm) with (c2 := set_rs c es) as [J1 Wd]; auto; [now rewrite Hi|].
    destruct (unroll_inv _ _ _ _ _ _ _ _ _ _ J1 Wd (eff_pc_in _ _ _) Hdo)
      as [R1 [R2 [R3 [R4 [R5 [R6 [R7 [R8 [R9 [R10 R11]]]]]]]]]].
    split; [|split; [first [exact (Hns Hm)|exact K8]|intros r' Hr; fold i in Hr; congruence]].
    constructor; auto.
    + fold i. rewrite Hi. cbn. rewrite orb_false_r. exact R6.
    + fold i. rewrite Hdbg; auto; [|rewrite Hi; discriminate]. now rewrite R10, R7.
    + rewrite R11. cbn. lia.
  - (* HALT *)
    apply racts_cons in Hdo. destruct Hdo as [c2 [H1 H2]]. apply racts_one in H2. cbn [do_ract] in H1, H2.
    apply Ok_eq in H2. subst c1.
    assert (Hm : mem_prod i = None) by (rewrite Hi; reflexivity).
    destruct (Hout0) as [Ho Hin]; [now rewrite Hi|now rewrite Hi|].
    destruct (Hplain Hm) with (c2 := set_rs c es) as [J1 Wd]; auto; [now rewrite Hi|].
    destruct (unroll_inv _ _ _ _ _ _ _ _ _ _ J1 Wd (eff_pc_in _ _ _) H1)
      as [R1 [R2 [R3 [R4 [R5 [R6 [R7 [R8 [R9 [R10 R11]]]]]]]]]].
    split; [|split; [first [exact (Hns Hm)|exact K8]|intros r' Hr; fold i in Hr; congruence]].
    constructor; auto.
    + destruct R1 as [Q1 Q2 Q3 Q4 Q5 Q6 Q7 Q8 Q9]. constructor; auto. destruct Q1; constructor; auto.
    + fold i. rewrite Hi. cbn. now rewrite orb_true_r.
    + fold i. rewrite Hdbg; auto; [|rewrite Hi; discriminate]. cbn. cbn in R10, R7. now rewrite R10, R7.
    + cbn [set_halted c_rs]. rewrite R11. cbn. lia.
Qed.

(** ---- Entry::retire as a whole ---- *)

(** state between two retirements of the same clock tick *)
Record K (E : env) (den : nat -> Z) (role : nat -> lreg) (A : arch) (c : cpu) : Prop := mkK {
  k_J : J E den role [] [] A c;
  k_halt : a_halted A = c_halted c;
  k_stop : stop c -> at_rest A c
}.

Lemma final_unsub : forall E den role e T c f, J E den role [e_rrat e; e_wrat e] [] T c ->
  unsub_entries (c_regs c) [e] = Some f -> J E den role [] [] T (set_regs c f).
Proof.
  intros E den role e T c f [Jp Je Jr Jw Jm Ja Jl Jo Ji] H. pose proof (unsub_entries_spec _ _ _ H) as Hu. clear H. rename Hu into H.
  constructor; auto.
  - destruct Jp; constructor; auto.
  - cbn [set_regs c_regs c_rat c_rs]. eapply regs_inv_subs; [exact Jr| |].
    + apply same_vals_sym. apply same_vals_addsubs with (n := fun q => occ q (entry_tabs [e])). exact H.
    + intros p r Hp. pose proof (H p) as Hq. rewrite Hp in Hq. cbn [option_map] in Hq.
      apply (ri_subs _ _ _ _ _ _ _ _ Jr) in Hq. unfold addsubs in Hq. cbn [p_subs] in Hq.
      rewrite occ_tables in Hq |- *. change (entry_tabs [e]) with [e_rrat e; e_wrat e] in Hq.
      rewrite occ_nil. lia.
Qed.

Lemma at_rest_regs : forall T c f, (exists n, forall q, nth_error (c_regs c) q = option_map (addsubs (n q)) (nth_error f q)) ->
  at_rest T c -> at_rest T (set_regs c f).
Proof.
  intros T c f [n H] [R1 [R2 [R3 [R4 [R5 [R6 [[v [R7 R8]] [R9 R10]]]]]]]].
  assert (Hg : forall l, get_lreg (set_regs c f) l = get_lreg c l).
  { intros l. unfold get_lreg. cbn [set_regs c_rat]. destruct (rget (c_rat c) l) as [p|]; [|reflexivity].
    unfold get_preg. cbn [set_regs c_regs]. rewrite H. destruct (nth_error f p); reflexivity. }
  unfold at_rest. repeat (split; [assumption|]). split; [intros l u; rewrite Hg; apply R6|].
  split; [exists v; rewrite Hg; auto|]. auto.
Qed.

Record retired1 (E : env) (den : nat -> Z) (role : nat -> lreg) (A T : arch) (i : instr) (c c' : cpu) : Prop := mkRetired1 {
  r1_K : K E den role T c';
  r1_prog : c_prog c' = c_prog c;
  r1_cfg : c_cfg c' = c_cfg c;
  r1_trap : c_trap c' = c_trap c;
  r1_single : c_single c' = c_single c || c_trap c;
  r1_dbg : (c_dbg c', c_int c') = step_dbg E i A (c_dbg c, c_int c);
  r1_len : (length (c_rs c') < length (c_rs c))%nat
}.

Lemma retire_entry_inv : forall E den role A c e es c',
  K E den role A c -> c_rs c = e :: es -> e_state e = Retiring ->
  retire_entry (set_rs c es) e = Ok c' ->
  e_ins e = prog_at (c_prog c) (a_pc A) /\ io_step E (c_prog c) A (eff E (e_ins e) A) /\
  retired1 E den role A (eff E (e_ins e) A) (e_ins e) c c'.
Proof.
  intros E den role A c e es c' [HJ Hha Hsr] Hrs Hst H.
  assert (Hns : ~ stop c). { intros Hs. destruct (Hsr Hs) as [Hr _]. congruence. }
  destruct (j_ent _ _ _ _ _ _ _ HJ [] e es Hrs) as [Hpa [os [Hos [Hpr Hx]]]]. rewrite Hst in Hx.
  destruct Hx as [vs [ws [acts [Hev [Hex [Hws Hops]]]]]]. change (sfold E A []) with A in *.
  unfold retire_entry in H. rewrite Hops in H. cbn [opt bind] in H.
  apply bind_ok in H. destruct H as [racts [Hra H]]. apply lift_ok in Hra.
  apply bind_ok in H. destruct H as [c1 [Hdo H]].
  destruct (do_racts_inv _ _ _ _ _ _ _ _ _ _ _ _ _ HJ Hrs Hst Hos Hpr Hpa Hev Hex Hws Hra Hdo) as [Rt [Hbd Hgc]].
  destruct (e_exn e) eqn:Hexn; [discriminate|].
  apply bind_ok in H. destruct H as [c2 [H2 H]]. apply bind_ok in H. destruct H as [f [Hf H]].
  apply opt_ok in Hf. apply Ok_eq in H. subst c'.
  destruct Rt as [RJ Rwd Rp Rc Rh Rr Rs Rtr Rd Rl].
  set (T := eff E (e_ins e) A) in *.
  assert (HT : T = commit (e_ins e) vs acts A) by (apply (eff_commit _ _ _ _ _ _ _ Hos Hev Hex)).
  assert (Hh0 : a_halted A = false).
  { rewrite Hha. destruct (c_halted c) eqn:Hc; [|reflexivity]. exfalso. apply Hns. now left. }
  split; [exact Hpa|]. split.
  { rewrite HT. rewrite Hpa. eapply io_intro; [exact Hh0|rewrite <- Hpa; exact Hos|exact Hev|
      rewrite <- Hpa; exact Hex| |]; rewrite <- Hpa; [|exact Hgc].
    intros a v Hs. eapply Hbd. rewrite (eff_store_eq _ _ _ _ _ _ _ Hos Hev Hex). exact Hs. }
  assert (HhT : a_halted T = c_halted c1).
  { rewrite HT. cbn [commit a_halted]. rewrite Hha, Rh. reflexivity. }
  assert (H3 : J E den role [e_rrat e; e_wrat e] [] T c2 /\ (stop c2 -> at_rest T c2) /\
     c_prog c2 = c_prog c1 /\ c_cfg c2 = c_cfg c1 /\ c_halted c2 = c_halted c1 /\ c_int c2 = c_int c1 /\
     c_single c2 = c_single c1 || c_trap c1 /\ c_trap c2 = c_trap c1 /\ c_dbg c2 = c_dbg c1 /\
     (length (c_rs c2) <= length (c_rs c1))%nat).
  { destruct (c_trap c1) eqn:Htr.
    - apply bind_ok in H2. destruct H2 as [c3 [H2 H3]]. apply Ok_eq in H3. subst c2.
      assert (RJ' : J E den role [e_rrat e; e_wrat e] [] (set_pc T (a_pc T)) c1) by (rewrite set_pc_id; exact RJ).
      destruct (unroll_inv _ _ _ _ _ _ _ _ _ _ RJ' Rwd (eff_pc_in _ _ _) H2)
        as [R1 [R2 [R3 [R4 [R5 [R6 [R7 [R8 [R9 [R10 R11]]]]]]]]]].
      split. { destruct R1 as [Q1 Q2 Q3 Q4 Q5 Q6 Q7 Q8 Q9]. constructor; auto. destruct Q1; constructor; auto. }
      cbn [set_stop c_prog c_cfg c_halted c_int c_single c_trap c_dbg c_rs].
      split; [intros _; exact R2|]. rewrite orb_true_r.
      repeat (split; [congruence|]). rewrite R11. cbn. lia.
    - destruct (Z.eqb_spec (c_int c1) 0) as [Hi|Hi]; cbn [negb] in H2.
      + apply Ok_eq in H2. subst c2. split; [exact RJ|]. split.
        { intros [Hs|[Hs|Hs]]; [| |congruence].
          - apply Rr. rewrite Rh in Hs. destruct (is_halt (e_ins e)); [reflexivity|].
            rewrite orb_false_r in Hs. exfalso. apply Hns. left. exact Hs.
          - exfalso. apply Hns. right. left. rewrite Rs in Hs. exact Hs. }
        rewrite orb_false_r. repeat (split; [congruence|]). lia.
      + assert (RJ' : J E den role [e_rrat e; e_wrat e] [] (set_pc T (a_pc T)) c1) by (rewrite set_pc_id; exact RJ).
        destruct (unroll_inv _ _ _ _ _ _ _ _ _ _ RJ' Rwd (eff_pc_in _ _ _) H2)
          as [R1 [R2 [R3 [R4 [R5 [R6 [R7 [R8 [R9 [R10 R11]]]]]]]]]].
        split; [exact R1|]. split; [intros _; exact R2|]. rewrite orb_false_r.
        repeat (split; [congruence|]). rewrite R11. cbn. lia. }
  destruct H3 as [K1 [K2 [K3 [K4 [K5 [K6 [K7 [K8 [K9 K10]]]]]]]]].
  constructor; cbn [set_regs c_prog c_cfg c_trap c_single c_dbg c_int c_rs].
  - constructor.
    + eapply final_unsub; eauto.
    + cbn. congruence.
    + intros Hs. apply at_rest_regs; [|apply K2; exact Hs].
      exists (fun q => occ q (entry_tabs [e])). intros q. apply (unsub_entries_spec _ _ _ Hf).
  - rewrite K3, Rp. reflexivity.
  - rewrite K4, Rc. reflexivity.
  - rewrite K8, Rtr. reflexivity.
  - rewrite K7, Rs, Rtr. reflexivity.
  - rewrite K9, K6. exact Rd.
  - cbn in Rl. rewrite Hrs. cbn. lia.
Qed.

(** Debug state after a number of in-order steps; only the last one may leave an
    interrupt behind. *)
Inductive io_run (E : env) (p : list instr) : list instr -> arch -> list Z * Z -> arch -> list Z * Z -> Prop :=
| ior_nil : forall A s, io_run E p [] A s A s
| ior_cons : forall is A s T A' s', io_step E p A T ->
    (is <> [] -> snd (step_dbg E (prog_at p (a_pc A)) A s) = 0) ->
    io_run E p is T (step_dbg E (prog_at p (a_pc A)) A s) A' s' ->
    io_run E p (prog_at p (a_pc A) :: is) A s A' s'.

Lemma io_run_steps : forall E p is A s A' s', io_run E p is A s A' s' -> io_steps E p (length is) A A'.
Proof. induction 1; cbn; econstructor; eauto. Qed.

Lemma retire_loop_inv : forall E den role n A c c',
  K E den role A c -> retire_loop n c = Ok c' ->
  exists is A', io_run E (c_prog c) is A (c_dbg c, c_int c) A' (c_dbg c', c_int c') /\
    K E den role A' c' /\ c_prog c' = c_prog c /\ c_cfg c' = c_cfg c /\ c_trap c' = c_trap c /\
    c_single c' = c_single c || (c_trap c && negb (Nat.eqb (length is) 0)) /\
    (c_trap c = true -> length is <= 1)%nat /\ (c_rs c = [] -> is = []) /\ length is = retire_count n c.
Proof.
  induction n as [|n IH]; intros A c c' HK H; cbn [retire_loop] in H.
  - apply Ok_eq in H. subst c'. exists [], A. split; [constructor|]. split; [exact HK|].
    cbn. rewrite andb_false_r, orb_false_r. auto 10.
  - assert (Hnil : Ok c = (Ok c' : res cpu cpu) ->
       exists is A', io_run E (c_prog c) is A (c_dbg c, c_int c) A' (c_dbg c', c_int c') /\
        K E den role A' c' /\ c_prog c' = c_prog c /\ c_cfg c' = c_cfg c /\ c_trap c' = c_trap c /\
        c_single c' = c_single c || (c_trap c && negb (Nat.eqb (length is) 0)) /\
        (c_trap c = true -> length is <= 1)%nat /\ (c_rs c = [] -> is = []) /\ length is = 0%nat).
    { intros H0. apply Ok_eq in H0. subst c'. exists [], A. split; [constructor|]. split; [exact HK|].
      cbn. rewrite andb_false_r, orb_false_r. auto 10. }
    cbn [retire_count]. destruct (c_rs c) as [|e es] eqn:Hrs; [now apply Hnil|].
    destruct (e_state e) eqn:Hst; try (now apply Hnil). clear Hnil.
    apply bind_ok in H. destruct H as [c1 [H1 H]]. rewrite H1.
    destruct (retire_entry_inv _ _ _ _ _ _ _ _ HK Hrs Hst H1) as [Hpa [Hio [R1 R2 R3 R4 R5 R6 R7]]].
    destruct (IH _ _ _ R1 H) as [is [A' [I1 [I2 [I3 [I4 [I5 [I6 [I7 [I8 I9]]]]]]]]]].
    exists (e_ins e :: is), A'. split.
    { rewrite Hpa. eapply ior_cons; [exact Hio| |].
      - rewrite <- Hpa, <- R6. intros Hne. cbn [snd]. destruct (Z.eq_dec (c_int c1) 0) as [Hz|Hz]; [exact Hz|].
        exfalso. apply Hne. apply I8. assert (Hr : at_rest (eff E (e_ins e) A) c1).
        { apply (k_stop _ _ _ _ _ R1). right. now right. }
        apply Hr.
      - rewrite <- Hpa, <- R6, <- R2. exact I1. }
    split; [exact I2|]. split; [congruence|]. split; [congruence|]. split; [congruence|].
    assert (Hnt : c_trap c = true -> is = []).
    { intros Ht. apply I8. assert (Hr : at_rest (eff E (e_ins e) A) c1).
      { apply (k_stop _ _ _ _ _ R1). right. left. rewrite R5, Ht. apply orb_true_r. }
      apply Hr. }
    split; [|split; [intros Ht; rewrite (Hnt Ht); cbn; lia|split; [discriminate|cbn [length]; now rewrite I9]]].
    rewrite I6, R5, R4. cbn [length Nat.eqb negb]. destruct (c_trap c), (c_single c); cbn; try reflexivity.
Qed.
