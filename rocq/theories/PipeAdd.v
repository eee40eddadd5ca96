(** L5: adding a decoded instruction to the reservation station. *)
From Coq Require Import ZArith NArith List Bool Sorted Lia.
From Verif Require Import Base Alu Isa Exec Ram Writes Rat Cpu InOrder PipeInv PipeBasics PipeActs PipeMem
  PipeExec PipePoll PipeRetire.
Import ListNotations.
Open Scope Z_scope.

Definition vr (o : option preg) : option (Z * bool) := option_map (fun r => (p_val r, p_ready r)) o.

(** everything a set of tables can see is unchanged *)
Definition ext (Ts : list rat) (f : pfile) (den : nat -> Z) (role : nat -> lreg)
  (f' : pfile) (den' : nat -> Z) (role' : nat -> lreg) : Prop :=
  forall t l q, In t Ts -> rget t l = Some q ->
    den' q = den q /\ role' q = role q /\ vr (nth_error f' q) = vr (nth_error f q).

Lemma ext_refl : forall Ts f den role, ext Ts f den role f den role.
Proof. intros Ts f den role t l q _ _. auto. Qed.

Lemma ext_trans : forall Ts f den role f1 den1 role1 f2 den2 role2,
  ext Ts f den role f1 den1 role1 -> ext Ts f1 den1 role1 f2 den2 role2 ->
  ext Ts f den role f2 den2 role2.
Proof.
  intros Ts f den role f1 den1 role1 f2 den2 role2 H1 H2 t l q Ht Hq.
  destruct (H1 t l q Ht Hq) as [A1 [A2 A3]]. destruct (H2 t l q Ht Hq) as [B1 [B2 B3]]. split; [congruence|].
  split; congruence.
Qed.

Lemma ext_sub : forall Ts Ts' f den role f' den' role', (forall t, In t Ts' -> In t Ts) ->
  ext Ts f den role f' den' role' -> ext Ts' f den role f' den' role'.
Proof. intros Ts Ts' f den role f' den' role' H X t l q Ht. apply X; auto. Qed.

Lemma ext_same : forall Ts f den role f', same_vals f f' -> ext Ts f den role f' den role.
Proof. intros Ts f den role f' H t l q _ _. repeat split. apply H. Qed.

Lemma vr_ready : forall f f' q, vr (nth_error f' q) = vr (nth_error f q) -> ready_at f q -> ready_at f' q.
Proof.
  intros f f' q H [r [H1 H2]]. rewrite H1 in H. cbn in H. destruct (nth_error f' q) as [r'|] eqn:Hq; [|discriminate].
  cbn in H. inversion H. exists r'. split; [exact Hq|congruence].
Qed.

Lemma vr_some : forall f f' q r, vr (nth_error f' q) = vr (nth_error f q) -> nth_error f q = Some r ->
  exists r', nth_error f' q = Some r' /\ p_val r' = p_val r /\ p_ready r' = p_ready r.
Proof.
  intros f f' q r H H1. rewrite H1 in H. cbn in H. destruct (nth_error f' q) as [r'|] eqn:Hq; [|discriminate].
  cbn in H. inversion H. eauto.
Qed.

Lemma table_ext : forall Ts f den role f' den' role' t S, ext Ts f den role f' den' role' -> In t Ts ->
  table_ok den role t S -> table_ok den' role' t S.
Proof.
  intros Ts f den role f' den' role' t S X Ht H l p Hp. destruct (X t l p Ht Hp) as [A1 [A2 A3]].
  rewrite A1, A2. auto.
Qed.

Lemma rdy_ext : forall Ts f den role f' den' role' t es, ext Ts f den role f' den' role' -> In t Ts ->
  rdy_table f t es -> rdy_table f' t es.
Proof.
  intros Ts f den role f' den' role' t es X Ht H l p Hl Hp. destruct (X t l p Ht Hp) as [A1 [A2 A3]].
  destruct (H l p Hl Hp); [left; eapply vr_ready; eauto|now right].
Qed.

(** the current table while the products are being renamed *)
Record TI (den : nat -> Z) (role : nat -> lreg) (S T : arch) (X : list rat) (done : list lreg)
  (rs : list entry) (f : pfile) (t : rat) : Prop := mkTI {
  ti_role : forall l p, rget t l = Some p -> role p = l;
  ti_done : forall l p, rget t l = Some p -> l <> LR PC -> In l done -> den p = a_reg T l;
  ti_old : forall l p, rget t l = Some p -> l <> LR PC -> ~ In l done -> den p = a_reg S l;
  ti_rdy : forall l p, l <> LR PC -> rget t l = Some p -> ready_at f p \/ pendp rs p \/ In l done;
  ti_val : forall p r, nth_error f p = Some r -> p_ready r = true -> role p <> LR PC -> p_val r = den p;
  ti_subs : forall p r, nth_error f p = Some r -> p_subs r = occ p (tables X t rs)
}.

Lemma in_dec_lreg : forall (l : lreg) d, In l d \/ ~ In l d.
Proof. intros l d. destruct (in_dec lreg_eq_dec l d); auto. Qed.

Lemma next_free_spec : forall f t i p, next_free_from f t i = Some p ->
  rat_unmapped t p = true /\ (i <= p)%nat /\ exists r, nth_error f (p - i) = Some r /\ p_subs r = 0%nat.
Proof.
  induction f as [|r f IH]; intros t i p H; cbn in H; [discriminate|].
  destruct (rat_unmapped t i && Nat.eqb (p_subs r) 0) eqn:Hc.
  - inversion H; subst. apply andb_prop in Hc. destruct Hc as [H1 H2]. apply Nat.eqb_eq in H2.
    split; [exact H1|]. split; [lia|]. exists r. rewrite Nat.sub_diag. auto.
  - apply IH in H. destruct H as [H1 [H2 [r' [H3 H4]]]]. split; [exact H1|]. split; [lia|].
    exists r'. split; [|exact H4]. replace (p - i)%nat with (S (p - S i)) by lia. exact H3.
Qed.

Lemma rename_inv : forall den role S T X done rs c l c',
  TI den role S T X done rs (c_regs c) (c_rat c) -> rename c l = Ok c' ->
  exists p f' den' role', c' = set_rat c f' (rset (c_rat c) l p) /\
    TI den' role' S T X (l :: done) rs f' (rset (c_rat c) l p) /\
    ext (X ++ entry_tabs rs) (c_regs c) den role f' den' role' /\
    (forall t k, In t (X ++ entry_tabs rs) -> rget t k <> Some p) /\
    (exists r, nth_error f' p = Some r) /\ role' p = l.
Proof.
  intros den role S T X done rs c l c' [Tr Td To Ty Tv Ts] H. unfold rename in H.
  destruct (next_free_from (c_regs c) (c_rat c) 0) as [p|] eqn:Hn; [|discriminate].
  destruct (negb (lreg_ok (c_cfg c) l)); [discriminate|].
  apply bind_ok in H. destruct H as [f1 [H1 H]]. apply bind_ok in H. destruct H as [f2 [H2 H]].
  apply bind_ok in H. destruct H as [f3 [H3 H]]. apply Ok_eq in H. subst c'.
  apply opt_ok in H2. apply opt_ok in H3.
  apply next_free_spec in Hn. destruct Hn as [_ [_ [rp [Hp Hs0]]]]. rewrite Nat.sub_0_r in Hp.
  pose proof (Ts _ _ Hp) as Hocc. rewrite Hs0, occ_tables in Hocc.
  assert (Hfr : forall t k, In t (X ++ entry_tabs rs) -> rget t k <> Some p).
  { intros t k Ht Hk. apply cnt_pos in Hk. apply in_app_or in Ht.
    destruct Ht as [Ht|Ht]; apply (occ_in p) in Ht; lia. }
  assert (Hct : forall k, rget (c_rat c) k <> Some p).
  { intros k Hk. apply cnt_pos in Hk. lia. }
  pose proof (psub_spec _ _ _ H2) as E2.
  set (old := rget (c_rat c) l) in *.
  assert (E1 : forall q, nth_error (c_regs c) q =
     option_map (addsubs (match old with Some o => if Nat.eqb q o then 1 else 0 | None => 0 end)) (nth_error f1 q)).
  { intros q. destruct old as [o|].
    - apply opt_ok in H1. apply (punsub_spec _ _ _ H1).
    - apply Ok_eq in H1. subst f1. destruct (nth_error (c_regs c) q) as [[]|]; reflexivity. }
  unfold pset in H3. destruct (nth_error f2 p) as [r2|] eqn:H2p; [|discriminate]. inversion H3; subst f3. clear H3.
  set (f3 := set_nth f2 p (mkPreg (p_val r2) false (p_subs r2))) in *.
  assert (E3 : forall q, q <> p -> vr (nth_error f3 q) = vr (nth_error (c_regs c) q)).
  { intros q Hq. unfold f3. rewrite nth_set_nth_other by auto. rewrite E2, E1. destruct (nth_error f1 q); reflexivity. }
  assert (E3p : nth_error f3 p = Some (mkPreg (p_val r2) false (p_subs r2))).
  { unfold f3. eapply nth_set_nth_same; eauto. }
  exists p, f3, (fun q => if Nat.eqb q p then a_reg T l else den q), (fun q => if Nat.eqb q p then l else role q).
  assert (Hg : forall k q, rget (rset (c_rat c) l p) k = Some q -> (k = l /\ q = p) \/
            (k <> l /\ q <> p /\ rget (c_rat c) k = Some q)).
  { intros k q Hk. rewrite rget_rset in Hk. revert Hk. destruct (lreg_eqb_spec k l) as [->|Hne]; intros Hk.
    - left. split; congruence.
    - right. split; [exact Hne|]. split; [intros ->; eapply Hct; eauto|exact Hk]. }
  split; [reflexivity|]. split; [|split; [|split; [exact Hfr|split; [eauto|now rewrite Nat.eqb_refl]]]].
  - constructor.
    + intros k q Hk. apply Hg in Hk. destruct Hk as [[-> ->]|[Hne [Hq Hk]]].
      * now rewrite Nat.eqb_refl.
      * destruct (Nat.eqb_spec q p); [congruence|]. eauto.
    + intros k q Hk Hpc Hin. apply Hg in Hk. destruct Hk as [[-> ->]|[Hne [Hq Hk]]].
      * now rewrite Nat.eqb_refl.
      * destruct (Nat.eqb_spec q p); [congruence|]. destruct Hin as [Hin|Hin]; [congruence|]. eauto.
    + intros k q Hk Hpc Hin. apply Hg in Hk. destruct Hk as [[-> ->]|[Hne [Hq Hk]]].
      * exfalso. apply Hin. now left.
      * destruct (Nat.eqb_spec q p); [congruence|]. apply To; auto. intros Hd. apply Hin. now right.
    + intros k q Hpc Hk. apply Hg in Hk. destruct Hk as [[-> ->]|[Hne [Hq Hk]]].
      * right. right. now left.
      * destruct (Ty k q Hpc Hk) as [R|[R|R]]; [left; apply (vr_ready (c_regs c)); [apply E3; exact Hq|exact R]|right; left; exact R|right; right; now right].
    + intros q r Hq Hrd Hro. destruct (Nat.eqb_spec q p) as [->|Hne].
      * rewrite E3p in Hq. inversion Hq; subst r. discriminate.
      * destruct (vr_some _ _ _ _ (eq_sym (E3 q Hne)) Hq) as [r' [R1 [R2 R3]]].
        rewrite <- R2. apply (Tv q r'); congruence.
    + intros q r Hq.
      assert (Hq2 : exists r', nth_error f2 q = Some r' /\ p_subs r' = p_subs r).
      { destruct (Nat.eq_dec q p) as [->|Hne].
        - rewrite E3p in Hq. inversion Hq; subst. eauto.
        - unfold f3 in Hq. rewrite nth_set_nth_other in Hq by auto. eauto. }
      destruct Hq2 as [r' [Q1 Q2]]. rewrite E2 in Q1. destruct (nth_error f1 q) as [r1|] eqn:Q3; [|discriminate].
      cbn [option_map] in Q1. inversion Q1; subst r'. unfold addsubs in Q2. cbn [p_subs] in Q2.
      pose proof (E1 q) as Q4. rewrite Q3 in Q4. cbn [option_map] in Q4. apply Ts in Q4.
      unfold addsubs in Q4. cbn [p_subs] in Q4. rewrite occ_tables in Q4 |- *.
      unfold old in Q4. destruct (rget (c_rat c) l) as [o|] eqn:Ho.
      * pose proof (cnt_rset_some _ _ p _ q Ho). lia.
      * pose proof (cnt_rset_none _ _ p q Ho). lia.
  - intros t k q Ht Hk. assert (Hq : q <> p) by (intros ->; eapply Hfr; eauto).
    destruct (Nat.eqb_spec q p); [congruence|]. auto.
Qed.

(** ---- renaming all products ---- *)

Fixpoint reg_prods (ps : list product) : list lreg :=
  match ps with
  | [] => []
  | PReg l :: ps' => if is_pc l then reg_prods ps' else l :: reg_prods ps'
  | _ :: ps' => reg_prods ps'
  end.

Lemma reg_prods_in : forall ps l, In l (reg_prods ps) <-> In (PReg l) ps /\ l <> LR PC.
Proof.
  induction ps as [|[k|a|] ps IH]; intros l; cbn [reg_prods].
  - cbn. tauto.
  - destruct (is_pc k) eqn:Hk.
    + rewrite IH. cbn. apply is_pc_spec in Hk. subst k. split; [tauto|].
      intros [[H|H] Hn]; [inversion H; congruence|tauto].
    + cbn. rewrite IH. split.
      * intros [->|H]; [|tauto]. split; [tauto|]. intros ->. cbn in Hk. discriminate.
      * intros [[H|H] Hn]; [inversion H; tauto|tauto].
  - rewrite IH. cbn. split; [tauto|]. intros [[H|H] Hn]; [discriminate|tauto].
  - rewrite IH. cbn. split; [tauto|]. intros [[H|H] Hn]; [discriminate|tauto].
Qed.

Fixpoint wm_prods (w : wman) (ids : list Z) (ps : list product) : wman * list Z :=
  match ps with
  | [] => (w, ids)
  | PReg _ :: ps' => wm_prods w ids ps'
  | PMem a :: ps' => let '(w', id) := wm_register_at w a in wm_prods w' (ids ++ [id]) ps'
  | PMemReg :: ps' => let '(w', id) := wm_register w in wm_prods w' (ids ++ [id]) ps'
  end.

Lemma add_products_inv : forall S T X rs ps den role done c ids c' ids',
  TI den role S T X done rs (c_regs c) (c_rat c) -> add_products c ids ps = Ok (c', ids') ->
  exists f' t' w' den' role', c' = set_wm (set_rat c f' t') w' /\ wm_prods (c_wm c) ids ps = (w', ids') /\
    TI den' role' S T X (rev (reg_prods ps) ++ done) rs f' t' /\
    ext (X ++ entry_tabs rs) (c_regs c) den role f' den' role' /\
    rget t' (LR PC) = rget (c_rat c) (LR PC).
Proof.
  intros S T X rs. induction ps as [|[l|a|] ps IH]; intros den role done c ids c' ids' HT H; cbn [add_products] in H.
  - apply Ok_eq in H. inversion H; subst. exists (c_regs c'), (c_rat c'), (c_wm c'), den, role.
    split; [now destruct c'|]. split; [reflexivity|]. split; [exact HT|]. split; [apply ext_refl|reflexivity].
  - cbn [reg_prods wm_prods]. destruct (is_pc l) eqn:Hl.
    + eapply IH; eauto.
    + apply bind_ok in H. destruct H as [c1 [H1 H]].
      destruct (rename_inv _ _ _ _ _ _ _ _ _ _ HT H1) as [p [f1 [den1 [role1 [-> [T1 [X1 _]]]]]]].
      destruct (IH den1 role1 (l :: done) (set_rat c f1 (rset (c_rat c) l p)) ids c' ids' T1 H)
        as [f' [t' [w' [den' [role' [-> [W1 [T2 [X2 P2]]]]]]]]].
      exists f', t', w', den', role'. split; [reflexivity|]. split; [exact W1|].
      split. { cbn [rev]. rewrite <- app_assoc. exact T2. }
      split; [eapply ext_trans; eauto|].
      rewrite P2. cbn [set_rat c_rat]. rewrite rget_rset. destruct (lreg_eqb_spec (LR PC) l) as [<-|]; [|reflexivity].
      cbn in Hl. discriminate.
  - cbn [reg_prods wm_prods]. destruct (wm_register_at (c_wm c) a) as [w1 id] eqn:Hw.
    destruct (IH den role done (set_wm c w1) (ids ++ [id]) c' ids' HT H)
      as [f' [t' [w' [den' [role' [-> [W1 [T2 [X2 P2]]]]]]]]].
    exists f', t', w', den', role'. split; [reflexivity|]. split; [exact W1|]. auto.
  - cbn [reg_prods wm_prods]. destruct (wm_register (c_wm c)) as [w1 id] eqn:Hw.
    destruct (IH den role done (set_wm c w1) (ids ++ [id]) c' ids' HT H)
      as [f' [t' [w' [den' [role' [-> [W1 [T2 [X2 P2]]]]]]]]].
    exists f', t', w', den', role'. split; [reflexivity|]. split; [exact W1|]. auto.
Qed.

(** at most one memory write per instruction *)
Lemma wm_prods_eq : forall i ps w, produces i = Some ps ->
  wm_prods w [] ps =
  match prod_mem ps with
  | None => (w, [])
  | Some None => (mkWm (wm_cur w + 1) (wm_map w) (wm_byid w) (wm_cur w + 1 :: wm_unspec w), [wm_cur w + 1])
  | Some (Some a) => (wm_insert w (wm_cur w + 1) a (wm_unspec w) (wm_cur w + 1), [wm_cur w + 1])
  end.
Proof.
  intros i ps w H. destruct i; cbn in H; try (inversion H; subst ps; reflexivity).
  destruct d; cbn in H; try discriminate H; inversion H; subst ps; reflexivity.
Qed.

(** ---- the new entry ---- *)

Lemma wm_inv_push : forall E S0 w rs e ps,
  wm_inv E S0 w rs -> produces (e_ins e) = Some ps ->
  e_state e <> Retiring -> e_wids e = snd (wm_prods w [] ps) ->
  e_maxid e = wm_cur (fst (wm_prods w [] ps)) ->
  wm_inv E S0 (fst (wm_prods w [] ps)) (rs ++ [e]) /\
  (forall a m, mw_ram m <> None -> (In m (vec (fst (wm_prods w [] ps)) a) <-> In m (vec w a))).
Proof.
  intros E S0 w rs e ps [Kk So Ad Sr Cu Ou Sh En Mx] Hps Hst Hwid Hmax.
  rewrite (wm_prods_eq _ _ _ Hps) in *.
  assert (Hmp : mem_prod (e_ins e) = prod_mem ps) by (unfold mem_prod; now rewrite Hps).
  assert (Hids : forall x id, In x rs -> In id (e_wids x) -> id <= wm_cur w).
  { intros x id Hx Hi. destruct (in_split _ _ Hx) as [d [t ->]]. destruct (Mx d x t eq_refl) as [H1 [H2 _]].
    specialize (H2 id Hi). lia. }
  assert (Hmxs : forall x, In x rs -> e_maxid x <= wm_cur w).
  { intros x Hx. destruct (in_split _ _ Hx) as [d [t ->]]. apply (Mx d x t eq_refl). }
  assert (Hne : entry_write E (sfold E S0 rs) (fst (match prod_mem ps with
      | None => (w, [])
      | Some None => (mkWm (wm_cur w + 1) (wm_map w) (wm_byid w) (wm_cur w + 1 :: wm_unspec w), [wm_cur w + 1])
      | Some (Some a) => (wm_insert w (wm_cur w + 1) a (wm_unspec w) (wm_cur w + 1), [wm_cur w + 1])
      end)) e (wm_cur w + 1) \/ prod_mem ps = None).
  { unfold entry_write. rewrite Hmp. destruct (prod_mem ps) as [[a|]|]; [left|left|now right]; cbn [fst].
    - assert (Hg : In (mkMw (wm_cur w + 1) a None None) (vec (wm_insert w (wm_cur w + 1) a (wm_unspec w) (wm_cur w + 1)) a) /\
        forall a' m, In m (vec (wm_insert w (wm_cur w + 1) a (wm_unspec w) (wm_cur w + 1)) a') ->
          mw_id m = wm_cur w + 1 -> a' = a /\ m = mkMw (wm_cur w + 1) a None None).
      { split; [apply wm_insert_in; auto|]. intros a' m Hm Hi. apply wm_insert_in in Hm.
        destruct Hm as [Hm|[-> ->]]; [|auto]. apply Cu in Hm. lia. }
      destruct (e_state e); try exact Hg. congruence.
    - assert (Hg : In (wm_cur w + 1) (wm_cur w + 1 :: wm_unspec w) /\
        forall a m, In m (vec (mkWm (wm_cur w + 1) (wm_map w) (wm_byid w) (wm_cur w + 1 :: wm_unspec w)) a) -> mw_id m <> wm_cur w + 1).
      { split; [now left|]. intros a m Hm. change (In m (vec w a)) in Hm. apply Cu in Hm. lia. }
      destruct (e_state e); try exact Hg. congruence. }
  destruct (prod_mem ps) as [[a|]|] eqn:Hpm; cbn [fst snd] in *.
  - destruct Hne as [Hne|Hne]; [|discriminate].
    set (w' := wm_insert w (wm_cur w + 1) a (wm_unspec w) (wm_cur w + 1)) in *.
    assert (Win : forall b m, In m (vec w' b) <-> In m (vec w b) \/ (b = a /\ m = mkMw (wm_cur w + 1) a None None))
      by (intros; apply wm_insert_in).
    assert (Hcur : wm_cur w' = wm_cur w + 1) by apply wm_insert_cur.
    split.
    2: { intros b m Hr. rewrite Win. split; [|now left]. intros [H|[-> ->]]; [exact H|]. now cbn in Hr. }
    constructor.
    + now apply wm_insert_keys.
    + apply wm_insert_sorted; auto. intros m Hm. apply Cu in Hm. lia.
    + intros b m Hm. apply Win in Hm. destruct Hm as [Hm|[-> ->]]; [auto|reflexivity].
    + intros b m Hm. apply Win in Hm. destruct Hm as [Hm|[-> ->]].
      * specialize (Sr b m Hm). destruct (mw_ram m).
        { destruct Sr as [S1 S2]. split; [exact S1|]. intros x id Hx Hi. apply in_app_or in Hx.
          destruct Hx as [Hx|[<-|[]]]; [eauto|]. rewrite Hwid in Hi. destruct Hi as [<-|[]]. apply Cu in Hm. lia. }
        { destruct Sr as [x [Hx Hi]]. exists x. split; [apply in_or_app; auto|exact Hi]. }
      * cbn [mw_ram mw_id]. exists e. split; [apply in_or_app; right; now left|]. rewrite Hwid. now left.
    + intros b m Hm. rewrite Hcur. apply Win in Hm. destruct Hm as [Hm|[-> ->]]; [apply Cu in Hm; lia|cbn; lia].
    + intros b m x Hm Hr Hx. apply Win in Hm. destruct Hm as [Hm|[-> ->]]; [|now cbn in Hr].
      apply in_app_or in Hx. destruct Hx as [Hx|[<-|[]]]; [eauto|]. rewrite Hmax. apply Cu in Hm. lia.
    + intros x Hx. apply in_app_or in Hx. destruct Hx as [Hx|[<-|[]]]; [exact (Sh x Hx)|]. rewrite Hmp. eauto.
    + intros pre x post id Hs Hi. apply split_last in Hs. destruct Hs as [[-> [-> ->]]|[mid [-> ->]]].
      * rewrite Hwid in Hi. destruct Hi as [<-|[]]. exact Hne.
      * assert (Hid : id <= wm_cur w) by (eapply Hids; eauto; apply in_or_app; right; now left).
        specialize (En pre x mid id eq_refl Hi). unfold entry_write in *.
        destruct (e_state x).
        4: { destruct En as [b [u [H1 [H2 H3]]]]. exists b, u. split; [exact H1|]. split; [apply Win; now left|].
             intros b' y Hy Hyi. apply Win in Hy. destruct Hy as [Hy|[-> ->]]; [auto|]. cbn in Hyi. lia. }
        all: destruct (mem_prod (e_ins x)) as [[b|]|]; destruct En as [H1 H2]; split;
          try (apply Win; left; exact H1);
          try (unfold w'; rewrite wm_insert_unspec; exact H1);
          intros b' y Hy; apply Win in Hy; (destruct Hy as [Hy|[-> ->]];
            [first [exact (H2 _ _ Hy)|eauto]|intros Hyi; cbn in Hyi; lia]).
    + intros pre x post Hs. apply split_last in Hs. destruct Hs as [[-> [-> ->]]|[mid [-> ->]]].
      * split; [rewrite Hmax; lia|]. split; [|intros y []]. intros id Hi. rewrite Hwid in Hi.
        destruct Hi as [<-|[]]. rewrite Hmax, Hcur. lia.
      * destruct (Mx pre x mid eq_refl) as [M1 [M2 M3]]. split; [rewrite Hcur; lia|]. split; [exact M2|].
        intros y Hy. apply in_app_or in Hy. destruct Hy as [Hy|[<-|[]]]; [auto|].
        split; [rewrite Hmax, Hcur; lia|]. intros id Hi. rewrite Hwid in Hi. destruct Hi as [<-|[]]. lia.
  - destruct Hne as [Hne|Hne]; [|discriminate].
    set (w' := mkWm (wm_cur w + 1) (wm_map w) (wm_byid w) (wm_cur w + 1 :: wm_unspec w)) in *.
    assert (Win : forall b, vec w' b = vec w b) by reflexivity.
    split; [|intros; rewrite Win; tauto].
    constructor.
    + exact Kk.
    + exact So.
    + exact Ad.
    + intros b m Hm. rewrite Win in Hm. specialize (Sr b m Hm). destruct (mw_ram m).
      * destruct Sr as [S1 S2]. split; [exact S1|]. intros x id Hx Hi. apply in_app_or in Hx.
        destruct Hx as [Hx|[<-|[]]]; [eauto|]. rewrite Hwid in Hi. destruct Hi as [<-|[]]. apply Cu in Hm. lia.
      * destruct Sr as [x [Hx Hi]]. exists x. split; [apply in_or_app; auto|exact Hi].
    + intros b m Hm. rewrite Win in Hm. apply Cu in Hm. cbn. lia.
    + intros b m x Hm Hr Hx. rewrite Win in Hm. apply in_app_or in Hx. destruct Hx as [Hx|[<-|[]]]; [eauto|].
      rewrite Hmax. apply Cu in Hm. cbn. lia.
    + intros x Hx. apply in_app_or in Hx. destruct Hx as [Hx|[<-|[]]]; [exact (Sh x Hx)|]. rewrite Hmp. eauto.
    + intros pre x post id Hs Hi. apply split_last in Hs. destruct Hs as [[-> [-> ->]]|[mid [-> ->]]].
      * rewrite Hwid in Hi. destruct Hi as [<-|[]]. exact Hne.
      * specialize (En pre x mid id eq_refl Hi). unfold entry_write in *.
        destruct (e_state x); try exact En;
        destruct (mem_prod (e_ins x)) as [[b|]|]; try exact En;
          (destruct En as [H1 H2]; split; [now right|exact H2]).
    + intros pre x post Hs. apply split_last in Hs. destruct Hs as [[-> [-> ->]]|[mid [-> ->]]].
      * split; [rewrite Hmax; lia|]. split; [|intros y []]. intros id Hi. rewrite Hwid in Hi.
        destruct Hi as [<-|[]]. rewrite Hmax. cbn. lia.
      * destruct (Mx pre x mid eq_refl) as [M1 [M2 M3]]. split; [cbn; lia|]. split; [exact M2|].
        intros y Hy. apply in_app_or in Hy. destruct Hy as [Hy|[<-|[]]]; [auto|].
        split; [rewrite Hmax; cbn; lia|]. intros id Hi. rewrite Hwid in Hi. destruct Hi as [<-|[]]. lia.
  - split; [|tauto]. constructor; auto.
    + intros b m Hm. specialize (Sr b m Hm). destruct (mw_ram m).
      * destruct Sr as [S1 S2]. split; [exact S1|]. intros x id Hx Hi. apply in_app_or in Hx.
        destruct Hx as [Hx|[<-|[]]]; [eauto|]. rewrite Hwid in Hi. destruct Hi.
      * destruct Sr as [x [Hx Hi]]. exists x. split; [apply in_or_app; auto|exact Hi].
    + intros b m x Hm Hr Hx. apply in_app_or in Hx. destruct Hx as [Hx|[<-|[]]]; [eauto|].
      rewrite Hmax. eauto.
    + intros x Hx. apply in_app_or in Hx. destruct Hx as [Hx|[<-|[]]]; [exact (Sh x Hx)|]. rewrite Hmp. auto.
    + intros pre x post id Hs Hi. apply split_last in Hs. destruct Hs as [[-> [-> ->]]|[mid [-> ->]]].
      * rewrite Hwid in Hi. destruct Hi.
      * apply (En pre x mid id eq_refl Hi).
    + intros pre x post Hs. apply split_last in Hs. destruct Hs as [[-> [-> ->]]|[mid [-> ->]]].
      * split; [rewrite Hmax; lia|]. split; [|intros y []]. intros id Hi. rewrite Hwid in Hi. destruct Hi.
      * destruct (Mx pre x mid eq_refl) as [M1 [M2 M3]]. split; [exact M1|]. split; [exact M2|].
        intros y Hy. apply in_app_or in Hy. destruct Hy as [Hy|[<-|[]]]; [auto|].
        split; [rewrite Hmax; lia|]. intros id Hi. rewrite Hwid in Hi. destruct Hi.
Qed.

Lemma TI_start : forall E den role S0 f t rs T, regs_inv E den role [] S0 f t rs ->
  TI den role (sfold E S0 rs) T [] [] rs f t.
Proof.
  intros E den role S0 f t rs T [Rt Wt Tt Pc Pn Va Rr Wr Rd Su]. constructor; auto.
  - intros l p H. apply (Tt l p H).
  - intros l p _ _ [].
  - intros l p H Hl _. now apply (Tt l p H).
  - intros l p Hl H. destruct (Rd l p Hl H); auto.
Qed.

Lemma TI_same : forall den role S T X X' done rs f f' t, TI den role S T X done rs f t -> same_vals f f' ->
  (forall p r, nth_error f' p = Some r -> p_subs r = occ p (tables X' t rs)) ->
  TI den role S T X' done rs f' t.
Proof.
  intros den role S T X X' done rs f f' t [Tr Td To Ty Tv Ts] Hs Hsub. constructor; auto.
  - intros l p Hl H. destruct (Ty l p Hl H) as [R|R]; [left; eapply ready_same; eauto|now right].
  - intros p r Hp Hrd Hro. destruct (same_vals_some _ _ _ _ (same_vals_sym _ _ Hs) Hp) as [r' [H6 [H7 H8]]].
    rewrite <- H7. apply (Tv p r'); congruence.
Qed.

Lemma set_pc_TI : forall den role S T X done rs f t p v r, TI den role S T X done rs f t ->
  rget t (LR PC) = Some p -> nth_error f p = Some r ->
  TI den role S T X done rs (set_nth f p (mkPreg v true (p_subs r))) t.
Proof.
  intros den role S T X done rs f t p v r [Tr Td To Ty Tv Ts] Hp Hr.
  pose proof (Tr _ _ Hp) as Hrp. constructor; auto.
  - intros l q Hl Hq. assert (Hne : q <> p). { intros ->. pose proof (Tr _ _ Hq). congruence. }
    destruct (Ty l q Hl Hq) as [[r' [R1 R2]]|R]; [left|now right]. exists r'.
    split; [|exact R2]. now rewrite nth_set_nth_other by auto.
  - intros q r' Hq Hrd Hro. assert (Hne : q <> p) by congruence.
    rewrite nth_set_nth_other in Hq by auto. eauto.
  - intros q r' Hq. destruct (Nat.eq_dec q p) as [->|Hne].
    + rewrite (nth_set_nth_same _ _ _ _ _ Hr) in Hq. inversion Hq; subst. cbn. now apply Ts.
    + rewrite nth_set_nth_other in Hq by auto. eauto.
Qed.

Lemma occ_push : forall p X t rs e, occ p (tables X t (rs ++ [e])) =
  (occ p (tables X t rs) + cnt p (e_rrat e) + cnt p (e_wrat e))%nat.
Proof.
  intros. rewrite !occ_tables, entry_tabs_app, occ_app.
  change (entry_tabs [e]) with [e_rrat e; e_wrat e]. rewrite !occ_cons, occ_nil. lia.
Qed.

Lemma regs_push : forall E den role den0 role0 S0 f0 t0 rs f rr wr e p r v,
  regs_inv E den0 role0 [] S0 f0 t0 rs ->
  ext (entry_tabs rs) f0 den0 role0 f den role ->
  e_rrat e = rr -> e_wrat e = wr -> e_state e <> Retiring ->
  table_ok den role rr (sfold E S0 rs) -> rdy_table f rr rs ->
  table_ok den role wr (eff E (e_ins e) (sfold E S0 rs)) -> rdy_table f wr (rs ++ [e]) ->
  rget rr (LR PC) = Some p -> rget wr (LR PC) = Some p -> nth_error f p = Some r ->
  p_ready r = true -> p_val r = v -> v = s64 (u64 (a_pc (sfold E S0 rs) + 1)) ->
  (forall x k, In x rs -> rget (e_rrat x) k <> Some p) ->
  (forall q r', nth_error f q = Some r' -> p_ready r' = true -> role q <> LR PC -> p_val r' = den q) ->
  (forall q r', nth_error f q = Some r' -> p_subs r' = occ q (tables [] wr (rs ++ [e]))) ->
  regs_inv E den role [] S0 f wr (rs ++ [e]).
Proof.
  intros E den role den0 role0 S0 f0 t0 rs f rr wr e p r v [Rt Wt Tt Pc Pn Va Rr Wr Rd Su] X Erw Eww Est
    Tr Yr Tw Yw Pr Pw Hp Hrd Hv Hvv Hfr Hval Hsub.
  assert (Hin : forall pre x post, rs = pre ++ x :: post ->
     In (e_rrat x) (entry_tabs rs) /\ In (e_wrat x) (entry_tabs rs)).
  { intros pre x post ->. rewrite entry_tabs_app.
    change (entry_tabs (x :: post)) with ([e_rrat x; e_wrat x] ++ entry_tabs post).
    split; apply in_or_app; right; cbn; auto. }
  constructor; auto.
  - intros pre x post Hs. apply split_last in Hs. destruct Hs as [[-> [-> ->]]|[mid [Hrs ->]]].
    + now rewrite Erw.
    + eapply table_ext; [exact X|apply (Hin _ _ _ Hrs)|eauto].
  - intros pre x post Hs. apply split_last in Hs. destruct Hs as [[-> [-> ->]]|[mid [Hrs ->]]].
    + now rewrite Eww.
    + eapply table_ext; [exact X|apply (Hin _ _ _ Hrs)|eauto].
  - rewrite sfold_snoc. exact Tw.
  - intros pre x post Hs. apply split_last in Hs. destruct Hs as [[-> [-> ->]]|[mid [Hrs ->]]].
    + exists p, r. rewrite Erw, Eww. repeat (split; [assumption|]).
      destruct (e_state e); congruence.
    + destruct (Pc _ _ _ Hrs) as [q [rq [H1 [H2 [H3 [H4 H5]]]]]].
      destruct (X _ _ _ (proj1 (Hin _ _ _ Hrs)) H1) as [_ [_ A3]].
      destruct (vr_some _ _ _ _ A3 H3) as [r' [B1 [B2 B3]]].
      exists q, r'. split; [exact H1|]. split; [exact H2|]. split; [exact B1|]. split; [congruence|].
      destruct (e_state x); congruence.
  - intros pre x post y Hs Hy. apply split_last in Hs. destruct Hs as [[-> [-> ->]]|[mid [Hrs ->]]].
    + rewrite app_nil_r in Hy. rewrite Erw, Pr. now apply Hfr.
    + rewrite app_assoc in Hy. apply in_app_or in Hy. destruct Hy as [Hy|[<-|[]]].
      * eapply Pn; eauto.
      * rewrite Erw, Pr. intros H. symmetry in H. revert H. apply Hfr. rewrite Hrs. apply in_or_app. right. now left.
  - intros pre x post Hs. apply split_last in Hs. destruct Hs as [[-> [-> ->]]|[mid [Hrs ->]]].
    + now rewrite Erw.
    + eapply rdy_ext; [exact X|apply (Hin _ _ _ Hrs)|eauto].
  - intros pre x post Hs. apply split_last in Hs. destruct Hs as [[-> [-> ->]]|[mid [Hrs ->]]].
    + now rewrite Eww.
    + eapply rdy_ext; [exact X|apply (Hin _ _ _ Hrs)|eauto].
Qed.

Lemma add_inv : forall E den role A c i pc l c',
  J E den role [] [] A c -> c_decode c = Some (i, pc) -> c_fetch c = l ->
  add c i pc = Ok c' ->
  exists den' role', J E den' role' [] [] A (set_front c' (c_spec c') (c_fetch c') None (c_pred c')) /\
    c_prog c' = c_prog c /\ c_cfg c' = c_cfg c /\ c_trap c' = c_trap c /\ c_single c' = c_single c /\
    c_halted c' = c_halted c /\ c_dbg c' = c_dbg c /\ c_int c' = c_int c.
Proof.
  intros E den role A c i pc l c' HJ Hd Hf H. unfold add in H.
  destruct (Nat.ltb_spec (length (c_rs c)) (g_rs (c_cfg c))) as [Hlen|]; cbn [negb] in H; [|discriminate].
  apply bind_ok in H. destruct H as [c1 [H1 H]]. apply bind_ok in H. destruct H as [c2 [H2 H]].
  cbv zeta in H. apply bind_ok in H. destruct H as [f2 [H3 H]]. apply opt_ok in H3.
  destruct (produces i) as [ps|] eqn:Hps; [|discriminate].
  apply bind_ok in H. destruct H as [[c4 ids] [H4 H]]. apply bind_ok in H. destruct H as [f4 [H5 H]]. apply opt_ok in H5.
  destruct (operands i) as [ops|] eqn:Hops; [|discriminate]. apply Ok_eq in H. subst c'.
  pose proof (j_regs _ _ _ _ _ _ _ HJ) as R.
  set (rs := c_rs c) in *. set (S := sfold E A rs). set (T := eff E i S).
  pose proof (TI_start E den role A (c_regs c) (c_rat c) rs T R) as T0. fold S in T0.
  destruct (rename_inv _ _ _ _ _ _ _ _ _ _ T0 H1) as [p [f1 [den1 [role1 [-> [T1 [X1 [Fr1 [[r1 Hr1] Rp]]]]]]]]].
  cbn [app] in X1, Fr1.
  assert (Ht1 : rget (rset (c_rat c) (LR PC) p) (LR PC) = Some p) by (rewrite rget_rset, lreg_eqb_refl; reflexivity).
  unfold set_lreg in H2. cbn [set_rat c_rat c_regs] in H2. rewrite Ht1 in H2.
  unfold pset in H2. rewrite Hr1 in H2. apply Ok_eq in H2. subst c2.
  set (rr := rset (c_rat c) (LR PC) p) in *.
  cbn [set_regs set_rat c_rat c_regs] in H3.
  pose proof (set_pc_TI _ _ _ _ _ _ _ _ _ _ (s64 pc) _ T1 Ht1 Hr1) as T2.
  set (f1' := set_nth f1 p (mkPreg (s64 pc) true (p_subs r1))) in *.
  assert (Hf1p : nth_error f1' p = Some (mkPreg (s64 pc) true (p_subs r1))) by (eapply nth_set_nth_same; eauto).
  assert (X2 : ext (entry_tabs rs) (c_regs c) den role f1' den1 role1).
  { intros t k q Ht Hk. destruct (X1 t k q Ht Hk) as [B1 [B2 B3]]. split; [exact B1|]. split; [exact B2|].
    unfold f1'. rewrite nth_set_nth_other; [exact B3|]. intros ->. eapply Fr1; eauto. }
  pose proof (psub_all_spec _ _ _ H3) as E3.
  assert (Sv3 : same_vals f1' f2) by (eapply same_vals_addsubs; exact E3).
  assert (T3 : TI den1 role1 S T [rr] [LR PC] rs f2 rr).
  { eapply TI_same; [exact T2|exact Sv3|]. intros q r Hq. rewrite E3 in Hq.
    destruct (nth_error f1' q) as [r'|] eqn:Hq'; [|discriminate]. cbn [option_map] in Hq. inversion Hq; subst r.
    pose proof (ti_subs _ _ _ _ _ _ _ _ _ T2 _ _ Hq') as Hs. unfold addsubs. cbn [p_subs].
    rewrite occ_tables in Hs |- *. rewrite occ_cons, occ_nil in *. lia. }
  destruct (add_products_inv S T [rr] rs ps den1 role1 [LR PC] (set_regs (set_regs (set_rat c f1 rr) f1') f2) [] c4 ids T3 H4) as [f3 [wr [w' [den' [role' [-> [Hw [T4 [X4 Hpc4]]]]]]]]].
  cbn [set_wm set_rat set_regs c_wm c_rat c_regs] in *.
  pose proof (psub_all_spec _ _ _ H5) as E5.
  assert (Sv5 : same_vals f3 f4) by (eapply same_vals_addsubs; exact E5).
  set (e := mkEntry i ops rr wr ids (wm_cur w') (if all_fetched ops then Ready else Preparing) (exec_length i) false).
  destruct HJ as [Jp Je _ Jw Jm Ja Jl Jo Ji].
  destruct Jp as [P1 P2 P3 P4]. unfold front in P1, P2. rewrite Hd in P1, P2. cbn [optl app map fst fpath] in P1, P2.
  destruct P1 as [Q1 [Q2 Q3]].
  assert (Hpcs : a_pc S = gpc (a_pc A) (map e_ins rs)) by apply sfold_pc.
  assert (Est : e_state e <> Retiring) by (cbn; destruct (all_fetched ops); discriminate).
  assert (Hrr : ext [rr] f2 den1 role1 f4 den' role').
  { eapply ext_trans; [|apply ext_same; exact Sv5]. eapply ext_sub; [|exact X4]. intros t [<-|[]]. now left. }
  assert (Hwr : rget wr (LR PC) = Some p) by (rewrite Hpc4; exact Ht1).
  assert (Hf4p : exists r4, nth_error f4 p = Some r4 /\ p_ready r4 = true /\ p_val r4 = s64 pc).
  { destruct (Hrr rr (LR PC) p (or_introl eq_refl) Ht1) as [_ [_ A3]].
    destruct (same_vals_some _ _ _ _ Sv3 Hf1p) as [ra [A4 [A5 A6]]].
    destruct (vr_some _ _ _ _ A3 A4) as [r4 [A7 [A8 A9]]]. exists r4. cbn in A5, A6. split; [exact A7|]. split; congruence. }
  destruct Hf4p as [r4 [Hr4 [Hr4r Hr4v]]].
  assert (Tfin : forall k q, rget wr k = Some q -> k <> LR PC -> den' q = a_reg T k).
  { intros k q Hk Hn. destruct (in_dec_lreg k (rev (reg_prods ps) ++ [LR PC])) as [Hin|Hin].
    - eapply (ti_done _ _ _ _ _ _ _ _ _ T4); eauto.
    - rewrite (ti_old _ _ _ _ _ _ _ _ _ T4 k q Hk Hn Hin). symmetry. apply eff_reg_other; [congruence|].
      intros [ps' [Hps' Hk']]. rewrite Hps in Hps'. inversion Hps'; subst ps'.
      apply Hin. apply in_or_app. left. apply -> in_rev. apply reg_prods_in. auto. }
  assert (Hrdy : rdy_table f4 wr (rs ++ [e])).
  { intros k q Hn Hk. destruct (ti_rdy _ _ _ _ _ _ _ _ _ T4 k q Hn Hk) as [Hy|[Hy|Hy]].
    - left. eapply ready_same; eauto.
    - right. eapply pendp_in; [|exact Hy]. intros x Hx. apply in_or_app. now left.
    - right. exists e, k. split; [apply in_or_app; right; now left|]. split; [now left|].
      split; [|split; [exact Hn|exact Hk]]. exists ps. split; [exact Hps|].
      apply in_app_or in Hy. destruct Hy as [Hy|[Hy|[]]]; [|congruence].
      apply in_rev in Hy. now apply reg_prods_in in Hy. }
  exists den', role'. split; [|repeat split].
  assert (Hnew : regs_inv E den' role' [] A f4 wr (rs ++ [e])).
  { apply (regs_push E den' role' den role A (c_regs c) (c_rat c) rs f4 rr wr e p r4 (s64 pc)); auto.
    - eapply ext_trans; [exact X2|]. eapply ext_trans; [apply ext_same; exact Sv3|].
      eapply ext_trans; [|apply ext_same; exact Sv5]. eapply ext_sub; [|exact X4].
      intros t Ht. now right.
    - eapply table_ext; [exact Hrr|now left|]. fold S. intros k q Hk. split; [apply (ti_role _ _ _ _ _ _ _ _ _ T3 _ _ Hk)|].
      intros Hn. apply (ti_old _ _ _ _ _ _ _ _ _ T3 k q Hk Hn). intros [H|[]]. congruence.
    - eapply rdy_ext; [exact Hrr|now left|]. intros k q Hn Hk.
      destruct (ti_rdy _ _ _ _ _ _ _ _ _ T3 k q Hn Hk) as [Hy|[Hy|[Hy|[]]]]; auto. congruence.
    - fold S. intros k q Hk. split; [apply (ti_role _ _ _ _ _ _ _ _ _ T4 _ _ Hk)|]. intros Hn. apply Tfin; auto.
    - fold S. rewrite Q2, Hpcs. reflexivity.
    - intros x k Hx. apply Fr1. destruct (in_split _ _ Hx) as [d [t ->]]. rewrite entry_tabs_app.
      apply in_or_app. right. now left.
    - intros q r' Hq Hrd Hro. destruct (same_vals_some _ _ _ _ (same_vals_sym _ _ Sv5) Hq) as [r5 [H6 [H7 H8]]].
      rewrite <- H7. apply (ti_val _ _ _ _ _ _ _ _ _ T4 q r5); congruence.
    - intros q r' Hq. rewrite E5 in Hq. destruct (nth_error f3 q) as [r5|] eqn:Hq'; [|discriminate].
      cbn [option_map] in Hq. inversion Hq; subst r'.
      pose proof (ti_subs _ _ _ _ _ _ _ _ _ T4 _ _ Hq') as Hs. unfold addsubs. cbn [p_subs].
      rewrite occ_push, Hs, !occ_tables, occ_cons, occ_nil. cbn [e e_rrat e_wrat]. lia. }
  assert (Hwm : wm_inv E A w' (rs ++ [e]) /\ forall a m, mw_ram m <> None -> (In m (vec w' a) <-> In m (vec (c_wm c) a))).
  { pose proof (wm_inv_push E A (c_wm c) rs e ps Jw Hps Est) as W. rewrite Hw in W. cbn [fst snd] in W. apply W; reflexivity. }
  destruct Hwm as [Hwm Hwx].
  assert (Hpth : fpath (c_prog c) (gpc (a_pc A) (map e_ins (rs ++ [e]))) (optl (c_fetch c)) (c_spec c)).
  { rewrite map_app, gpc_app. cbn [map gpc e e_ins]. exact Q3. }
  constructor; cbn [set_front set_rs set_regs set_wm set_rat c_prog c_rs c_regs c_rat c_wm c_ram c_alus c_cfg c_out c_in].
  - constructor; unfold front; cbn [set_front set_rs set_regs set_wm set_rat c_prog c_rs c_decode c_fetch c_pred c_spec optl app].
    + exact Hpth.
    + rewrite P2. fold rs. rewrite map_app, <- app_assoc. reflexivity.
    + exact P3.
    + exact P4.
  - intros pre x post Hs. apply split_last in Hs. destruct Hs as [[-> [-> ->]]|[mid [Hrs ->]]].
    + fold S. split; [cbn [e_ins e]; unfold S; rewrite sfold_pc; exact Q1|].
      exists ops. cbn [e e_ins e_state e_ops e_exn]. split; [exact Hops|]. split; [congruence|].
      unfold all_fetched. destruct (op_vals ops) as [vs|] eqn:Hv.
      * exists vs. split; [reflexivity|]. now apply op_vals_evs.
      * unfold addx. destruct (evs E (sfold E A (c_rs c)) ops) as [[vs b]|]; reflexivity.
    + apply (Je _ _ _ Hrs).
  - exact Hnew.
  - exact Hwm.
  - eapply ram_inv_ext; [exact Hwx|exact Jm].
  - fold rs. rewrite count_alus_app. unfold count_alus at 2. cbn [filter]. unfold executing_alu at 1.
    cbn [e_state]. fold rs in Ja. destruct (all_fetched ops); cbn; lia.
  - fold rs. rewrite app_length. cbn. lia.
  - exact Jo.
  - exact Ji.
Qed.
