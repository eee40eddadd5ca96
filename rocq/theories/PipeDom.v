(** Bookkeeping of physical registers: every table maps exactly the registers of
    the machine, and there is always a free physical register to rename to. *)
From Coq Require Import ZArith NArith List Bool Sorted Lia.
From Verif Require Import Base Alu Isa Exec Ram Writes Rat Cpu InOrder PipeInv PipeBasics PipeActs PipeMem
  PipeExec PipePoll PipeRetire PipeAdd PipeTick PipeBoot.
Import ListNotations.
Open Scope Z_scope.

Definition nphys (g : cfg) : nat := (4 + g_reg g + g_freg g + 7 * g_rs g)%nat.
Definition nlog (g : cfg) : nat := (g_reg g + g_freg g + 4)%nat.

Record tab_ok (g : cfg) (t : rat) : Prop := mkTabOk {
  tb_dom : forall l, lreg_ok g l = true -> exists p, rget t l = Some p;
  tb_only : forall l p, rget t l = Some p -> lreg_ok g l = true;
  tb_img : forall p, In p (map snd t) -> (p < nphys g)%nat;
  tb_len : length t = nlog g
}.

(** [t'] uses at most [k] registers that [t] does not use *)
Definition grow (k : nat) (t t' : rat) : Prop :=
  exists N, (length N <= k)%nat /\ incl (map snd t') (N ++ map snd t).

Definition tabs (rs : list entry) : list (rat * rat) := map (fun e => (e_rrat e, e_wrat e)) rs.

Fixpoint chain (ts : list (rat * rat)) (t : rat) : Prop :=
  match ts with
  | [] => True
  | (a, b) :: ts' => grow 2 a b /\
      match ts' with [] => grow 0 b t | (a', _) :: _ => grow 1 b a' end /\ chain ts' t
  end.

Definition flat (ts : list (rat * rat)) : list rat := flat_map (fun x => [fst x; snd x]) ts.

Definition first (ts : list (rat * rat)) (t : rat) : rat := match ts with [] => t | (a, _) :: _ => a end.

Lemma flat_tabs : forall rs, flat (tabs rs) = flat_map (fun e => [e_rrat e; e_wrat e]) rs.
Proof. intros rs. unfold flat, tabs. induction rs as [|e rs IH]; [reflexivity|]. cbn [map flat_map fst snd]. now rewrite IH. Qed.

Record Dt (g : cfg) (ts : list (rat * rat)) (t : rat) : Prop := mkDt {
  dt_tab : tab_ok g t;
  dt_ents : forall a b, In (a, b) ts -> tab_ok g a /\ tab_ok g b;
  dt_chain : chain ts t
}.

Definition D (c : cpu) : Prop :=
  length (c_regs c) = nphys (c_cfg c) /\ Dt (c_cfg c) (tabs (c_rs c)) (c_rat c).

(** ---- counting ---- *)

Lemma grow_refl : forall t, grow 0 t t.
Proof. intros t. exists []. split; [auto|]. cbn. apply incl_refl. Qed.

Lemma chain_live : forall ts t B, chain ts t -> incl (map snd (first ts t)) B ->
  exists L, (length L <= length B + 3 * length ts)%nat /\ incl B L /\
    incl (flat_map (map snd) (t :: flat ts)) L.
Proof.
  induction ts as [|[a b] ts IH]; intros t B Hc Hb.
  - exists B. split; [cbn; lia|]. split; [apply incl_refl|]. cbn. rewrite app_nil_r. exact Hb.
  - cbn [chain] in Hc. destruct Hc as [[N1 [L1 G1]] [Hn Hc]]. cbn [first] in Hb.
    assert (Hb1 : incl (map snd b) (N1 ++ B)).
    { intros x Hx. apply G1 in Hx. apply in_app_or in Hx. apply in_or_app. destruct Hx; [now left|right; auto]. }
    assert (Hx : exists N2, (length N2 <= 1)%nat /\ incl (map snd (first ts t)) (N2 ++ N1 ++ B)).
    { destruct ts as [|[a' b'] ts]; cbn [first].
      - destruct Hn as [N2 [L2 G2]]. exists N2. split; [lia|]. intros x Hx. apply G2 in Hx.
        apply in_app_or in Hx. apply in_or_app. destruct Hx; [now left|right; auto].
      - destruct Hn as [N2 [L2 G2]]. exists N2. split; [lia|]. intros x Hx. apply G2 in Hx.
        apply in_app_or in Hx. apply in_or_app. destruct Hx; [now left|right; auto]. }
    destruct Hx as [N2 [L2 G2]].
    destruct (IH t (N2 ++ N1 ++ B) Hc G2) as [L [HL1 [HL2 HL3]]].
    exists L. rewrite !app_length in HL1. split; [cbn [length]; lia|].
    split. { intros x Hx. apply HL2. apply in_or_app. right. apply in_or_app. now right. }
    cbn [flat flat_map fst snd app]. intros x Hx. cbn [flat_map] in HL3.
    apply in_app_or in Hx. destruct Hx as [Hx|Hx]; [apply HL3, in_or_app; now left|].
    apply in_app_or in Hx. destruct Hx as [Hx|Hx].
    { apply HL2. apply in_or_app. right. apply in_or_app. right. auto. }
    apply in_app_or in Hx. destruct Hx as [Hx|Hx].
    { apply HL2. apply in_or_app. right. auto. }
    apply HL3, in_or_app. now right.
Qed.

Definition live_le (n : nat) (ts : list rat) : Prop :=
  exists L, (length L <= n)%nat /\ incl (flat_map (map snd) ts) L.

Lemma Dt_live : forall g ts t, Dt g ts t -> live_le (nlog g + 3 * length ts) (t :: flat ts).
Proof.
  intros g ts t [Dt1 De Dc]. destruct (chain_live ts t (map snd (first ts t)) Dc (incl_refl _)) as [L [H1 [_ H3]]].
  exists L. split; [|exact H3]. rewrite map_length in H1.
  assert (Hl : length (first ts t) = nlog g).
  { destruct ts as [|[a b] ts]; cbn [first]; [apply tb_len; exact Dt1|].
    apply tb_len. apply (De a b). now left. }
  lia.
Qed.

Lemma rset_images : forall t l p, incl (map snd (rset t l p)) (p :: map snd t).
Proof.
  induction t as [|[k q] t IH]; intros l p x Hx; cbn in Hx |- *.
  - destruct Hx as [<-|[]]; auto.
  - destruct (lreg_eqb l k); cbn in Hx.
    + destruct Hx as [<-|Hx]; auto.
    + destruct Hx as [<-|Hx]; auto. apply IH in Hx. destruct Hx; auto.
Qed.

Lemma live_rset : forall n X t ts l p, live_le n (X ++ t :: ts) -> live_le (S n) (X ++ rset t l p :: ts).
Proof.
  intros n X t ts l p [L [H1 H2]]. exists (p :: L). split; [cbn; lia|].
  intros x Hx. rewrite flat_map_app in Hx, H2. cbn [flat_map] in Hx, H2.
  apply in_app_or in Hx. destruct Hx as [Hx|Hx].
  { right. apply H2. apply in_or_app. now left. }
  apply in_app_or in Hx. destruct Hx as [Hx|Hx].
  - apply rset_images in Hx. destruct Hx as [<-|Hx]; [now left|]. right. apply H2.
    apply in_or_app. right. apply in_or_app. now left.
  - right. apply H2. apply in_or_app. right. apply in_or_app. now right.
Qed.

Lemma live_dup : forall n t ts, live_le n (t :: ts) -> live_le n ([t] ++ t :: ts).
Proof.
  intros n t ts [L [H1 H2]]. exists L. split; [exact H1|]. intros x Hx. cbn [app flat_map] in Hx.
  apply in_app_or in Hx. destruct Hx as [Hx|Hx]; apply H2; auto. cbn. apply in_or_app. now left.
Qed.


Lemma tab_ok_rset : forall g t l p, tab_ok g t -> lreg_ok g l = true -> (p < nphys g)%nat -> tab_ok g (rset t l p).
Proof.
  intros g t l p [T1 T2 T3 T4] Hl Hp. constructor.
  - intros k Hk. rewrite rget_rset. destruct (lreg_eqb k l); eauto.
  - intros k q Hk. rewrite rget_rset in Hk. revert Hk. destruct (lreg_eqb_spec k l) as [->|]; intros Hk; eauto.
  - intros q Hq. apply rset_images in Hq. destruct Hq as [<-|Hq]; auto.
  - destruct (T1 l Hl) as [q Hq]. rewrite (rset_length _ _ _ _ Hq). exact T4.
Qed.

Lemma grow_rset : forall k t t' l p, grow k t t' -> grow (S k) t (rset t' l p).
Proof.
  intros k t t' l p [N [H1 H2]]. exists (p :: N). split; [cbn; lia|]. intros x Hx. apply rset_images in Hx.
  destruct Hx as [<-|Hx]; [now left|]. right. auto.
Qed.

Lemma grow_le : forall k k' t t', (k <= k')%nat -> grow k t t' -> grow k' t t'.
Proof. intros k k' t t' Hk [N [H1 H2]]. exists N. split; [lia|exact H2]. Qed.

Lemma chain_snoc : forall ts t a b, chain ts t -> grow 1 t a -> grow 2 a b -> chain (ts ++ [(a, b)]) b.
Proof.
  induction ts as [|[x y] ts IH]; intros t a b Hc G1 G2; cbn [app chain].
  - split; [exact G2|]. split; [apply grow_refl|exact I].
  - cbn [chain] in Hc. destruct Hc as [H1 [H2 H3]]. split; [exact H1|]. split; [|eapply IH; eauto].
    destruct ts as [|[x' y'] ts]; cbn [app].
    + destruct H2 as [N2 [L2 I2]]. destruct G1 as [N1 [L1 I1]]. exists (N1 ++ N2). rewrite app_length. split; [lia|].
      intros z Hz. apply I1 in Hz. rewrite <- app_assoc. apply in_app_or in Hz. apply in_or_app.
      destruct Hz; [now left|right; auto].
    + exact H2.
Qed.

(** ---- finding a free register ---- *)

Lemma next_free_none : forall f t i, next_free_from f t i = None ->
  forall p r, nth_error f p = Some r -> In (i + p)%nat (map snd t) \/ p_subs r <> 0%nat.
Proof.
  induction f as [|r0 f IH]; intros t i H p r Hp; [destruct p; discriminate|]. cbn in H.
  destruct (rat_unmapped t i && Nat.eqb (p_subs r0) 0) eqn:Hc; [discriminate|].
  destruct p as [|p]; cbn in Hp.
  - inversion Hp; subst r0. apply andb_false_iff in Hc. destruct Hc as [Hc|Hc].
    + left. rewrite Nat.add_0_r. unfold rat_unmapped in Hc.
      clear -Hc. induction t as [|[k q] t IH]; cbn in Hc |- *; [discriminate|].
      destruct (Nat.eqb_spec q i); [now left|]. cbn in Hc. right. auto.
    + right. now apply Nat.eqb_neq in Hc.
  - replace (i + S p)%nat with (S i + p)%nat by lia. eauto.
Qed.

Lemma occ_some : forall p ts, occ p ts <> 0%nat -> In p (flat_map (map snd) ts).
Proof. intros p ts H. unfold occ in H. apply (count_occ_In Nat.eq_dec). lia. Qed.

Lemma free_exists : forall f X t ts n,
  (forall p r, nth_error f p = Some r -> p_subs r = occ p (X ++ t :: ts)) ->
  live_le n (X ++ t :: ts) -> (n < length f)%nat -> exists p, next_free_from f t 0 = Some p.
Proof.
  intros f X t ts n Hs [L [H1 H2]] Hn. destruct (next_free_from f t 0) as [p|] eqn:Hf; [eauto|]. exfalso.
  pose proof (next_free_none _ _ _ Hf) as Ha.
  assert (Hi : incl (seq 0 (length f)) L).
  { intros p Hp. apply in_seq in Hp. destruct (nth_error f p) as [r|] eqn:Hr.
    - apply H2. destruct (Ha p r Hr) as [Hm|Hm].
      + rewrite flat_map_app. apply in_or_app. right. cbn. apply in_or_app. now left.
      + rewrite (Hs _ _ Hr) in Hm. now apply occ_some.
    - apply nth_error_None in Hr. lia. }
  pose proof (NoDup_incl_length (seq_NoDup (length f) 0) Hi) as Hl. rewrite seq_length in Hl. lia.
Qed.

Lemma next_free_lt : forall f t p, next_free_from f t 0 = Some p -> (p < length f)%nat.
Proof.
  intros f t p H. apply next_free_spec in H. destruct H as [_ [_ [r [H _]]]]. rewrite Nat.sub_0_r in H.
  apply nth_error_Some. congruence.
Qed.

Lemma pset_some : forall f p g, (p < length f)%nat -> exists f', pset f p g = Some f' /\ length f' = length f.
Proof.
  intros f p g H. unfold pset. destruct (nth_error f p) as [r|] eqn:Hr; [|apply nth_error_None in Hr; lia].
  eexists. split; [reflexivity|]. apply set_nth_length.
Qed.

Lemma psub_all_some : forall t f, (forall p, In p (map snd t) -> (p < length f)%nat) ->
  exists f', psub_all f t = Some f' /\ length f' = length f.
Proof.
  induction t as [|[k p] t IH]; intros f H; cbn; [eauto|].
  destruct (pset_some f p (fun r => mkPreg (p_val r) (p_ready r) (S (p_subs r)))) as [f1 [H1 L1]].
  { apply H. now left. }
  unfold psub. rewrite H1. destruct (IH f1) as [f2 [H2 L2]].
  { intros q Hq. rewrite L1. apply H. now right. }
  exists f2. split; [exact H2|congruence].
Qed.

Lemma rget_image : forall t l p, rget t l = Some p -> In p (map snd t).
Proof.
  induction t as [|[k q] t IH]; intros l p H; cbn in *; [discriminate|].
  destruct (lreg_eqb l k); [inversion H; auto|right; eauto].
Qed.

Lemma punsub_some : forall f p r, nth_error f p = Some r -> p_subs r <> 0%nat ->
  exists f', punsub f p = Some f' /\ length f' = length f.
Proof.
  intros f p r H Hs. unfold punsub. rewrite H. destruct (p_subs r) as [|n]; [congruence|].
  eexists. split; [reflexivity|]. apply set_nth_length.
Qed.

(** ---- renaming ---- *)

Definition rename_out (c : cpu) (l : lreg) : Prop :=
  match rename c l with
  | Ok c' => exists p f', c' = set_rat c f' (rset (c_rat c) l p) /\ length f' = length (c_regs c) /\
               (p < length (c_regs c))%nat /\ lreg_ok (c_cfg c) l = true
  | Throw e _ => e = ERegRange /\ lreg_ok (c_cfg c) l = false
  | Undef _ => False
  end.

Lemma rename_ok : forall c l X ts n,
  (forall p r, nth_error (c_regs c) p = Some r -> p_subs r = occ p (X ++ c_rat c :: ts)) ->
  live_le n (X ++ c_rat c :: ts) -> (n < length (c_regs c))%nat ->
  length (c_regs c) = nphys (c_cfg c) -> tab_ok (c_cfg c) (c_rat c) -> rename_out c l.
Proof.
  intros c l X ts n Hs Hl Hn Hlen Ht. unfold rename_out, rename.
  destruct (free_exists _ _ _ _ _ Hs Hl Hn) as [p Hp]. rewrite Hp.
  pose proof (next_free_lt _ _ _ Hp) as Hlt.
  destruct (lreg_ok (c_cfg c) l) eqn:Hok; cbn [negb]; [|auto].
  destruct (tb_dom _ _ Ht l Hok) as [old Hold]. rewrite Hold.
  assert (Hin : In old (map snd (c_rat c))) by (eapply rget_image; eauto).
  pose proof (tb_img _ _ Ht old Hin) as Hb. rewrite <- Hlen in Hb.
  destruct (nth_error (c_regs c) old) as [r|] eqn:Hr; [|apply nth_error_None in Hr; lia].
  assert (Hsub : p_subs r <> 0%nat).
  { rewrite (Hs _ _ Hr). unfold occ. rewrite flat_map_app, count_occ_app. cbn [flat_map]. rewrite count_occ_app.
    pose proof (proj1 (count_occ_In Nat.eq_dec (map snd (c_rat c)) old) Hin). lia. }
  destruct (punsub_some _ _ _ Hr Hsub) as [f1 [H1 L1]]. rewrite H1. cbn [opt bind].
  destruct (pset_some f1 p (fun r => mkPreg (p_val r) (p_ready r) (S (p_subs r)))) as [f2 [H2 L2]]; [lia|].
  unfold psub. rewrite H2. cbn [opt bind].
  destruct (pset_some f2 p (fun r => mkPreg (p_val r) false (p_subs r))) as [f3 [H3 L3]]; [lia|].
  rewrite H3. cbn [opt bind]. exists p, f3. repeat split; congruence.
Qed.

Definition products_out (c : cpu) (ids : list Z) (ps : list product) : Prop :=
  match add_products c ids ps with
  | Ok (c', _) => length (c_regs c') = length (c_regs c) /\ tab_ok (c_cfg c) (c_rat c') /\
      grow (length (reg_prods ps)) (c_rat c) (c_rat c') /\ c_cfg c' = c_cfg c /\ c_rs c' = c_rs c /\
      forall l, In l (reg_prods ps) -> lreg_ok (c_cfg c) l = true
  | Throw e _ => e = ERegRange /\ exists l, In (PReg l) ps /\ lreg_ok (c_cfg c) l = false
  | Undef _ => False
  end.

Lemma grow_trans : forall k k' t t' t'', grow k t t' -> grow k' t' t'' -> grow (k + k') t t''.
Proof.
  intros k k' t t' t'' [N [L I]] [N' [L' I']]. exists (N' ++ N). rewrite app_length. split; [lia|].
  intros x Hx. apply I' in Hx. rewrite <- app_assoc. apply in_app_or in Hx. apply in_or_app.
  destruct Hx; [now left|right; auto].
Qed.

Lemma add_products_ok : forall S T X rs ps den role done c ids n,
  TI den role S T X done rs (c_regs c) (c_rat c) ->
  live_le n (tables X (c_rat c) rs) -> (n + length (reg_prods ps) <= length (c_regs c) - 1)%nat ->
  (0 < length (c_regs c))%nat ->
  length (c_regs c) = nphys (c_cfg c) -> tab_ok (c_cfg c) (c_rat c) -> products_out c ids ps.
Proof.
  intros S T X rs. induction ps as [|[l|a|] ps IH]; intros den role done c ids n HT Hl Hn Hpos Hlen Ht;
    unfold products_out; cbn [add_products reg_prods] in *.
  - split; [reflexivity|]. split; [exact Ht|]. split; [apply grow_refl|]. repeat split. intros l [].
  - destruct (is_pc l) eqn:Hpc.
    + pose proof (IH den role done c ids n HT Hl Hn Hpos Hlen Ht) as H. unfold products_out in H.
      destruct (add_products c ids ps) as [[c' ids']|e c'|w]; auto.
      destruct H as [H1 [l' [H2 H3]]]. split; [exact H1|]. exists l'. split; [now right|exact H3].
    + cbn [length] in Hn.
      assert (Hr : rename_out c l).
      { eapply rename_ok with (n := n); [apply (ti_subs _ _ _ _ _ _ _ _ _ HT)|exact Hl|lia|exact Hlen|exact Ht]. }
      unfold rename_out in Hr. destruct (rename c l) as [c1|e c1|w] eqn:Hrn; cbn [bind].
      * destruct (rename_inv _ _ _ _ _ _ _ _ _ _ HT Hrn) as [p [f1 [den1 [role1 [-> [T1 _]]]]]].
        destruct Hr as [p' [f' [He [Hf' [Hp' Hlok]]]]].
        assert (f' = f1 /\ rset (c_rat c) l p' = rset (c_rat c) l p).
        { unfold set_rat in He. inversion He; auto. }
        destruct H as [-> Hrs]. clear He.
        assert (Htab : tab_ok (c_cfg c) (rset (c_rat c) l p)).
        { rewrite <- Hrs. apply tab_ok_rset; auto. lia. }
        pose proof (IH den1 role1 (l :: done) (set_rat c f1 (rset (c_rat c) l p)) ids (Datatypes.S n) T1) as H.
        cbn [set_rat c_regs c_rat c_cfg] in H. specialize (H (live_rset _ _ _ _ _ _ Hl)).
        rewrite Hf' in H. specialize (H ltac:(lia) Hpos Hlen Htab). unfold products_out in H.
        destruct (add_products (set_rat c f1 (rset (c_rat c) l p)) ids ps) as [[c' ids']|e c'|w]; auto.
        -- cbn [set_rat c_regs c_rat c_cfg c_rs] in H. destruct H as [H1 [H2 [H3 [H4 [H5 H6]]]]].
           split; [congruence|]. split; [exact H2|]. split.
           { apply (grow_trans 1 _ _ (rset (c_rat c) l p)); [apply grow_rset, grow_refl|exact H3]. }
           split; [exact H4|]. split; [exact H5|]. intros k [<-|Hk]; auto.
        -- cbn [set_rat c_cfg] in H. destruct H as [H1 [l' [H2 H3]]]. split; [exact H1|]. exists l'.
           split; [now right|exact H3].
      * destruct Hr as [H1 H2]. split; [exact H1|]. exists l. split; [now left|exact H2].
      * exact Hr.
  - destruct (wm_register_at (c_wm c) a) as [w1 id].
    pose proof (IH den role done (set_wm c w1) (ids ++ [id]) n HT Hl Hn Hpos Hlen Ht) as H. unfold products_out in H.
    destruct (add_products (set_wm c w1) (ids ++ [id]) ps) as [[c' ids']|e c'|w]; auto.
    cbn [set_wm c_cfg] in H. destruct H as [H1 [l' [H2 H3]]]. split; [exact H1|]. exists l'. split; [now right|exact H3].
  - destruct (wm_register (c_wm c)) as [w1 id].
    pose proof (IH den role done (set_wm c w1) (ids ++ [id]) n HT Hl Hn Hpos Hlen Ht) as H. unfold products_out in H.
    destruct (add_products (set_wm c w1) (ids ++ [id]) ps) as [[c' ids']|e c'|w]; auto.
    cbn [set_wm c_cfg] in H. destruct H as [H1 [l' [H2 H3]]]. split; [exact H1|]. exists l'. split; [now right|exact H3].
Qed.

Lemma few_prods : forall i ps, produces i = Some ps -> (length (reg_prods ps) <= 2)%nat.
Proof.
  intros i ps H. destruct i; cbn in H; try (inversion H; subst ps; cbn;
    repeat match goal with |- context [is_pc ?x] => destruct (is_pc x); cbn end;
    repeat match goal with |- context [match ?r with _ => _ end] => destruct r; cbn end; lia).
  destruct d; cbn in H; try discriminate H; inversion H; subst ps; cbn; try lia;
    match goal with |- context [match ?r with _ => _ end] => destruct r; cbn; lia end.
Qed.

(** what [add] can do *)
Definition add_out (c : cpu) (i : instr) (pc : Z) : Prop :=
  match add c i pc with
  | Ok c' => D c' /\ forall ps l, produces i = Some ps -> In (PReg l) ps -> lreg_ok (c_cfg c) l = true
  | Throw e _ => (e = ERegRange /\ exists ps l, produces i = Some ps /\ In (PReg l) ps /\ lreg_ok (c_cfg c) l = false) \/
                 (e = EOperand /\ (produces i = None \/ operands i = None))
  | Undef _ => False
  end.

Lemma add_ok : forall E den role A c i pc, J E den role [] [] A c -> D c ->
  (length (c_rs c) < g_rs (c_cfg c))%nat -> add_out c i pc.
Proof.
  intros E den role A c i pc HJ [Dl Dd] Hlen. unfold add_out, add.
  destruct (Nat.ltb_spec (length (c_rs c)) (g_rs (c_cfg c))) as [_|]; [|lia]. cbn [negb].
  pose proof (j_regs _ _ _ _ _ _ _ HJ) as R. set (S := sfold E A (c_rs c)). set (T := eff E i S).
  pose proof (TI_start E den role A (c_regs c) (c_rat c) (c_rs c) T R) as T0. fold S in T0.
  pose proof (Dt_live _ _ _ Dd) as Lv. unfold tabs at 1 in Lv. rewrite map_length, flat_tabs in Lv.
  pose proof (dt_tab _ _ _ Dd) as Tb.
  set (n := (nlog (c_cfg c) + 3 * length (c_rs c))%nat) in *.
  assert (Hn : (n + 4 <= length (c_regs c))%nat) by (rewrite Dl; unfold n, nphys, nlog; lia).
  assert (Hr : rename_out c (LR PC)).
  { eapply rename_ok with (X := []) (n := n); [apply (ti_subs _ _ _ _ _ _ _ _ _ T0)|exact Lv|lia|exact Dl|exact Tb]. }
  unfold rename_out in Hr. destruct (rename c (LR PC)) as [c1|e c1|w] eqn:Hrn; cbn [bind];
    [|destruct Hr as [_ Hr]; discriminate|exact Hr].
  destruct (rename_inv _ _ _ _ _ _ _ _ _ _ T0 Hrn) as [p [f1 [den1 [role1 [-> [T1 [X1 [Fr1 [[r1 Hr1] Rp]]]]]]]]].
  destruct Hr as [p' [f' [He [Hf' [Hp' _]]]]].
  assert (f' = f1 /\ rset (c_rat c) (LR PC) p' = rset (c_rat c) (LR PC) p).
  { unfold set_rat in He. inversion He; auto. }
  destruct H as [-> Hrs]. clear He.
  assert (Ht1 : rget (rset (c_rat c) (LR PC) p) (LR PC) = Some p) by (rewrite rget_rset, lreg_eqb_refl; reflexivity).
  unfold set_lreg. cbn [set_rat c_rat c_regs]. rewrite Ht1. unfold pset. rewrite Hr1. cbn [bind].
  set (rr := rset (c_rat c) (LR PC) p) in *.
  cbn [set_regs set_rat c_rat c_regs].
  pose proof (set_pc_TI _ _ _ _ _ _ _ _ _ _ (s64 pc) _ T1 Ht1 Hr1) as T2.
  set (f1' := set_nth f1 p (mkPreg (s64 pc) true (p_subs r1))) in *.
  assert (Lf1' : length f1' = length (c_regs c)) by (unfold f1'; rewrite set_nth_length; exact Hf').
  assert (Tr : tab_ok (c_cfg c) rr).
  { rewrite <- Hrs. apply tab_ok_rset; auto. lia. }
  destruct (psub_all_some rr f1') as [f2 [H3 L3]].
  { intros q Hq. rewrite Lf1', Dl. now apply (tb_img _ _ Tr). }
  rewrite H3. cbn [opt bind].
  destruct (produces i) as [ps|] eqn:Hps; [|right; auto].
  pose proof (psub_all_spec _ _ _ H3) as E3.
  assert (Sv3 : same_vals f1' f2) by (eapply same_vals_addsubs; exact E3).
  assert (T3 : TI den1 role1 S T [rr] [LR PC] (c_rs c) f2 rr).
  { eapply TI_same; [exact T2|exact Sv3|]. intros q r Hq. rewrite E3 in Hq.
    destruct (nth_error f1' q) as [r'|] eqn:Hq'; [|discriminate]. cbn [option_map] in Hq. inversion Hq; subst r.
    pose proof (ti_subs _ _ _ _ _ _ _ _ _ T2 _ _ Hq') as Hs. unfold addsubs. cbn [p_subs].
    rewrite occ_tables in Hs |- *. rewrite occ_cons, occ_nil in *. lia. }
  set (c3 := set_regs (set_regs (set_rat c f1 rr) f1') f2).
  assert (Lv3 : live_le (Datatypes.S n) (tables [rr] rr (c_rs c))).
  { apply live_dup. apply (live_rset n [] (c_rat c) _ (LR PC) p Lv). }
  pose proof (few_prods _ _ Hps) as Hfew.
  assert (P : products_out c3 [] ps).
  { eapply (add_products_ok S T [rr] (c_rs c) ps den1 role1 [LR PC] c3 [] (Datatypes.S n)); auto.
    - cbn [c3 set_regs c_regs]. rewrite L3, Lf1'. lia.
    - cbn [c3 set_regs c_regs]. rewrite L3, Lf1'. lia.
    - cbn [c3 set_regs set_rat c_regs c_cfg]. congruence. }
  change (set_regs (set_regs (set_rat c f1 rr) f1') f2) with c3. unfold products_out in P.
  destruct (add_products c3 [] ps) as [[c4 ids]|e c4|w] eqn:H4; cbn [bind].
  - cbn [c3 set_regs set_rat c_regs c_rat c_cfg c_rs] in P. destruct P as [P1 [P2 [P3 [P4 [P5 P6]]]]].
    assert (L4 : length (c_regs c4) = nphys (c_cfg c)) by congruence.
    destruct (psub_all_some (c_rat c4) (c_regs c4)) as [f4 [H5 L5]].
    { intros q Hq. rewrite L4. now apply (tb_img _ _ P2). }
    rewrite H5. cbn [opt bind].
    destruct (operands i) as [ops|]; [|right; auto].
    split.
    + split; cbn [set_rs set_regs c_regs c_cfg c_rs c_rat]; [congruence|]. rewrite P4. unfold tabs. rewrite map_app, P5. cbn [map e_rrat e_wrat].
      constructor.
      * exact P2.
      * intros a b Hab. apply in_app_or in Hab. destruct Hab as [Hab|[Hab|[]]].
        -- now apply (dt_ents _ _ _ Dd).
        -- inversion Hab; subst. auto.
      * eapply chain_snoc; [apply (dt_chain _ _ _ Dd)|apply grow_rset, grow_refl|].
        eapply grow_le; [exact Hfew|exact P3].
    + intros ps' l Hps' Hl. inversion Hps'; subst ps'. destruct (is_pc l) eqn:Hpc.
      * apply is_pc_spec in Hpc. subst l. reflexivity.
      * apply P6. apply reg_prods_in. split; [exact Hl|]. intros ->. discriminate.
  - left. destruct P as [-> [l [Hl1 Hl2]]]. split; [reflexivity|]. exists ps, l. auto.
  - exact P.
Qed.

(** ---- the other parts of a tick keep the tables ---- *)

Lemma entry_set_len : forall f t l v f', entry_set f t l v = Ok f' -> length f' = length f.
Proof.
  intros f t l v f' H. unfold entry_set in H. destruct (rget t l); [|discriminate].
  destruct (nth_error f n); [|discriminate]. destruct (_ && _); [discriminate|]. apply Ok_eq in H. subst.
  apply set_nth_length.
Qed.

Lemma do_acts_len : forall e acts f w ops f' w' ops', do_acts e acts (f, w, ops) = Ok (f', w', ops') ->
  length f' = length f.
Proof.
  induction acts as [|a acts IH]; intros f w ops f' w' ops' H; cbn [do_acts] in H.
  - apply Ok_eq in H. inversion H; reflexivity.
  - apply bind_ok in H. destruct H as [[[f1 w1] o1] [H1 H]]. apply IH in H. rewrite H. clear H IH.
    destruct a; cbn [do_act] in H1.
    + apply bind_ok in H1. destruct H1 as [f2 [H2 H1]]. apply Ok_eq in H1. inversion H1; subst.
      now apply entry_set_len in H2.
    + destruct (e_wids e) as [|id [|]]; try discriminate. apply bind_ok in H1. destruct H1 as [w2 [H2 H1]].
      apply Ok_eq in H1. inversion H1; reflexivity.
    + destruct (e_wids e) as [|id [|]]; try discriminate. apply bind_ok in H1. destruct H1 as [w2 [H2 H1]].
      apply Ok_eq in H1. inversion H1; reflexivity.
    + apply Ok_eq in H1. inversion H1; reflexivity.
Qed.

Lemma exec_loop_tabs : forall E es f w a f' w' a' es', exec_loop E f w a es = Ok (f', w', a', es') ->
  tabs es' = tabs es /\ length f' = length f.
Proof.
  induction es as [|e es IH]; intros f w a f' w' a' es' H; cbn [exec_loop] in H.
  - apply Ok_eq in H. inversion H; auto.
  - apply bind_ok in H. destruct H as [[[[f1 w1] a1] e1] [H1 H]]. apply bind_ok in H.
    destruct H as [[[[f2 w2] a2] es2] [H2 H]]. apply Ok_eq in H. inversion H; subst. clear H.
    apply IH in H2. destruct H2 as [H2 L2]. unfold exec_entry in H1.
    assert (Hx : e_rrat e1 = e_rrat e /\ e_wrat e1 = e_wrat e /\ length f1 = length f).
    { destruct (e_state e); try (apply Ok_eq in H1; inversion H1; subst; auto; fail).
      destruct (Nat.pred (e_time e)).
      - apply bind_ok in H1. destruct H1 as [vs [_ H1]]. apply bind_ok in H1. destruct H1 as [acts [_ H1]].
        apply bind_ok in H1. destruct H1 as [[[f3 w3] o3] [H3 H1]]. apply Ok_eq in H1. inversion H1; subst.
        apply do_acts_len in H3. auto.
      - apply Ok_eq in H1. inversion H1; subst. auto. }
    destruct Hx as [X1 [X2 X3]]. unfold tabs in *. cbn [map]. rewrite H2, X1, X2. split; [reflexivity|congruence].
Qed.

Lemma poll_loop_tabs : forall E g f w es r a r' a' es', poll_loop E g f w r a es = Ok (r', a', es') ->
  tabs es' = tabs es.
Proof.
  induction es as [|e es IH]; intros r a r' a' es' H; cbn [poll_loop] in H.
  - apply Ok_eq in H. inversion H; auto.
  - apply bind_ok in H. destruct H as [[[r1 a1] e1] [H1 H]]. apply bind_ok in H.
    destruct H as [[[r2 a2] es2] [H2 H]]. apply Ok_eq in H. inversion H; subst. clear H.
    apply IH in H2. unfold poll_entry in H1.
    assert (Hx : e_rrat e1 = e_rrat e /\ e_wrat e1 = e_wrat e).
    { destruct (e_state e); try (apply Ok_eq in H1; inversion H1; subst; auto; fail).
      - apply bind_ok in H1. destruct H1 as [[[r3 x3] o3] [H3 H1]]. apply Ok_eq in H1. inversion H1; subst. auto.
      - destruct (needs_alu (e_ins e)); [destruct a|]; apply Ok_eq in H1; inversion H1; subst; auto. }
    destruct Hx as [X1 X2]. unfold tabs in *. cbn [map]. now rewrite H2, X1, X2.
Qed.

Lemma psub_len : forall f p f', psub f p = Some f' -> length f' = length f.
Proof. intros f p f' H. unfold psub, pset in H. destruct (nth_error f p); inversion H. apply set_nth_length. Qed.

Lemma psub_all_len : forall t f f', psub_all f t = Some f' -> length f' = length f.
Proof.
  induction t as [|[k p] t IH]; intros f f' H; cbn in H; [inversion H; reflexivity|].
  destruct (psub f p) as [f1|] eqn:H1; [|discriminate]. apply IH in H. apply psub_len in H1. congruence.
Qed.

Lemma punsub_len : forall f p f', punsub f p = Some f' -> length f' = length f.
Proof.
  intros f p f' H. unfold punsub in H. destruct (nth_error f p); [|discriminate].
  destruct (p_subs p0); inversion H. apply set_nth_length.
Qed.

Lemma punsub_all_len : forall t f f', punsub_all f t = Some f' -> length f' = length f.
Proof.
  induction t as [|[k p] t IH]; intros f f' H; cbn in H; [inversion H; reflexivity|].
  destruct (punsub f p) as [f1|] eqn:H1; [|discriminate]. apply IH in H. apply punsub_len in H1. congruence.
Qed.

Lemma unsub_entries_len : forall es f f', unsub_entries f es = Some f' -> length f' = length f.
Proof.
  induction es as [|e es IH]; intros f f' H; cbn in H; [inversion H; reflexivity|].
  destruct (punsub_all f (e_rrat e)) as [f1|] eqn:H1; [|discriminate].
  destruct (punsub_all f1 (e_wrat e)) as [f2|] eqn:H2; [|discriminate].
  apply IH in H. apply punsub_all_len in H1, H2. congruence.
Qed.

(** what retirement does to the tables *)
Record rkeeps (e : entry) (c c' : cpu) : Prop := mkRkeeps {
  rk_len : length (c_regs c') = length (c_regs c);
  rk_cfg : c_cfg c' = c_cfg c;
  rk_tab : (c_rs c' = c_rs c /\ c_rat c' = c_rat c) \/ (c_rs c' = [] /\ c_rat c' = e_wrat e)
}.

Lemma rkeeps_refl : forall e c, rkeeps e c c.
Proof. intros. constructor; auto. Qed.

Lemma rkeeps_trans : forall e c c1 c2, rkeeps e c c1 -> rkeeps e c1 c2 -> rkeeps e c c2.
Proof.
  intros e c c1 c2 [L1 G1 T1] [L2 G2 T2]. constructor; try congruence.
  destruct T2 as [[A B]|T2]; [|now right]. destruct T1 as [[A1 B1]|[A1 B1]]; [left|right]; split; congruence.
Qed.

Lemma unroll_keeps : forall e c c', unroll c (e_wrat e) = Ok c' -> rkeeps e c c'.
Proof.
  intros e c c' H. unfold unroll in H.
  apply bind_ok in H. destruct H as [f1 [H1 H]]. apply opt_ok in H1.
  apply bind_ok in H. destruct H as [f2 [H2 H]]. apply opt_ok in H2.
  apply bind_ok in H. destruct H as [f3 [H3 H]]. apply opt_ok in H3. cbv zeta in H.
  apply unsub_entries_len in H1. apply punsub_all_len in H2. apply psub_all_len in H3.
  destruct (get_lreg _ (LR PC)); [|discriminate]. apply Ok_eq in H. subst c'.
  constructor; cbn; auto. congruence.
Qed.

Lemma do_ract_keeps : forall e a c c', do_ract e a c = Ok c' -> rkeeps e c c'.
Proof.
  intros e a c c' H. destruct a; cbn [do_ract] in H.
  - destruct (e_wids e) as [|id [|]]; try discriminate. unfold write_memory in H.
    apply bind_ok in H. destruct H as [w [_ H]]. apply bind_ok in H. destruct H as [[[w' r']|] [_ H]]; [|discriminate].
    cbv zeta in H. destruct (check_write _ _) as [d i]. apply Ok_eq in H. subst c'. constructor; cbn; auto.
  - unfold do_jump in H. destruct (rget (e_wrat e) (LR PC)); [|discriminate].
    destruct (rget (e_rrat e) (LR PC)); [|discriminate]. destruct (get_preg c n); [|discriminate].
    destruct (nth_error (c_regs c) n0); [|discriminate]. destruct (negb (p_ready p)); [discriminate|].
    destruct (c_pred c); [discriminate|]. cbv zeta in H. destruct (z0 =? u64 z).
    + apply Ok_eq in H. subst c'. constructor; cbn; auto.
    + apply unroll_keeps in H. destruct H as [L G T]. constructor; auto.
  - apply bind_ok in H. destruct H as [f [H1 H]]. apply lift_ok in H1. apply entry_set_len in H1.
    apply Ok_eq in H. subst c'. constructor; cbn; auto.
  - destruct (get_char (c_in c)) as [[ch rest]|]; [|discriminate].
    apply bind_ok in H. destruct H as [f [H1 H]]. apply lift_ok in H1. apply entry_set_len in H1.
    apply Ok_eq in H. subst c'. constructor; cbn; auto.
  - apply Ok_eq in H. subst c'. constructor; cbn; auto.
  - apply Ok_eq in H. subst c'. constructor; cbn; auto.
  - now apply unroll_keeps.
  - apply Ok_eq in H. subst c'. constructor; cbn; auto.
  - apply Ok_eq in H. subst c'. constructor; cbn; auto.
Qed.

Lemma do_racts_keeps : forall e l c c', do_racts e l c = Ok c' -> rkeeps e c c'.
Proof.
  induction l as [|a l IH]; intros c c' H; cbn [do_racts] in H.
  - apply Ok_eq in H. subst. apply rkeeps_refl.
  - apply bind_ok in H. destruct H as [c1 [H1 H]]. eapply rkeeps_trans; [eapply do_ract_keeps; eauto|eauto].
Qed.

Lemma retire_entry_keeps : forall e c c', retire_entry c e = Ok c' -> rkeeps e c c'.
Proof.
  intros e c c' H. unfold retire_entry in H. apply bind_ok in H. destruct H as [vs [_ H]].
  apply bind_ok in H. destruct H as [acts [_ H]]. apply bind_ok in H. destruct H as [c1 [H1 H]].
  apply do_racts_keeps in H1. destruct (e_exn e); [discriminate|].
  apply bind_ok in H. destruct H as [c2 [H2 H]]. apply bind_ok in H. destruct H as [f [H3 H]]. apply opt_ok in H3.
  apply Ok_eq in H. subst c'. apply unsub_entries_len in H3.
  eapply rkeeps_trans; [exact H1|].
  assert (Hk : rkeeps e c1 c2).
  { destruct (c_trap c1).
    - apply bind_ok in H2. destruct H2 as [c3 [H2 H4]]. apply Ok_eq in H4. subst c2.
      apply unroll_keeps in H2. destruct H2 as [L G T]. constructor; auto.
    - destruct (negb (c_int c1 =? 0)).
      + now apply unroll_keeps in H2.
      + apply Ok_eq in H2. subst. apply rkeeps_refl. }
  destruct Hk as [L G T]. constructor; cbn; auto. congruence.
Qed.

Lemma retire_loop_D : forall n c c', D c -> retire_loop n c = Ok c' -> D c'.
Proof.
  induction n as [|n IH]; intros c c' HD H; cbn [retire_loop] in H.
  - apply Ok_eq in H. now subst.
  - destruct (c_rs c) as [|e es] eqn:Hrs; [apply Ok_eq in H; now subst|].
    destruct (e_state e); try (apply Ok_eq in H; now subst).
    apply bind_ok in H. destruct H as [c1 [H1 H]]. apply retire_entry_keeps in H1.
    apply (IH c1 c'); [|exact H]. clear IH H. destruct H1 as [L G T]. cbn in L, G, T.
    destruct HD as [Dl [Dt1 De Dc]]. rewrite Hrs in De, Dc. unfold tabs in De, Dc. cbn [map] in De, Dc.
    split; [congruence|]. rewrite G. destruct T as [[T1 T2]|[T1 T2]]; rewrite T1, T2.
    + constructor; [exact Dt1| |].
      * intros a b Hab. apply De. now right.
      * cbn [chain] in Dc. apply Dc.
    + constructor; [|intros a b []|exact I]. apply (De (e_rrat e) (e_wrat e)). now left.
Qed.

Lemma tick_retire_D : forall E c c2, D c -> tick_retire E c = Ok c2 -> D c2.
Proof.
  intros E c c2 HD H. rewrite tick_retire_eq in H. apply bind_ok in H. destruct H as [x [Hx H]].
  apply lift_ok in Hx. apply retire_loop_D in H; [exact H|]. destruct x as [[[f w] a] es].
  unfold exec_phase in Hx. apply exec_loop_tabs in Hx. destruct Hx as [Ht Hl]. destruct HD as [Dl Dd].
  split; [transitivity (length (c_regs c)); [exact Hl|exact Dl]|].
  change (Dt (c_cfg c) (tabs es) (c_rat c)). now rewrite Ht.
Qed.

Lemma stop_state_D : forall c, D c -> D (stop_state c).
Proof. intros c [H1 H2]. unfold stop_state. destruct (c_single c); split; assumption. Qed.

Lemma poll_D : forall E g c r a es, D c ->
  poll_loop E g (c_regs c) (c_wm c) (c_ram c) (c_alus c) (c_rs c) = Ok (r, a, es) -> D (set_polled c r es a).
Proof.
  intros E g c r a es [Dl Dd] H. apply poll_loop_tabs in H. split; [exact Dl|].
  change (Dt (c_cfg c) (tabs es) (c_rat c)). now rewrite H.
Qed.

Lemma front_D : forall c sp fe de pr, D c -> D (set_front c sp fe de pr).
Proof. intros c sp fe de pr [H1 H2]. split; assumption. Qed.

Lemma tick_front_D : forall c, D c -> D (tick_front c).
Proof.
  intros c H. unfold tick_front.
  set (c1 := match c_decode c with None => set_front c (c_spec c) None (c_fetch c) (c_pred c) | Some _ => c end).
  assert (H1 : D c1).
  { unfold c1. destruct (c_decode c); [exact H|now apply front_D]. }
  clearbody c1. destruct (c_fetch c1); [exact H1|]. unfold fetch. destruct (jump_dest _); now apply front_D.
Qed.

Lemma tick_D : forall E A c c', Inv E A c -> D c -> tick E c = Ok c' -> D c'.
Proof.
  intros E A c c' HI HD H. unfold tick in H. apply bind_ok in H. destruct H as [c2 [H2 H]].
  pose proof (tick_retire_D _ _ _ HD H2) as D2.
  destruct (tick_retire_inv _ _ _ _ HI H2) as [den [role [is [A' [R _]]]]].
  destruct (c_halted c2); [apply Ok_eq in H; now subst|]. cbv zeta in H. fold (stop_state c2) in H.
  apply stop_state_D in D2. destruct (stop_state_inv _ _ _ _ _ (rd_K _ _ _ _ _ _ _ _ R)) as [J3 _].
  destruct (negb _); [apply Ok_eq in H; now subst|].
  apply bind_ok in H. destruct H as [[[r a] es] [Hpo H]]. apply lift_ok in Hpo.
  apply bind_ok in H. destruct H as [c5 [H5 H]]. apply Ok_eq in H. subst c'.
  pose proof (poll_D _ _ _ _ _ _ D2 Hpo) as D4. pose proof (poll_phase_inv _ _ _ _ _ _ _ _ _ J3 Hpo) as J4.
  apply tick_front_D. unfold tick_decode in H5.
  set (c4 := set_polled (stop_state c2) r es a) in *. clearbody c4.
  destruct (c_decode c4) as [[i pc]|]; [|apply Ok_eq in H5; now subst].
  destruct (Nat.ltb_spec (length (c_rs c4)) (g_rs (c_cfg c4))) as [Hlt|]; [|apply Ok_eq in H5; now subst].
  apply bind_ok in H5. destruct H5 as [c6 [H6 H7]]. apply Ok_eq in H7. subst c5. apply front_D.
  pose proof (add_ok _ _ _ _ _ i pc J4 D4 Hlt) as H. unfold add_out in H. rewrite H6 in H. apply H.
Qed.

(** ---- no tick fails for lack of a register ---- *)

Definition nf {S A} (r : res S A) : Prop := forall e s, r = Throw e s -> e <> ENoFreeReg.

Lemma nf_bind : forall S A B (r : res S A) (f : A -> res S B), nf r -> (forall a, r = Ok a -> nf (f a)) -> nf (bind r f).
Proof.
  intros S A B r f H1 H2 e s H. destruct r as [a|e' s'|w]; cbn in H; [eapply H2; eauto| |discriminate].
  inversion H; subst. eapply H1; eauto.
Qed.

Lemma nf_lift : forall S A (c : S) (r : res unit A), nf r -> nf (lift c r).
Proof. intros S A c r H e s H1. destruct r; cbn in H1; inversion H1; subst. eapply H; eauto. Qed.

Lemma nf_ok : forall S A (a : A), nf (@Ok S A a).
Proof. intros S A a e s H. discriminate. Qed.
Lemma nf_undef : forall S A w, nf (@Undef S A w).
Proof. intros S A w e s H. discriminate. Qed.
Lemma nf_throw : forall S A e s, e <> ENoFreeReg -> nf (@Throw S A e s).
Proof. intros S A e s He e' s' H. inversion H; subst. exact He. Qed.
Lemma nf_opt : forall S A w (o : option A), nf (@opt S A w o).
Proof. intros S A w [a|] e s H; discriminate. Qed.

Ltac nf_tac :=
  repeat (cbv zeta;
    match goal with
    | |- nf (Ok _) => apply nf_ok
    | |- nf (Undef _) => apply nf_undef
    | |- nf (Throw _ _) => apply nf_throw; discriminate
    | |- nf (opt _ _) => apply nf_opt
    | |- nf (lift _ _) => apply nf_lift
    | |- nf (bind _ _) => apply nf_bind; [|intros ? _]
    | |- nf (match ?x with _ => _ end) => destruct x
    end).

Lemma nf_arith : forall m z, nf (arith m z).
Proof. intros m z. unfold arith. nf_tac. Qed.
Lemma nf_supply : forall m o v, nf (supply m o v).
Proof. intros m o v. destruct o; cbn [supply]; nf_tac; apply nf_arith. Qed.
Lemma nf_alu_bin : forall m op x y, nf (alu_bin m op x y).
Proof.
  intros m op x y. destruct op; cbn [alu_bin];
    unfold alu_add, alu_sub, alu_mul, alu_imul, alu_div, alu_idiv, sdiv, alu_mod, alu_and, alu_or, alu_xor,
      alu_lsh, alu_rsh, shl, shr, shift_count; nf_tac; apply nf_arith.
Qed.
Lemma nf_alu_un : forall m op x, nf (alu_un m op x).
Proof. intros m op x. destruct op; cbn [alu_un]; unfold alu_neg, alu_not, alu_add, alu_sub; nf_tac; apply nf_arith. Qed.
Lemma nf_eff_addr : forall m d vs, nf (eff_addr m d vs).
Proof. intros m d vs. unfold eff_addr, mem_index. nf_tac; apply nf_supply. Qed.

Lemma nf_exec_acts : forall E i vs, nf (exec_acts E i vs).
Proof.
  intros E i vs. unfold exec_acts. destruct i; nf_tac;
    try apply nf_alu_bin; try apply nf_alu_un; try apply nf_eff_addr; try apply nf_arith;
    unfold alu_sub; nf_tac; apply nf_arith.
Qed.

Lemma nf_get_write : forall w id, nf (wm_get_write w id).
Proof. intros w id. unfold wm_get_write. nf_tac. Qed.

Lemma nf_entry_set : forall f t l v, nf (entry_set f t l v).
Proof. intros f t l v. unfold entry_set. nf_tac. Qed.

Lemma nf_do_acts : forall e acts s, nf (do_acts e acts s).
Proof.
  induction acts as [|a acts IH]; intros s; cbn [do_acts]; [apply nf_ok|]. apply nf_bind; [|intros ? _; apply IH].
  destruct s as [[f w] ops]. destruct a; cbn [do_act]; unfold wm_specify, wm_set_value; nf_tac;
    try apply nf_entry_set; apply nf_get_write.
Qed.

Lemma nf_exec_loop : forall E es f w a, nf (exec_loop E f w a es).
Proof.
  induction es as [|e es IH]; intros f w a; cbn [exec_loop]; [apply nf_ok|].
  apply nf_bind; [unfold exec_entry; nf_tac; [apply nf_exec_acts|apply nf_do_acts]|].
  intros [[[f1 w1] a1] e1] _. apply nf_bind; [apply IH|]. intros [[[f2 w2] a2] es2] _. apply nf_ok.
Qed.

Lemma nf_unroll : forall c t, nf (unroll c t).
Proof. intros c t. unfold unroll. nf_tac. Qed.

Lemma nf_do_racts : forall e l c, nf (do_racts e l c).
Proof.
  induction l as [|a l IH]; intros c; cbn [do_racts]; [apply nf_ok|]. apply nf_bind; [|intros ? _; apply IH].
  destruct a; cbn [do_ract]; unfold write_memory, wm_start, do_jump; nf_tac;
    try apply nf_get_write; try apply nf_unroll; apply nf_entry_set.
Qed.

Lemma nf_retire_loop : forall n c, nf (retire_loop n c).
Proof.
  induction n as [|n IH]; intros c; cbn [retire_loop]; [apply nf_ok|].
  destruct (c_rs c) as [|e es]; [apply nf_ok|]. destruct (e_state e); try apply nf_ok.
  apply nf_bind; [|intros ? _; apply IH]. unfold retire_entry, retire_acts. nf_tac; try apply nf_do_racts; apply nf_unroll.
Qed.

Lemma nf_read_reg : forall f t l, nf (read_reg f t l).
Proof. intros. unfold read_reg. nf_tac. Qed.

Lemma nf_fetch_op : forall n E g f w t m r x o, nf (fetch_op n E g f w t m r x o).
Proof.
  induction n as [|n IH]; intros; cbn [fetch_op]; [apply nf_undef|].
  unfold stall_peek, read_memory, wm_previous, ram_read. nf_tac; try apply nf_read_reg; try apply nf_supply; apply IH.
Qed.

Lemma nf_fetch_ops : forall E g f w t m os r x, nf (fetch_ops E g f w t m r x os).
Proof.
  induction os as [|o os IH]; intros; cbn [fetch_ops]; [apply nf_ok|].
  apply nf_bind; [apply nf_fetch_op|]. intros [[r1 x1] o1] _. apply nf_bind; [apply IH|]. intros [[r2 x2] o2] _. apply nf_ok.
Qed.

Lemma nf_poll_loop : forall E g f w es r a, nf (poll_loop E g f w r a es).
Proof.
  induction es as [|e es IH]; intros; cbn [poll_loop]; [apply nf_ok|].
  apply nf_bind; [unfold poll_entry; nf_tac; apply nf_fetch_ops|]. intros [[r1 a1] e1] _.
  apply nf_bind; [apply IH|]. intros [[r2 a2] e2] _. apply nf_ok.
Qed.

Lemma tick_nf : forall E A c, Inv E A c -> D c -> nf (tick E c).
Proof.
  intros E A c HI HD. unfold tick. apply nf_bind.
  { rewrite tick_retire_eq. apply nf_bind; [apply nf_lift, nf_exec_loop|]. intros x _. apply nf_retire_loop. }
  intros c2 H2. pose proof (tick_retire_D _ _ _ HD H2) as D2.
  destruct (tick_retire_inv _ _ _ _ HI H2) as [den [role [is [A' [R _]]]]].
  destruct (c_halted c2); [apply nf_ok|]. cbv zeta. fold (stop_state c2).
  apply stop_state_D in D2. destruct (stop_state_inv _ _ _ _ _ (rd_K _ _ _ _ _ _ _ _ R)) as [J3 _].
  destruct (negb _); [apply nf_ok|]. apply nf_bind; [apply nf_lift, nf_poll_loop|].
  intros [[r a] es] Hpo. apply lift_ok in Hpo.
  pose proof (poll_D _ _ _ _ _ _ D2 Hpo) as D4. pose proof (poll_phase_inv _ _ _ _ _ _ _ _ _ J3 Hpo) as J4.
  apply nf_bind; [|intros ? _; apply nf_ok].
  set (c4 := set_polled (stop_state c2) r es a) in *. clearbody c4. unfold tick_decode.
  destruct (c_decode c4) as [[i pc]|]; [|apply nf_ok].
  destruct (Nat.ltb_spec (length (c_rs c4)) (g_rs (c_cfg c4))) as [Hlt|]; [|apply nf_ok].
  apply nf_bind; [|intros ? _; apply nf_ok].
  pose proof (add_ok _ _ _ _ _ i pc J4 D4 Hlt) as H. unfold add_out in H.
  intros e s He. rewrite He in H. destruct H as [[-> _]|[-> _]]; discriminate.
Qed.

(** ---- the machine starts with exactly its registers mapped ---- *)

Lemma seq_regs_dom : forall (h : N -> lreg) n from ph k, (from <= k)%N -> (N.to_nat k < N.to_nat from + n)%nat ->
  exists p, rget (seq_regs h from ph n) (h k) = Some p.
Proof.
  induction n as [|n IH]; intros from ph k H1 H2; [lia|]. cbn [seq_regs rget].
  destruct (lreg_eqb_spec (h k) (h from)) as [He|Hne]; [eauto|]. apply IH; [|lia].
  assert (k <> from) by congruence. lia.
Qed.

Lemma seq_regs_img : forall (h : N -> lreg) n from ph p, In p (map snd (seq_regs h from ph n)) -> (ph <= p < ph + n)%nat.
Proof.
  induction n as [|n IH]; intros from ph p H; cbn in H; [destruct H|].
  destruct H as [<-|H]; [lia|]. apply IH in H. lia.
Qed.

Lemma seq_regs_len : forall (h : N -> lreg) n from ph, length (seq_regs h from ph n) = n.
Proof. induction n as [|n IH]; intros; cbn; auto. Qed.

Lemma rat_init_ok : forall g, (0 < g_rs g)%nat -> tab_ok g (rat_init (g_reg g) (g_freg g)).
Proof.
  intros g Hg. constructor.
  - intros l Hl. unfold rat_init. rewrite !rget_app.
    destruct (rget (seq_regs (fun n => LR (R n)) 0 0 (g_reg g)) l) as [q|] eqn:H1; [eauto|].
    destruct (rget (seq_regs LF 0 (g_reg g) (g_freg g)) l) as [q|] eqn:H2; [eauto|].
    destruct l as [[n| | | |]|n]; cbn in Hl; cbn [rget].
    + apply N.ltb_lt in Hl. destruct (seq_regs_dom (fun n => LR (R n)) (g_reg g) 0 0 n) as [q Hq]; [lia|lia|]. congruence.
    + cbn. eauto.
    + cbn. eauto.
    + cbn. eauto.
    + cbn. eauto.
    + apply N.ltb_lt in Hl. destruct (seq_regs_dom LF (g_freg g) 0 (g_reg g) n) as [q Hq]; [lia|lia|]. congruence.
  - intros l p H. unfold rat_init in H. rewrite !rget_app in H.
    destruct (rget (seq_regs (fun n => LR (R n)) 0 0 (g_reg g)) l) as [q|] eqn:H1.
    + apply rget_seq_R in H1. destruct H1 as [k [-> [_ [H2 _]]]]. cbn. apply N.ltb_lt. lia.
    + destruct (rget (seq_regs LF 0 (g_reg g) (g_freg g)) l) as [q|] eqn:H2.
      * apply rget_seq_F in H2. destruct H2 as [k [-> [_ [H3 _]]]]. cbn. apply N.ltb_lt. lia.
      * cbn [rget] in H.
        repeat match type of H with (if lreg_eqb l ?k then _ else _) = _ =>
          revert H; destruct (lreg_eqb_spec l k) as [->|]; intros H; [reflexivity|] end.
        discriminate.
  - intros p H. unfold rat_init in H. rewrite !map_app in H. unfold nphys.
    apply in_app_or in H. destruct H as [H|H]; [apply seq_regs_img in H; lia|].
    apply in_app_or in H. destruct H as [H|H]; [apply seq_regs_img in H; lia|].
    cbn in H. destruct H as [H|[H|[H|[H|[]]]]]; lia.
  - unfold rat_init, nlog. rewrite !app_length, !seq_regs_len. cbn. lia.
Qed.

Lemma set_lregs_keep : forall vs c c', set_lregs c vs = Ok c' ->
  length (c_regs c') = length (c_regs c) /\ c_rat c' = c_rat c /\ c_rs c' = c_rs c /\ c_cfg c' = c_cfg c.
Proof.
  induction vs as [|[l v] vs IH]; intros c c' H; cbn [set_lregs] in H; [apply Ok_eq in H; subst; auto|].
  apply bind_ok in H. destruct H as [c1 [H1 H]]. apply IH in H. destruct H as [A1 [A2 [A3 A4]]].
  unfold set_lreg in H1. destruct (rget (c_rat c) l) as [p|]; [|discriminate]. unfold pset in H1.
  destruct (nth_error (c_regs c) p); [|discriminate]. apply Ok_eq in H1. subst c1.
  cbn [set_regs c_regs c_rat c_rs c_cfg] in *. rewrite set_nth_length in A1. auto.
Qed.

Lemma load_data_keep : forall data c a c', load_data c a data = Ok c' ->
  c_regs c' = c_regs c /\ c_rat c' = c_rat c /\ c_rs c' = c_rs c /\ c_cfg c' = c_cfg c.
Proof.
  induction data as [|v data IH]; intros c a c' H; cbn [load_data] in H; [apply Ok_eq in H; subst; auto|].
  destruct (ram_set (c_ram c) a v); [|discriminate]. apply IH in H. exact H.
Qed.

(** with no reservation station entries the FLAGS register has no room *)
Lemma boot_rs : forall g p data input c, boot g p data input = Ok c -> (0 < g_rs g)%nat.
Proof.
  intros g p data input c H. unfold boot in H. apply bind_ok in H. destruct H as [c0 [H0 _]].
  unfold cpu_init in H0. cbv zeta in H0.
  destruct (psub_all _ _) as [f|] eqn:Hf; [|discriminate].
  destruct (g_rs g) as [|n]; [|lia]. exfalso.
  assert (Hg : forall t f0 f1 q, psub_all f0 t = Some f1 -> In q (map snd t) -> (q < length f0)%nat).
  { induction t as [|[k p0] t IH]; intros f0 f1 q Hs Hq; [destruct Hq|]. cbn [psub_all] in Hs.
    destruct (psub f0 p0) as [f2|] eqn:H2; [|discriminate]. cbn [map snd] in Hq. destruct Hq as [<-|Hq].
    - unfold psub, pset in H2. destruct (nth_error f0 p0) eqn:Hn; [|discriminate]. apply nth_error_Some. congruence.
    - apply psub_len in H2. rewrite <- H2. eapply IH; eauto. }
  specialize (Hg _ _ _ (g_reg g + g_freg g + 4)%nat Hf). rewrite repeat_length in Hg.
  assert (In (g_reg g + g_freg g + 4)%nat (map snd (rat_init (g_reg g) (g_freg g)))).
  { unfold rat_init. rewrite !map_app. apply in_or_app. right. apply in_or_app. right. cbn. auto. }
  specialize (Hg H). lia.
Qed.

Lemma boot_D : forall g p data input c, boot g p data input = Ok c -> D c.
Proof.
  intros g p data input c H. pose proof (boot_rs _ _ _ _ _ H) as Hg. unfold boot in H.
  apply bind_ok in H. destruct H as [c0 [H0 H]]. unfold cpu_init in H0. cbv zeta in H0.
  destruct (psub_all _ _) as [f|] eqn:Hf; [|discriminate]. apply psub_all_len in Hf. rewrite repeat_length in Hf.
  apply set_lregs_keep in H0. cbn [c_regs c_rat c_rs c_cfg] in H0. destruct H0 as [A1 [A2 [A3 A4]]].
  apply load_data_keep in H. destruct H as [B1 [B2 [B3 B4]]].
  unfold D. rewrite B1, B2, B3, B4, A1, A2, A3, A4, Hf. split; [reflexivity|]. cbn [tabs map].
  constructor; [now apply rat_init_ok|intros a b []|exact I].
Qed.

