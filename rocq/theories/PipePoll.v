(** L4: fetching operands and starting instructions preserves the invariant. *)
From Coq Require Import ZArith NArith List Bool Sorted Lia.
From Verif Require Import Base Alu Isa Exec Ram Writes Rat Cpu InOrder PipeInv PipeBasics PipeActs PipeMem
  PipeExec.
Import ListNotations.
Open Scope Z_scope.

(** ---- loads see the stores of the older instructions ---- *)

Definition owned (d : list entry) (m : mwrite) : Prop := exists x, In x d /\ In (mw_id m) (e_wids x).

Lemma older_mem : forall E S0 w a d post, wm_inv E S0 w (d ++ post) ->
  (forall x, In x d -> produces (e_ins x) <> None) ->
  (forall x id, In x d -> In id (e_wids x) -> ~ In id (wm_unspec w)) ->
  (exists m, In m (vec w a) /\ owned d m /\
     (forall m', In m' (vec w a) -> owned d m' -> mw_id m' <= mw_id m) /\
     (forall v, mw_value m = Some v -> a_mem (sfold E S0 d) a = Some v)) \/
  ((forall m, In m (vec w a) -> ~ owned d m) /\ a_mem (sfold E S0 d) a = a_mem S0 a).
Proof.
  intros E S0 w a d. induction d as [|x d IH] using rev_ind; intros post W Hp Hu.
  - right. split; [|reflexivity]. intros m _ [x [[] _]].
  - rewrite <- app_assoc in W. cbn [app] in W.
    assert (Hx : In x (d ++ [x])) by (apply in_or_app; right; now left).
    specialize (IH _ W (fun y Hy => Hp y (in_or_app _ _ _ (or_introl Hy)))
                       (fun y i Hy => Hu y i (in_or_app _ _ _ (or_introl Hy)))).
    rewrite sfold_snoc. set (S := sfold E S0 d) in *.
    assert (Hmem : a_mem (spec_step E (e_ins x) S) = a_mem (eff E (e_ins x) S)) by reflexivity.
    rewrite Hmem, eff_mem. clear Hmem.
    pose proof (wi_shape _ _ _ _ W x) as Sh.
    assert (Hown : forall m, owned (d ++ [x]) m -> owned d m \/ In (mw_id m) (e_wids x)).
    { intros m [y [Hy Hi]]. apply in_app_or in Hy. destruct Hy as [Hy|[<-|[]]]; [left; exists y; auto|now right]. }
    assert (Hown' : forall m, owned d m -> owned (d ++ [x]) m).
    { intros m [y [Hy Hi]]. exists y. split; [apply in_or_app; auto|exact Hi]. }
    (* either the instruction has no write at [a], or it has one *)
    assert (Hcase : (exists m, In m (vec w a) /\ In (mw_id m) (e_wids x) /\ e_wids x = [mw_id m] /\
                       forall v, mw_value m = Some v -> eff_store E (e_ins x) S = Some (a, v)) \/
                    ((forall m, In m (vec w a) -> ~ In (mw_id m) (e_wids x)) /\
                     forall v, eff_store E (e_ins x) S <> Some (a, v))).
    { destruct (mem_prod (e_ins x)) as [mp|] eqn:Em.
      - destruct Sh as [id Hid]. { apply in_mid. now left. }
        pose proof (wi_ent _ _ _ _ W _ _ _ id eq_refl) as En. rewrite Hid in En.
        specialize (En (or_introl eq_refl)). fold S in En. unfold entry_write in En.
        assert (Hnu : ~ In id (wm_unspec w)). { apply (Hu x); [exact Hx|]. rewrite Hid. now left. }
        assert (Hgen : forall b mv, In (mkMw id b mv None) (vec w b) ->
                  (forall b' m, In m (vec w b') -> mw_id m = id -> b' = b /\ m = mkMw id b mv None) ->
                  (forall v, mv = Some v -> eff_store E (e_ins x) S = Some (b, v)) ->
                  (a <> b -> forall v, eff_store E (e_ins x) S <> Some (a, v)) ->
                  (exists m, In m (vec w a) /\ In (mw_id m) (e_wids x) /\ e_wids x = [mw_id m] /\
                       forall v, mw_value m = Some v -> eff_store E (e_ins x) S = Some (a, v)) \/
                  ((forall m, In m (vec w a) -> ~ In (mw_id m) (e_wids x)) /\
                     forall v, eff_store E (e_ins x) S <> Some (a, v))).
        { intros b mv H1 H2 H3 H4. destruct (Z.eq_dec a b) as [->|Hne].
          - left. exists (mkMw id b mv None). split; [exact H1|]. cbn. rewrite Hid.
            split; [now left|]. split; [reflexivity|exact H3].
          - right. split; [|exact (H4 Hne)]. intros m Hm. rewrite Hid. intros [Hi|[]].
            destruct (H2 _ _ Hm (eq_sym Hi)). congruence. }
        assert (Hnr : match mp with
                      | Some b => In (mkMw id b None None) (vec w b) /\
                          (forall a' m, In m (vec w a') -> mw_id m = id -> a' = b /\ m = mkMw id b None None)
                      | None => In id (wm_unspec w) /\ forall b m, In m (vec w b) -> mw_id m <> id
                      end \/
                      exists b v, eff_store E (e_ins x) S = Some (b, v) /\
                        In (mkMw id b (Some v) None) (vec w b) /\
                        (forall a' m, In m (vec w a') -> mw_id m = id -> a' = b /\ m = mkMw id b (Some v) None)).
        { rewrite Em in En. destruct (e_state x); [left|left|left|right; exact En]; destruct mp; exact En. }
        destruct Hnr as [Hnr|[b [v [H1 [H2 H3]]]]].
        + destruct mp as [b|]; [|exfalso; now apply Hnu].
          destruct Hnr as [H1 H2]. apply (Hgen b None H1 H2); [discriminate|].
          intros Hne v Hs. apply eff_store_prod in Hs; [|now apply Hp]. destruct Hs; congruence.
        + apply (Hgen b (Some v) H2 H3).
          * intros v' Hv. congruence.
          * intros Hne v' Hv. congruence.
      - right. rewrite Sh by (apply in_mid; now left). split; [intros m _ []|].
        intros v Hs. apply eff_store_prod in Hs; [|now apply Hp]. destruct Hs; congruence. }
    destruct Hcase as [[m [Hm [Hmi [Hw Hst]]]]|[Hno Hst]].
    + left. exists m. split; [exact Hm|]. split; [exists x; auto|]. split.
      * intros m' Hm' Ho. destruct (Hown _ Ho) as [[y [Hy Hi]]|Hi].
        { apply in_split in Hy. destruct Hy as [l1 [l2 ->]].
          assert (Hs : (l1 ++ y :: l2) ++ x :: post = l1 ++ y :: (l2 ++ x :: post)) by now rewrite <- app_assoc.
          destruct (wi_max _ _ _ _ W _ _ _ Hs) as [_ [H1 H2]].
          specialize (H1 _ Hi). destruct (H2 x) as [_ H3]. { apply in_or_app. right. now left. }
          specialize (H3 _ Hmi). lia. }
        { rewrite Hw in Hi. destruct Hi as [Hi|[]]. lia. }
      * intros v Hv. rewrite (Hst v Hv). unfold mupd. now rewrite Z.eqb_refl.
    + assert (Hsame : match eff_store E (e_ins x) S with
                      | Some (b, v) => mupd (a_mem S) b v | None => a_mem S end a = a_mem S a).
      { destruct (eff_store E (e_ins x) S) as [[b v]|]; [|reflexivity]. unfold mupd.
        destruct (Z.eqb_spec a b); [|reflexivity]. subst. exfalso. now apply (Hst v). }
      rewrite Hsame. destruct IH as [[m [Hm [Ho [Hmax Hv]]]]|[Hn Hs]].
      * left. exists m. split; [exact Hm|]. split; [auto|]. split; [|exact Hv].
        intros m' Hm' Ho'. destruct (Hown _ Ho') as [Ho2|Hi]; [auto|]. exfalso. eapply Hno; eauto.
      * right. split; [|exact Hs]. intros m Hm Ho. destruct (Hown _ Ho) as [Ho2|Hi]; [eapply Hn; eauto|].
        eapply Hno; eauto.
Qed.

Lemma ram_read_inv : forall S0 w r g a r' x, ram_inv S0 w r -> ram_read g r a = Ok (r', x) ->
  ram_inv S0 w r' /\
  ((forall m, In m (vec w a) -> mw_ram m = None) ->
   match x with RVal v => a_mem S0 a = Some v | RFault => a_mem S0 a = None | RWait => True end).
Proof.
  intros S0 w r g a r' x I H. unfold ram_read in H.
  destruct (aget (ram_reads r) a) as [re|] eqn:Hr.
  { destruct (re_rem re) eqn:Er; apply Ok_eq in H; inversion H; subst; (split; [exact I|]); [|auto].
    intros Hno. apply aget_in in Hr. destruct (ra_rd _ _ _ I _ _ Hr) as [Hm|[we [Hwe _]]].
    - rewrite (ra_mem _ _ _ I). exact Hm.
    - destruct (ra_wr _ _ _ I _ _ Hwe) as [m [Hm Hid]]. rewrite (Hno _ Hm) in Hid. discriminate. }
  destruct (Nat.eqb (length (ram_reads r)) g).
  { apply Ok_eq in H; inversion H; subst. auto. }
  destruct (aget (ram_writes r) a); [discriminate|].
  destruct (mem_at (ram_mem r) a) as [v|] eqn:Hm; apply Ok_eq in H; inversion H; subst.
  - split; [|auto]. destruct I as [M O P Wr Rd N Ri L La Wk Rk]. constructor; auto.
    + intros b re Hi. cbn [ram_reads] in Hi. apply aset_in in Hi; [|exact Rk].
      destruct Hi as [[-> ->]|[_ Hi]]; [left; exact Hm|]. exact (Rd _ _ Hi).
    + intros b re Hi. cbn [ram_reads] in Hi. apply aset_in in Hi; [|exact Rk].
      destruct Hi as [[-> ->]|[_ Hi]]; [cbn; unfold read_latency, write_latency; lia|]. exact (La _ _ Hi).
    + cbn. now apply aset_nodup.
  - split; [exact I|]. intros _. now rewrite (ra_mem _ _ _ I).
Qed.

Lemma read_memory_ok : forall E S0 w r g d e t a r' x,
  wm_inv E S0 w (d ++ e :: t) -> ram_inv S0 w r -> e_state e = Preparing ->
  (forall y, In y d -> produces (e_ins y) <> None) ->
  read_memory g r w a (e_maxid e) = Ok (r', x) ->
  ram_inv S0 w r' /\
  match x with
  | RVal v => a_mem (sfold E S0 d) a = Some v
  | RFault => a_mem (sfold E S0 d) a = None
  | RWait => True
  end.
Proof.
  intros E S0 w r g d e t a r' x W I Hst Hp H. unfold read_memory in H.
  destruct (wm_has_unspec w (e_maxid e)) eqn:Hu.
  { apply Ok_eq in H. inversion H; subst. auto. }
  unfold wm_previous in H. rewrite Hu in H. cbn [bind] in H. fold (vec w a) in H.
  destruct (wi_max _ _ _ _ W _ _ _ eq_refl) as [_ [Hmy Hlater]].
  assert (Hold : forall y i, In y d -> In i (e_wids y) -> i <= e_maxid e).
  { intros y i Hy Hi. apply in_split in Hy. destruct Hy as [l1 [l2 ->]].
    assert (Hs : (l1 ++ y :: l2) ++ e :: t = l1 ++ y :: (l2 ++ e :: t)) by now rewrite <- app_assoc.
    destruct (wi_max _ _ _ _ W _ _ _ Hs) as [_ [H1 H2]].
    specialize (H1 _ Hi). destruct (H2 e) as [H3 _]. { apply in_or_app. right. now left. } lia. }
  assert (Hns : forall y i, In y d -> In i (e_wids y) -> ~ In i (wm_unspec w)).
  { intros y i Hy Hi Hin. unfold wm_has_unspec in Hu.
    assert (existsb (fun i => i <=? e_maxid e) (wm_unspec w) = true).
    { apply existsb_exists. exists i. split; [exact Hin|]. apply Z.leb_le. eauto. }
    congruence. }
  pose proof (older_mem E S0 w a d (e :: t) W Hp Hns) as Hom.
  pose proof (mws_latest_spec (vec w a) (e_maxid e) (wi_sorted _ _ _ _ W a)) as Hl.
  (* where a write not above the bound comes from *)
  assert (Hsrc : forall m, In m (vec w a) -> mw_id m <= e_maxid e -> mw_ram m = None ->
            owned d m \/ In (mw_id m) (e_wids e)).
  { intros m Hm Hle Hr. pose proof (wi_src _ _ _ _ W a m Hm) as Hs. rewrite Hr in Hs.
    destruct Hs as [y [Hy Hi]]. apply in_app_or in Hy. destruct Hy as [Hy|[->|Hy]].
    - left. exists y. auto.
    - now right.
    - exfalso. destruct (Hlater _ Hy) as [_ H2]. specialize (H2 _ Hi). lia. }
  assert (Hout : forall m, In m (vec w a) -> mw_ram m <> None -> mw_id m <= e_maxid e).
  { intros m Hm Hr. apply (wi_outmax _ _ _ _ W a m e Hm Hr). apply in_mid. now left. }
  destruct (mws_latest (vec w a) (e_maxid e)) as [m|].
  - destruct Hl as [Hm [Hle Hmax]].
    destruct (mw_value m) as [v|] eqn:Hv; apply Ok_eq in H; inversion H; subst; (split; [exact I|]); [|exact Logic.I].
    destruct (mw_ram m) as [rid|] eqn:Hr.
    + (* sent to memory: newest write of the address, nothing older is pending *)
      destruct Hom as [[m0 [Hm0 [[y [Hy Hi]] _]]]|[_ Hs]].
      * exfalso. pose proof (wi_src _ _ _ _ W a m Hm) as Hso. rewrite Hr in Hso. destruct Hso as [_ Hso].
        specialize (Hso y (mw_id m0)). assert (mw_id m < mw_id m0).
        { apply Hso; [apply in_or_app; auto|exact Hi]. }
        assert (mw_id m0 <= mw_id m). { apply Hmax; [exact Hm0|]. eauto. } lia.
      * rewrite Hs, (ra_mem _ _ _ I). rewrite <- (ra_out _ _ _ I a m); auto; [congruence|].
        intros m' Hm' Hr'. apply Hmax; auto.
    + destruct (Hsrc m Hm Hle Hr) as [Ho|Ho].
      * destruct Hom as [[m0 [Hm0 [Ho0 [Hmx Hval]]]]|[Hn _]]; [|exfalso; eapply Hn; eauto].
        assert (m0 = m).
        { apply (ss_uniq (vec w a)); auto; [apply (wi_sorted _ _ _ _ W)|].
          assert (mw_id m <= mw_id m0) by auto.
          assert (mw_id m0 <= mw_id m). { apply Hmax; [exact Hm0|]. destruct Ho0 as [y [Hy Hi]]. eauto. } lia. }
        subst m0. auto.
      * (* the own write has no value yet *)
        exfalso. pose proof (wi_ent _ _ _ _ W _ _ _ _ eq_refl Ho) as En. unfold entry_write in En.
        rewrite Hst in En. destruct (mem_prod (e_ins e)) as [[b|]|].
        { destruct En as [_ En]. destruct (En a m Hm eq_refl) as [_ Heq]. rewrite Heq in Hv. discriminate. }
        { destruct En as [_ En]. exact (En a m Hm eq_refl). }
        { destruct En as [_ En]. exact (En a m Hm eq_refl). }
  - assert (Hno : forall m, In m (vec w a) -> mw_ram m = None).
    { intros m Hm. destruct (mw_ram m) eqn:Hr; [|reflexivity]. exfalso.
      assert (mw_id m <= e_maxid e) by (apply Hout; congruence). specialize (Hl _ Hm). lia. }
    destruct (ram_read_inv _ _ _ _ _ _ _ I H) as [I' Hx]. split; [exact I'|].
    specialize (Hx Hno). destruct Hom as [[m0 [Hm0 [[y [Hy Hi]] _]]]|[_ Hs]].
    + exfalso. specialize (Hl _ Hm0). specialize (Hold _ _ Hy Hi). lia.
    + rewrite Hs. exact Hx.
Qed.

(** ---- operands ---- *)

Definition weight (o : operand) : nat :=
  match o with
  | OImm _ | OFImm _ => 0
  | OReg _ | ORegOff _ _ | ORegScaled _ _ | OMemImm _ | OFReg _ => 1
  | ORegReg _ _ | ORegOffReg _ _ _ | ORegRegScaled _ _ _ | ORegOffRegScaled _ _ _ _ => 2
  | OMemReg _ | OMemRegOff _ _ | OMemRegScaled _ _ => 2
  | OMemRegReg _ _ | OMemRegOffReg _ _ _ | OMemRegRegScaled _ _ _ | OMemRegOffRegScaled _ _ _ _ => 3
  end.

Lemma weight_3 : forall o, (weight o <= 3)%nat.
Proof. destruct o; cbn; lia. Qed.

Lemma supply_weight : forall m o v o', supply m o v = Ok o' -> weight o = S (weight o').
Proof.
  intros m o v o' H. destruct o; cbn [supply] in H; try discriminate H;
  repeat (apply bind_ok in H; destruct H as [? [? H]]); apply Ok_eq in H; subst; reflexivity.
Qed.

Lemma requirement_weight : forall o, requirement o = None <-> weight o = 0%nat.
Proof. destruct o; cbn; split; intros H; congruence || discriminate. Qed.

Lemma ev_fuel : forall E S n m o, (weight o < n)%nat -> (weight o < m)%nat -> ev n E S o = ev m E S o.
Proof.
  intros E S n. induction n as [|n IH]; intros m o Hn Hm; [lia|].
  destruct m as [|m]; [lia|]. cbn [ev].
  destruct (requirement o) as [[r|k|a]|] eqn:Hr; [| | |reflexivity].
  - destruct (supply (e_mode E) o (rd S (LR r))) as [o'| |] eqn:Hs; auto.
    apply supply_weight in Hs. apply IH; lia.
  - destruct (supply (e_mode E) o (rd S (LF k))) as [o'| |] eqn:Hs; auto.
    apply supply_weight in Hs. apply IH; lia.
  - destruct (a_mem S a).
    + destruct (supply (e_mode E) o z) as [o'| |] eqn:Hs; auto.
      apply supply_weight in Hs. apply IH; lia.
    + destruct (supply (e_mode E) o (-1)) as [o'| |] eqn:Hs; auto.
      apply supply_weight in Hs. rewrite (IH m); [reflexivity|lia|lia].
Qed.

Lemma ev_S : forall n E S o, ev (Datatypes.S n) E S o =
  match requirement o with
  | None => match op_val o with Some v => Some (v, false) | None => None end
  | Some (NReg r) => match supply (e_mode E) o (rd S (LR r)) with Ok o' => ev n E S o' | _ => None end
  | Some (NFReg k) => match supply (e_mode E) o (rd S (LF k)) with Ok o' => ev n E S o' | _ => None end
  | Some (NMem a) =>
      match a_mem S a with
      | Some v => match supply (e_mode E) o v with Ok o' => ev n E S o' | _ => None end
      | None => match supply (e_mode E) o (-1) with
                | Ok o' => match ev n E S o' with Some (v, _) => Some (v, true) | None => None end
                | _ => None
                end
      end
  end.
Proof. reflexivity. Qed.

Definition evo (E : env) (S : arch) (o : operand) := ev 4 E S o.

Definition addb (x : bool) (r : option (Z * bool)) : option (Z * bool) :=
  match r with Some (v, b) => Some (v, x || b) | None => None end.

Lemma evo_step : forall E S o, evo E S o =
  match requirement o with
  | None => match op_val o with Some v => Some (v, false) | None => None end
  | Some (NReg r) => match supply (e_mode E) o (rd S (LR r)) with Ok o' => evo E S o' | _ => None end
  | Some (NFReg k) => match supply (e_mode E) o (rd S (LF k)) with Ok o' => evo E S o' | _ => None end
  | Some (NMem a) =>
      match a_mem S a with
      | Some v => match supply (e_mode E) o v with Ok o' => evo E S o' | _ => None end
      | None => match supply (e_mode E) o (-1) with
                | Ok o' => addb true (evo E S o')
                | _ => None
                end
      end
  end.
Proof.
  intros E S o. unfold evo at 1. rewrite (ev_S 3).
  destruct (requirement o) as [[r|k|a]|]; [| | |reflexivity].
  - destruct (supply (e_mode E) o (rd S (LR r))) as [o'| |] eqn:Hs; auto.
    apply supply_weight in Hs. pose proof (weight_3 o). apply ev_fuel; lia.
  - destruct (supply (e_mode E) o (rd S (LF k))) as [o'| |] eqn:Hs; auto.
    apply supply_weight in Hs. pose proof (weight_3 o). apply ev_fuel; lia.
  - destruct (a_mem S a).
    + destruct (supply (e_mode E) o z) as [o'| |] eqn:Hs; auto.
      apply supply_weight in Hs. pose proof (weight_3 o). apply ev_fuel; lia.
    + destruct (supply (e_mode E) o (-1)) as [o'| |] eqn:Hs; auto.
      apply supply_weight in Hs. pose proof (weight_3 o). unfold evo.
      rewrite (ev_fuel E S 3 4) by lia. destruct (ev 4 E S o') as [[v b]|]; reflexivity.
Qed.

(** what the registers seen by entry [e] must satisfy *)
Definition reads_ok (f : pfile) (t : rat) (S : arch) : Prop :=
  forall l v, read_reg f t l = Ok (Some v) -> v = rd S l.

Lemma read_reg_ok : forall E den role X S0 f rt d e t, regs_inv E den role X S0 f rt (d ++ e :: t) ->
  e_state e <> Retiring -> reads_ok f (e_rrat e) (sfold E S0 d).
Proof.
  intros E den role X S0 f rt d e t R Hst l v H. unfold read_reg in H.
  destruct (rget (e_rrat e) l) as [p|] eqn:Hg; [|discriminate].
  destruct (nth_error f p) as [r|] eqn:Hr; [|discriminate]. apply Ok_eq in H.
  destruct (p_ready r) eqn:Hrd; [|discriminate]. inversion H; subst. clear H.
  destruct (lreg_eq_dec l (LR PC)) as [->|Hl].
  - destruct (ri_pc _ _ _ _ _ _ _ _ R _ _ _ eq_refl) as [p' [r' [H1 [_ [H3 [_ H5]]]]]].
    rewrite H1 in Hg. inversion Hg; subst. rewrite H3 in Hr. inversion Hr; subst.
    destruct (e_state e); try congruence; exact H5.
  - destruct (ri_rtab _ _ _ _ _ _ _ _ R _ _ _ eq_refl _ _ Hg) as [H1 H2].
    rewrite (ri_val _ _ _ _ _ _ _ _ R _ _ Hr Hrd) by congruence. rewrite (H2 Hl).
    destruct l as [[]|]; try reflexivity. congruence.
Qed.

Lemma fetch_op_ok : forall E S0 g f w d e t n r x o r' x' o',
  let S := sfold E S0 d in
  wm_inv E S0 w (d ++ e :: t) -> e_state e = Preparing ->
  (forall y, In y d -> produces (e_ins y) <> None) -> reads_ok f (e_rrat e) S ->
  ram_inv S0 w r ->
  fetch_op n E g f w (e_rrat e) (e_maxid e) r x o = Ok (r', x', o') ->
  ram_inv S0 w r' /\ addb x (evo E S o) = addb x' (evo E S o').
Proof.
  intros E S0 g f w d e t n. induction n as [|n IH]; intros r x o r' x' o' S W Hst Hp Hrd I H; [discriminate H|].
  cbn [fetch_op] in H. rewrite (evo_step E S o).
  destruct (requirement o) as [[rg|k|a]|] eqn:Hq.
  - apply bind_ok in H. destruct H as [[v|] [H1 H]].
    + apply bind_ok in H. destruct H as [o1 [H2 H]].
      rewrite <- (Hrd _ _ H1), H2. eapply IH; eauto.
    + apply bind_ok in H. destruct H as [u [_ H]]. apply Ok_eq in H. inversion H; subst.
      split; [exact I|]. rewrite (evo_step E S o'), Hq. reflexivity.
  - apply bind_ok in H. destruct H as [[v|] [H1 H]].
    + apply bind_ok in H. destruct H as [o1 [H2 H]].
      rewrite <- (Hrd _ _ H1), H2. eapply IH; eauto.
    + apply Ok_eq in H. inversion H; subst.
      split; [exact I|]. rewrite (evo_step E S o'), Hq. reflexivity.
  - apply bind_ok in H. destruct H as [[r1 v] [H1 H]].
    destruct (read_memory_ok _ _ _ _ _ _ _ _ _ _ _ W I Hst Hp H1) as [I1 Hv]. fold S in Hv.
    destruct v as [v| |].
    + apply bind_ok in H. destruct H as [o1 [H2 H]]. rewrite Hv, H2. eapply IH; eauto.
    + apply Ok_eq in H. inversion H; subst.
      split; [exact I1|]. rewrite (evo_step E S o'), Hq. reflexivity.
    + apply bind_ok in H. destruct H as [o1 [H2 H]]. rewrite Hv, H2.
      destruct (IH _ _ _ _ _ _ W Hst Hp Hrd I1 H) as [I2 Hev]. split; [exact I2|].
      fold S in Hev. rewrite <- Hev. destruct (evo E S o1) as [[v b]|]; cbn; [|reflexivity].
      now rewrite orb_true_r.
  - apply Ok_eq in H. inversion H; subst. split; [exact I|].
    rewrite (evo_step E S o'), Hq. reflexivity.
Qed.

Lemma fetch_ops_ok : forall E S0 g f w d e t os r x r' x' os',
  let S := sfold E S0 d in
  wm_inv E S0 w (d ++ e :: t) -> e_state e = Preparing ->
  (forall y, In y d -> produces (e_ins y) <> None) -> reads_ok f (e_rrat e) S ->
  ram_inv S0 w r ->
  fetch_ops E g f w (e_rrat e) (e_maxid e) r x os = Ok (r', x', os') ->
  ram_inv S0 w r' /\ addx x (evs E S os) = addx x' (evs E S os').
Proof.
  intros E S0 g f w d e t os. induction os as [|o os IH]; intros r x r' x' os' S W Hst Hp Hrd I H.
  - cbn in H. apply Ok_eq in H. inversion H; subst. auto.
  - cbn [fetch_ops] in H. apply bind_ok in H. destruct H as [[[r1 x1] o1] [H1 H]].
    apply bind_ok in H. destruct H as [[[r2 x2] os2] [H2 H]]. apply Ok_eq in H. inversion H; subst. clear H.
    destruct (fetch_op_ok _ _ _ _ _ _ _ _ _ _ _ _ _ _ _ W Hst Hp Hrd I H1) as [I1 He].
    destruct (IH _ _ _ _ _ W Hst Hp Hrd I1 H2) as [I2 He2]. split; [exact I2|].
    fold S in He, He2. cbn [evs]. fold (evo E S o) (evo E S o1).
    destruct (evo E S o) as [[v b]|], (evo E S o1) as [[v1 b1]|]; cbn in He; try discriminate He; [|reflexivity].
    inversion He; subst.
    destruct (evs E S os) as [[vs c]|], (evs E S os2) as [[vs2 c2]|]; cbn in He2 |- *; try discriminate He2; [|reflexivity].
    inversion He2. subst vs2. f_equal. f_equal.
    destruct x, x1, b, b1, c, x', c2; cbn in *; congruence.
Qed.

Lemma op_vals_evs : forall E S os vs, op_vals os = Some vs -> evs E S os = Some (vs, false).
Proof.
  induction os as [|o os IH]; intros vs H; cbn [op_vals] in H.
  - inversion H. reflexivity.
  - destruct (op_val o) as [v|] eqn:Ho; [|discriminate]. destruct (op_vals os); [|discriminate].
    inversion H; subst. cbn [evs]. rewrite (IH _ eq_refl). fold (evo E S o). rewrite evo_step.
    destruct o; try discriminate Ho; cbn in Ho |- *; inversion Ho; reflexivity.
Qed.

(** ---- one entry, then all of them ---- *)

Lemma XI_ram : forall E den role X S0 prog rt r r' n f w a rs,
  XI E den role X S0 prog rt r n f w a rs -> ram_inv S0 w r' -> XI E den role X S0 prog rt r' n f w a rs.
Proof. intros E den role X S0 prog rt r r' n f w a rs [He Hr Hw _ Ha] I. constructor; auto. Qed.

Lemma entries_produce : forall E p S0 d t, entries_ok E p S0 (d ++ t) ->
  forall y, In y d -> produces (e_ins y) <> None.
Proof.
  intros E p S0 d t H y Hy. apply in_split in Hy. destruct Hy as [l1 [l2 ->]].
  rewrite <- app_assoc in H. destruct (H _ _ _ eq_refl) as [_ [os [_ [Hp _]]]]. exact Hp.
Qed.

Lemma poll_entry_inv : forall E den role X S0 prog rt g r n f w a d e t r' a' e',
  XI E den role X S0 prog rt r n f w a (d ++ e :: t) ->
  poll_entry E g f w r a e = Ok (r', a', e') ->
  XI E den role X S0 prog rt r' n f w a' (d ++ e' :: t).
Proof.
  intros E den role X S0 prog rt g r n f w a d e t r' a' e' I H. unfold poll_entry in H.
  pose proof I as [He Hr Hw Hm Ha].
  destruct (e_state e) eqn:Es.
  - apply bind_ok in H. destruct H as [[[r1 x1] os1] [H1 H]]. apply Ok_eq in H. inversion H; subst. clear H.
    assert (Hrd : reads_ok f (e_rrat e) (sfold E S0 d)) by (eapply read_reg_ok; eauto; congruence).
    destruct (fetch_ops_ok _ _ _ _ _ _ _ _ _ _ _ _ _ _ Hw Es (entries_produce _ _ _ _ _ He) Hrd Hm H1) as [I1 Hev].
    eapply XI_step with (e := e); [eapply XI_ram; eauto|apply same_set_ops|congruence| | |].
    + cbn. destruct (all_fetched os1); discriminate.
    + destruct (He _ _ _ eq_refl) as [H2 [os [H3 [H4 H5]]]]. rewrite Es in H5.
      split; [exact H2|]. exists os. split; [exact H3|]. split; [exact H4|]. cbn [set_ops e_state e_ops e_exn].
      rewrite Hev in H5. unfold all_fetched.
      destruct (op_vals os1) as [vs|] eqn:Ho; [|exact H5].
      exists vs. split; [reflexivity|]. rewrite H5, (op_vals_evs _ _ _ _ Ho). cbn. now rewrite orb_false_r.
    + unfold executing_alu. cbn. rewrite Es. destruct (all_fetched os1); reflexivity.
  - assert (Hok : entry_ok E prog (sfold E S0 d) (set_ops e (e_ops e) Executing (e_time e) (e_exn e))).
    { destruct (He _ _ _ eq_refl) as [H2 [os [H3 [H4 H5]]]]. rewrite Es in H5.
      split; [exact H2|]. exists os. split; [exact H3|]. split; [exact H4|]. exact H5. }
    destruct (needs_alu (e_ins e)) eqn:Hn.
    + destruct a as [|k]; apply Ok_eq in H; inversion H; subst; [exact I|].
      eapply XI_step; eauto using same_set_ops; try (cbn; congruence).
      unfold executing_alu. cbn. rewrite Es, Hn. lia.
    + apply Ok_eq in H; inversion H; subst.
      eapply XI_step; eauto using same_set_ops; try (cbn; congruence).
      unfold executing_alu. cbn. rewrite Es, Hn. lia.
  - apply Ok_eq in H. inversion H; subst. exact I.
  - apply Ok_eq in H. inversion H; subst. exact I.
Qed.

Lemma poll_loop_inv : forall E den role X S0 prog rt g n f w es r a d r' a' es',
  XI E den role X S0 prog rt r n f w a (d ++ es) ->
  poll_loop E g f w r a es = Ok (r', a', es') ->
  XI E den role X S0 prog rt r' n f w a' (d ++ es').
Proof.
  intros E den role X S0 prog rt g n f w es.
  induction es as [|e es IH]; intros r a d r' a' es' I H; cbn [poll_loop] in H.
  - apply Ok_eq in H. inversion H; subst. exact I.
  - apply bind_ok in H. destruct H as [[[r1 a1] e1] [H1 H]].
    apply bind_ok in H. destruct H as [[[r2 a2] es2] [H2 H]].
    apply Ok_eq in H. inversion H; subst.
    pose proof (poll_entry_inv _ _ _ _ _ _ _ _ _ _ _ _ _ _ _ _ _ _ _ I H1) as I1.
    change (d ++ e1 :: es) with (d ++ [e1] ++ es) in I1. rewrite app_assoc in I1.
    specialize (IH _ _ _ _ _ _ I1 H2). rewrite <- app_assoc in IH. exact IH.
Qed.

Lemma poll_loop_length : forall E g f w es r a r' a' es', poll_loop E g f w r a es = Ok (r', a', es') ->
  length es' = length es /\ map e_ins es' = map e_ins es.
Proof.
  induction es as [|e es IH]; intros r a r' a' es' H; cbn [poll_loop] in H.
  - apply Ok_eq in H. inversion H; subst. auto.
  - apply bind_ok in H. destruct H as [[[r1 a1] e1] [H1 H]].
    apply bind_ok in H. destruct H as [[[r2 a2] es2] [H2 H]].
    apply Ok_eq in H. inversion H; subst. destruct (IH _ _ _ _ _ H2) as [H3 H4].
    cbn. rewrite H3, H4. split; [reflexivity|]. f_equal.
    unfold poll_entry in H1. destruct (e_state e).
    + apply bind_ok in H1. destruct H1 as [[[? ?] ?] [_ H1]]. apply Ok_eq in H1. inversion H1. reflexivity.
    + destruct (needs_alu (e_ins e)); [destruct a|]; apply Ok_eq in H1; inversion H1; reflexivity.
    + apply Ok_eq in H1; inversion H1; reflexivity.
    + apply Ok_eq in H1; inversion H1; reflexivity.
Qed.
