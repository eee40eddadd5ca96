(** Elementary lemmas for the refinement proof. *)
From Coq Require Import ZArith NArith List Bool Sorted Lia.
From Verif Require Import Base Alu Isa Exec Ram Writes Rat Cpu InOrder PipeInv.
Import ListNotations.
Open Scope Z_scope.

(** ---- outcomes ---- *)

Lemma Ok_eq : forall S A (a b : A), @Ok S A a = Ok b -> a = b.
Proof. intros S A a b H. now injection H. Qed.

Lemma bind_ok : forall S A B (r : res S A) (f : A -> res S B) b,
  bind r f = Ok b -> exists a, r = Ok a /\ f a = Ok b.
Proof. intros S A B [a|e s|w] f b H; cbn in H; try discriminate. eauto. Qed.

Lemma lift_ok : forall S A (c : S) (r : res unit A) a, lift c r = Ok a -> r = Ok a.
Proof. intros S A c [x|e s|w] a H; cbn in H; try discriminate. now apply Ok_eq in H; subst. Qed.

Lemma opt_ok : forall S A w (o : option A) a, @opt S A w o = Ok a -> o = Some a.
Proof. intros S A w [x|] a H; cbn in H; try discriminate. now apply Ok_eq in H; subst. Qed.

(** ---- logical registers ---- *)

Lemma reg_eqb_spec : forall a b, reflect (a = b) (reg_eqb a b).
Proof.
  intros [n| | | |] [m| | | |]; cbn; try (constructor; discriminate); try (constructor; reflexivity).
  destruct (N.eqb_spec n m); constructor; congruence.
Qed.

Lemma lreg_eqb_spec : forall a b, reflect (a = b) (lreg_eqb a b).
Proof.
  intros [r|n] [s|m]; cbn; try (constructor; discriminate).
  - destruct (reg_eqb_spec r s); constructor; congruence.
  - destruct (N.eqb_spec n m); constructor; congruence.
Qed.

Lemma lreg_eqb_refl : forall l, lreg_eqb l l = true.
Proof. intros l. destruct (lreg_eqb_spec l l); congruence. Qed.

Lemma lreg_eqb_neq : forall a b, a <> b -> lreg_eqb a b = false.
Proof. intros a b H. destruct (lreg_eqb_spec a b); congruence. Qed.

Lemma lreg_eq_dec : forall a b : lreg, {a = b} + {a <> b}.
Proof. intros a b. destruct (lreg_eqb_spec a b); auto. Qed.

Lemma is_pc_spec : forall l, is_pc l = true <-> l = LR PC.
Proof. intros [[n| | | |]|n]; cbn; split; intros H; congruence. Qed.

(** ---- association maps ---- *)

Lemma aget_in : forall V (m : amap V) k v, aget m k = Some v -> In (k, v) m.
Proof.
  induction m as [|[k' v'] m IH]; intros k v H; cbn in H; [discriminate|].
  destruct (Z.eqb_spec k k'); [left; congruence|right; auto].
Qed.

Lemma in_aget : forall V (m : amap V) k v, NoDup (map fst m) -> In (k, v) m -> aget m k = Some v.
Proof.
  induction m as [|[k' v'] m IH]; intros k v N H; [destruct H|].
  inversion N; subst. cbn. destruct H as [H|H].
  - inversion H; subst. now rewrite Z.eqb_refl.
  - destruct (Z.eqb_spec k k'); [|auto]. subst. exfalso. apply H2.
    apply in_map_iff. now exists (k', v).
Qed.

Lemma aget_none : forall V (m : amap V) k v, aget m k = None -> ~ In (k, v) m.
Proof.
  induction m as [|[k' v'] m IH]; intros k v H I; [destruct I|].
  cbn in H. destruct (Z.eqb_spec k k'); [discriminate|].
  destruct I as [I|I]; [inversion I; congruence|eapply IH; eauto].
Qed.

Lemma aget_aset : forall V (m : amap V) k v k',
  aget (aset m k v) k' = if k' =? k then Some v else aget m k'.
Proof.
  induction m as [|[k0 v0] m IH]; intros k v k'; cbn.
  - reflexivity.
  - destruct (Z.eqb_spec k k0); cbn.
    + subst. destruct (Z.eqb_spec k' k0); reflexivity.
    + rewrite IH. destruct (Z.eqb_spec k' k0), (Z.eqb_spec k' k); congruence.
Qed.

Lemma aset_keys : forall V (m : amap V) k v x,
  In x (map fst (aset m k v)) <-> x = k \/ In x (map fst m).
Proof.
  induction m as [|[k0 v0] m IH]; intros k v x; cbn.
  - intuition.
  - destruct (Z.eqb_spec k k0); cbn; [subst; intuition|]. rewrite IH. intuition.
Qed.

Lemma aset_nodup : forall V (m : amap V) k v, NoDup (map fst m) -> NoDup (map fst (aset m k v)).
Proof.
  induction m as [|[k0 v0] m IH]; intros k v N; cbn.
  - constructor; [intros []|constructor].
  - inversion N; subst. destruct (Z.eqb_spec k k0); cbn.
    + subst. now constructor.
    + constructor; [|auto]. rewrite aset_keys. intuition.
Qed.

Lemma aset_in : forall V (m : amap V) k v k' v', NoDup (map fst m) ->
  In (k', v') (aset m k v) <-> (k' = k /\ v' = v) \/ (k' <> k /\ In (k', v') m).
Proof.
  intros V m k v k' v' N. split; intros H.
  - apply in_aget in H; [|now apply aset_nodup]. rewrite aget_aset in H.
    destruct (Z.eqb_spec k' k); [left; split; congruence|right; split; auto using aget_in].
  - apply aget_in. rewrite aget_aset. destruct H as [[-> ->]|[H I]].
    + now rewrite Z.eqb_refl.
    + destruct (Z.eqb_spec k' k); [congruence|]. now apply in_aget.
Qed.

(** ---- vectors ---- *)

Lemma set_nth_length : forall A (l : list A) n a, length (set_nth l n a) = length l.
Proof. induction l; intros [|n] b; cbn; auto. Qed.

Lemma nth_set_nth : forall A (l : list A) n a m,
  nth_error (set_nth l n a) m =
  if Nat.eqb m n then match nth_error l n with Some _ => Some a | None => None end
  else nth_error l m.
Proof.
  induction l as [|x l IH]; intros [|n] a [|m]; cbn; auto.
  - destruct (Nat.eqb m n); reflexivity.
Qed.

Lemma nth_set_nth_same : forall A (l : list A) n a x, nth_error l n = Some x ->
  nth_error (set_nth l n a) n = Some a.
Proof. intros. rewrite nth_set_nth, Nat.eqb_refl. now rewrite H. Qed.

Lemma nth_set_nth_other : forall A (l : list A) n a m, m <> n ->
  nth_error (set_nth l n a) m = nth_error l m.
Proof. intros. rewrite nth_set_nth. destruct (Nat.eqb_spec m n); congruence. Qed.

(** ---- splits of the station's list ---- *)

Lemma split_mid : forall A (d : list A) e t pre x post,
  d ++ e :: t = pre ++ x :: post ->
  (pre = d /\ x = e /\ post = t) \/
  (exists mid, d = pre ++ x :: mid /\ post = mid ++ e :: t) \/
  (exists mid, pre = d ++ e :: mid /\ t = mid ++ x :: post).
Proof.
  induction d as [|y d IH]; intros e t pre x post H.
  - destruct pre as [|z pre]; cbn in H; inversion H; subst.
    + left; auto.
    + right; right. exists pre. auto.
  - destruct pre as [|z pre]; cbn in H; inversion H; subst.
    + right; left. exists d. auto.
    + destruct (IH _ _ _ _ _ H2) as [[-> [-> ->]]|[[mid [-> ->]]|[mid [-> ->]]]].
      * left; auto.
      * right; left. exists mid. auto.
      * right; right. exists mid. auto.
Qed.

Lemma split_last : forall A (d : list A) e pre x post,
  d ++ [e] = pre ++ x :: post ->
  (pre = d /\ x = e /\ post = []) \/ (exists mid, d = pre ++ x :: mid /\ post = mid ++ [e]).
Proof.
  intros A d e pre x post H. apply split_mid in H.
  destruct H as [H|[H|[mid [_ H]]]]; auto. destruct mid; discriminate.
Qed.

(** ---- the register allocation table ---- *)

Lemma rget_rset : forall t l p k,
  rget (rset t l p) k = if lreg_eqb k l then Some p else rget t k.
Proof.
  induction t as [|[k0 q] t IH]; intros l p k; cbn.
  - reflexivity.
  - destruct (lreg_eqb_spec l k0); cbn.
    + subst. destruct (lreg_eqb_spec k k0); reflexivity.
    + rewrite IH. destruct (lreg_eqb_spec k k0), (lreg_eqb_spec k l); congruence.
Qed.

Lemma rget_in : forall t l p, rget t l = Some p -> In p (map snd t).
Proof.
  induction t as [|[k q] t IH]; intros l p H; cbn in *; [discriminate|].
  destruct (lreg_eqb l k); [left; congruence|right; eauto].
Qed.

Definition cnt (p : nat) (t : rat) : nat := count_occ Nat.eq_dec (map snd t) p.

Lemma cnt_cons : forall p k q t, cnt p ((k, q) :: t) = ((if Nat.eqb p q then 1 else 0) + cnt p t)%nat.
Proof.
  intros. unfold cnt. cbn [map snd count_occ].
  destruct (Nat.eq_dec q p), (Nat.eqb_spec p q); subst; try congruence; try reflexivity.
Qed.

Lemma cnt_pos : forall t l p, rget t l = Some p -> (0 < cnt p t)%nat.
Proof.
  intros t l p H. apply rget_in in H. unfold cnt.
  now apply (count_occ_In Nat.eq_dec) in H.
Qed.

(** renaming replaces one occurrence by another *)
Lemma cnt_rset_some : forall t l p old q, rget t l = Some old ->
  (cnt q (rset t l p) + (if Nat.eqb q old then 1 else 0) =
   cnt q t + (if Nat.eqb q p then 1 else 0))%nat.
Proof.
  induction t as [|[k r] t IH]; intros l p old q H; cbn in H; [discriminate|].
  cbn [rset]. destruct (lreg_eqb_spec l k).
  - inversion H; subst. rewrite !cnt_cons. lia.
  - rewrite !cnt_cons. specialize (IH l p old q H). lia.
Qed.

Lemma cnt_rset_none : forall t l p q, rget t l = None ->
  cnt q (rset t l p) = (cnt q t + (if Nat.eqb q p then 1 else 0))%nat.
Proof.
  induction t as [|[k r] t IH]; intros l p q H; cbn in H.
  - cbn [rset]. rewrite cnt_cons. cbn. lia.
  - cbn [rset]. destruct (lreg_eqb_spec l k); [discriminate|].
    rewrite !cnt_cons, IH by assumption. lia.
Qed.

Lemma rset_length : forall t l p old, rget t l = Some old -> length (rset t l p) = length t.
Proof.
  induction t as [|[k r] t IH]; intros l p old H; cbn in *; [discriminate|].
  destruct (lreg_eqb l k); cbn; [reflexivity|]. f_equal. eauto.
Qed.

(** occurrences in a list of tables *)
Lemma occ_nil : forall p, occ p [] = 0%nat.
Proof. reflexivity. Qed.

Lemma count_app : forall (p : nat) l1 l2,
  count_occ Nat.eq_dec (l1 ++ l2) p = (count_occ Nat.eq_dec l1 p + count_occ Nat.eq_dec l2 p)%nat.
Proof.
  induction l1; intros; cbn; [reflexivity|]. destruct (Nat.eq_dec a p); rewrite IHl1; reflexivity.
Qed.

Lemma occ_cons : forall p t ts, occ p (t :: ts) = (cnt p t + occ p ts)%nat.
Proof. intros. unfold occ, cnt. cbn. apply count_app. Qed.

Lemma occ_app : forall p ts us, occ p (ts ++ us) = (occ p ts + occ p us)%nat.
Proof.
  induction ts as [|t ts IH]; intros us; cbn [app]; [reflexivity|].
  rewrite !occ_cons, IH. lia.
Qed.

Lemma occ_in : forall p t ts, In t ts -> (cnt p t <= occ p ts)%nat.
Proof.
  induction ts as [|u ts IH]; intros H; [destruct H|].
  rewrite occ_cons. destruct H as [->|H]; [lia|]. apply IH in H. lia.
Qed.

Definition entry_tabs (es : list entry) : list rat := flat_map (fun e => [e_rrat e; e_wrat e]) es.

Lemma entry_tabs_app : forall a b, entry_tabs (a ++ b) = entry_tabs a ++ entry_tabs b.
Proof. intros. apply flat_map_app. Qed.

Lemma occ_tables : forall p X t rs,
  occ p (tables X t rs) = (occ p X + cnt p t + occ p (entry_tabs rs))%nat.
Proof. intros. unfold tables. rewrite occ_app, occ_cons. unfold entry_tabs. lia. Qed.

Lemma entry_tabs_map : forall es es', map e_rrat es = map e_rrat es' -> map e_wrat es = map e_wrat es' ->
  entry_tabs es = entry_tabs es'.
Proof.
  induction es as [|e es IH]; intros [|e' es'] H1 H2; cbn in *; try discriminate; [reflexivity|].
  inversion H1; inversion H2. f_equal. f_equal. apply IH; assumption.
Qed.

(** subscriptions *)
Definition addsubs (n : nat) (r : preg) : preg := mkPreg (p_val r) (p_ready r) (n + p_subs r).

Lemma addsubs_0 : forall r, addsubs 0 r = r.
Proof. now intros []. Qed.

Lemma psub_spec : forall f p f', psub f p = Some f' ->
  forall q, nth_error f' q = option_map (addsubs (if Nat.eqb q p then 1 else 0)) (nth_error f q).
Proof.
  intros f p f' H q. unfold psub, pset in H. destruct (nth_error f p) as [r|] eqn:Hp; [|discriminate].
  inversion H; subst. rewrite nth_set_nth. destruct (Nat.eqb_spec q p).
  - subst. rewrite Hp. reflexivity.
  - destruct (nth_error f q) as [[]|]; reflexivity.
Qed.

Lemma psub_all_spec : forall t f f', psub_all f t = Some f' ->
  forall q, nth_error f' q = option_map (addsubs (cnt q t)) (nth_error f q).
Proof.
  induction t as [|[k p] t IH]; intros f f' H q; cbn in H.
  - inversion H; subst. destruct (nth_error f' q) as [[]|]; reflexivity.
  - destruct (psub f p) as [f1|] eqn:H1; [|discriminate].
    rewrite (IH _ _ H q), (psub_spec _ _ _ H1 q), cnt_cons.
    destruct (nth_error f q) as [[v rd s]|]; cbn; [|reflexivity].
    unfold addsubs; cbn. f_equal. f_equal. destruct (Nat.eqb q p); lia.
Qed.

Lemma punsub_spec : forall f p f', punsub f p = Some f' ->
  forall q, nth_error f q = option_map (addsubs (if Nat.eqb q p then 1 else 0)) (nth_error f' q).
Proof.
  intros f p f' H q. unfold punsub in H. destruct (nth_error f p) as [r|] eqn:Hp; [|discriminate].
  destruct (p_subs r) as [|n] eqn:Hs; [discriminate|]. inversion H; subst.
  rewrite nth_set_nth. destruct (Nat.eqb_spec q p).
  - subst. rewrite Hp. cbn. unfold addsubs; cbn. destruct r; cbn in *. now rewrite Hs.
  - destruct (nth_error f q) as [[]|]; reflexivity.
Qed.

Lemma punsub_all_spec : forall t f f', punsub_all f t = Some f' ->
  forall q, nth_error f q = option_map (addsubs (cnt q t)) (nth_error f' q).
Proof.
  induction t as [|[k p] t IH]; intros f f' H q; cbn in H.
  - inversion H; subst. destruct (nth_error f' q) as [[]|]; reflexivity.
  - destruct (punsub f p) as [f1|] eqn:H1; [|discriminate].
    rewrite (punsub_spec _ _ _ H1 q), (IH _ _ H q), cnt_cons.
    destruct (nth_error f' q) as [[v rd s]|]; cbn; [|reflexivity].
    unfold addsubs; cbn. f_equal. f_equal. destruct (Nat.eqb q p); lia.
Qed.

Lemma unsub_entries_spec : forall es f f', unsub_entries f es = Some f' ->
  forall q, nth_error f q = option_map (addsubs (occ q (entry_tabs es))) (nth_error f' q).
Proof.
  induction es as [|e es IH]; intros f f' H q; cbn in H.
  - inversion H; subst. destruct (nth_error f' q) as [[]|]; reflexivity.
  - destruct (punsub_all f (e_rrat e)) as [f1|] eqn:H1; [|discriminate].
    destruct (punsub_all f1 (e_wrat e)) as [f2|] eqn:H2; [|discriminate].
    rewrite (punsub_all_spec _ _ _ H1 q), (punsub_all_spec _ _ _ H2 q), (IH _ _ H q).
    change (entry_tabs (e :: es)) with (e_rrat e :: e_wrat e :: entry_tabs es).
    rewrite !occ_cons.
    destruct (nth_error f' q) as [[v rd s]|]; cbn; [|reflexivity].
    unfold addsubs; cbn. f_equal. f_equal. lia.
Qed.

(** ---- speculative states ---- *)

Lemma sfold_app : forall E S a b, sfold E S (a ++ b) = sfold E (sfold E S a) b.
Proof. intros. unfold sfold. apply fold_left_app. Qed.

Lemma sfold_cons : forall E S e es, sfold E S (e :: es) = sfold E (spec_step E (e_ins e) S) es.
Proof. reflexivity. Qed.

Lemma sfold_snoc : forall E S es e, sfold E S (es ++ [e]) = spec_step E (e_ins e) (sfold E S es).
Proof. intros. rewrite sfold_app. reflexivity. Qed.

Lemma sfold_ins : forall E es es' S, map e_ins es = map e_ins es' -> sfold E S es = sfold E S es'.
Proof.
  induction es as [|e es IH]; intros [|e' es'] S H; try discriminate; [reflexivity|].
  cbn [map] in H. inversion H. rewrite !sfold_cons. rewrite H1. now apply IH.
Qed.

Lemma gpc_app : forall a b pc, gpc pc (a ++ b) = gpc (gpc pc a) b.
Proof. induction a; intros; cbn; auto. Qed.

Lemma sfold_pc : forall E es S, a_pc (sfold E S es) = gpc (a_pc S) (map e_ins es).
Proof.
  induction es as [|e es IH]; intros S; [reflexivity|].
  rewrite sfold_cons, IH. reflexivity.
Qed.

Lemma gpreds_app : forall a b pc, gpreds pc (a ++ b) = gpreds pc a ++ gpreds (gpc pc a) b.
Proof. induction a; intros; cbn; [reflexivity|]. rewrite IHa. now rewrite app_assoc. Qed.

Lemma spec_reg : forall E i S l, a_reg (spec_step E i S) l = a_reg (eff E i S) l.
Proof. reflexivity. Qed.

Lemma spec_mem : forall E i S a, a_mem (spec_step E i S) a = a_mem (eff E i S) a.
Proof. reflexivity. Qed.

Lemma u64_idem : forall z, u64 (u64 z) = u64 z.
Proof. intros. unfold u64. now rewrite Z.mod_mod by discriminate. Qed.

Lemma u64_in : forall z, in_u64 (u64 z).
Proof. intros. unfold in_u64, u64. apply Z.mod_pos_bound. reflexivity. Qed.

Lemma in_u64_id : forall z, in_u64 z -> u64 z = z.
Proof. intros z H. unfold u64. apply Z.mod_small. exact H. Qed.

Lemma u64_s64 : forall z, u64 (s64 z) = u64 z.
Proof.
  intros. unfold u64, s64. cbv zeta. destruct (Z.ltb_spec (z mod two64) two63).
  - apply Z.mod_mod. discriminate.
  - replace (z mod two64 - two64) with (z mod two64 + (-1) * two64) by ring.
    rewrite Z.mod_add by discriminate. apply Z.mod_mod. discriminate.
Qed.

Lemma guess_in : forall i pc, in_u64 (guess i pc).
Proof.
  intros. unfold guess, next_guess. destruct (jump_dest i) as [d|]; [destruct (op_val d)|]; apply u64_in.
Qed.
