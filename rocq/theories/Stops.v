(** L8: why and where the machine stops. *)
From Coq Require Import ZArith NArith List Bool Sorted Lia.
From Verif Require Import Base Alu Isa State AluSpec Exec Ram Writes Rat Cpu InOrder PipeInv PipeBasics PipeActs PipeMem
  PipeExec PipePoll PipeRetire PipeAdd PipeTick PipeBoot PipeDom PipeRun IsaSpec IsaRefine Os DbgSpec PipePoke Session.
Import ListNotations.
Open Scope Z_scope.

(** ---- the cell written ---- *)

Lemma reg_val_fun : forall S l v w, reg_val S l v -> reg_val S l w -> v = w.
Proof.
  intros S l v w H1 H2. inversion H1; subst; inversion H2; subst; try congruence.
  match goal with A : is_word_of _ v, B : is_word_of _ w |- _ => destruct A as [A1 [k A2]], B as [B1 [j B2]] end. lia.
Qed.

Lemma inside_fun : forall S o z w, inside S o z -> inside S o w -> z = w.
Proof.
  intros S o z w H1 H2. inversion H1; subst; inversion H2; subst; try reflexivity;
    repeat match goal with A : reg_val S ?l ?v, B : reg_val S ?l ?w |- _ =>
      tryif constr_eq v w then fail else (pose proof (reg_val_fun _ _ _ _ A B); subst; clear B) end; reflexivity.
Qed.

Lemma writes_fun : forall S i a b, writes_cell S i a -> writes_cell S i b -> a = b.
Proof.
  intros S i a b H1 H2. inversion H1; subst; inversion H2; subst; try reflexivity.
  match goal with A : inside S d _, B : inside S d _ |- _ => now rewrite (inside_fun _ _ _ _ A B) end.
Qed.

Lemma writes_mem_dest : forall S d v a, writes_cell S (IMov d v) a -> is_reg_dest d = false.
Proof. intros S d v a H. inversion H; subst. match goal with A : inside _ _ _ |- _ => inversion A; reflexivity end. Qed.

Lemma store_cell : forall E i S os vs acts, wordy S -> typed_instr i ->
  operands i = Some os -> evs E S os = Some (vs, false) -> exec_acts E i vs = Ok acts ->
  match store_of i acts with
  | Some (a, v) => writes_cell S i a
  | None => forall a, ~ writes_cell S i a
  end.
Proof.
  intros E i S os vs acts W T Hos Hev Hex.
  assert (Hno : (forall a, ~ writes_cell S i a) -> act_val acts = None -> match store_of i acts with
    | Some (a, v) => writes_cell S i a | None => forall a, ~ writes_cell S i a end).
  { intros H1 H2. unfold store_of. rewrite H2. exact H1. }

  destruct i; cbn [operands] in Hos;
    try (apply Hno; [intros b Hb; inversion Hb|];
         destruct vs as [|x0 [|x1 [|x2 vs]]]; cbn [exec_acts] in Hex; try discriminate;
         repeat match type of Hex with
         | bind ?r _ = _ => destruct r; try discriminate; cbn [bind] in Hex
         | context [if ?b then _ else _] => destruct b
         | match ?x with _ => _ end = _ => destruct x; try discriminate
         end; apply Ok_eq in Hex; subst acts; reflexivity).
  - (* IMov *)
    destruct T as [Td Tv]. destruct (addr_regs d) as [rs|] eqn:Hrs.
    + assert (Hd : os = v :: map OReg rs) by (destruct d; cbn [addr_regs] in Hrs; try discriminate; inversion Hrs; subst rs; inversion Hos; reflexivity).
      subst os. apply evs_cons in Hev. destruct Hev as [y [ws [-> [Hy Hev]]]]. apply evs_regs in Hev. subst ws.
      assert (Hex' : exists a, eff_addr (e_mode E) d (map (fun r => rd S (LR r)) rs) = Ok a /\ acts = [AAddr a; AVal y]).
      { destruct d; cbn [addr_regs] in Hrs; try discriminate; cbn [exec_acts] in Hex;
          (destruct (eff_addr (e_mode E) _ (map (fun r => rd S (LR r)) rs)) as [a| |]; try discriminate;
           cbn [bind] in Hex; apply Ok_eq in Hex; exists a; split; [reflexivity|now symmetry]). }
      destruct Hex' as [a [Ha ->]]. destruct (eff_addr_spec E S d rs a W Hrs Ha) as [z [Hz Haz]].
      unfold store_of. cbn [act_val act_addr]. subst a. now constructor.
    + destruct d; cbn [addr_regs] in Hrs; try discriminate; inversion Hos; subst os; clear Hos;
        apply evs_cons in Hev; destruct Hev as [y [ws [-> [Hy Hev]]]]; apply evs_nil in Hev; subst ws;
        cbn [exec_acts] in Hex; apply Ok_eq in Hex; subst acts.
      * intros b Hb. apply writes_mem_dest in Hb. discriminate.
      * unfold store_of. cbn [act_val act_addr].
        assert (Haa : address a = a) by (unfold address; apply Z.mod_small; exact Td).
        rewrite <- Haa at 2. constructor. constructor.
      * intros b Hb. apply writes_mem_dest in Hb. discriminate.
  - (* ICall *)
    inversion Hos; subst os; clear Hos.
    apply evs_cons in Hev. destruct Hev as [x [ws [-> [Hx Hev]]]].
    apply evs_cons in Hev. destruct Hev as [y [ws' [-> [Hy Hev]]]].
    apply evs_cons in Hev. destruct Hev as [z [ws'' [-> [Hz Hev]]]]. apply evs_nil in Hev. subst ws''.
    apply ev_reg in Hy. apply ev_reg in Hz. cbn [exec_acts] in Hex. cbn [rd] in Hy, Hz. subst y z.
    destruct (arith (e_mode E) (a_reg S (LR SP) - 1)) as [sp| |] eqn:Hs; try discriminate.
    cbn [bind] in Hex. apply Ok_eq in Hex. subst acts. apply arith_word, address_word in Hs.
    unfold store_of. cbn [act_val act_addr mem_prod]. rewrite Hs. constructor.
  - (* IPush *)
    inversion Hos; subst os; clear Hos.
    apply evs_cons in Hev. destruct Hev as [x [ws [-> [Hx Hev]]]].
    apply evs_cons in Hev. destruct Hev as [y [ws' [-> [Hy Hev]]]]. apply evs_nil in Hev. subst ws'.
    apply ev_reg in Hy. cbn [exec_acts] in Hex. cbn [rd] in Hy. subst y.
    destruct (arith (e_mode E) (a_reg S (LR SP) - 1)) as [sp| |] eqn:Hs; try discriminate.
    cbn [bind] in Hex. apply Ok_eq in Hex. subst acts. apply arith_word, address_word in Hs.
    unfold store_of. cbn [act_val act_addr mem_prod]. rewrite Hs. constructor.
  - (* IFpush *)
    inversion Hos; subst os; clear Hos.
    apply evs_cons in Hev. destruct Hev as [x [ws [-> [Hx Hev]]]].
    apply evs_cons in Hev. destruct Hev as [y [ws' [-> [Hy Hev]]]]. apply evs_nil in Hev. subst ws'.
    apply ev_reg in Hy. cbn [exec_acts] in Hex. cbn [rd] in Hy. subst y.
    destruct (arith (e_mode E) (a_reg S (LR SP) - 1)) as [sp| |] eqn:Hs; try discriminate.
    cbn [bind] in Hex. apply Ok_eq in Hex. subst acts. apply arith_word, address_word in Hs.
    unfold store_of. cbn [act_val act_addr mem_prod]. rewrite Hs. constructor.
Qed.

(** ---- the debug registers ---- *)

Lemma set_nth_same : forall (l : list Z) n x, (n < length l)%nat -> nth n (set_nth l n x) 0 = x.
Proof. induction l as [|y l IH]; intros [|n] x H; cbn [length] in H; try lia; cbn [set_nth nth]; [reflexivity|]. apply IH. lia. Qed.

Lemma set_nth_other : forall (l : list Z) n m x, n <> m -> nth m (set_nth l n x) 0 = nth m l 0.
Proof.
  induction l as [|y l IH]; intros [|n] [|m] x H; cbn [set_nth nth]; try reflexivity; [congruence|]. apply IH. congruence.
Qed.

Lemma byte1_bit : forall ctl i k, (i < 4)%nat -> 0 <= k -> Z.testbit (byte1_set ctl (Z.shiftl 1 (Z.of_nat i))) k =
  if (8 <=? k) && (k <? 16) then (k - 8 =? Z.of_nat i) else Z.testbit ctl k.
Proof.
  intros ctl i k Hi Hk. unfold byte1_set. rewrite Z.lor_spec, Z.ldiff_spec.
  rewrite !Z.shiftl_spec by lia. change 65280 with (Z.shiftl (Z.ones 8) 8). rewrite Z.shiftl_spec by lia.
  assert (H1 : Z.testbit (Z.ones 8) (k - 8) = (8 <=? k) && (k <? 16)).
  { rewrite Z.testbit_ones by lia. destruct (Z.leb_spec 0 (k - 8)), (Z.leb_spec 8 k), (Z.ltb_spec (k - 8) 8), (Z.ltb_spec k 16); try reflexivity; lia. }
  rewrite H1. clear H1.
  destruct (Z.leb_spec 8 k) as [H8|H8]; cbn [andb].
  - rewrite Z.shiftl_spec by lia. assert (H2 : Z.testbit 1 (k - 8 - Z.of_nat i) = (k - 8 =? Z.of_nat i)).
    { destruct (Z.eqb_spec (k - 8) (Z.of_nat i)) as [He|He]; [now rewrite He, Z.sub_diag|].
      destruct (Z.lt_ge_cases (k - 8 - Z.of_nat i) 0) as [Hl|Hl]; [now apply Z.testbit_neg_r|].
      change 1 with (Z.ones 1). rewrite Z.testbit_ones by lia. destruct (Z.ltb_spec (k - 8 - Z.of_nat i) 1); [lia|now rewrite andb_false_r]. }
    rewrite H2. destruct (Z.ltb_spec k 16) as [H16|H16]; cbn [negb].
    + now rewrite andb_false_r.
    + rewrite andb_true_r. destruct (Z.eqb_spec (k - 8) (Z.of_nat i)); [lia|]. now rewrite orb_false_r.
  - rewrite (Z.testbit_neg_r _ (k - 8)) by lia. now rewrite andb_true_r, orb_false_r.
Qed.

(** [d'] is [d] up to bits 8 to 15 of the control register. *)
Definition near (d d' : list Z) : Prop :=
  length d' = length d /\ (forall j, (j < 4)%nat -> nth j d' 0 = nth j d 0) /\
  forall k, 0 <= k -> (8 <=? k) && (k <? 16) = false -> Z.testbit (nth 4 d' 0) k = Z.testbit (nth 4 d 0) k.

Lemma near_watches : forall d d' i a, near d d' -> watches d' i a <-> watches d i a.
Proof.
  intros d d' i a [N1 [N2 N3]]. unfold watches. split; intros [H1 [H2 H3]]; (split; [exact H1|]);
    assert (Hb : (8 <=? Z.of_nat i) && (Z.of_nat i <? 16) = false) by (destruct (Z.leb_spec 8 (Z.of_nat i)); [lia|reflexivity]).
  - rewrite <- (N3 (Z.of_nat i)), <- (N2 i) by (auto; lia). auto.
  - rewrite (N3 (Z.of_nat i)), (N2 i) by (auto; lia). auto.
Qed.

Definition watch_b (d : list Z) (i : nat) (a : Z) : bool :=
  Z.testbit (nth 4 d 0) (Z.of_nat i) && (nth i d 0 =? a).

Lemma watch_spec : forall d i a, (i < 4)%nat -> watch_b d i a = true <-> watches d i a.
Proof. intros d i a H. unfold watch_b, watches. rewrite andb_true_iff, Z.eqb_eq. tauto. Qed.

(** the state after some of the four comparisons, started in [(d, 0)] *)
Definition cw_inv (d : list Z) (a : Z) (m : nat) (s : list Z * Z) : Prop :=
  near d (fst s) /\
  (((forall i, (i < m)%nat -> ~ watches d i a) /\ s = (d, 0)) \/ (snd s = 2 /\ recorded d (fst s) a)).

Lemma cw_step : forall d a m s, length d = 5%nat -> (m < 4)%nat -> cw_inv d a m s -> cw_inv d a (S m) (check_write1 a m s).
Proof.
  intros d a m [d1 n1] Hd Hm [N H]. unfold check_write1.
  change (Z.testbit (nth 4 d1 0) (Z.of_nat m) && (nth m d1 0 =? a)) with (watch_b d1 m a).
  cbn [fst snd] in *. destruct (watch_b d1 m a) eqn:Hw.
  - apply watch_spec in Hw; [|exact Hm]. apply (near_watches d d1) in Hw; [|exact N].
    destruct N as [N1 [N2 N3]].
    assert (Hrec : recorded d (set_nth d1 4 (byte1_set (nth 4 d1 0) (Z.shiftl 1 (Z.of_nat m)))) a).
    { exists m. split; [exact Hw|]. split; [intros j Hj; rewrite set_nth_other by lia; auto|].
      split; [rewrite set_nth_length; exact N1|]. intros k Hk. rewrite set_nth_same by lia. rewrite byte1_bit by assumption.
      destruct ((8 <=? k) && (k <? 16)) eqn:Hb; [reflexivity|]. now apply N3. }
    split; [|right; auto]. cbn [fst].
    destruct Hrec as [i [_ [R1 [R2 R3]]]]. split; [exact R2|]. split; [exact R1|].
    intros k Hk Hb. rewrite R3 by exact Hk. now rewrite Hb.
  - split; [exact N|]. destruct H as [[H1 H2]|H]; [left|now right]. split; [|exact H2].
    injection H2 as -> ->. intros i Hi Hwi. destruct (Nat.eq_dec i m) as [->|Hne]; [|apply (H1 i); [lia|exact Hwi]].
    apply watch_spec in Hwi; [congruence|exact Hm].
Qed.

Lemma check_write_spec : forall d a, length d = 5%nat ->
  ((forall i, ~ watches d i a) /\ check_write a (d, 0) = (d, 0)) \/
  (exists d', check_write a (d, 0) = (d', 2) /\ recorded d d' a).
Proof.
  intros d a Hd. unfold check_write.
  assert (H0 : cw_inv d a 0 (d, 0)).
  { split; [split; auto|]. left. split; [lia|reflexivity]. }
  apply cw_step in H0; [|exact Hd|lia]. apply cw_step in H0; [|exact Hd|lia].
  apply cw_step in H0; [|exact Hd|lia]. apply cw_step in H0; [|exact Hd|lia].
  destruct H0 as [_ [[H1 H2]|[H1 H2]]].
  - left. split; [|exact H2]. intros i Hw. apply (H1 i); [destruct Hw; lia|exact Hw].
  - right. destruct (check_write1 a 3 _) as [d' n]. cbn [fst snd] in *. subst n. eauto.
Qed.

(** ---- one instruction ---- *)

Lemma step_notice : forall E p S S' d, valid_prog p -> Forall typed_instr p -> wordy S -> length d = 5%nat ->
  io_step E p S S' -> forall d' n, step_dbg E (prog_at p (a_pc S)) S (d, 0) = (d', n) ->
  (n = 0 /\ d' = d /\ (forall r, noticed d p S r -> r = RHalted)) \/
  (exists r, reason_of n = Some r /\ n <> 0 /\ noticed d p S r /\ r <> RHalted /\ r <> RSingle /\ (r <> RHwBkpt -> d' = d) /\
     (r = RHwBkpt -> exists a, writes_cell S (instr_at p (a_pc S)) a /\ recorded d d' a)).
Proof.
  intros E p S S' d V T W Hd [os vs acts Hh Hos Hev Hex Hst Hgc] d' n H.
  rewrite prog_at_instr in * by (apply W). set (i := instr_at p (a_pc S)) in *.
  assert (Hti : typed_instr i) by (now apply typed_at).
  pose proof (store_cell E i S os vs acts W Hti Hos Hev Hex) as Hsc.
  unfold step_dbg, eff_store in H. rewrite Hos, Hev, Hex in H.
  destruct (store_of i acts) as [[a v]|] eqn:Hs.
  - destruct (check_write_spec d a Hd) as [[H1 H2]|[d1 [H1 H2]]].
    + rewrite H2 in H. injection H as <- <-. left. split; [reflexivity|]. split; [reflexivity|].
      intros r Hr. inversion Hr as [?|Hb|j b Hw Hj]; subst; [reflexivity| |].
      * fold i in Hb. rewrite Hb in Hsc. inversion Hsc.
      * fold i in Hw. rewrite (writes_fun _ _ _ _ Hw Hsc) in Hj. exfalso. exact (H1 _ Hj).
    + rewrite H1 in H. injection H as <- <-. right. exists RHwBkpt.
      split; [reflexivity|]. split; [lia|]. destruct H2 as [j [Hj H2]].
      split; [econstructor; [exact Hsc|exact Hj]|].
      split; [discriminate|]. split; [discriminate|]. split; [congruence|]. intros _. exists a. split; [exact Hsc|]. exists j. auto.
  - destruct (match i with IBkpt => true | _ => false end) eqn:Hb.
    + destruct i eqn:Hi; try discriminate. injection H as <- <-. right. exists RSwBkpt.
      split; [reflexivity|]. split; [discriminate|]. split; [now constructor|].
      split; [discriminate|]. split; [discriminate|]. split; [auto|discriminate].
    + assert (Hn : (d', n) = (d, 0)) by (destruct i; try discriminate; congruence).
      injection Hn as -> ->. left. split; [reflexivity|]. split; [reflexivity|].
      intros r Hr. inversion Hr as [?|Hb'|j b Hw Hj]; subst; [reflexivity| |].
      * fold i in Hb'. rewrite Hb' in Hb. discriminate.
      * fold i in Hw. exfalso. exact (Hsc _ Hw).
Qed.

Lemma step_halts : forall E p S S', wordy S -> io_step E p S S' -> a_halted S' = true <-> instr_at p (a_pc S) = IHalt.
Proof.
  intros E p S S' W [os vs acts Hh Hos Hev Hex Hst Hgc]. rewrite prog_at_instr by (apply W). cbn [commit a_halted].
  rewrite Hh. cbn [orb]. unfold is_halt. destruct (instr_at p (a_pc S)); split; intros; congruence.
Qed.

(** ---- runs ---- *)

Lemma io_run_app : forall E p ii A s A1 s1, io_run E p ii A s A1 s1 -> snd s1 = 0 -> forall jj A' s',
  io_run E p jj A1 s1 A' s' -> io_run E p (ii ++ jj) A s A' s'.
Proof.
  induction 1 as [A s|ii A s T A1 s1 Hst Hz Hr IH]; intros H0 jj A' s' Hj; [exact Hj|].
  cbn [app]. econstructor; [exact Hst| |].
  - intros _. destruct ii as [|i ii]; [|apply Hz; discriminate]. inversion Hr; subst. exact H0.
  - apply IH; assumption.
Qed.

(** A run ends with an instruction that gives cause to stop, at most. *)
Lemma run_calm : forall E p ii A s A' s', io_run E p ii A s A' s' -> snd s = 0 -> valid_prog p -> Forall typed_instr p ->
  typed_fops (e_fops E) -> wordy A -> length (fst s) = 5%nat -> ii <> [] ->
  exists n A1, length ii = S n /\ calm_run (e_fops E) (fst s) p n A A1 /\ io_step E p A1 A' /\ wordy A1 /\
    s' = step_dbg E (prog_at p (a_pc A1)) A1 s.
Proof.
  induction 1 as [A s|ii A s T A' s' Hst Hz Hr IH]; intros H0 V Tp TF W Hd Hn; [congruence|]. clear Hn.
  destruct ii as [|i ii].
  - exists 0%nat, A. split; [reflexivity|]. split; [constructor|]. inversion Hr; subst. auto.
  - assert (Hi : i :: ii <> []) by discriminate. specialize (Hz Hi).
    destruct s as [d n]. cbn [snd fst] in *. subst n.
    destruct (step_dbg E (prog_at p (a_pc A)) A (d, 0)) as [d1 n1] eqn:Hs. cbn [snd] in Hz. subst n1.
    destruct (step_notice E p A T d V Tp W Hd Hst _ _ Hs) as [[_ [-> Hno]]|[r [_ [Hc _]]]]; [|congruence].
    pose proof (io_isa _ _ _ _ V Tp W Hst) as Hisa.
    assert (W1 : wordy T). { destruct Hisa as [_ He]. eapply effect_wordy; eauto. now apply typed_at. }
    destruct (IH eq_refl V Tp TF W1 Hd Hi) as [n [A1 [I1 [I2 [I3 [I4 I5]]]]]].
    exists (S n), A1. split; [cbn [length] in *; lia|]. split; [|split; [exact I3|split; [exact I4|exact I5]]].
    econstructor; [|exact Hisa|exact I2]. intros r Hr'. pose proof (Hno r Hr') as ->. inversion Hr'; subst.
    assert (Hh : a_halted T = true) by (apply (step_halts E p A T W Hst); assumption).
    inversion Hr; subst. match goal with H : io_step _ _ T _ |- _ => destruct H end. congruence.
Qed.

(** ---- from resuming to the next stop ---- *)

Lemma check_write1_len : forall a i s, length (fst (check_write1 a i s)) = length (fst s).
Proof. intros a i [d n]. unfold check_write1. destruct (_ && _); [apply set_nth_length|reflexivity]. Qed.

Lemma step_dbg_len : forall E i A s, length (fst (step_dbg E i A s)) = length (fst s).
Proof.
  intros E i A s. unfold step_dbg. destruct (eff_store E i A) as [[a v]|].
  - unfold check_write. now rewrite !check_write1_len.
  - now destruct i.
Qed.

Lemma io_run_len : forall E p ii A s A' s', io_run E p ii A s A' s' -> length (fst s') = length (fst s).
Proof. induction 1 as [A s|ii A s T A' s' Hst Hz Hr IH]; [reflexivity|]. now rewrite IH, step_dbg_len. Qed.

(** Why a run that ends in the state [A'] with interrupt [n] is reported as [r]. *)
Definition cause (r : reason) (trap : bool) (A' : arch) (n : Z) : Prop :=
  (r = RHalted /\ a_halted A' = true) \/
  (a_halted A' = false /\ reason_of n = Some r /\ n <> 0) \/
  (a_halted A' = false /\ n = 0 /\ r = RSingle /\ trap = true).

Lemma tick_seg : forall E A stop c h, Inv E A c -> D c -> c_halted c = false -> os_tick E true stop c = Ok h ->
  match h with
  | Ended _ _ => True
  | At r c' => live r -> exists ii A' n, io_run E (c_prog c) ii A (c_dbg c, 0) A' (c_dbg c', n) /\ ii <> [] /\ rests E A' c' /\
      (c_trap c = true -> length ii = 1%nat) /\ cause r (c_trap c) A' n /\ c_prog c' = c_prog c /\
      c_trap c' = (match r with RSingle => false | _ => c_trap c end)
  | Going _ c' => exists ii A', io_run E (c_prog c) ii A (c_dbg c, 0) A' (c_dbg c', 0) /\
      Inv E A' c' /\ D c' /\ c_halted c' = false /\ (c_trap c = true -> ii = []) /\ c_prog c' = c_prog c /\ c_trap c' = c_trap c
  end.
Proof.
  intros E A stop c h HI HD Hh H. unfold os_tick in H.
  destruct (tick E c) as [c'|e s|w] eqn:Ht; [|apply Ok_eq in H; subst h; intros Hl; exfalso; now apply Hl|discriminate].
  destruct (tick_reached _ _ _ _ HI HD Ht) as [ii [A' [T R]]].
  assert (HA : a_halted A = false) by (destruct HI as [HI _]; congruence).
  destruct R as [R1 R2 R3 R4 R5 R6 R7].
  assert (HA' : a_halted A' = c_halted c') by (destruct R2 as [R2 _]; exact R2).
  assert (Htrap : c_trap c = true -> (stopped c' /\ length ii = 1%nat) \/ (~ stopped c' /\ ii = [] /\ A' = A)).
  { intros Htr. eapply trap_tick; eauto. }
  destruct T as [T1 [n [T2 T3]] T4 T5 T6 T7 T8].
  assert (Hstop : forall r, live r -> stopped c' -> c_prog (host_cpu (enter r c')) = c_prog c -> cause r (c_trap c) A' n ->
    exists ii A' n, io_run E (c_prog c) ii A (c_dbg c, 0) A' (c_dbg (host_cpu (enter r c')), n) /\ ii <> [] /\
      rests E A' (host_cpu (enter r c')) /\ (c_trap c = true -> length ii = 1%nat) /\ cause r (c_trap c) A' n /\
      c_prog (host_cpu (enter r c')) = c_prog c /\ c_trap (host_cpu (enter r c')) = (match r with RSingle => false | _ => c_trap c end)).
  { intros r Hl Hs Hp Hc. exists ii, A', n.
    split; [destruct r; exact T2|]. split.
    { intros ->. inversion T2; subst. revert T3. cbn [length Nat.eqb negb]. rewrite andb_false_r. cbn [andb].
      destruct Hs as [Hs|Hs]; intros; congruence. }
    split; [destruct r; cbn [enter host_cpu]; try apply rests_trap; constructor; auto|].
    split; [intros Htr; destruct (Htrap Htr) as [[_ H1]|[H1 _]]; [exact H1|contradiction]|].
    split; [exact Hc|]. split; [exact Hp|]. destruct r; cbn [enter host_cpu set_trap c_trap]; auto. }
  destruct (c_halted c') eqn:Hc'.
  { apply Ok_eq in H. subst h. cbn [enter]. intros Hl. apply (Hstop RHalted Hl); [now left|exact R4|]. left. auto. }
  destruct (Z.ltb_spec 0 (c_int c')) as [Hi|Hi].
  { destruct (reason_of (c_int c')) as [r|] eqn:Hr; [|discriminate]. apply Ok_eq in H. subst h.
    unfold enter. intros Hl. apply (Hstop r Hl); [right; lia|destruct r; exact R4|]. right.
    cbn [negb andb] in T3. destruct (c_trap c && negb (length ii =? 0)%nat && (n =? 0)) eqn:Hb.
    - right. apply andb_prop in Hb. destruct Hb as [Hb Hn]. apply andb_prop in Hb. destruct Hb as [Hb _].
      apply Z.eqb_eq in Hn. rewrite T3 in Hr. injection Hr as <-. auto.
    - left. rewrite <- T3. split; [exact HA'|]. split; [exact Hr|lia]. }
  assert (Hn0 : n = 0 /\ c_int c' = 0).
  { pose proof (io_run_int _ _ _ _ _ _ _ T2 ltac:(cbn; lia)) as Hn. cbn [snd] in Hn. revert Hi T3.
    destruct (_ && (n =? 0)); lia. }
  destruct Hn0 as [-> Hn0].
  assert (Hint : ~ stopped c') by (intros [Hs|Hs]; congruence).
  assert (Hgo : c_trap c = true -> ii = []).
  { intros Htr. destruct (Htrap Htr) as [[Hn _]|[_ [-> _]]]; [contradiction|reflexivity]. }
  destruct stop; apply Ok_eq in H; subst h; [exact I|]. exists ii, A'. auto 9.
Qed.

Lemma segment : forall E G ys h h', psession E G true ys h h' -> forall A c r c', h = Going false c -> h' = At r c' -> live r ->
  cmds ys = [] -> Inv E A c -> D c -> c_halted c = false ->
  exists ii A' n, io_run E (c_prog c) ii A (c_dbg c, 0) A' (c_dbg c', n) /\ ii <> [] /\ rests E A' c' /\
    (c_trap c = true -> length ii = 1%nat) /\ cause r (c_trap c) A' n /\ c_prog c' = c_prog c /\
    c_trap c' = (match r with RSingle => false | _ => c_trap c end).
Proof.
  induction 1 as [h|x xs h h1 h2 Hp He Hs IH]; intros A c r c' Hc Hc' Hl Hk HI HD Hh; [congruence|]. subst h.
  destruct x as [|k]; cbn [os_event] in He; [|discriminate]. cbn [cmds] in Hk. injection He as He.
  pose proof (tick_seg E A false c h1 HI HD Hh He) as Ht.
  assert (Hst : forall b c1, h1 = Going b c1 -> b = false).
  { intros b c1 ->. unfold os_tick in He. destruct (tick E c) as [cc|e s|w]; try discriminate.
    destruct (c_halted cc); [discriminate|]. destruct (0 <? c_int cc); [destruct (reason_of (c_int cc)); discriminate|].
    apply Ok_eq in He. congruence. }
  destruct h1 as [r1 c1|b c1|b c1].
  - (* stopped *)
    inversion Hs; subst.
    + match goal with H : At _ _ = At _ _ |- _ => injection H as <- <- end. exact (Ht Hl).
    + destruct x; [discriminate|discriminate Hk].
  - rewrite (Hst _ _ eq_refl) in *. destruct Ht as [ii [A1 [T1 [T2 [T3 [T4 [T5 [T6 T7]]]]]]]].
    destruct (IH A1 c1 r c' eq_refl Hc' Hl Hk T2 T3 T4) as [jj [A' [n [I1 [I2 [I3 [I4 [I5 [I6 I7]]]]]]]]].
    rewrite T6 in I1, I6. rewrite T7 in I4, I5, I7.
    exists (ii ++ jj), A', n. split; [eapply io_run_app; [exact T1|reflexivity|exact I1]|].
    split; [intros Hn; apply app_eq_nil in Hn; tauto|]. split; [exact I3|].
    split; [intros Htr; rewrite (T5 Htr); cbn [app]; auto|]. auto.
  - subst h2. inversion Hs; subst. destruct x; discriminate.
Qed.

(** ---- the debug registers and the trap flag throughout a session ---- *)

Definition host_dbg (h : host) : Prop :=
  match h with
  | At r c => live r -> length (c_dbg c) = 5%nat /\ (r = RSingle -> c_trap c = false)
  | Going _ c => length (c_dbg c) = 5%nat
  | Ended _ _ => True
  end.

Lemma do_cmd_dbg : forall G r k c a c' n, do_cmd G r k c = Ok (a, c', n) ->
  length (c_dbg c') = length (c_dbg c) /\ (k <> CSingleStep -> c_trap c' = c_trap c) /\ (n = Stay -> k <> CSingleStep).
Proof.
  intros G r k c a c' n H. destruct k; cbn [do_cmd] in H;
    try (apply Ok_eq in H; injection H as _ <- <-; cbn [set_trap c_dbg c_trap]; split; [reflexivity|]; split; congruence);
    try (destruct (collect _ _); [|discriminate]; apply Ok_eq in H; injection H as _ <- <-; split; [reflexivity|]; split; congruence);
    try (destruct (show_regs _ _); [|discriminate]; apply Ok_eq in H; injection H as _ <- <-; split; [reflexivity|]; split; congruence);
    apply bind_ok in H; destruct H as [c1 [H1 H]]; apply Ok_eq in H; injection H as _ <- <-.
  - unfold poke_text in H1. destruct (_ && _); [|discriminate]. apply Ok_eq in H1. subst c1. split; [reflexivity|]. split; [reflexivity|discriminate].
  - unfold poke_data in H1. destruct (ram_set _ _ _); [|discriminate]. apply Ok_eq in H1. subst c1. split; [reflexivity|]. split; [reflexivity|discriminate].
  - unfold poke_dbg in H1. destruct (_ && _); [|discriminate]. apply Ok_eq in H1. subst c1. cbn [set_dbg c_dbg c_trap].
    split; [apply set_nth_length|]. split; [reflexivity|discriminate].
  - apply set_lreg_regs in H1. destruct H1 as [f ->]. split; [reflexivity|]. split; [reflexivity|discriminate].
  - unfold poke_reg in H1. apply bind_ok in H1. destruct H1 as [c2 [H1 H]]. apply Ok_eq in H.
    apply set_lreg_regs in H1. destruct H1 as [f ->]. subst c1. destruct r0; (split; [reflexivity|]; split; [reflexivity|discriminate]).
Qed.

Lemma dbg_session : forall E G xs h h', psession E G true xs h h' -> forall A, host_at E A h -> host_dbg h -> host_dbg h'.
Proof.
  induction 1 as [h|x xs h h1 h2 Hp He Hs IH]; intros A HA HB; [exact HB|].
  destruct (host_session E G true [x] h h1 ltac:(econstructor; [exact Hp|exact He|constructor]) A HA) as [A1 HA1].
  apply (IH A1 HA1). clear IH Hs h2 xs.
  destruct h as [r0 c0|stop c0|b c0]; destruct x as [|k]; cbn [os_event] in He; try discriminate.
  - unfold os_cmd in He. destruct (do_cmd G r0 k c0) as [[[a c1] nx]|e s|w] eqn:Hk; cbn [bind] in He; try discriminate.
    injection He as <-. destruct (do_cmd_dbg _ _ _ _ _ _ _ Hk) as [D1 [D2 D3]].
    destruct (classic_live r0) as [Hl|Hl']; [|subst r0; destruct nx; cbn [leave host_dbg]; try exact I; intros Hl; exfalso; now apply Hl].
    destruct (HB Hl) as [B1 B2]. destruct nx.
    + intros _. split; [congruence|]. intros Hr. rewrite D2 by (apply D3; reflexivity). auto.
    + destruct r0; cbn [leave host_dbg]; try exact I; congruence.
    + destruct r0; cbn [leave host_dbg]; try exact I; congruence.
  - injection He as He. destruct HA as [HI [HD Hh]]. pose proof (tick_seg E A stop c0 h1 HI HD Hh He) as Ht.
    cbn [host_dbg] in HB. destruct h1 as [r1 c1|b c1|b c1]; cbn [host_dbg]; [| |exact I].
    + intros Hl. destruct (Ht Hl) as [ii [A' [n [T1 [T2 [T3 [T4 [T5 [T6 T7]]]]]]]]]. apply io_run_len in T1. cbn [fst] in T1.
      split; [congruence|]. intros ->. exact T7.
    + destruct Ht as [ii [A' [T1 _]]]. apply io_run_len in T1. cbn [fst] in T1. congruence.
Qed.

(** Without SINGLESTEP the trap flag is never set. *)
Definition host_free (h : host) : Prop :=
  match h with At r c => live r -> c_trap c = false | Going _ c => c_trap c = false | Ended _ _ => True end.

Lemma free_session : forall E G xs h h', psession E G true xs h h' -> forall A, ~ In CSingleStep (cmds xs) -> host_at E A h ->
  host_free h -> host_free h'.
Proof.
  induction 1 as [h|x xs h h1 h2 Hp He Hs IH]; intros A Hin HA HB; [exact HB|].
  destruct (host_session E G true [x] h h1 ltac:(econstructor; [exact Hp|exact He|constructor]) A HA) as [A1 HA1].
  apply (IH A1); [destruct x; cbn [cmds In] in Hin; tauto|exact HA1|]. clear IH Hs h2.
  destruct h as [r0 c0|stop c0|b c0]; destruct x as [|k]; cbn [os_event] in He; try discriminate.
  - unfold os_cmd in He. destruct (do_cmd G r0 k c0) as [[[a c1] nx]|e s|w] eqn:Hk; cbn [bind] in He; try discriminate.
    injection He as <-. destruct (do_cmd_dbg _ _ _ _ _ _ _ Hk) as [D1 [D2 D3]].
    assert (Hks : k <> CSingleStep) by (intros ->; cbn [cmds In] in Hin; tauto). specialize (D2 Hks).
    destruct (classic_live r0) as [Hl|Hl']; [|subst r0; destruct nx; cbn [leave host_free]; try exact I; intros Hl; exfalso; now apply Hl].
    specialize (HB Hl). destruct nx; [intros _; congruence| |]; destruct r0; cbn [leave host_free]; try exact I; congruence.
  - injection He as He. destruct HA as [HI [HD Hh]]. pose proof (tick_seg E A stop c0 h1 HI HD Hh He) as Ht.
    cbn [host_free] in HB. destruct h1 as [r1 c1|b c1|b c1]; cbn [host_free]; [| |exact I].
    + intros Hl. destruct (Ht Hl) as [ii [A' [n [T1 [T2 [T3 [T4 [T5 [T6 T7]]]]]]]]]. rewrite T7, HB. now destruct r1.
    + destruct Ht as [ii [A' [T1 [T2 [T3 [T4 [T5 [T6 T7]]]]]]]]. congruence.
Qed.

Lemma run_means : forall E p ii A A' d d' n r t, io_run E p ii A (d, 0) A' (d', n) -> ii <> [] -> valid_prog p -> Forall typed_instr p ->
  typed_fops (e_fops E) -> wordy A -> length d = 5%nat -> (t = true -> length ii = 1%nat) -> cause r t A' n ->
  stop_means (e_fops E) d d' p t A A' r.
Proof.
  intros E p ii A A' d d' n r t Hr Hn V Tp TF W Hd Ht Hc.
  destruct (run_calm _ _ _ _ _ _ _ Hr eq_refl V Tp TF W Hd Hn) as [m [A1 [Hm [C1 [C2 [C3 C4]]]]]]. cbn [fst] in *.
  pose proof (io_isa _ _ _ _ V Tp C3 C2) as Hisa. pose proof (step_halts _ _ _ _ C3 C2) as Hha. symmetry in C4.
  assert (Ht' : t = true -> m = 0%nat) by (intros H; specialize (Ht H); lia).
  destruct (step_notice E p A1 A' d V Tp C3 Hd C2 _ _ C4) as [[-> [-> Hno]]|[q [Q1 [Q2 [Q3 [Q4 [Q5 [Q6 Q7]]]]]]]].
  - assert (Hhw : r <> RHwBkpt) by (destruct Hc as [[-> _]|[[_ [Hc _]]|[_ [_ [-> _]]]]]; try discriminate; discriminate Hc).
    split; [|auto]. exists m, A1. do 3 (split; [assumption|]). split; [|congruence].
    destruct Hc as [[-> Hc]|[[_ [_ Hc]]|[Hc [_ [-> Ht1]]]]]; [|congruence|].
    + left. constructor. now apply Hha.
    + right. split; [reflexivity|]. split; [exact Ht1|]. intros q Hq. pose proof (Hno q Hq) as ->. inversion Hq; subst.
      assert (a_halted A' = true) by (apply Hha; assumption). congruence.
  - assert (Hrq : r = q).
    { destruct Hc as [[-> Hc]|[[_ [Hc _]]|[_ [Hc _]]]]; [|congruence|congruence]. exfalso.
      apply Hha in Hc. inversion Q3 as [H|H|i a H H']; subst; [now apply Q4|congruence|]. rewrite Hc in H. inversion H. }
    subst q. split; [|exact Q6]. exists m, A1. do 3 (split; [assumption|]). split; [now left|exact Q7].
Qed.

(** ---- a stop in a session ---- *)

Lemma stop_sound : forall E G g p data input c0 xs r c k ys r' c',
  started E g p data input c0 -> psession E G true xs (os_start true c0) (At r c) -> Forall typed_cmd (cmds xs) ->
  k = CSingleStep \/ k = CContinue -> psession E G true (ECmd k :: ys) (At r c) (At r' c') -> cmds ys = [] -> r' <> RCpuError ->
  exists t S S', shows c S /\ shows c' S' /\ c_prog c' = c_prog c /\ (k = CSingleStep -> t = true) /\
    (k = CContinue -> r = RSingle \/ ~ In CSingleStep (cmds xs) -> t = false) /\
    stop_means (e_fops E) (c_dbg c) (c_dbg c') (c_prog c) t S S' r'.
Proof.
  intros E G g p data input c0 xs r c k ys r' c' [Hip Hty Hb] Hs Htc Hk Hs' Hys Hr'.
  assert (Hv : valid_prog p) by (eapply Forall_impl; [exact keeps_ip_ok|exact Hip]).
  destruct (boot_host E g p data input c0 true Hv Hb) as [HA [Hp [Hg [HR Hh]]]].
  inversion Hs' as [|x xs0 h h1 h2 Hpo He Hse]; subst. cbn [os_event] in He. unfold os_cmd in He.
  destruct (do_cmd G r k c) as [[[a c1] nx]|e s|w] eqn:Hd; cbn [bind] in He; try discriminate.
  assert (Hnx : nx = Resume /\ c1 = match k with CSingleStep => set_trap c true | _ => c end).
  { destruct Hk as [-> | ->]; cbn [do_cmd] in Hd; apply Ok_eq in Hd; injection Hd as _ <- <-; auto. }
  destruct Hnx as [-> Hc1]. injection He as <-.
  assert (Hlr : r <> RCpuError /\ r <> RHalted).
  { split; intros ->; cbn [leave] in Hse; inversion Hse; subst;
      match goal with H : os_event _ _ _ ?x _ = _ |- _ => destruct x; discriminate H end. }
  destruct Hlr as [Hl Hnh].
  assert (Hgo : leave r false c1 = Going false c1) by (destruct r; try reflexivity; congruence).
  rewrite Hgo in Hse.
  destruct (session_sound _ _ _ _ _ Hs _ _ _ eq_refl Hl HA) as [m [A1 [n [A' [[_ ->] [I2 [I3 [I4 I5]]]]]]]].
  pose proof (boot_wordy _ _ _ _ _ Hty) as W. destruct Hty as [T1 T2 T3 T4 T5].
  cbn [os_start enter host_cpu] in I2.
  destruct (io_debug _ _ _ _ _ I2 T1 Htc T2 W) as [_ [W' T']]. cbn [fst snd] in W', T'.
  assert (HB : host_dbg (At r c) /\ (~ In CSingleStep (cmds xs) -> c_trap c = false)).
  { assert (H0 : length (c_dbg c0) = 5%nat /\ c_trap c0 = false).
    { unfold boot in Hb. apply bind_ok in Hb. destruct Hb as [cc [H0 H]].
      unfold cpu_init in H0. cbv zeta in H0. destruct (psub_all _ _) as [f|]; [|discriminate].
      destruct (set_lregs_regs _ _ _ H0) as [f1 ->]. apply load_data_spec in H; [|lia]. destruct H as [mm [-> Hm]].
      split; reflexivity. }
    split.
    - apply (dbg_session _ _ _ _ _ Hs _ HA). cbn [os_start enter host_dbg]. intros _. split; [apply H0|discriminate].
    - intros Hin. apply (free_session _ _ _ _ _ Hs _ Hin HA); [|exact Hl]. cbn [os_start enter host_free]. intros _. apply H0. }
  destruct HB as [HB HF]. destruct (HB Hl) as [HB1 HB2].
  destruct I3 as [RI RD RR].
  assert (Hin1 : Inv E A' c1 /\ D c1 /\ c_halted c1 = false /\ c_dbg c1 = c_dbg c /\ c_prog c1 = c_prog c).
  { subst c1. destruct Hk as [-> | ->]; [|auto 9]. split; [now apply Inv_trap|]. split; [exact RD|]. cbn [set_trap c_halted c_dbg c_prog]. auto. }
  destruct Hin1 as [HI1 [HD1 [HH1 [HB3 HP1]]]].
  destruct (segment _ _ _ _ _ Hse A' c1 r' c' eq_refl eq_refl Hr' Hys HI1 HD1 HH1) as [ii [A'' [q [G1 [G2 [G3 [G4 [G5 [G6 G7]]]]]]]]].
  rewrite HB3, HP1 in G1. rewrite HP1 in G6.
  exists (c_trap c1), A', A''. split; [apply (rests_shows E); constructor; auto|]. split; [now apply (rests_shows E)|].
  split; [exact G6|]. split; [intros ->; subst c1; reflexivity|]. split.
  - intros -> [->|Hno]; subst c1; auto.
  - eapply run_means; eauto. eapply Inv_valid; eauto.
Qed.
