(** A harmless program never makes the VM stumble: whole ticks. *)
From Coq Require Import ZArith NArith List Bool Sorted Lia.
From Verif Require Import Base Alu Isa Exec Ram Writes Rat Cpu LiveSpec InOrder PipeInv PipeBasics PipeActs PipeMem
  PipeExec PipePoll PipeRetire PipeAdd PipeTick PipeBoot PipeDom PipeLive SafeSpec PipeSafe PipeSafeExec PipeSafeStep PipeSafeRetire PipeRun PipePoke.
Import ListNotations.
Open Scope Z_scope.

(** Where the next [n] instructions of the predicted path store to. *)
Fixpoint window (E : env) (p : list instr) (n : nat) (S : arch) : list Z :=
  match n with
  | O => []
  | Datatypes.S n' => optl (store_addr E (prog_at p (a_pc S)) S) ++ window E p n' (spec_step E (prog_at p (a_pc S)) S)
  end.

Lemma window_le : forall E p n m S, (n <= m)%nat -> NoDup (window E p m S) -> NoDup (window E p n S).
Proof.
  intros E p. assert (Hp : forall n m S, (n <= m)%nat -> exists t, window E p m S = window E p n S ++ t).
  { induction n as [|n IH]; intros m S H; [eexists; reflexivity|]. destruct m as [|m]; [lia|]. cbn [window]. destruct (IH m (spec_step E (prog_at p (a_pc S)) S)) as [t Ht]; [lia|]. exists t. now rewrite Ht, app_assoc. }
  intros n m S H Hn. destruct (Hp n m S H) as [t Ht]. rewrite Ht in Hn. eapply nodup_l. exact Hn.
Qed.

Lemma saddrs_window : forall E p rs S, entries_ok E p S rs -> saddrs E S rs = window E p (length rs) S.
Proof.
  intros E p. induction rs as [|e rs IH]; intros S H; [reflexivity|]. cbn [saddrs length window]. destruct (H [] e rs eq_refl) as [Hi _]. change (sfold E S []) with S in Hi. rewrite Hi. f_equal.
  rewrite <- Hi. apply IH. now apply entries_pop.
Qed.

Section Machine.
Variable E : env.
Variable g : cfg.
Variable p : list instr.
Hypothesis wraps : e_mode E = Wrap.
Hypothesis good : forall pc, good_ins g (prog_at p pc) = true.

(** What the states from [A] on must offer. *)
Definition clear (A : arch) : Prop := forall k A', io_steps E p k A A' ->
  NoDup (window E p (g_rs g) A') /\ (a_halted A' = false -> forall r, prog_at p (a_pc A') = IGetchar r -> get_char (a_in A') <> None).

Definition SC (c : cpu) : Prop := c_cfg c = g /\ c_prog c = p /\ D c /\ SX g (c_regs c) (c_wm c) (c_rs c).

Lemma J_apart : forall den role A c, J E den role [] [] A c -> c_cfg c = g -> c_prog c = p -> NoDup (window E p (g_rs g) A) -> NoDup (saddrs E A (c_rs c)).
Proof.
  intros den role A c HJ Hc Hp HN. rewrite (saddrs_window E p); [|rewrite <- Hp; apply (j_ent _ _ _ _ _ _ _ HJ)]. eapply window_le; [|exact HN]. rewrite <- Hc. apply (j_len _ _ _ _ _ _ _ HJ).
Qed.
Lemma J_good : forall den role A c, J E den role [] [] A c -> c_prog c = p -> Forall (fun x => good_ins g (e_ins x) = true) (c_rs c).
Proof.
  intros den role A c HJ Hp. apply Forall_forall. intros x Hx. apply in_split in Hx. destruct Hx as (pre & post & Hs). destruct (j_ent _ _ _ _ _ _ _ HJ pre x post Hs) as [Hi _]. rewrite Hi, Hp. apply good.
Qed.

Lemma tick_retire_go : forall A c, Inv E A c -> SC c -> clear A ->
  (exists c2, tick_retire E c = Ok c2 /\ SC c2) \/ exists s, tick_retire E c = Throw EMemRange s.
Proof.
  intros A c HI (Hc & Hp & HD & HS) HA. pose proof HI as (Ih & Ir & Is & den & role & HJ).
  destruct (HA 0%nat A (ios_refl _ _ _)) as [HN _].
  pose proof (J_XI _ _ _ _ _ HJ) as [Xe Xr Xw Xm Xa]. destruct (tick_mem_inv _ _ _ _ _ Xw Xm) as [Xw1 Xm1].
  set (r := ram_tick (c_ram c)) in *. set (w := wm_remove_finished (c_wm c) r) in *.
  assert (X1 : XI E den role [] A (c_prog c) (c_rat c) r (g_alus (c_cfg c)) (c_regs c) w (c_alus c) ([] ++ c_rs c)) by (constructor; auto).
  destruct (exec_loop_go E g wraps _ _ _ _ _ _ _ _ _ _ _ _ _ X1 (SX_finished _ _ _ _ _ r _ Xw HS) (J_good _ _ _ _ HJ Hp) (J_apart _ _ _ _ HJ Hc Hp HN)) as (f1 & w1 & a1 & es1 & Hx & HS1).
  assert (Hex : exec_phase E c = Ok (f1, w1, a1, es1)) by exact Hx.
  destruct (exec_phase_inv _ _ _ _ HI Hex) as (den1 & role1 & HK & Hl1). set (c1 := exec_state c (f1, w1, a1, es1)) in *.
  assert (HD1 : D c1).
  { unfold exec_phase in Hex. apply exec_loop_tabs in Hex. destruct Hex as [Ht Hl]. destruct HD as [Dl Dd]. split; [transitivity (length (c_regs c)); [exact Hl|exact Dl]|]. change (Dt (c_cfg c) (tabs es1) (c_rat c)). now rewrite Ht. }
  assert (Hret : tick_retire E c = retire_loop (length (c_rs c1)) c1) by (rewrite tick_retire_eq, Hex; reflexivity).
  destruct (retire_loop_go E g (length (c_rs c1)) A c1 den1 role1 HK HD1 Hc HS1) as [(c2 & H2 & HS2)|[s H2]].
  - intros pc. change (c_prog c1) with (c_prog c). rewrite Hp. apply good.
  - change (c_prog c1) with (c_prog c). rewrite Hp. intros k A' Hk. apply (HA k A' Hk).
  - left. exists c2. rewrite Hret. split; [exact H2|]. assert (H2' : tick_retire E c = Ok c2) by congruence.
    destruct (tick_retire_inv _ _ _ _ HI H2') as (den2 & role2 & is & A' & R & _). split; [rewrite (rd_cfg _ _ _ _ _ _ _ _ R); exact Hc|]. split; [rewrite (rd_prog _ _ _ _ _ _ _ _ R); exact Hp|].
    split; [|exact HS2]. exact (tick_retire_D E c c2 HD H2').
  - right. exists s. congruence.
Qed.

Lemma tick_go : forall A c, Inv E A c -> SC c -> clear A ->
  (exists c', tick E c = Ok c' /\ SC c') \/ exists s, tick E c = Throw EMemRange s.
Proof.
  intros A c HI HSC HA. unfold tick. destruct (tick_retire_go A c HI HSC HA) as [(c2 & H2 & HC2)|[s H2]]; rewrite H2; cbn [bind]; [|right; eauto].
  left. destruct (c_halted c2); [eauto|]. cbv zeta. fold (stop_state c2).
  destruct (tick_retire_inv _ _ _ _ HI H2) as (den & role & is & A' & R & _). destruct HSC as (_ & Hp0 & _ & _).
  destruct (HA _ A' (io_run_steps _ _ _ _ _ _ _ (eq_ind _ (fun q => io_run E q is A (c_dbg c, 0) A' (c_dbg c2, c_int c2)) (rd_run _ _ _ _ _ _ _ _ R) _ Hp0))) as [HN _].
  destruct (stop_state_inv _ _ _ _ _ (rd_K _ _ _ _ _ _ _ _ R)) as (J3 & _ & _ & Hp3 & Hg3 & _).
  assert (HC3 : SC (stop_state c2)).
  { destruct HC2 as (B1 & B2 & B3 & B4). split; [congruence|]. split; [congruence|]. split; [now apply stop_state_D|]. unfold stop_state. destruct (c_single c2); exact B4. }
  set (c3 := stop_state c2) in *. clearbody c3. destruct (negb _); [eauto|]. destruct HC3 as (B1 & B2 & B3 & B4).
  destruct (poll_loop_go E g wraps _ _ _ _ _ _ _ _ _ (g_gates (c_cfg c3)) _ _ _ [] (J_XI _ _ _ _ _ J3) B4) as (r & a & es & Hpo & HS4). rewrite Hpo. cbn [lift bind app] in *.
  pose proof (poll_phase_inv _ _ _ _ _ _ _ _ _ J3 Hpo) as J4. pose proof (poll_D _ _ _ _ _ _ B3 Hpo) as D4.
  assert (HC4 : SX g (c_regs (set_polled c3 r es a)) (c_wm (set_polled c3 r es a)) (c_rs (set_polled c3 r es a))) by exact HS4.
  assert (B1' : c_cfg (set_polled c3 r es a) = g) by exact B1. assert (B2' : c_prog (set_polled c3 r es a) = p) by exact B2.
  set (c4 := set_polled c3 r es a) in *. clearbody c4. clear B1 B2 B3 B4 HS4 Hpo. rename B1' into B1. rename B2' into B2.
  assert (H5 : exists c5, tick_decode c4 = Ok c5 /\ SC c5).
  { unfold tick_decode. destruct (c_decode c4) as [[i pc]|] eqn:Hd; [|exists c4; split; [reflexivity|]; split; auto].
    destruct (Nat.ltb_spec (length (c_rs c4)) (g_rs (c_cfg c4))) as [Hlt|_]; [|exists c4; split; [reflexivity|]; split; auto].
    assert (Hgi : good_ins g i = true).
    { pose proof (pi_path _ _ _ (j_path _ _ _ _ _ _ _ J4)) as Hpa. unfold front in Hpa. rewrite Hd in Hpa. cbn [optl app fpath] in Hpa. destruct Hpa as [-> _]. rewrite B2. apply good. }
    pose proof (add_ok E den role A' c4 i pc J4 D4 Hlt) as Hao. unfold add_out in Hao. destruct (good_defined _ _ Hgi) as [Go Gp].
    destruct (add c4 i pc) as [c5|ex s|u] eqn:Hadd; [| |destruct Hao].
    - cbn [bind]. eexists. split; [reflexivity|]. destruct (add_inv _ _ _ _ _ _ _ _ _ J4 Hd eq_refl Hadd) as (den' & role' & J5 & F1 & F2 & _). set (c6 := set_front c5 (c_spec c5) (c_fetch c5) None (c_pred c5)) in *.
      assert (G1 : c_cfg c6 = g) by (change (c_cfg c5 = g); congruence). assert (G2 : c_prog c6 = p) by (change (c_prog c5 = p); congruence). split; [exact G1|]. split; [exact G2|]. split; [apply front_D; apply Hao|].
      change (SX g (c_regs c5) (c_wm c5) (c_rs c5)). rewrite <- B1. eapply added_SX; [exact J4|rewrite B1; exact HC4|apply Hao| |rewrite B1; exact Hgi|exact Hadd|].
      + exact F2.
      + change (c_rs c5) with (c_rs c6). apply (J_apart _ _ _ _ J5 G1 G2 HN).
    - exfalso. destruct Hao as [(_ & ps & l & P1 & P2 & P3)|(_ & [P|P])]; [|contradiction|contradiction].
      rewrite B1 in P3. rewrite (good_products g i l Hgi) in P3; [discriminate|]. exists ps. auto. }
  destruct H5 as (c5 & H5 & C1 & C2 & C3 & C4). rewrite H5. cbn [bind]. eexists. split; [reflexivity|]. destruct (tick_front_frame c5) as (F1 & F2 & _ & _ & F5 & _ & F7).
  split; [congruence|]. split; [congruence|]. split; [now apply tick_front_D|]. rewrite F1, F2. assert (Fr : c_regs (tick_front c5) = c_regs c5); [|rewrite Fr; exact C4].
  unfold tick_front. destruct (c_decode c5); [destruct (c_fetch c5)|destruct (c_fetch (set_front c5 (c_spec c5) None (c_fetch c5) (c_pred c5)))]; try reflexivity; unfold fetch; destruct (jump_dest _); reflexivity.
Qed.

Lemma clear_steps : forall n A A', clear A -> io_steps E p n A A' -> clear A'.
Proof.
  intros n A A' HA H k A2 Hk. apply (HA (n + k)%nat A2). clear HA. induction H as [S|n S S1 S2 H1 H2 IH]; [exact Hk|]. cbn. econstructor; [exact H1|]. now apply IH.
Qed.

(** Any number of ticks. *)
Lemma ticks_go : forall n A c, Inv E A c -> SC c -> clear A -> (exists c', ticks E n c = Ok c' /\ SC c') \/ exists s, ticks E n c = Throw EMemRange s.
Proof.
  induction n as [|n IH]; intros A c HI HC HA; cbn [ticks]; [left; eauto|].
  destruct (tick_go A c HI HC HA) as [(c1 & H1 & HC1)|[s H1]]; rewrite H1; cbn [bind]; [|right; eauto].
  destruct (tick_inv _ _ _ _ HI H1) as (is & A' & T). destruct (td_run _ _ _ _ _ _ T) as (m & Hr & _). apply io_run_steps in Hr. destruct HC as (_ & Hp & _). rewrite Hp in Hr.
  apply (IH A' c1 (td_Inv _ _ _ _ _ _ T) HC1). eapply clear_steps; eassumption.
Qed.

Lemma boot_SC : forall data input c0, boot g p data input = Ok c0 -> SC c0.
Proof.
  intros data input c0 H. pose proof (boot_D _ _ _ _ _ H) as HD. unfold boot in H.
  apply bind_ok in H. destruct H as [c1 [H0 H]]. unfold cpu_init in H0. cbv zeta in H0. destruct (psub_all _ _) as [f|] eqn:Hf; [|discriminate].
  destruct (set_lregs_regs _ _ _ H0) as [f1 ->]. apply load_data_spec in H; [|lia]. destruct H as [m [-> Hm]]. cbn [set_regs set_mem] in *. split; [reflexivity|]. split; [reflexivity|]. split; [exact HD|].
  constructor; [intros x l q []|exact I|intros id Hid; now elim Hid|intros x id []|intros x []|intros x []|apply HD].
Qed.
End Machine.
