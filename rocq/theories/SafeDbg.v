(** Sessions that cannot bring the VM down: proofs. *)
From Coq Require Import ZArith NArith List Bool Sorted Lia.
From Verif Require Import Base Alu Isa State AluSpec IsaSpec Exec Ram Writes Rat Cpu Os LiveSpec InOrder IsaRefine DbgSpec PipeInv PipeBasics PipeRetire PipeTick PipeBoot PipeDom PipeRun PipePoke
  PipeSafe PipeSafeExec PipeSafeTick SafeSpec SafeWindow Session PropPipe PropLive PropSafe SafeDbgSpec.
Import ListNotations.
Open Scope Z_scope.

(** ---- what the in-order machine keeps ---- *)

Lemma io_covers : forall E p k S T, io_steps E p k S T -> forall a, a_mem S a <> None -> a_mem T a <> None.
Proof.
  induction 1 as [S|n S S1 S2 H1 H2 IH]; intros a Ha; [exact Ha|]. apply IH. destruct H1 as [os vs acts _ _ _ _ _ _].
  cbn [commit a_mem]. destruct (store_of _ _) as [[b v]|]; [|exact Ha]. unfold mupd. destruct (_ =? _); [discriminate|exact Ha].
Qed.

Lemma check_write1_len : forall a i s, length (fst (check_write1 a i s)) = length (fst s).
Proof. intros a i [d n]. unfold check_write1. destruct (_ && _); [|reflexivity]. cbn [fst]. apply set_nth_length. Qed.
Lemma step_dbg_len : forall E i A s, length (fst (step_dbg E i A s)) = length (fst s).
Proof.
  intros E i A s. unfold step_dbg. destruct (eff_store E i A) as [[a v]|].
  - unfold check_write. now rewrite !check_write1_len.
  - destruct i; reflexivity.
Qed.
Lemma io_run_len : forall E p ii A s A' s', io_run E p ii A s A' s' -> length (fst s') = length (fst s).
Proof. induction 1 as [A s|ii A s T A' s' Hst Hz Hr IH]; [reflexivity|]. rewrite IH. apply step_dbg_len. Qed.

(** ---- well-formed programs ---- *)

Section Machine.
Variable E : env.
Variable g : cfg.
Hypothesis wraps : e_mode E = Wrap.
Hypothesis floats : typed_fops (e_fops E).

Lemma wf_good : forall p, well_formed g p -> forall pc, good_ins g (prog_at p pc) = true.
Proof. intros p W. apply harmless_at. apply (wf_harmless _ _ W). Qed.

Lemma wf_clear : forall p A, well_formed g p -> wordy A -> clear E g p A.
Proof.
  intros p A W HA k A' Hk. destruct (io_isa_run _ _ _ _ _ (keeps_valid _ (wf_ip _ _ W)) (wf_typed _ _ W) floats Hk HA) as [_ W'].
  split; [apply spread_window; [exact wraps|now apply wf_good|apply (wf_spread _ _ W)|apply W']|].
  intros _ r Hr. exfalso. revert Hr. unfold prog_at. destruct (_ && _); [|discriminate]. intros Hr.
  destruct (nth_in_or_default (Z.to_nat (a_pc A')) p INop) as [H|H]; [|congruence]. pose proof (wf_input _ _ W) as Hi. rewrite Forall_forall in Hi. specialize (Hi _ H). rewrite Hr in Hi. discriminate.
Qed.

(** What holds at every point of a careful session. *)
Record fit (A : arch) (c : cpu) : Prop := mkFit {
  ft_wordy : wordy A;
  ft_mem : forall a, 0 <= a < Z.of_nat (g_ram g) -> a_mem A a <> None;
  ft_wf : well_formed g (c_prog c);
  ft_SC : SC g (c_prog c) c;
  ft_dbg : length (c_dbg c) = 5%nat
}.

Definition host_fit (A : arch) (h : host) : Prop :=
  match h with At r c => live r -> fit A c | Going _ c => fit A c | Ended _ _ => True end.

Lemma fit_trap : forall A c b, fit A c -> fit A (set_trap c b).
Proof. intros A c b [H1 H2 H3 H4 H5]. constructor; auto. Qed.

(** ---- ticks ---- *)

Lemma tick_fit : forall A c, Inv E A c -> fit A c ->
  (exists c', tick E c = Ok c' /\ (0 < c_int c' -> reason_of (c_int c') <> None) /\ SC g (c_prog c) c' /\ length (c_dbg c') = 5%nat) \/ exists s, tick E c = Throw EMemRange s.
Proof.
  intros A c HI [F1 F2 F3 F4 F5].
  destruct (tick_go E g (c_prog c) wraps (wf_good _ F3) A c HI F4 (wf_clear _ _ F3 F1)) as [(c' & H & HC)|[s H]]; [left|right; eauto].
  exists c'. destruct F4 as (_ & _ & HD & _). destruct (tick_reached E A c c' HI HD H) as (ii & A' & T & _). destruct (td_run _ _ _ _ _ _ T) as (m & Hr & Hc).
  split; [exact H|]. split; [|split; [exact HC|apply io_run_len in Hr; cbn [fst] in Hr; congruence]]. intros Hi.
  destruct (io_run_known E _ _ _ _ _ _ Hr eq_refl) as [Hm|[Hm|Hm]]; cbn [snd] in Hm; subst m; rewrite Hc in *; destruct (_ && _); try discriminate; lia.
Qed.

Lemma os_tick_fit : forall A stop c, Inv E A c -> c_halted c = false -> fit A c ->
  exists h, os_tick E true stop c = Ok h /\ exists A', host_at E A' h /\ host_fit A' h.
Proof.
  intros A stop c HI Hh HF. pose proof HF as [F1 F2 F3 F4 F5]. pose proof F4 as (_ & _ & HD & _).
  assert (Hok : exists h, os_tick E true stop c = Ok h).
  { unfold os_tick. destruct (tick_fit A c HI HF) as [(c' & -> & Hi & _)|[s ->]]; [|eauto]. destruct (c_halted c'); [eauto|].
    destruct (Z.ltb_spec 0 (c_int c')) as [H0|H0]; [|eauto]. specialize (Hi H0). destruct (reason_of (c_int c')); [eauto|now elim Hi]. }
  destruct Hok as [h Hok]. exists h. split; [exact Hok|].
  destruct (tick_host _ _ _ _ _ HI HD Hh Hok) as [[c' ->]|(m & A' & T1 & T2 & T3 & T4 & _)].
  { exists A. split; intros Hl; exfalso; now apply Hl. }
  exists A'. split; [exact T2|].
  assert (W' : wordy A') by (destruct (io_isa_run _ _ _ _ _ (keeps_valid _ (wf_ip _ _ F3)) (wf_typed _ _ F3) floats T1 F1); assumption).
  assert (M' : forall a, 0 <= a < Z.of_nat (g_ram g) -> a_mem A' a <> None) by (intros a Ha; eapply io_covers; eauto).
  unfold os_tick in Hok. destruct (tick_fit A c HI HF) as [(c' & Ht & _ & HC & Hd)|[s Ht]]; rewrite Ht in Hok.
  2:{ apply Ok_eq in Hok. subst h. intros Hl. exfalso. now apply Hl. }
  assert (Hf : fit A' c').
  { pose proof HC as (HC1 & HC2 & HC3 & HC4). constructor; try assumption; rewrite HC2; assumption. }
  assert (He : forall r, host_fit A' (enter r c')) by (intros r _; destruct r; auto; now apply fit_trap).
  destruct (c_halted c'); [apply Ok_eq in Hok; subst h; apply He|]. destruct (0 <? c_int c').
  - destruct (reason_of (c_int c')); [|discriminate]. apply Ok_eq in Hok. subst h. apply He.
  - apply Ok_eq in Hok. subst h. destruct stop; [exact I|exact Hf].
Qed.

(** ---- commands ---- *)

Lemma idle_SC : forall c c', SC g (c_prog c) c -> D c' -> c_rs c' = [] -> c_wm c' = c_wm c -> c_cfg c' = c_cfg c -> SC g (c_prog c') c'.
Proof.
  intros c c' (H1 & _ & _ & H4) HD Hr Hw Hc. split; [congruence|]. split; [reflexivity|]. split; [exact HD|].
  rewrite Hr. constructor; [intros e l p []|exact I| |intros e id []|intros e []|intros e []|].
  - rewrite Hw. apply (sx_keys _ _ _ _ H4).
  - destruct HD as [HD _]. rewrite HD, Hc, H1. reflexivity.
Qed.

Lemma collect_some : forall (f : Z -> option Z) l, (forall a, In a l -> f a <> None) -> exists r, collect f l = Some r.
Proof.
  intros f. induction l as [|a l IH]; intros H; cbn [collect]; [eauto|]. destruct (f a) eqn:Hf; [|now elim (H a (or_introl eq_refl))].
  destruct IH as [r ->]; [intros b Hb; apply H; now right|eauto].
Qed.
Lemma range_in : forall i n a, In a (range i n) -> i <= a < i + Z.of_nat n.
Proof. intros i n a H. unfold range in H. apply in_map_iff in H. destruct H as (k & <- & H). apply in_seq in H. lia. Qed.

Lemma show_all : forall c l, D c -> (forall x, In x l -> lreg_ok (c_cfg c) x = true) -> exists xs, show_regs c l = Some xs.
Proof.
  intros c. unfold show_regs. induction l as [|x l IH]; intros HD H; cbn [collect]; [eauto|]. destruct (D_reg c x HD (H x (or_introl eq_refl))) as [v ->]. cbn [option_map].
  destruct IH as [xs ->]; [exact HD|intros y Hy; apply H; now right|eauto].
Qed.
Lemma reg_list_ok : forall G x, In x (reg_list G) -> lreg_ok G x = true.
Proof.
  intros G x H. unfold reg_list in H. apply in_app_or in H. destruct H as [H|H]; [cbn in H; destruct H as [<-|[<-|[<-|[]]]]; reflexivity|].
  apply in_map_iff in H. destruct H as (k & <- & H). apply in_seq in H. cbn. apply N.ltb_lt. lia.
Qed.
Lemma freg_list_ok : forall G x, In x (freg_list G) -> lreg_ok G x = true.
Proof. intros G x H. unfold freg_list in H. apply in_map_iff in H. destruct H as (k & <- & H). apply in_seq in H. cbn. apply N.ltb_lt. lia. Qed.

Lemma set_lreg_some : forall c l v, D c -> lreg_ok (c_cfg c) l = true -> exists c', set_lreg c l v = Ok c'.
Proof.
  intros c l v HD Hl. destruct (D_reg c l HD Hl) as [w Hw]. unfold get_lreg, get_preg in Hw. unfold set_lreg, pset. destruct (rget (c_rat c) l) as [q|]; [|discriminate].
  destruct (nth_error (c_regs c) q) eqn:Hn; [eauto|discriminate].
Qed.

Lemma do_cmd_some : forall G r k c A, rests E A c -> fit A c -> fine g k c -> exists x, do_cmd G r k c = Ok x.
Proof.
  intros G r k c A [HI HD HR] [F1 F2 F3 F4 F5] Hk. pose proof F4 as (Hg & _ & _ & _).
  assert (Hmem : forall a, 0 <= a < Z.of_nat (g_ram g) -> ram_get (c_ram c) a <> None).
  { intros a Ha. destruct HR as (_ & _ & _ & _ & _ & _ & _ & R & _). unfold ram_get. rewrite R. now apply F2. }
  destruct k; cbn [do_cmd fine] in *; try (eexists; reflexivity).
  - (* text *) unfold poke_text. destruct Hk as (Hk & _). rewrite (proj2 (Z.leb_le _ _)), (proj2 (Z.ltb_lt _ _)) by lia. eexists. reflexivity.
  - (* peek data *) destruct (collect_some (ram_get (c_ram c)) (range i n)) as [l ->]; [|eexists; reflexivity]. intros a Ha. apply Hmem. apply range_in in Ha. lia.
  - (* poke data *) unfold poke_data, ram_set. destruct Hk as (_ & Hk & _). specialize (Hmem i Hk). unfold ram_get in Hmem. destruct (mem_at _ _); [|now elim Hmem]. eexists. reflexivity.
  - destruct (show_all c (reg_list (c_cfg c)) HD (reg_list_ok _)) as [xs ->]. eexists. reflexivity.
  - destruct (show_all c (freg_list (c_cfg c)) HD (freg_list_ok _)) as [xs ->]. eexists. reflexivity.
  - (* debug registers *) unfold poke_dbg. rewrite F5, (proj2 (Z.leb_le _ _)), (proj2 (Z.ltb_lt _ _)) by lia. eexists. reflexivity.
  - destruct (set_lreg_some c (LF n) v HD) as [c' ->]; [rewrite Hg; apply Hk|]. eexists. reflexivity.
  - unfold poke_reg. destruct (set_lreg_some c (LR r0) v HD) as [c' ->]; [rewrite Hg; destruct r0; try reflexivity; apply Hk|]. eexists. reflexivity.
Qed.

Lemma fine_polite : forall k c, fine g k c -> polite k c.
Proof. intros k c H. destruct k; cbn [fine polite] in *; tauto. Qed.

Lemma do_cmd_dbg : forall G r k c a c' n, do_cmd G r k c = Ok (a, c', n) -> length (c_dbg c') = length (c_dbg c).
Proof.
  intros G r k c a c' n H. destruct k; cbn [do_cmd] in H;
    try (apply Ok_eq in H; injection H as _ <- _; reflexivity);
    try (destruct (collect _ _); [|discriminate]; apply Ok_eq in H; injection H as _ <- _; reflexivity);
    try (destruct (show_regs _ _); [|discriminate]; apply Ok_eq in H; injection H as _ <- _; reflexivity);
    apply bind_ok in H; destruct H as [c1 [H1 H]]; apply Ok_eq in H; injection H as _ <- _.
  - unfold poke_text in H1. destruct (_ && _); [|discriminate]. apply Ok_eq in H1. now subst c1.
  - unfold poke_data in H1. destruct (ram_set _ _ _); [|discriminate]. apply Ok_eq in H1. now subst c1.
  - unfold poke_dbg in H1. destruct (_ && _); [|discriminate]. apply Ok_eq in H1. subst c1. apply set_nth_length.
  - apply set_lreg_regs in H1. destruct H1 as [f ->]. reflexivity.
  - unfold poke_reg in H1. apply bind_ok in H1. destruct H1 as [c2 [H1 H]]. apply Ok_eq in H.
    apply set_lreg_regs in H1. destruct H1 as [f ->]. subst c1. now destruct r0.
Qed.

Lemma fine_fit : forall G r k c a c' A, rests E A c -> fit A c -> fine g k c -> do_cmd G r k c = Ok (a, c', Stay) ->
  exists A', rests E A' c' /\ fit A' c' /\ c_halted c' = c_halted c.
Proof.
  intros G r k c a c' A HR HF Hk H. destruct (cmd_poke E G r k c a c' A HR (fine_polite _ _ Hk) H) as (A' & R1 & R2 & R3 & _ & R5).
  exists A'. split; [exact R1|]. split; [|exact R5]. destruct (do_cmd_frame _ _ _ _ _ _ _ H) as (G1 & G2 & G3). pose proof (do_cmd_dbg _ _ _ _ _ _ _ H) as Hd.
  pose proof HF as [F1 F2 F3 F4 F5].
  assert (HS : SC g (c_prog c') c').
  { apply (idle_SC c); auto; [apply R1|]. destruct HR as [_ _ (HR & _)]. congruence. }
  destruct R2 as [(_ & Hp & ->)|R2].
  - constructor; auto; [now rewrite Hp|congruence].
  - inversion R2; subst; cbn [fine] in Hk; constructor; auto; try congruence.
    + destruct Hk as (_ & _ & Hk). congruence.
    + apply wordy_store; [exact F1|apply Hk].
    + intros b Hb. unfold store, mupd. cbn [a_mem]. destruct (_ =? _); [discriminate|now apply F2].
    + now apply wordy_jump.
    + apply wordy_put; [exact F1|apply Hk].
    + apply wordy_put; [exact F1|apply Hk].
Qed.

(** ---- sessions ---- *)

Lemma event_fit : forall G x h A, host_at E A h -> host_fit A h -> sound h -> comes g x h ->
  exists h1, os_event E G true x h = Some (Ok h1) /\ exists A1, host_at E A1 h1 /\ host_fit A1 h1.
Proof.
  intros G x h A HA HF Hs Hc. destruct h as [r c|stop c|b c]; destruct x as [|k]; cbn [comes] in Hc; try contradiction.
  - destruct (HA Hs) as [HR Hh]. specialize (HF Hs). destruct (do_cmd_some G r k c A HR HF Hc) as [[[a c'] n] Hd].
    cbn [os_event]. unfold os_cmd. rewrite Hd. cbn [bind]. eexists. split; [reflexivity|]. destruct n.
    + destruct (fine_fit G r k c a c' A HR HF Hc Hd) as (A' & R1 & R2 & R3). exists A'. split; intros _; [|exact R2]. rewrite R3. auto.
    + exists A. destruct HR as [RI RD RR].
      assert (Hg : r <> RHalted -> host_at E A (Going false c') /\ host_fit A (Going false c')).
      { intros Hr. destruct (cmd_resume _ _ _ _ _ _ Hd) as [[-> ->]|[-> ->]]; cbn [host_at host_fit]; split; auto.
        - split; [now apply Inv_trap|]. auto.
        - now apply fit_trap. }
      destruct r; cbn [leave]; try (apply Hg; discriminate); try (split; exact I).
    + destruct (cmd_quit _ _ _ _ _ _ Hd) as [-> ->]. exists A. destruct HR as [RI RD RR]. destruct r; cbn [leave]; try (split; exact I). cbn [host_at host_fit].
      split; [|exact HF]. split; [auto|]. split; [auto|]. apply Hh. discriminate.
  - destruct HA as (HI & HD & Hh). destruct (os_tick_fit A stop c HI Hh HF) as (h1 & H1 & H2). exists h1. cbn [os_event]. rewrite H1. auto.
Qed.

Lemma careful_dead : forall G xs h h', careful E G g xs h h' -> ~ sound h -> (exists c, h' = At RCpuError c) \/ exists b c, h' = Ended b c.
Proof.
  assert (Hd : forall G xs h h', careful E G g xs h h' -> (exists c, h = At RCpuError c) \/ (exists b c, h = Ended b c) -> (exists c, h' = At RCpuError c) \/ exists b c, h' = Ended b c).
  { induction 1 as [h|x xs h h1 h2 Hp He Hs IH]; intros Hh; [exact Hh|]. apply IH. clear IH Hs.
    destruct Hh as [[c ->]|[b [c ->]]]; destruct x; cbn [os_event] in He; try discriminate.
    unfold os_cmd in He. destruct (do_cmd G RCpuError k c) as [[[a c'] n]|e s|w]; cbn [bind] in He; try discriminate.
    injection He as <-. destruct n; cbn [leave]; eauto. }
  intros G xs h h' H Hh. apply (Hd _ _ _ _ H). left. destruct h as [r c|s c|b c]; try (elim Hh; exact I). destruct (classic_live r) as [Hl| ->]; [now elim Hh|eauto].
Qed.

Lemma sound_dec : forall h, sound h \/ ~ sound h.
Proof. intros [r c|s c|b c]; cbn [sound]; auto. destruct (classic_live r) as [H| ->]; [now left|right; auto]. Qed.

Lemma careful_fit : forall G xs h h', careful E G g xs h h' -> sound h' -> forall A, host_at E A h -> host_fit A h -> exists A', host_at E A' h' /\ host_fit A' h'.
Proof.
  induction 1 as [h|x xs h h1 h2 Hp He Hs IH]; intros Hso A HA HF; [eauto|].
  destruct (sound_dec h) as [Hh|Hh].
  - destruct (event_fit G x h A HA HF Hh Hp) as (h1' & E1 & A1 & HA1 & HF1). rewrite E1 in He. injection He as <-. exact (IH Hso A1 HA1 HF1).
  - destruct (careful_dead G (x :: xs) h h2 (ca_cons _ _ _ _ _ _ _ _ Hp He Hs) Hh) as [[c ->]|(b & c & ->)]; [now elim Hso|]. exists A. split; exact I.
Qed.

Lemma boot_fit : forall p data input c0, started E g p data input c0 -> well_formed g p ->
  exists A, host_at E A (os_start true c0) /\ host_fit A (os_start true c0).
Proof.
  intros p data input c0 [Hip Hty Hb] HW. destruct (boot_host E g p data input c0 true (keeps_valid _ Hip) Hb) as (HA & Hp & _).
  exists (isa_boot (g_ram g) data input). split; [exact HA|]. intros _. destruct (boot_inv E _ _ _ _ _ (keeps_valid _ Hip) Hb) as (_ & _ & _ & _ & _ & _ & Hd).
  constructor.
  - eapply boot_wordy; eassumption.
  - intros a Ha. cbn [isa_boot a_mem]. rewrite (proj2 (Z.leb_le _ _)), (proj2 (Z.ltb_lt _ _)) by lia. discriminate.
  - now rewrite Hp.
  - rewrite Hp. eapply boot_SC. exact Hb.
  - now rewrite Hd.
Qed.
End Machine.
