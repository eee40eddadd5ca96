(** L8: debugging sessions. Every session with the VM is a session with the
    sequential machine. *)
From Coq Require Import ZArith NArith List Bool Sorted Lia.
From Verif Require Import Base Alu Isa State AluSpec Exec Ram Writes Rat Cpu InOrder PipeInv PipeBasics PipeActs PipeMem
  PipeExec PipePoll PipeRetire PipeAdd PipeTick PipeBoot PipeDom PipeRun IsaSpec IsaRefine Os DbgSpec PipePoke.
Import ListNotations.
Open Scope Z_scope.

(** ---- sessions in terms of the in-order machine ---- *)

Inductive io_session (E : env) : list cmd -> nat -> dstate -> dstate -> Prop :=
| is_nil : forall s, io_session E [] 0 s s
| is_look : forall k ks n s s', looks k -> io_session E ks n s s' -> io_session E (k :: ks) n s s'
| is_poke : forall k ks n s s1 s', pokes k s s1 -> io_session E ks n s1 s' -> io_session E (k :: ks) n s s'
| is_step : forall ks n p S S1 s', valid_prog p -> io_steps E p 1 S S1 -> io_session E ks n (p, S1) s' ->
    io_session E (CSingleStep :: ks) (1 + n) (p, S) s'
| is_cont : forall k ks m n p S S1 s', k = CContinue \/ k = CTerminate -> valid_prog p -> io_steps E p m S S1 ->
    io_session E ks n (p, S1) s' -> io_session E (k :: ks) (m + n) (p, S) s'.

(** ---- one command ---- *)

Lemma Inv_valid : forall E A c, Inv E A c -> valid_prog (c_prog c).
Proof. intros E A c [_ [_ [_ [den [role HJ]]]]]. apply (pi_valid _ _ _ (j_path _ _ _ _ _ _ _ HJ)). Qed.

Record rests (E : env) (A : arch) (c : cpu) : Prop := mkRests {
  rt_Inv : Inv E A c; rt_D : D c; rt_rest : at_rest A c
}.

Lemma keeps_ip_ok : forall i, keeps_ip i -> pc_ok i.
Proof.
  intros i H Hj. destruct i; try discriminate Hj; cbn [produces keeps_ip] in *;
    try (destruct d; cbn [product_of]; cbn in *; intuition congruence); cbn; intuition congruence.
Qed.

Lemma rests_trap : forall E A c b, rests E A c -> rests E A (set_trap c b).
Proof. intros E A c b [H1 H2 H3]. constructor; [now apply Inv_trap|exact H2|exact H3]. Qed.

Lemma replace_set : forall (p : list instr) i ins, (i < length p)%nat -> set_nth p i ins = replace p i ins.
Proof.
  unfold replace. induction p as [|x p IH]; intros i ins H; cbn [length] in H; [lia|].
  destruct i as [|i]; [reflexivity|]. cbn [set_nth firstn skipn app]. f_equal. rewrite IH by lia. reflexivity.
Qed.

Lemma jump_pc_to : forall A v, jump A v = pc_to A v.
Proof. reflexivity. Qed.

Lemma cmd_poke : forall E G r k c a c' A, rests E A c -> polite k c -> do_cmd G r k c = Ok (a, c', Stay) ->
  exists A', rests E A' c' /\ ((looks k /\ c_prog c' = c_prog c /\ A' = A) \/ pokes k (c_prog c, A) (c_prog c', A')) /\
    c_cfg c' = c_cfg c /\ c_trap c' = c_trap c /\ c_halted c' = c_halted c.
Proof.
  intros E G r k c a c' A HR HP H. destruct HR as [HI HD HR].
  assert (Hsame : forall b, looks k -> @Ok cpu _ (b, c, Stay) = Ok (a, c', Stay) ->
    exists A', rests E A' c' /\ ((looks k /\ c_prog c' = c_prog c /\ A' = A) \/ pokes k (c_prog c, A) (c_prog c', A')) /\
      c_cfg c' = c_cfg c /\ c_trap c' = c_trap c /\ c_halted c' = c_halted c).
  { intros b Hk Hb. apply Ok_eq in Hb. injection Hb as _ <-. exists A. split; [constructor; auto|]. auto. }
  destruct k; cbn [do_cmd] in H; try (eapply Hsame; [exact I|exact H]); try discriminate.
  - (* text *) apply bind_ok in H. destruct H as [c1 [H1 H]]. apply Ok_eq in H. injection H as _ <-.
    unfold poke_text in H1. destruct (_ && _) eqn:Hr; [|discriminate]. apply Ok_eq in H1. subst c1.
    apply andb_prop in Hr. destruct Hr as [Hr1 Hr2]. apply Z.leb_le in Hr1. apply Z.ltb_lt in Hr2.
    pose proof (Inv_valid _ _ _ HI) as Hv.
    destruct (poke_prog_inv E A c (set_nth (c_prog c) (Z.to_nat i) ins) HI HD HR (valid_set _ _ _ Hv (keeps_ip_ok _ HP))) as [P1 [P2 P3]].
    exists A. split; [constructor; auto|]. split; [|auto]. right. cbn [set_prog c_prog].
    rewrite replace_set by lia. constructor. lia.
  - (* peek data *) destruct (collect _ _) as [l|]; [|discriminate]. eapply Hsame; [exact I|exact H].
  - (* poke data *) apply bind_ok in H. destruct H as [c1 [H1 H]]. apply Ok_eq in H. injection H as _ <-.
    destruct (poke_data_inv E A c i v c1 HI HD HR HP H1) as [M [P1 [P2 [P3 [r' ->]]]]].
    exists (store A i v). split; [constructor; auto|]. split; [|auto]. right. now constructor.
  - destruct (show_regs _ _) as [l|]; [|discriminate]. eapply Hsame; [exact I|exact H].
  - destruct (show_regs _ _) as [l|]; [|discriminate]. eapply Hsame; [exact I|exact H].
  - (* debug registers *) apply bind_ok in H. destruct H as [c1 [H1 H]]. apply Ok_eq in H. injection H as _ <-.
    unfold poke_dbg in H1. destruct (_ && _); [|discriminate]. apply Ok_eq in H1. subst c1.
    exists A. split; [constructor; [now apply poke_dbg_inv|exact HD|exact HR]|]. split; [|auto]. left. split; [exact I|auto].
  - (* float register *) apply bind_ok in H. destruct H as [c1 [H1 H]]. apply Ok_eq in H. injection H as _ <-.
    destruct (poke_lreg_inv E A c (LF n) v c1 HI HD HR ltac:(discriminate) H1) as [P1 [P2 [P3 [_ [f ->]]]]].
    exists (put A (LF n) v). split; [constructor; auto|]. split; [|auto]. right. constructor.
  - (* register *) apply bind_ok in H. destruct H as [c2 [H2 H]]. apply Ok_eq in H. injection H as _ <-.
    unfold poke_reg in H2. apply bind_ok in H2. destruct H2 as [c1 [H1 H]]. apply Ok_eq in H.
    destruct (reg_eqb_spec r0 PC) as [->|Hne].
    + destruct (poke_pc_inv E A c v c1 HI HD HR H1) as [P1 [P2 [P3 [[f Hf] _]]]]. subst c2. subst c1.
      exists (pc_to A v). split; [constructor; auto|]. split; [|auto]. right. rewrite <- jump_pc_to. constructor.
    + assert (Hl : LR r0 <> LR PC) by congruence.
      destruct (poke_lreg_inv E A c (LR r0) v c1 HI HD HR Hl H1) as [P1 [P2 [P3 [_ [f Hf]]]]].
      assert (Hc : c2 = c1) by (destruct r0; congruence). clear H. subst c2. subst c1.
      exists (put A (LR r0) v). split; [constructor; auto|]. split; [|auto]. right. now constructor.
Qed.

Lemma cmd_resume : forall G r k c a c', do_cmd G r k c = Ok (a, c', Resume) ->
  (k = CContinue /\ c' = c) \/ (k = CSingleStep /\ c' = set_trap c true).
Proof.
  intros G r k c a c' H. destruct k; cbn [do_cmd] in H; try discriminate;
    try (apply Ok_eq in H; injection H as _ <-; auto; fail);
    try (apply bind_ok in H; destruct H as [c1 [_ H]]; discriminate);
    try (destruct (collect _ _); discriminate); try (destruct (show_regs _ _); discriminate).
Qed.

Lemma cmd_quit : forall G r k c a c', do_cmd G r k c = Ok (a, c', Quit) -> k = CTerminate /\ c' = c.
Proof.
  intros G r k c a c' H. destruct k; cbn [do_cmd] in H; try discriminate;
    try (apply Ok_eq in H; injection H as _ <-; auto; fail);
    try (apply bind_ok in H; destruct H as [c1 [_ H]]; discriminate);
    try (destruct (collect _ _); discriminate); try (destruct (show_regs _ _); discriminate).
Qed.

(** ---- whole sessions ---- *)

(** Once an instruction has failed the machine does not run again. *)
Lemma dead_session : forall E G xs h h', psession E G true xs h h' ->
  (exists c, h = At RCpuError c) \/ (exists b c, h = Ended b c) ->
  (exists c, h' = At RCpuError c) \/ (exists b c, h' = Ended b c).
Proof.
  induction 1 as [h|x xs h h1 h2 Hp He Hs IH]; intros Hh; [exact Hh|]. apply IH. clear IH Hs.
  destruct Hh as [[c ->]|[b [c ->]]]; destruct x; cbn [os_event] in He; try discriminate.
  unfold os_cmd in He. destruct (do_cmd G RCpuError k c) as [[[a c'] n]|e s|w]; cbn [bind] in He; try discriminate.
  injection He as <-. destruct n; cbn [leave]; eauto.
Qed.

Definition live (r : reason) : Prop := r <> RCpuError.

Lemma classic_live : forall r, live r \/ r = RCpuError.
Proof. destruct r; auto; left; discriminate. Qed.

(** The condition under which [A] describes the host. *)
Definition host_at (E : env) (A : arch) (h : host) : Prop :=
  match h with
  | At r c => live r -> rests E A c /\ (r <> RHalted -> c_halted c = false)
  | Going _ c => Inv E A c /\ D c /\ c_halted c = false
  | Ended _ _ => True
  end.

Definition host_cpu (h : host) : cpu := match h with At _ c | Going _ c | Ended _ c => c end.

Definition run_to (E : env) (p : list instr) (m : nat) (A A1 : arch) (h : host) : Prop :=
  match h with
  | Going _ c => io_steps E p m A A1 /\ (c_trap c = true -> m = 1%nat)
  | _ => m = 0%nat /\ A1 = A
  end.

Lemma enter_rests : forall E A r c, rests E A c -> (r <> RHalted -> c_halted c = false) -> host_at E A (enter r c).
Proof.
  intros E A r c H Hh. unfold enter, host_at. intros _. destruct r; split; auto; now apply rests_trap.
Qed.

Lemma check_write1_int : forall a i s, snd (check_write1 a i s) = snd s \/ snd (check_write1 a i s) = 2.
Proof. intros a i [d n]. unfold check_write1. destruct (_ && _); auto. Qed.

Lemma check_write_int : forall a s, snd (check_write a s) = snd s \/ snd (check_write a s) = 2.
Proof.
  intros a s. unfold check_write.
  destruct (check_write1_int a 3 (check_write1 a 2 (check_write1 a 1 (check_write1 a 0 s)))) as [->|H]; [|auto].
  destruct (check_write1_int a 2 (check_write1 a 1 (check_write1 a 0 s))) as [->|H]; [|auto].
  destruct (check_write1_int a 1 (check_write1 a 0 s)) as [->|H]; [|auto].
  apply check_write1_int.
Qed.

Lemma step_dbg_int : forall E i A s, snd (step_dbg E i A s) = snd s \/ snd (step_dbg E i A s) = 2 \/ snd (step_dbg E i A s) = 3.
Proof.
  intros E i A s. unfold step_dbg. destruct (eff_store E i A) as [[a v]|].
  - destruct (check_write_int a s); auto.
  - destruct i; auto.
Qed.

Lemma io_run_int : forall E p ii A s A' s', io_run E p ii A s A' s' -> 0 <= snd s -> 0 <= snd s'.
Proof.
  induction 1 as [A s|ii A s T A' s' Hst Hz Hr IH]; intros H; [exact H|]. apply IH.
  destruct (step_dbg_int E (prog_at p (a_pc A)) A s) as [H1|[H1|H1]]; rewrite H1; lia.
Qed.

Lemma tick_host : forall E A stop c h, Inv E A c -> D c -> c_halted c = false ->
  os_tick E true stop c = Ok h ->
  (exists c', h = At RCpuError c') \/
  exists m A', io_steps E (c_prog c) m A A' /\ host_at E A' h /\ c_prog (host_cpu h) = c_prog c /\
    c_cfg (host_cpu h) = c_cfg c /\
    match h with
    | Going _ c' => c_trap c' = c_trap c /\ (c_trap c = true -> m = 0%nat)
    | At _ _ => c_trap c = true -> m = 1%nat
    | Ended _ _ => True
    end.
Proof.
  intros E A stop c h HI HD Hh H. unfold os_tick in H.
  destruct (tick E c) as [c'|e s|w] eqn:Ht; [|left; apply Ok_eq in H; subst h; exists s; reflexivity|discriminate].
  right. destruct (tick_reached _ _ _ _ HI HD Ht) as [ii [A' [T R]]].
  assert (HA : a_halted A = false) by (destruct HI as [HI _]; congruence).
  destruct R as [R1 R2 R3 R4 R5 R6 R7].
  exists (length ii), A'. split; [exact R1|].
  assert (Htrap : c_trap c = true -> (stopped c' /\ length ii = 1%nat) \/ (~ stopped c' /\ ii = [] /\ A' = A)).
  { intros Htr. eapply trap_tick; eauto. }
  destruct (c_halted c') eqn:Hc'.
  { apply Ok_eq in H. subst h. assert (Hs : stopped c') by (now left).
    split; [apply enter_rests; [constructor; auto|congruence]|]. cbn [enter host_cpu].
    split; [exact R4|]. split; [exact R5|]. intros Htr. destruct (Htrap Htr) as [[_ Hl]|[Hn _]]; [exact Hl|contradiction]. }
  destruct (Z.ltb_spec 0 (c_int c')) as [Hi|Hi].
  { destruct (reason_of (c_int c')) as [r|] eqn:Hr; [|discriminate]. apply Ok_eq in H. subst h.
    assert (Hs : stopped c') by (right; lia).
    split; [apply enter_rests; [constructor; auto|auto]|].
    assert (Hl : c_trap c = true -> length ii = 1%nat).
    { intros Htr. destruct (Htrap Htr) as [[_ Hl]|[Hn _]]; [exact Hl|contradiction]. }
    unfold enter. destruct r; cbn [host_cpu set_trap c_prog c_cfg]; auto. }
  assert (Hint : ~ stopped c').
  { destruct T as [T1 [n [T2 T3]] T4 T5 T6 T7 T8]. intros [Hs|Hs]; [congruence|].
    apply Hs. pose proof (io_run_int _ _ _ _ _ _ _ T2 ltac:(cbn; lia)) as Hn. cbn [snd] in Hn. revert Hi T3.
    destruct (_ && (n =? 0)); lia. }
  assert (Hgo : c_trap c = true -> length ii = 0%nat).
  { intros Htr. destruct (Htrap Htr) as [[Hn _]|[_ [-> _]]]; [contradiction|reflexivity]. }
  destruct stop; apply Ok_eq in H; subst h; cbn [host_at host_cpu]; auto 12.
Qed.

Lemma io_session_looks_cons : forall E k ks n s s', looks k -> io_session E ks n s s' -> io_session E (k :: ks) n s s'.
Proof. intros. now constructor. Qed.

(** The main lemma. From a host that is waiting: the session is one of the
    in-order machine; from a host that is running: likewise after some steps
    (one, if the trap flag is set). *)
Lemma session_sound : forall E G xs h h', psession E G true xs h h' -> forall A r c, h' = At r c -> live r ->
  host_at E A h ->
  exists m A1 n A', run_to E (c_prog (host_cpu h)) m A A1 h /\
    io_session E (cmds xs) n (c_prog (host_cpu h), A1) (c_prog c, A') /\
    rests E A' c /\ (r <> RHalted -> c_halted c = false) /\ c_cfg c = c_cfg (host_cpu h).
Proof.
  induction 1 as [h|x xs h h1 h2 Hp He Hs IH]; intros A r c Hc Hl HA.
  - subst h. destruct (HA Hl) as [H1 H2]. exists 0%nat, A, 0%nat, A. cbn [run_to host_cpu cmds].
    split; [auto|]. split; [constructor|]. auto.
  - destruct h as [r0 c0|stop c0|b c0]; destruct x as [|k]; cbn [os_event] in He; try discriminate.
    + (* a command *)
      unfold os_cmd in He. destruct (do_cmd G r0 k c0) as [[[a c1] nx]|e s|w] eqn:Hk; cbn [bind] in He; try discriminate.
      injection He as <-.
      assert (Hl0 : live r0).
      { intros ->. subst h2. destruct (dead_session _ _ _ _ _ Hs) as [[c' H']|[b [c' H']]].
        - destruct nx; cbn [leave]; eauto.
        - injection H' as -> _. now apply Hl.
        - discriminate. }
      destruct (HA Hl0) as [HR Hhalt]. cbn [polite_event] in Hp. cbn [host_cpu run_to cmds].
      exists 0%nat, A. destruct nx.
      * (* stay *)
        destruct (cmd_poke E G r0 k c0 a c1 A HR Hp Hk) as [A1 [R1 [R2 [R3 [R4 R5]]]]].
        destruct (IH A1 r c Hc Hl) as [m [A2 [n [A' [I1 [I2 I3]]]]]].
        { intros _. split; [exact R1|]. rewrite R5. exact Hhalt. }
        cbn [host_cpu run_to] in I1, I2, I3. destruct I1 as [-> ->]. rewrite R3 in I3.
        exists n, A'. split; [auto|]. split; [|exact I3]. destruct R2 as [[L1 [L2 ->]]|L1].
        -- apply is_look; [exact L1|]. now rewrite <- L2.
        -- eapply is_poke; eauto.
      * (* resume *)
        assert (Hdead : r0 = RHalted -> False).
        { intros ->. cbn [leave] in Hs. subst h2. inversion Hs; subst.
          match goal with H : os_event _ _ _ ?x _ = _ |- _ => destruct x; discriminate H end. }
        assert (Hc0 : c_halted c0 = false) by (apply Hhalt; intros ->; now apply Hdead).
        assert (Hgo : leave r0 false c1 = Going false c1) by (destruct r0; try reflexivity; [exfalso; now apply Hdead|exfalso; now apply Hl0]).
        rewrite Hgo in Hs, IH. destruct HR as [RI RD RR].
        destruct (cmd_resume _ _ _ _ _ _ Hk) as [[-> ->]|[-> ->]].
        -- destruct (IH A r c Hc Hl) as [m [A2 [n [A' [I1 [I2 I3]]]]]]; [cbn [host_at]; auto|].
           cbn [host_cpu run_to] in I1, I2, I3. exists (m + n)%nat, A'. split; [auto|]. split; [|exact I3].
           eapply is_cont; [now left|eapply Inv_valid; eauto|apply I1|exact I2].
        -- destruct (IH A r c Hc Hl) as [m [A2 [n [A' [I1 [I2 I3]]]]]].
           { cbn [host_at]. split; [now apply Inv_trap|]. split; [exact RD|exact Hc0]. }
           cbn [host_cpu run_to set_trap c_prog c_trap c_cfg] in I1, I2, I3. destruct I1 as [I0 I1].
           rewrite (I1 eq_refl) in I0. exists (1 + n)%nat, A'. split; [auto|]. split; [|exact I3].
           eapply is_step; [eapply Inv_valid; eauto|exact I0|exact I2].
      * (* quit *)
        destruct (cmd_quit _ _ _ _ _ _ Hk) as [-> ->].
        assert (Hr0 : r0 = RBegin).
        { destruct r0; auto; cbn [leave] in Hs; subst h2; inversion Hs; subst;
            match goal with H : os_event _ _ _ ?x _ = _ |- _ => destruct x; discriminate H end. }
        subst r0. cbn [leave] in Hs, IH. destruct HR as [RI RD RR].
        destruct (IH A r c Hc Hl) as [m [A2 [n [A' [I1 [I2 I3]]]]]].
        { cbn [host_at]. split; [exact RI|]. split; [exact RD|]. apply Hhalt. discriminate. }
        cbn [host_cpu run_to] in I1, I2, I3. exists (m + n)%nat, A'. split; [auto|]. split; [|exact I3].
        eapply is_cont; [now right|eapply Inv_valid; eauto|apply I1|exact I2].
    + (* a tick *)
      injection He as He. destruct HA as [HI [HD Hh]]. cbn [cmds host_cpu].
      destruct (tick_host _ _ _ _ _ HI HD Hh He) as [[c' ->]|[m [A1 [T1 [T2 [T3 [T4 T5]]]]]]].
      * subst h2. destruct (dead_session _ _ _ _ _ Hs) as [[c2 H']|[b [c2 H']]]; [eauto| |discriminate].
        injection H' as -> _. exfalso. now apply Hl.
      * destruct (IH A1 r c Hc Hl T2) as [m2 [A2 [n [A' [I1 [I2 [I3 [I4 I5]]]]]]]].
        rewrite T3 in I1, I2. rewrite T4 in I5.
        exists (m + m2)%nat, A2, n, A'. split; [|split; [exact I2|split; [exact I3|split; [exact I4|exact I5]]]].
        cbn [run_to]. destruct h1 as [r1 c1|st1 c1|b1 c1]; cbn [run_to] in I1.
        -- destruct I1 as [-> ->]. rewrite Nat.add_0_r. auto.
        -- destruct I1 as [I1 I1']. destruct T5 as [T5 T6]. split; [eapply io_steps_app; eauto|].
           intros Htr. rewrite T6 by assumption. cbn. apply I1'. congruence.
        -- subst h2. inversion Hs; subst.
           match goal with H : os_event _ _ _ ?x _ = _ |- _ => destruct x; discriminate H end.
Qed.

(** ---- from the in-order machine to the sequential one ---- *)

Lemma Forall_replace : forall P (p : list instr) i ins, Forall P p -> P ins -> Forall P (replace p i ins).
Proof.
  intros P p i ins Hp Hi. unfold replace. apply Forall_app. split.
  - apply Forall_forall. intros x Hx. rewrite Forall_forall in Hp. apply Hp.
    rewrite <- (firstn_skipn i p). apply in_or_app. now left.
  - constructor; [exact Hi|]. apply Forall_forall. intros x Hx. rewrite Forall_forall in Hp. apply Hp.
    rewrite <- (firstn_skipn (Datatypes.S i) p). apply in_or_app. now right.
Qed.

Lemma pokes_typed : forall k p S p1 S1, pokes k (p, S) (p1, S1) -> typed_cmd k -> Forall typed_instr p -> wordy S ->
  Forall typed_instr p1 /\ wordy S1.
Proof.
  intros k p S p1 S1 H T Tp W. inversion H; subst; cbn [typed_cmd] in T; (split; [auto|]); auto.
  - now apply Forall_replace.
  - now apply wordy_store.
  - now apply wordy_jump.
  - now apply wordy_put.
  - now apply wordy_put.
Qed.

Lemma io_debug : forall E ks n s s', io_session E ks n s s' -> typed_fops (e_fops E) -> Forall typed_cmd ks ->
  Forall typed_instr (fst s) -> wordy (snd s) -> debug_run (e_fops E) ks n s s' /\ wordy (snd s') /\ Forall typed_instr (fst s').
Proof.
  intros E ks n s s' H TF. induction H as [s|k ks n s s' Hk Hs IH|k ks n s s1 s' Hk Hs IH|ks n p S S1 s' Hv H1 Hs IH|k ks m n p S S1 s' Hk Hv H1 Hs IH];
    intros Tk Tp W.
  - split; [constructor|auto].
  - apply Forall_inv_tail in Tk. destruct (IH Tk Tp W) as [H1 H2]. split; [now apply dr_look|exact H2].
  - apply Forall_inv in Tk as Tk1. apply Forall_inv_tail in Tk. destruct s as [p S], s1 as [p1 S1].
    destruct (pokes_typed _ _ _ _ _ Hk Tk1 Tp W) as [T1 W1].
    destruct (IH Tk T1 W1) as [H1 H2]. split; [eapply dr_poke; eauto|exact H2].
  - apply Forall_inv_tail in Tk. cbn [fst snd] in *. destruct (io_isa_run _ _ _ _ _ Hv Tp TF H1 W) as [R1 W1].
    destruct (IH Tk Tp W1) as [H2 H3]. split; [eapply dr_step; eauto|exact H3].
  - apply Forall_inv_tail in Tk. cbn [fst snd] in *. destruct (io_isa_run _ _ _ _ _ Hv Tp TF H1 W) as [R1 W1].
    destruct (IH Tk Tp W1) as [H2 H3]. split; [eapply dr_cont; eauto|exact H3].
Qed.

Lemma rests_shows : forall E A c, rests E A c -> shows c A.
Proof.
  intros E A c [HI HD HR]. pose proof (rest_regs A c HD HR) as Hr. destruct HR as [R1 [R2 [R3 [R4 [R5 [R6 [R7 [R8 [R9 R10]]]]]]]]].
  constructor; auto.
  - destruct HI as [H _]. now symmetry.
Qed.

Lemma shows_alike : forall c1 c2 A, shows c1 A -> shows c2 A -> look_alike c1 c2.
Proof.
  intros c1 c2 A [H1 [v1 [H2 H2']] H3 H4 H5 H6] [G1 [v2 [G2 G2']] G3 G4 G5 G6]. constructor; try congruence.
  - intros l L1 L2 Hl. rewrite (H1 l L1 Hl), (G1 l L2 Hl). split; congruence.
  - exists v1, v2. repeat split; congruence.
Qed.

(** ---- sessions that only look and run ---- *)

Lemma pokes_not_looks : forall k s s', pokes k s s' -> ~ runs_only k.
Proof. intros k s s' H [L|[L|L]]; destruct H; try discriminate L; exact L. Qed.

Lemma io_session_runs : forall E ks n s s', io_session E ks n s s' -> Forall runs_only ks ->
  fst s' = fst s /\ io_steps E (fst s) n (snd s) (snd s').
Proof.
  intros E ks n s s' H. induction H as [s|k ks n s s' Hk Hs IH|k ks n s s1 s' Hk Hs IH|ks n p S S1 s' Hv H1 Hs IH|k ks m n p S S1 s' Hk Hv H1 Hs IH];
    intros F.
  - split; [reflexivity|constructor].
  - apply Forall_inv_tail in F. auto.
  - apply Forall_inv in F. exfalso. eapply pokes_not_looks; eauto.
  - apply Forall_inv_tail in F. destruct (IH F) as [I1 I2]. cbn [fst snd] in *. split; [exact I1|]. eapply io_steps_app; eauto.
  - apply Forall_inv_tail in F. destruct (IH F) as [I1 I2]. cbn [fst snd] in *. split; [exact I1|]. eapply io_steps_app; eauto.
Qed.

Lemma io_session_steps : forall E ks n s s', io_session E ks n s s' -> Forall steps_only ks -> n = single_steps ks.
Proof.
  intros E ks n s s' H. induction H as [s|k ks n s s' Hk Hs IH|k ks n s s1 s' Hk Hs IH|ks n p S S1 s' Hv H1 Hs IH|k ks m n p S S1 s' Hk Hv H1 Hs IH];
    intros F.
  - reflexivity.
  - apply Forall_inv_tail in F. rewrite (IH F). destruct k; try reflexivity; contradiction Hk.
  - apply Forall_inv in F. exfalso. eapply pokes_not_looks; eauto. destruct F as [F|F]; [now left|right; now left].
  - apply Forall_inv_tail in F. cbn [single_steps]. now rewrite <- (IH F).
  - apply Forall_inv in F. destruct F as [F|F]; destruct Hk as [Hk|Hk]; subst k; try discriminate; contradiction F.
Qed.

(** ---- without a debugger ---- *)

Lemma free_sound : forall E G xs h h', psession E G false xs h h' -> forall A c c', h = Going false c -> h' = Ended true c' ->
  Inv E A c -> D c -> c_halted c = false ->
  exists n A', io_steps E (c_prog c) n A A' /\ rests E A' c' /\ c_halted c' = true /\ c_cfg c' = c_cfg c.
Proof.
  induction 1 as [h|x xs h h1 h2 Hp He Hs IH]; intros A c c' Hc Hc' HI HD Hh; subst h; [discriminate|].
  destruct x; cbn [os_event] in He; [|discriminate]. injection He as He. unfold os_tick in He.
  destruct (tick E c) as [c1|e s|w] eqn:Ht; [| |discriminate].
  2: { apply Ok_eq in He. subst h1 h2. inversion Hs; subst.
       match goal with H : os_event _ _ _ ?x _ = _ |- _ => destruct x; discriminate H end. }
  destruct (tick_reached _ _ _ _ HI HD Ht) as [ii [A1 [T R]]]. destruct R as [R1 R2 R3 R4 R5 R6 R7].
  destruct (c_halted c1) eqn:Hc1.
  - apply Ok_eq in He. subst h1 h2. inversion Hs; subst.
    + exists (length ii), A1. split; [exact R1|]. split; [|auto]. constructor; auto. apply R7. now left.
    + match goal with H : os_event _ _ _ ?x _ = _ |- _ => destruct x; discriminate H end.
  - assert (Hgo : h1 = Going false c1).
    { destruct (0 <? c_int c1); [destruct (reason_of (c_int c1)); [|discriminate]|]; apply Ok_eq in He; congruence. }
    destruct (IH A1 c1 c' Hgo Hc' R2 R3 Hc1) as [n [A' [I1 [I2 [I3 I4]]]]]. exists (length ii + n)%nat, A'.
    split; [eapply io_steps_app; [exact R1|now rewrite <- R4]|]. split; [exact I2|]. split; congruence.
Qed.

(** ---- playing a session ---- *)

Lemma play_session : forall E G dbg xs h h', play E G dbg xs h = Some (Ok h') -> session E G dbg xs h h'.
Proof.
  induction xs as [|x xs IH]; intros h h' H; cbn [play] in H.
  - injection H as <-. constructor.
  - destruct (os_event E G dbg x h) as [[h1|e s|w]|] eqn:He; try discriminate. econstructor; eauto.
Qed.

Lemma session_psession : forall E G dbg xs h h', session E G dbg xs h h' -> Forall runs_only (cmds xs) -> psession E G dbg xs h h'.
Proof.
  induction 1 as [h|x xs h h1 h2 He Hs IH]; intros F; [constructor|]. econstructor; [|exact He|].
  - destruct x as [|k]; [exact I|]. destruct h; try exact I. cbn [cmds] in F. apply Forall_inv in F. cbn [polite_event].
    destruct k; try exact I; destruct F as [F|[F|F]]; try discriminate F; contradiction F.
  - apply IH. destruct x; [exact F|]. cbn [cmds] in F. now apply Forall_inv_tail in F.
Qed.

(** The machine keeps an in-order meaning throughout a session. *)
Lemma tick_host_free : forall E A stop c h, Inv E A c -> D c -> c_halted c = false ->
  os_tick E false stop c = Ok h -> exists A', host_at E A' h.
Proof.
  intros E A stop c h HI HD Hh H. unfold os_tick in H.
  destruct (tick E c) as [c'|e s|w] eqn:Ht; [|apply Ok_eq in H; subst h; exists A; exact I|discriminate].
  destruct (tick_reached _ _ _ _ HI HD Ht) as [ii [A' [T R]]]. destruct R as [R1 R2 R3 R4 R5 R6 R7].
  exists A'. destruct (c_halted c') eqn:Hc'; [apply Ok_eq in H; subst h; exact I|].
  destruct (0 <? c_int c') eqn:Hi.
  - destruct (reason_of (c_int c')); [|discriminate]. apply Ok_eq in H. subst h. destruct stop; cbn [host_at]; auto.
  - apply Ok_eq in H. subst h. destruct stop; cbn [host_at]; auto.
Qed.

Lemma host_session : forall E G dbg xs h h', psession E G dbg xs h h' -> forall A, host_at E A h ->
  exists A', host_at E A' h'.
Proof.
  induction 1 as [h|x xs h h1 h2 Hp He Hs IH]; intros A HA; [eauto|].
  assert (Hn : exists A1, host_at E A1 h1); [|destruct Hn as [A1 H1]; eauto].
  destruct h as [r0 c0|stop c0|b c0]; destruct x as [|k]; cbn [os_event] in He; try discriminate.
  - unfold os_cmd in He. destruct (do_cmd G r0 k c0) as [[[a c1] nx]|e s|w] eqn:Hk; cbn [bind] in He; try discriminate.
    injection He as <-. destruct (classic_live r0) as [Hl0|Hl0].
    + destruct (HA Hl0) as [HR Hhalt]. destruct nx.
      * destruct (cmd_poke E G r0 k c0 a c1 A HR Hp Hk) as [A1 [R1 [R2 [R3 [R4 R5]]]]]. exists A1. intros _. rewrite R5. auto.
      * assert (Hg : r0 <> RHalted -> host_at E A (Going false c1)).
        { intros Hr. destruct HR as [RI RD RR].
          destruct (cmd_resume _ _ _ _ _ _ Hk) as [[-> ->]|[-> ->]]; cbn [host_at]; split; auto.
          - now apply Inv_trap. }
        exists A. destruct r0; cbn [leave]; try (apply Hg; discriminate); exact I.
      * destruct (cmd_quit _ _ _ _ _ _ Hk) as [-> ->]. exists A. destruct HR as [RI RD RR].
        destruct r0; cbn [leave]; try exact I. cbn [host_at]. split; [auto|]. split; [auto|]. apply Hhalt. discriminate.
    + subst r0. exists A. destruct nx; cbn [leave host_at]; try exact I. intros Hl. exfalso. now apply Hl.
  - injection He as He. destruct HA as [HI [HD Hh]].
    destruct dbg; [|eapply tick_host_free; eauto].
    destruct (tick_host _ _ _ _ _ HI HD Hh He) as [[c' ->]|[m [A1 [T1 [T2 _]]]]]; [|eauto].
    exists A. intros Hl. exfalso. now apply Hl.
Qed.

Lemma boot_host : forall E g p data input c dbg, valid_prog p -> boot g p data input = Ok c ->
  host_at E (isa_boot (g_ram g) data input) (os_start dbg c) /\ c_prog c = p /\ c_cfg c = g /\
  rests E (isa_boot (g_ram g) data input) c /\ c_halted c = false.
Proof.
  intros E g p data input c dbg Hv Hb. destruct (boot_inv E _ _ _ _ _ Hv Hb) as [B1 [B2 [B3 [B4 _]]]].
  pose proof (boot_D _ _ _ _ _ Hb) as B5.
  change (arch_boot g data input) with (isa_boot (g_ram g) data input) in *.
  assert (Hh : c_halted c = false) by (destruct B1 as [H _]; now rewrite <- H).
  assert (Hr : rests E (isa_boot (g_ram g) data input) c) by (constructor; auto).
  split; [|auto]. destruct dbg; cbn [os_start enter host_at]; auto.
Qed.

(** A stop reported as halt is one. *)
Lemma set_lreg_regs : forall c l v c', set_lreg c l v = Ok c' -> exists f, c' = set_regs c f.
Proof.
  intros c l v c' H. unfold set_lreg in H. destruct (rget (c_rat c) l); [|discriminate].
  destruct (pset _ _ _) as [f|]; [|discriminate]. apply Ok_eq in H. subst. eauto.
Qed.

Lemma do_cmd_halted : forall G r k c a c' n, do_cmd G r k c = Ok (a, c', n) -> c_halted c' = c_halted c.
Proof.
  intros G r k c a c' n H. destruct k; cbn [do_cmd] in H;
    try (apply Ok_eq in H; injection H as _ <- _; reflexivity);
    try (destruct (collect _ _); [|discriminate]; apply Ok_eq in H; injection H as _ <- _; reflexivity);
    try (destruct (show_regs _ _); [|discriminate]; apply Ok_eq in H; injection H as _ <- _; reflexivity);
    apply bind_ok in H; destruct H as [c1 [H1 H]]; apply Ok_eq in H; injection H as _ <- _.
  - unfold poke_text in H1. destruct (_ && _); [|discriminate]. apply Ok_eq in H1. now subst c1.
  - unfold poke_data in H1. destruct (ram_set _ _ _); [|discriminate]. apply Ok_eq in H1. now subst c1.
  - unfold poke_dbg in H1. destruct (_ && _); [|discriminate]. apply Ok_eq in H1. now subst c1.
  - apply set_lreg_regs in H1. destruct H1 as [f ->]. reflexivity.
  - unfold poke_reg in H1. apply bind_ok in H1. destruct H1 as [c2 [H1 H]]. apply Ok_eq in H.
    apply set_lreg_regs in H1. destruct H1 as [f ->]. subst c1. now destruct r0.
Qed.

Definition halted_ok (h : host) : Prop := match h with At RHalted c => c_halted c = true | _ => True end.

Lemma halted_session : forall E G dbg xs h h', psession E G dbg xs h h' -> halted_ok h -> halted_ok h'.
Proof.
  induction 1 as [h|x xs h h1 h2 Hp He Hs IH]; intros H; [exact H|]. apply IH. clear IH Hs.
  destruct h as [r0 c0|stop c0|b c0]; destruct x as [|k]; cbn [os_event] in He; try discriminate.
  - unfold os_cmd in He. destruct (do_cmd G r0 k c0) as [[[a c1] nx]|e s|w] eqn:Hk; cbn [bind] in He; try discriminate.
    injection He as <-. apply do_cmd_halted in Hk. destruct r0, nx; cbn in *; auto; congruence.
  - injection He as He. unfold os_tick in He. destruct (tick E c0) as [c'|e s|w]; [| |discriminate].
    + destruct (c_halted c') eqn:Hc.
      * apply Ok_eq in He. subst h1. destruct dbg; [exact Hc|exact I].
      * destruct (0 <? c_int c').
        -- unfold reason_of in He. destruct (c_int c' =? 3); [|destruct (c_int c' =? 2); [|destruct (c_int c' =? 1)]];
             try discriminate; apply Ok_eq in He; subst h1; destruct dbg; try exact I; destruct stop; exact I.
        -- apply Ok_eq in He. subst h1. destruct stop; exact I.
    + apply Ok_eq in He. subst h1. destruct dbg; exact I.
Qed.
