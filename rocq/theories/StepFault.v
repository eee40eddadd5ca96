(** Towards C111: a single step that ends in an error of the CPU is that of an instruction
    that accesses a cell outside the memory. *)
From Coq Require Import ZArith NArith List Bool Lia.
From Verif Require Import Base Alu Isa AluSpec State IsaSpec Exec Ram Writes Rat Cpu Os
  InOrder PipeInv PipeBasics PipeActs PipeMem PipeExec PipeRetire PipeTick PipeDom PipeRun PipePoke Session IsaRefine PipeFault
  LiveSpec SafeSpec PropSafe SafeDbgSpec SafeDbg PropSafeDbg.
Import ListNotations.
Open Scope Z_scope.

Lemma unroll_clears : forall c t c', unroll c t = Ok c' -> c_rs c' = [] /\ c_trap c' = c_trap c.
Proof.
  intros c t c' H. unfold unroll in H. apply bind_ok in H. destruct H as [f1 [_ H]]. apply bind_ok in H. destruct H as [f2 [_ H]]. apply bind_ok in H. destruct H as [f3 [_ H]].
  cbv zeta in H. destruct (get_lreg _ _); [|discriminate]. apply Ok_eq in H. subst c'. split; reflexivity.
Qed.

(** With the trap flag set, retiring an instruction empties the reservation station. *)
Lemma retire_clears : forall c e c', retire_entry c e = Ok c' -> c_trap c' = true -> c_rs c' = [].
Proof.
  intros c e c' H Ht. unfold retire_entry in H. apply bind_ok in H. destruct H as [vs [_ H]]. apply bind_ok in H. destruct H as [ra [_ H]]. apply bind_ok in H. destruct H as [c1 [_ H]].
  destruct (e_exn e); [discriminate|]. apply bind_ok in H. destruct H as [c2 [H2 H]]. apply bind_ok in H. destruct H as [f [_ H]]. apply Ok_eq in H. subst c'.
  cbn [set_regs c_trap c_rs] in *. destruct (c_trap c1) eqn:Hc.
  - apply bind_ok in H2. destruct H2 as [c3 [H2 H3]]. apply Ok_eq in H3. subst c2. cbn [set_stop c_rs]. now apply unroll_clears in H2.
  - exfalso. destruct (negb _); [apply unroll_clears in H2; destruct H2 as [_ H2]|apply Ok_eq in H2; subst c2]; congruence.
Qed.

Lemma trap_loop_fault : forall E den role n A c s, K E den role A c -> c_trap c = true -> retire_loop n c = Throw EMemRange s -> faulty E (c_prog c) A.
Proof.
  intros E den role [|n] A c s HK Ht H; cbn [retire_loop] in H; [discriminate|].
  destruct (c_rs c) as [|e es] eqn:Hrs; [discriminate|]. destruct (e_state e) eqn:Hst; try discriminate.
  apply bind_throw in H. destruct H as [H|[c1 [H1 H]]]; [eapply retire_fault; eauto|]. exfalso.
  destruct (retire_entry_inv _ _ _ _ _ _ _ _ HK Hrs Hst H1) as [_ [_ [_ _ _ R4 _ _ _]]]. rewrite Ht in R4.
  pose proof (retire_clears _ _ _ H1 R4) as Hc. destruct n; cbn [retire_loop] in H; [discriminate|]. rewrite Hc in H. discriminate.
Qed.

Lemma trap_tick_fault : forall E A c s, Inv E A c -> c_trap c = true -> tick E c = Throw EMemRange s -> faulty E (c_prog c) A.
Proof.
  intros E A c s HI Ht H. unfold tick in H. apply bind_throw in H. destruct H as [H|[c2 [_ H]]].
  - rewrite tick_retire_eq in H. apply nm_split in H; [|apply nm_lift, nm_exec_loop]. destruct H as [x [Hex H]]. apply lift_ok in Hex.
    destruct (exec_phase_inv _ _ _ _ HI Hex) as [den [role [K1 Hl1]]].
    replace (c_prog c) with (c_prog (exec_state c x)) by (destruct x as [[[? ?] ?] ?]; reflexivity).
    eapply trap_loop_fault; eauto. destruct x as [[[? ?] ?] ?]; exact Ht.
  - exfalso. destruct (c_halted c2); [discriminate|]. cbv zeta in H. destruct (negb _); [discriminate|].
    apply nm_split in H; [|apply nm_lift, nm_poll_loop]. destruct H as [[[r a] es] [_ H]].
    apply nm_split in H; [destruct H as [c5 [_ H]]; discriminate|].
    unfold tick_decode. nm_tac. apply nm_add.
Qed.

Lemma ticks_not_at : forall E G k r c h, play E G true (repeat ETick k) (At r c) = Some (Ok h) -> h = At r c.
Proof. intros E G [|k] r c h H; cbn [repeat play os_event] in H; congruence. Qed.

Section Step.
Variable E : env.
Variable G g : cfg.
Variable p : list instr.
Hypothesis wraps : e_mode E = Wrap.
Hypothesis floats : typed_fops (e_fops E).
Hypothesis two : (g_rs g <= 2)%nat.
Hypothesis formed : well_formed g p.

Lemma ticks_fault : forall k A stop c c', Inv E A c -> D c -> c_halted c = false -> c_trap c = true -> state E g p (Going stop c) ->
  play E G true (repeat ETick k) (Going stop c) = Some (Ok (At RCpuError c')) -> faulty E (c_prog c) A.
Proof.
  induction k as [|k IH]; intros A stop c c' HI HD Hh Ht HS H; cbn [repeat play] in H; [discriminate|].
  destruct (plain_event E G g p wraps floats two formed ETick _ HS I I) as (h1 & E1 & S1). rewrite E1 in H.
  assert (HA : a_halted A = false) by (destruct HI as [Ia _]; congruence).
  destruct HS as (B & (HB & _) & HF & _). cbn [os_event] in E1. unfold os_tick in E1.
  destruct (tick_fit E g wraps floats B c HB HF) as [(c1 & T1 & _)|[s T1]]; rewrite T1 in E1; [|eapply trap_tick_fault; eauto].
  destruct (tick_reached _ _ _ _ HI HD T1) as [is [A1 [T R]]].
  assert (Hat : forall r, r <> RCpuError -> h1 <> enter r c1).
  { intros r Hr ->. apply ticks_not_at in H. unfold enter in H. congruence. }
  destruct (c_halted c1) eqn:Hc1; [exfalso; apply (Hat RHalted); congruence|].
  destruct (Z.ltb_spec 0 (c_int c1)) as [Hn|Hn].
  { exfalso. unfold reason_of in E1. repeat match type of E1 with context [if ?b then _ else _] => destruct b end; try discriminate E1;
      match type of E1 with Some (Ok (enter ?r _)) = _ => apply (Hat r); congruence end. }
  destruct (trap_tick _ _ _ _ _ _ T Ht HA) as [[Hs _]|(_ & -> & ->)].
  2:{ destruct stop; injection E1 as <-; [destruct k; discriminate H|]. rewrite <- (re_prog _ _ _ _ _ _ R).
      eapply IH; [exact (re_Inv _ _ _ _ _ _ R)|exact (re_D _ _ _ _ _ _ R)|exact Hc1| |exact (S1 I)|exact H]. now rewrite (re_trap _ _ _ _ _ _ R). }
  exfalso. destruct Hs as [Hs|Hs]; [congruence|]. destruct (td_run _ _ _ _ _ _ T) as (m & Hr & Hc).
  destruct (io_run_known E _ _ _ _ _ _ Hr eq_refl) as [Hm|[Hm|Hm]]; cbn [snd] in Hm; subst m; rewrite Hc in *; destruct (_ && _); lia.
Qed.

(** The step of a stopped machine. *)
Lemma step_fault : forall A r c k c', rests E A c -> c_halted c = false -> r <> RCpuError -> r <> RHalted -> state E g p (At r c) ->
  play E G true (ECmd CSingleStep :: repeat ETick k) (At r c) = Some (Ok (At RCpuError c')) -> faulty E (c_prog c) A.
Proof.
  intros A r c k c' [HI HD HR] Hh Hr Hr' HS H.
  destruct (plain_event E G g p wraps floats two formed (ECmd CSingleStep) _ HS Hr (conj I I)) as (h1 & E1 & S1). cbn [play] in H. rewrite E1 in H.
  cbn [os_event] in E1. unfold os_cmd in E1. cbn [do_cmd bind] in E1. injection E1 as <-.
  assert (HL : leave r false (set_trap c true) = Going false (set_trap c true)) by (destruct r; congruence || reflexivity). rewrite HL in *.
  change (c_prog c) with (c_prog (set_trap c true)).
  eapply ticks_fault; [now apply Inv_trap|exact HD|exact Hh|reflexivity|exact (S1 I)|exact H].
Qed.
End Step.

Lemma faulty_at : forall E p q A, prog_at p (a_pc A) = prog_at q (a_pc A) -> faulty E p A -> faulty E q A.
Proof. intros E p q A H HF. unfold faulty in *. now rewrite <- H. Qed.
