(** L9: faults. When a tick reports an access outside the memory, the sequential
    machine performs that access: its next instruction is the one that retired. *)
From Coq Require Import ZArith NArith List Bool Sorted Lia.
From Verif Require Import Base Alu Isa State AluSpec Exec Ram Writes Rat Cpu InOrder PipeInv PipeBasics PipeActs PipeMem
  PipeExec PipePoll PipeRetire PipeAdd PipeTick PipeBoot PipeDom PipeRun IsaSpec IsaRefine.
Import ListNotations.
Open Scope Z_scope.

(** ---- who reports a memory fault ---- *)

Definition nm {S A} (r : res S A) : Prop := forall e s, r = Throw e s -> e <> EMemRange.

Lemma nm_bind : forall S A B (r : res S A) (f : A -> res S B), nm r -> (forall a, r = Ok a -> nm (f a)) -> nm (bind r f).
Proof.
  intros S A B r f H1 H2 e s H. destruct r as [a|e' s'|w]; cbn in H; [eapply H2; eauto| |discriminate].
  inversion H; subst. eapply H1; eauto.
Qed.

Lemma nm_lift : forall S A (c : S) (r : res unit A), nm r -> nm (lift c r).
Proof. intros S A c r H e s H1. destruct r; cbn in H1; inversion H1; subst. eapply H; eauto. Qed.

Lemma nm_ok : forall S A (a : A), nm (@Ok S A a).
Proof. intros S A a e s H. discriminate. Qed.
Lemma nm_undef : forall S A w, nm (@Undef S A w).
Proof. intros S A w e s H. discriminate. Qed.
Lemma nm_throw : forall S A e s, e <> EMemRange -> nm (@Throw S A e s).
Proof. intros S A e s He e' s' H. inversion H; subst. exact He. Qed.
Lemma nm_opt : forall S A w (o : option A), nm (@opt S A w o).
Proof. intros S A w [a|] e s H; discriminate. Qed.

Ltac nm_tac :=
  repeat (cbv zeta;
    match goal with
    | |- nm (Ok _) => apply nm_ok
    | |- nm (Undef _) => apply nm_undef
    | |- nm (Throw _ _) => apply nm_throw; discriminate
    | |- nm (opt _ _) => apply nm_opt
    | |- nm (lift _ _) => apply nm_lift
    | |- nm (bind _ _) => apply nm_bind; [|intros ? _]
    | |- nm (match ?x with _ => _ end) => destruct x
    end).

Lemma nm_arith : forall m z, nm (arith m z).
Proof. intros m z. unfold arith. nm_tac. Qed.
Lemma nm_supply : forall m o v, nm (supply m o v).
Proof. intros m o v. destruct o; cbn [supply]; nm_tac; apply nm_arith. Qed.
Lemma nm_alu_bin : forall m op x y, nm (alu_bin m op x y).
Proof.
  intros m op x y. destruct op; cbn [alu_bin];
    unfold alu_add, alu_sub, alu_mul, alu_imul, alu_div, alu_idiv, sdiv, alu_mod, alu_and, alu_or, alu_xor,
      alu_lsh, alu_rsh, shl, shr, shift_count; nm_tac; apply nm_arith.
Qed.
Lemma nm_alu_un : forall m op x, nm (alu_un m op x).
Proof. intros m op x. destruct op; cbn [alu_un]; unfold alu_neg, alu_not, alu_add, alu_sub; nm_tac; apply nm_arith. Qed.
Lemma nm_eff_addr : forall m d vs, nm (eff_addr m d vs).
Proof. intros m d vs. unfold eff_addr, mem_index. nm_tac; apply nm_supply. Qed.

Lemma nm_exec_acts : forall E i vs, nm (exec_acts E i vs).
Proof.
  intros E i vs. unfold exec_acts. destruct i; nm_tac;
    try apply nm_alu_bin; try apply nm_alu_un; try apply nm_eff_addr; try apply nm_arith;
    unfold alu_sub; nm_tac; apply nm_arith.
Qed.

Lemma nm_get_write : forall w id, nm (wm_get_write w id).
Proof. intros w id. unfold wm_get_write. nm_tac. Qed.

Lemma nm_entry_set : forall f t l v, nm (entry_set f t l v).
Proof. intros f t l v. unfold entry_set. nm_tac. Qed.

Lemma nm_do_acts : forall e acts s, nm (do_acts e acts s).
Proof.
  induction acts as [|a acts IH]; intros s; cbn [do_acts]; [apply nm_ok|]. apply nm_bind; [|intros ? _; apply IH].
  destruct s as [[f w] ops]. destruct a; cbn [do_act]; unfold wm_specify, wm_set_value; nm_tac;
    try apply nm_entry_set; apply nm_get_write.
Qed.

Lemma nm_exec_loop : forall E es f w a, nm (exec_loop E f w a es).
Proof.
  induction es as [|e es IH]; intros f w a; cbn [exec_loop]; [apply nm_ok|].
  apply nm_bind; [unfold exec_entry; nm_tac; [apply nm_exec_acts|apply nm_do_acts]|].
  intros [[[f1 w1] a1] e1] _. apply nm_bind; [apply IH|]. intros [[[f2 w2] a2] es2] _. apply nm_ok.
Qed.

Lemma nm_unroll : forall c t, nm (unroll c t).
Proof. intros c t. unfold unroll. nm_tac. Qed.

Lemma nm_read_reg : forall f t l, nm (read_reg f t l).
Proof. intros. unfold read_reg. nm_tac. Qed.

Lemma nm_fetch_op : forall n E g f w t m r x o, nm (fetch_op n E g f w t m r x o).
Proof.
  induction n as [|n IH]; intros; cbn [fetch_op]; [apply nm_undef|].
  unfold stall_peek, read_memory, wm_previous, ram_read. nm_tac; try apply nm_read_reg; try apply nm_supply; apply IH.
Qed.

Lemma nm_fetch_ops : forall E g f w t m os r x, nm (fetch_ops E g f w t m r x os).
Proof.
  induction os as [|o os IH]; intros; cbn [fetch_ops]; [apply nm_ok|].
  apply nm_bind; [apply nm_fetch_op|]. intros [[r1 x1] o1] _. apply nm_bind; [apply IH|]. intros [[r2 x2] o2] _. apply nm_ok.
Qed.

Lemma nm_poll_loop : forall E g f w es r a, nm (poll_loop E g f w r a es).
Proof.
  induction es as [|e es IH]; intros; cbn [poll_loop]; [apply nm_ok|].
  apply nm_bind; [unfold poll_entry; nm_tac; apply nm_fetch_ops|]. intros [[r1 a1] e1] _.
  apply nm_bind; [apply IH|]. intros [[r2 a2] e2] _. apply nm_ok.
Qed.

Lemma nm_rename : forall c l, nm (rename c l).
Proof. intros c l. unfold rename. nm_tac. Qed.

Lemma nm_set_lreg : forall c l v, nm (set_lreg c l v).
Proof. intros c l v. unfold set_lreg. nm_tac. Qed.

Lemma nm_add_products : forall ps c ids, nm (add_products c ids ps).
Proof.
  induction ps as [|x ps IH]; intros c ids; cbn [add_products]; [apply nm_ok|].
  destruct x; [destruct (is_pc l)|destruct (wm_register_at _ _)|destruct (wm_register _)]; try apply IH.
  apply nm_bind; [apply nm_rename|intros ? _; apply IH].
Qed.

Lemma nm_add : forall c i pc, nm (add c i pc).
Proof.
  intros c i pc. unfold add. nm_tac; try apply nm_rename; try apply nm_set_lreg; apply nm_add_products.
Qed.

Lemma nm_do_jump : forall c e, nm (do_jump c e).
Proof. intros c e. unfold do_jump. nm_tac. apply nm_unroll. Qed.

Lemma bind_throw : forall S A B (r : res S A) (f : A -> res S B) e s, bind r f = Throw e s ->
  r = Throw e s \/ exists a, r = Ok a /\ f a = Throw e s.
Proof. intros S A B r f e s H. destruct r as [a|e' s'|w]; cbn in H; [right; eauto|left; injection H as -> ->; reflexivity|discriminate]. Qed.

Lemma nm_split : forall S A B (r : res S A) (f : A -> res S B) s, bind r f = Throw EMemRange s -> nm r ->
  exists a, r = Ok a /\ f a = Throw EMemRange s.
Proof.
  intros S A B r f s H Hn. apply bind_throw in H. destruct H as [H|H]; [|exact H]. destruct (Hn _ _ H eq_refl).
Qed.

(** The instruction at the program counter accesses a cell that does not exist. *)
Definition faulty (E : env) (p : list instr) (A : arch) : Prop :=
  exists os vs b acts, operands (prog_at p (a_pc A)) = Some os /\ evs E A os = Some (vs, b) /\
    exec_acts E (prog_at p (a_pc A)) vs = Ok acts /\
    (b = true \/ exists a v, store_of (prog_at p (a_pc A)) acts = Some (a, v) /\ a_mem A a = None).

Lemma write_fault : forall E S0 w r e es id m,
  wm_inv E S0 w (e :: es) -> ram_inv S0 w r -> e_state e = Retiring -> e_wids e = [id] ->
  wm_get_write w id = Ok m -> wm_start w r id = Ok None ->
  exists a v, eff_store E (e_ins e) S0 = Some (a, v) /\ a_mem S0 a = None.
Proof.
  intros E S0 w r e es id m W I Hst Hid Hg Hs.
  unfold wm_start in Hs. rewrite Hg in Hs. cbn [bind] in Hs.
  destruct (mw_value m) as [v|] eqn:Hv; [|discriminate]. destruct (mw_ram m) eqn:Hr; [discriminate|].
  destruct (ram_write r (mw_addr m) v) as [[r1 rid]|] eqn:Hw; [discriminate|].
  destruct (wm_get_write_in _ _ _ (wi_keys _ _ _ _ W) Hg) as [Hmid [a0 Hm]].
  pose proof (wi_ent _ _ _ _ W [] e es id eq_refl) as Hen. rewrite Hid in Hen. specialize (Hen (or_introl eq_refl)).
  unfold entry_write in Hen. rewrite Hst in Hen. destruct Hen as [a [v' [He [Hin Hun]]]].
  change (sfold E S0 []) with S0 in He.
  destruct (Hun _ _ Hm Hmid) as [-> ->]. cbn [mw_value mw_addr mw_id] in *.
  exists a, v'. split; [exact He|]. rewrite (ra_mem _ _ _ I). unfold ram_write in Hw.
  destruct (mem_at (ram_mem r) a); [discriminate|reflexivity].
Qed.

Lemma racts_fault : forall e i vs racts c s, produces i <> None -> retire_acts i vs = Ok racts ->
  do_racts e racts c = Throw EMemRange s ->
  mem_prod i <> None /\ exists id, e_wids e = [id] /\ write_memory c id = Throw EMemRange s.
Proof.
  intros e i vs racts c s Hp Hr H. destruct (retire_shape _ _ _ Hp Hr) as [X|[X|[X|[X|[X|[X|[X|[X|[X|[X|X]]]]]]]]]].
  - destruct X as [-> _]. discriminate.
  - destruct X as [-> [Hm _]]. split; [exact Hm|]. cbn [do_racts do_ract] in H. destruct (e_wids e) as [|id [|? ?]]; try discriminate.
    exists id. split; [reflexivity|]. apply bind_throw in H. destruct H as [H|[a [_ H]]]; [exact H|discriminate].
  - destruct X as [-> [Hm _]]. split; [exact Hm|]. cbn [do_racts do_ract] in H. destruct (e_wids e) as [|id [|? ?]]; try discriminate.
    exists id. split; [reflexivity|]. apply bind_throw in H. destruct H as [H|[a [_ H]]]; [exact H|].
    exfalso. apply nm_split in H; [|apply nm_do_jump]. destruct H as [b [_ H]]. discriminate.
  - destruct X as [-> _]. cbn [do_racts do_ract] in H. apply nm_split in H; [|apply nm_do_jump]. destruct H as [b [_ H]]. discriminate.
  - destruct X as [-> _]. cbn [do_racts do_ract] in H. apply nm_split in H; [|nm_tac; apply nm_entry_set]. destruct H as [b [_ H]]. discriminate.
  - destruct X as [r [-> _]]. cbn [do_racts do_ract] in H. apply nm_split in H; [|nm_tac; apply nm_entry_set]. destruct H as [b [_ H]]. discriminate.
  - destruct X as [r [v [_ [-> _]]]]. discriminate.
  - destruct X as [r [v [_ [-> _]]]]. discriminate.
  - destruct X as [-> _]. cbn [do_racts do_ract] in H. apply nm_split in H; [|apply nm_unroll]. destruct H as [b [_ H]]. discriminate.
  - destruct X as [-> _]. cbn [do_racts do_ract] in H. apply nm_split in H; [|apply nm_unroll]. destruct H as [b [_ H]]. discriminate.
  - destruct X as [-> _]. cbn [do_racts do_ract] in H. apply nm_split in H; [|apply nm_unroll]. destruct H as [b [_ H]]. discriminate.
Qed.

Lemma retire_fault : forall E den role A c e es s,
  K E den role A c -> c_rs c = e :: es -> e_state e = Retiring ->
  retire_entry (set_rs c es) e = Throw EMemRange s -> a_halted A = false /\ faulty E (c_prog c) A.
Proof.
  intros E den role A c e es s [HJ Hha Hsr] Hrs Hst H.
  assert (Hns : ~ stop c). { intros Hs. destruct (Hsr Hs) as [Hr _]. congruence. }
  split. { rewrite Hha. destruct (c_halted c) eqn:Hc; [|reflexivity]. exfalso. apply Hns. now left. }
  destruct (j_ent _ _ _ _ _ _ _ HJ [] e es Hrs) as [Hpa [os [Hos [Hpr Hx]]]]. rewrite Hst in Hx.
  destruct Hx as [vs [ws [acts [Hev [Hex [Hws Hops]]]]]]. change (sfold E A []) with A in *.
  exists os, vs, (e_exn e), acts. rewrite <- Hpa. do 3 (split; [assumption|]).
  unfold retire_entry in H. rewrite Hops in H. cbn [opt bind] in H.
  apply nm_split in H; [|apply nm_lift; unfold retire_acts; nm_tac]. destruct H as [racts [Hra H]]. apply lift_ok in Hra.
  apply bind_throw in H. destruct H as [H|[c1 [Hdo H]]].
  - right. destruct (racts_fault _ _ _ _ _ _ Hpr Hra H) as [Hm [id [Hid Hw]]].
    unfold write_memory in Hw. apply nm_split in Hw; [|apply nm_lift; apply nm_get_write]. destruct Hw as [m [Hg Hw]]. apply lift_ok in Hg.
    apply nm_split in Hw; [|apply nm_lift; unfold wm_start; nm_tac; apply nm_get_write]. destruct Hw as [o [Hs Hw]]. apply lift_ok in Hs.
    destruct o as [[wm' ram']|]; [destruct (check_write _ _); discriminate|].
    cbn [set_rs c_wm c_ram] in Hg, Hs. pose proof (j_wm _ _ _ _ _ _ _ HJ) as W. rewrite Hrs in W.
    destruct (write_fault _ _ _ _ _ _ _ _ W (j_ram _ _ _ _ _ _ _ HJ) Hst Hid Hg Hs) as [a [v [Hs1 Hs2]]].
    exists a, v. split; [|exact Hs2]. rewrite <- (eff_store_eq _ _ _ _ _ _ _ Hos Hev Hex). exact Hs1.
  - left. destruct (e_exn e); [reflexivity|]. exfalso.
    apply nm_split in H.
    + destruct H as [c2 [_ H]]. apply nm_split in H; [|apply nm_opt]. destruct H as [f [_ H]]. discriminate.
    + destruct (c_trap c1); [apply nm_bind; [apply nm_unroll|intros ? _; apply nm_ok]|].
      destruct (negb _); [apply nm_unroll|apply nm_ok].
Qed.

Lemma retire_loop_fault : forall E den role n A c s, K E den role A c -> retire_loop n c = Throw EMemRange s ->
  exists k A', io_steps E (c_prog c) k A A' /\ a_halted A' = false /\ faulty E (c_prog c) A'.
Proof.
  induction n as [|n IH]; intros A c s HK H; cbn [retire_loop] in H; [discriminate|].
  destruct (c_rs c) as [|e es] eqn:Hrs; [discriminate|].
  destruct (e_state e) eqn:Hst; try discriminate.
  apply bind_throw in H. destruct H as [H|[c1 [H1 H]]].
  - exists 0%nat, A. split; [constructor|]. eapply retire_fault; eauto.
  - destruct (retire_entry_inv _ _ _ _ _ _ _ _ HK Hrs Hst H1) as [Hpa [Hio [R1 R2 R3 R4 R5 R6 R7]]].
    destruct (IH _ _ _ R1 H) as [k [A' [I1 I2]]]. rewrite R2 in *.
    exists (Datatypes.S k), A'. split; [econstructor; eauto|exact I2].
Qed.

Lemma tick_fault : forall E A c s, Inv E A c -> tick E c = Throw EMemRange s ->
  exists k A', io_steps E (c_prog c) k A A' /\ a_halted A' = false /\ faulty E (c_prog c) A'.
Proof.
  intros E A c s HI H. unfold tick in H. apply bind_throw in H. destruct H as [H|[c2 [_ H]]].
  - rewrite tick_retire_eq in H. apply nm_split in H; [|apply nm_lift, nm_exec_loop]. destruct H as [x [Hex H]]. apply lift_ok in Hex.
    destruct (exec_phase_inv _ _ _ _ HI Hex) as [den [role [K1 Hl1]]].
    replace (c_prog c) with (c_prog (exec_state c x)) by (destruct x as [[[? ?] ?] ?]; reflexivity).
    eapply retire_loop_fault; eauto.
  - exfalso. destruct (c_halted c2); [discriminate|]. cbv zeta in H. destruct (negb _); [discriminate|].
    apply nm_split in H; [|apply nm_lift, nm_poll_loop]. destruct H as [[[r a] es] [_ H]].
    apply nm_split in H; [destruct H as [c5 [_ H]]; discriminate|].
    unfold tick_decode. nm_tac. apply nm_add.
Qed.

(** ---- the fault in terms of the specification ---- *)

Lemma ev_mem_fault : forall n E S a v, ev (Datatypes.S (Datatypes.S n)) E S (OMemImm a) = Some (v, true) -> a_mem S a = None.
Proof.
  intros n E S a v H. cbn [ev requirement supply] in H. destruct (a_mem S a) as [x|]; [|reflexivity]. cbn in H. discriminate.
Qed.

Lemma ev_memregoff_fault : forall n E S r i v, wordy S ->
  ev (Datatypes.S (Datatypes.S (Datatypes.S n))) E S (OMemRegOff r i) = Some (v, true) ->
  a_mem S (address (rd S (LR r) + i)) = None.
Proof.
  intros n E S r i v W H. remember (Datatypes.S (Datatypes.S n)) as n1. cbn [ev requirement supply] in H.
  deliver H o' Ho.
  apply (supply_arith _ _ (fun x => OMemImm (u64 x))) in Ho. destruct Ho as [x [Hx ->]]. subst n1. apply ev_mem_fault in H.
  rewrite (address_word _ _ Hx) in H. exact H.
Qed.

Lemma ev_fault : forall E S o v, wordy S -> typed_operand o -> ev 4 E S o = Some (v, true) ->
  exists z, inside S o z /\ a_mem S (address z) = None.
Proof.
  intros E S o v W T H.
  destruct o; unfold typed_operand in T;
    try pose proof (rd_val S (LR r) W) as [Hr Fr]; try pose proof (rd_val S (LR r1) W) as [Hr1 Fr1];
    try pose proof (rd_val S (LR r2) W) as [Hr2 Fr2]; try pose proof (rd_val S (LF n) W) as [Hf Ff].
  - apply ev_imm in H. destruct H as [_ H]. discriminate.
  - apply ev_fimm in H. destruct H as [_ H]. discriminate.
  - remember 3%nat as k. cbn [ev requirement supply] in H. subst k. apply ev_imm in H. destruct H as [_ H]. discriminate.
  - apply ev_regoff in H; [|exact W]. destruct H as [_ H]. discriminate.
  - remember 3%nat as k. cbn [ev requirement supply] in H. subst k. apply ev_regoff in H; [|exact W].
    destruct H as [_ H]. discriminate.
  - remember 3%nat as k. cbn [ev requirement supply] in H. deliver H o' Ho.
    apply supply_arith in Ho. destruct Ho as [x [Hx ->]]. subst k. apply ev_imm in H. destruct H as [_ H]. discriminate.
  - remember 3%nat as k. cbn [ev requirement supply] in H. deliver H o' Ho.
    apply (supply_arith _ _ (fun x => ORegOff r2 x)) in Ho. destruct Ho as [x [Hx ->]]. subst k.
    apply ev_regoff in H; [|exact W]. destruct H as [_ H]. discriminate.
  - remember 3%nat as k. cbn [ev requirement supply] in H. deliver H o' Ho.
    apply (supply_arith _ _ (fun x => ORegOff r x)) in Ho. destruct Ho as [x [Hx ->]]. subst k.
    apply ev_regoff in H; [|exact W]. destruct H as [_ H]. discriminate.
  - remember 3%nat as k. cbn [ev requirement supply] in H. deliver H o' Ho.
    apply (supply_arith2 _ _ (fun x => o + x) (fun y => ORegOff r y)) in Ho.
    destruct Ho as [x [y [Hx [Hy ->]]]]. subst k.
    apply ev_regoff in H; [|exact W]. destruct H as [_ H]. discriminate.
  - apply ev_mem_fault in H. assert (Ha : address a = a) by (unfold address; apply Z.mod_small; exact T).
    exists a. split; [constructor|]. now rewrite Ha.
  - remember 3%nat as k. cbn [ev requirement supply] in H. subst k. apply ev_mem_fault in H.
    rewrite (address_word _ _ (word_self _ Fr)) in H. eexists. split; [econstructor; eauto|exact H].
  - apply ev_memregoff_fault in H; [|exact W]. eexists. split; [econstructor; eauto|exact H].
  - remember 3%nat as k. cbn [ev requirement supply] in H. subst k. apply ev_memregoff_fault in H; [|exact W].
    eexists. split; [econstructor; eauto|]. rewrite Z.add_comm. exact H.
  - remember 3%nat as k. cbn [ev requirement supply] in H. deliver H o' Ho.
    apply (supply_arith _ _ (fun x => OMemImm (u64 x))) in Ho. destruct Ho as [x [Hx ->]]. subst k. apply ev_mem_fault in H.
    rewrite (address_word _ _ Hx) in H. eexists. split; [econstructor; eauto|exact H].
  - remember 3%nat as k. cbn [ev requirement supply] in H. deliver H o' Ho.
    apply (supply_arith _ _ (fun x => OMemRegOff r2 x)) in Ho. destruct Ho as [x [Hx ->]]. subst k.
    apply ev_memregoff_fault in H; [|exact W]. eexists. split; [econstructor; eauto|].
    rewrite <- H. f_equal. apply address_cong. destruct Hx as [_ [k Hk]]. exists (- k). lia.
  - remember 3%nat as k. cbn [ev requirement supply] in H. deliver H o' Ho.
    apply (supply_arith _ _ (fun x => OMemRegOff r x)) in Ho. destruct Ho as [x [Hx ->]]. subst k.
    apply ev_memregoff_fault in H; [|exact W]. eexists. split; [econstructor; eauto|].
    rewrite <- H. f_equal. apply address_cong. destruct Hx as [_ [k Hk]]. exists (- k). lia.
  - remember 3%nat as k. cbn [ev requirement supply] in H. deliver H o' Ho.
    apply (supply_arith2 _ _ (fun x => o + x) (fun y => OMemRegOff r y)) in Ho.
    destruct Ho as [x [y [Hx [Hy ->]]]]. subst k.
    apply ev_memregoff_fault in H; [|exact W]. eexists. split; [econstructor; eauto|].
    rewrite <- H. f_equal. apply address_cong.
    destruct Hx as [_ [k Hk]], Hy as [_ [j Hj]]. exists (- k - j). lia.
  - remember 3%nat as k. cbn [ev requirement supply] in H. subst k. apply ev_fimm in H. destruct H as [_ H]. discriminate.
Qed.

Lemma evs_fault : forall E S os vs, evs E S os = Some (vs, true) -> exists o v, In o os /\ ev 4 E S o = Some (v, true).
Proof.
  induction os as [|o os IH]; intros vs H; cbn [evs] in H; [discriminate|].
  destruct (ev 4 E S o) as [[v b]|] eqn:He; [|discriminate]. destruct (evs E S os) as [[ws b']|] eqn:Hs; [|discriminate].
  injection H as H1 H2. destruct b.
  - exists o, v. split; [now left|exact He].
  - cbn [orb] in H2. subst b'. destruct (IH _ eq_refl) as [o' [v' [Ho Hv]]]. exists o', v'. split; [now right|exact Hv].
Qed.

Lemma inside_reg : forall S r z, ~ inside S (OReg r) z.
Proof. intros S r z H. inversion H. Qed.
Lemma inside_freg : forall S r z, ~ inside S (OFReg r) z.
Proof. intros S r z H. inversion H. Qed.

Lemma sp_inside : forall S z, inside S (OMemReg SP) z -> z = a_reg S (LR SP).
Proof. intros S z H. inversion H; subst. match goal with H : reg_val _ _ _ |- _ => inversion H; subst end. reflexivity. Qed.

Lemma operand_access : forall S i os o z, operands i = Some os -> In o os -> inside S o z -> accesses S i (address z).
Proof.
  intros S i os o z Ho Hi Hz.
  assert (Hr : forall rs, In o (map OReg rs) -> accesses S i (address z)).
  { intros rs H. apply in_map_iff in H. destruct H as [r [H _]]. subst o. destruct (inside_reg _ _ _ Hz). }
  destruct i; cbn [operands] in Ho;
    try (injection Ho as <-;
      repeat (match goal with H : In _ (_ :: _) |- _ => cbn [In] in H | H : _ \/ _ |- _ => destruct H end);
      try contradiction; subst;
      try (exfalso; eapply inside_reg; eassumption); try (exfalso; eapply inside_freg; eassumption);
      try (eapply ac_source; [now left|assumption]); fail).
  - (* MOV *)
    assert (Hc : o = v \/ exists r, o = OReg r).
    { destruct d; cbn [addr_regs] in Ho; try discriminate; injection Ho as <-; cbn [In map] in Hi;
        (destruct Hi as [Hi|Hi]; [now left|]); right;
        repeat (destruct Hi as [Hi|Hi]; [eexists; symmetry; exact Hi|]); destruct Hi. }
    destruct Hc as [Hc|[rs Hc]]; subst o; [|destruct (inside_reg _ _ _ Hz)]. eapply ac_source; [now left|exact Hz].
  - (* LEA *) 
    destruct m; cbn [addr_regs] in Ho; try discriminate; injection Ho as <-;
      (eapply (Hr [_]); exact Hi) || (eapply (Hr [_; _]); exact Hi) || (eapply (Hr []); exact Hi).
  - (* RET *) injection Ho as <-. cbn [In] in Hi. destruct Hi as [Hi|[Hi|[]]]; subst o; [|destruct (inside_reg _ _ _ Hz)].
    apply sp_inside in Hz. subst z. apply ac_pop. now left.
  - injection Ho as <-. cbn [In] in Hi. destruct Hi as [Hi|[Hi|[]]]; subst o; [|destruct (inside_reg _ _ _ Hz)].
    apply sp_inside in Hz. subst z. apply ac_pop. right. left. eauto.
  - injection Ho as <-. cbn [In] in Hi. destruct Hi as [Hi|[Hi|[]]]; subst o; [|destruct (inside_reg _ _ _ Hz)].
    apply sp_inside in Hz. subst z. apply ac_pop. right. right. eauto.
Qed.

Lemma typed_operands : forall i os o, typed_instr i -> operands i = Some os -> In o os -> typed_operand o.
Proof.
  intros i os o T Ho Hi.
  assert (Hr : forall rs, In o (map OReg rs) -> typed_operand o).
  { intros rs H. apply in_map_iff in H. destruct H as [r [H _]]. subst o. exact I. }
  destruct i; cbn [operands typed_instr] in *;
    try (injection Ho as <-;
      repeat (match goal with H : In _ (_ :: _) |- _ => cbn [In] in H | H : _ \/ _ |- _ => destruct H end);
      try contradiction; subst; try exact I; exact T).
  - destruct T as [T1 T2].
    assert (Hc : o = v \/ exists r, o = OReg r).
    { destruct d; cbn [addr_regs] in Ho; try discriminate; injection Ho as <-; cbn [In map] in Hi;
        (destruct Hi as [Hi|Hi]; [now left|]); right;
        repeat (destruct Hi as [Hi|Hi]; [eexists; symmetry; exact Hi|]); destruct Hi. }
    destruct Hc as [Hc|[rs Hc]]; subst o; [exact T2|exact I].
  - 
    destruct m; cbn [addr_regs] in Ho; try discriminate; injection Ho as <-;
      (eapply (Hr [_]); exact Hi) || (eapply (Hr [_; _]); exact Hi) || (eapply (Hr []); exact Hi).
Qed.

Lemma store_access : forall E S i os vs acts a v, wordy S -> typed_instr i -> operands i = Some os ->
  evs E S os = Some (vs, false) -> exec_acts E i vs = Ok acts -> store_of i acts = Some (a, v) -> accesses S i a.
Proof.
  intros E S i os vs acts a v W T Ho He Hx Hs.
  assert (Hsp : forall x sp, arith (e_mode E) (x - 1) = Ok sp -> u64 sp = address (x - 1)).
  { intros x sp H. apply arith_word in H. now apply address_word. }
  assert (Hrd : rd S (LR SP) = a_reg S (LR SP)) by reflexivity.
  destruct i; cbn [operands] in Ho; try discriminate;
    try (injection Ho as <-; repeat (match goal with H : evs _ _ (_ :: _) = Some _ |- _ => apply evs_cons in H; destruct H as [? [? [? [? H]]]] end);
      apply evs_nil in He; subst; cbn [exec_acts] in Hx).
  all: try (apply Ok_eq in Hx; subst acts; discriminate Hs).
  all: try (apply bind_ok in Hx; destruct Hx as [? [_ Hx]]; apply Ok_eq in Hx; subst acts; discriminate Hs).
  - (* MOV *) destruct T as [T1 T2].
    assert (Hv : exists y rest, vs = y :: rest).
    { destruct d; cbn [addr_regs] in Ho; try discriminate; injection Ho as <-; apply evs_cons in He;
        destruct He as [y [rest [-> _]]]; eauto. }
    destruct Hv as [y [rest ->]].
    assert (Hg : forall rs, addr_regs d = Some rs -> os = v0 :: map OReg rs -> eff_addr (e_mode E) d rest = Ok a -> accesses S (IMov d v0) a).
    { intros rs H1 H2 H3. subst os. apply evs_cons in He. destruct He as [y' [rest' [He1 [_ He2]]]]. injection He1 as _ <-.
      apply evs_regs in He2. subst rest. destruct (eff_addr_spec _ _ _ _ _ W H1 H3) as [z [Hz ->]]. now apply ac_mov. }
    assert (Hk : forall rs, addr_regs d = Some rs -> os = v0 :: map OReg rs ->
      (let! a0 := eff_addr (e_mode E) d rest in Ok [AAddr a0; AVal y]) = Ok acts -> accesses S (IMov d v0) a).
    { intros rs H1 H2 H3. apply bind_ok in H3. destruct H3 as [a0 [H3 H4]]. apply Ok_eq in H4. subst acts.
      cbn in Hs. injection Hs as <- _. eapply Hg; eauto. }
    cbn [exec_acts] in Hx.
    destruct d; cbn [addr_regs] in Ho; try discriminate; injection Ho as <-;
      try (eapply Hk; [reflexivity|reflexivity|exact Hx]).
    + destruct rest; [|discriminate]. apply Ok_eq in Hx. subst acts. discriminate.
    + destruct rest; [|discriminate]. apply Ok_eq in Hx. subst acts. cbn in Hs. injection Hs as <- _.
      assert (Ha : address a0 = a0) by (unfold address; apply Z.mod_small; exact T1). rewrite <- Ha at 2. apply ac_mov. constructor.
    + destruct rest; [|discriminate]. apply Ok_eq in Hx. subst acts. discriminate.
  - (* LEA *) cbn [exec_acts] in Hx. destruct m; try discriminate;
      (apply bind_ok in Hx; destruct Hx as [? [_ Hx]]; apply Ok_eq in Hx; subst acts; discriminate Hs).
  - (* LOOP *) apply bind_ok in Hx. destruct Hx as [q [_ Hx]]. apply Ok_eq in Hx. subst acts.
    destruct (rval q =? 0); discriminate Hs.
  - (* JCC *) apply Ok_eq in Hx. subst acts. destruct (cond_holds _ _); discriminate Hs.
  - (* CALL *) apply bind_ok in Hx. destruct Hx as [q [Hq Hx]]. apply Ok_eq in Hx. subst acts. cbn in Hs. injection Hs as <- _.
    match goal with H : ev 4 _ _ (OReg SP) = _ |- _ => apply ev_reg in H; subst end.
    rewrite (Hsp _ _ Hq), Hrd. apply ac_push. left. eauto.
  - apply bind_ok in Hx. destruct Hx as [q [Hq Hx]]. apply Ok_eq in Hx. subst acts. cbn in Hs. injection Hs as <- _.
    match goal with H : ev 4 _ _ (OReg SP) = _ |- _ => apply ev_reg in H; subst end.
    rewrite (Hsp _ _ Hq), Hrd. apply ac_push. right. left. eauto.
  - apply bind_ok in Hx. destruct Hx as [q [Hq Hx]]. apply Ok_eq in Hx. subst acts. cbn in Hs. injection Hs as <- _.
    match goal with H : ev 4 _ _ (OReg SP) = _ |- _ => apply ev_reg in H; subst end.
    rewrite (Hsp _ _ Hq), Hrd. apply ac_push. right. right. eauto.
  - destruct (f_to_int _ _); [|discriminate]. apply Ok_eq in Hx. subst acts. discriminate Hs.
Qed.

Lemma faulty_spec : forall E p S, wordy S -> Forall typed_instr p -> 0 <= a_pc S -> faulty E p S ->
  exists a, accesses S (instr_at p (a_pc S)) a /\ a_mem S a = None.
Proof.
  intros E p S W T Hpc [os [vs [b [acts [Ho [He [Hx Hb]]]]]]]. rewrite prog_at_instr in * by exact Hpc.
  pose proof (typed_at p (a_pc S) T) as Ti. destruct b.
  - destruct (evs_fault _ _ _ _ He) as [o [v [Hi Hv]]].
    destruct (ev_fault _ _ _ _ W (typed_operands _ _ _ Ti Ho Hi) Hv) as [z [Hz Hm]].
    exists (address z). split; [eapply operand_access; eauto|exact Hm].
  - destruct Hb as [Hb|[a [v [Hs Hm]]]]; [discriminate|]. exists a. split; [eapply store_access; eauto|exact Hm].
Qed.
