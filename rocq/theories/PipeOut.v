(** L10: errors and output. When a tick reports an error, what has been printed is what
    the sequential machine has printed at some point. *)
From Coq Require Import ZArith NArith List Bool Sorted Lia.
From Verif Require Import Base Alu Isa State AluSpec Exec Ram Writes Rat Cpu InOrder PipeInv PipeBasics PipeActs PipeMem
  PipeExec PipePoll PipeRetire PipeAdd PipeTick PipeBoot PipeDom PipeRun IsaSpec IsaRefine PipeFault.
Import ListNotations.
Open Scope Z_scope.

(** ---- what leaves the output alone ---- *)

Definition mute {A} (o : list outev) (f : A -> cpu) (r : res cpu A) : Prop :=
  match r with Ok a => c_out (f a) = o | Throw _ c => c_out c = o | Undef _ => True end.
Definition this (c : cpu) : cpu := c.

Lemma mute_bind : forall A B o f g (r : res cpu A) (k : A -> res cpu B), mute o f r -> (forall a, c_out (f a) = o -> mute o g (k a)) -> mute o g (bind r k).
Proof. intros A B o f g r k H1 H2. destruct r as [a|e s|w]; cbn [bind mute] in *; auto. Qed.
Lemma mute_lift : forall A c (r : res unit A), mute (c_out c) (fun _ => c) (lift c r).
Proof. intros A c r. destruct r; cbn; auto. Qed.
Lemma mute_opt : forall A c w (r : option A), mute (c_out c) (fun _ => c) (opt w r).
Proof. intros A c w r. destruct r; cbn; auto. Qed.

Ltac mute_bind_opt c := apply (mute_bind _ _ _ (fun _ => c)); [apply mute_opt|intros ? _].

Lemma mute_unroll : forall c t, mute (c_out c) this (unroll c t).
Proof.
  intros c t. unfold unroll. mute_bind_opt c. mute_bind_opt c. mute_bind_opt c. cbv zeta.
  destruct (get_lreg _ _); reflexivity.
Qed.
Lemma mute_do_jump : forall c e, mute (c_out c) this (do_jump c e).
Proof.
  intros c e. unfold do_jump. destruct (rget (e_wrat e) (LR PC)); [|reflexivity]. destruct (rget (e_rrat e) (LR PC)); [|reflexivity].
  destruct (get_preg c n); [|reflexivity]. destruct (nth_error (c_regs c) n0); [|reflexivity]. destruct (negb _); [exact I|].
  destruct (c_pred c); [exact I|]. destruct (_ =? _); [reflexivity|]. exact (mute_unroll (set_pred c l) _).
Qed.
Lemma mute_write_memory : forall c id, mute (c_out c) this (write_memory c id).
Proof.
  intros c id. unfold write_memory. apply (mute_bind _ _ _ (fun _ => c)); [apply mute_lift|intros w _].
  apply (mute_bind _ _ _ (fun _ => c)); [apply mute_lift|intros [[wm' ram']|] _]; [|reflexivity].
  cbv zeta. destruct (check_write _ _). reflexivity.
Qed.

(** A retirement that reports an error has not printed anything yet. *)
Lemma mute_racts : forall i vs acts e c ex s, produces i <> None -> retire_acts i vs = Ok acts -> do_racts e acts c = Throw ex s -> c_out s = c_out c.
Proof.
  assert (G1 : forall e a c ex s, do_racts e [a] c = Throw ex s -> mute (c_out c) this (do_ract e a c) -> c_out s = c_out c).
  { intros e a c ex s H M. cbn [do_racts] in H. apply bind_throw in H. destruct H as [H|[c1 [_ H]]]; [|discriminate]. rewrite H in M. exact M. }
  assert (G2 : forall e a b c ex s, do_racts e [a; b] c = Throw ex s -> mute (c_out c) this (do_ract e a c) ->
                 (forall c', mute (c_out c') this (do_ract e b c')) -> c_out s = c_out c).
  { intros e a b c ex s H M M'. change (do_racts e [a; b] c) with (let! c' := do_ract e a c in do_racts e [b] c') in H.
    apply bind_throw in H. destruct H as [H|[c1 [H1 H]]]; [rewrite H in M; exact M|]. rewrite H1 in M. rewrite (G1 _ _ _ _ _ H (M' c1)). exact M. }
  assert (Mw : forall e c, mute (c_out c) this (do_ract e RWrite c)).
  { intros e c. cbn [do_ract]. destruct (e_wids e) as [|id [|? ?]]; try exact I. apply mute_write_memory. }
  intros i vs acts e c ex s Hp Hr H. destruct (retire_shape _ _ _ Hp Hr) as [X|[X|[X|[X|[X|[X|[X|[X|[X|[X|X]]]]]]]]]].
  - destruct X as [-> _]. discriminate.
  - destruct X as [-> _]. exact (G1 _ _ _ _ _ H (Mw _ _)).
  - destruct X as [-> _]. refine (G2 _ _ _ _ _ _ H (Mw _ _) _). intros c'. apply mute_do_jump.
  - destruct X as [-> _]. exact (G1 _ _ _ _ _ H (mute_do_jump _ _)).
  - destruct X as [-> _]. refine (G1 _ _ _ _ _ H _). cbn [do_ract]. apply (mute_bind _ _ _ (fun _ => c)); [apply mute_lift|intros f _]. reflexivity.
  - destruct X as [r [-> _]]. refine (G1 _ _ _ _ _ H _). cbn [do_ract]. destruct (get_char (c_in c)) as [[ch rest]|]; [|exact I].
    apply (mute_bind _ _ _ (fun _ => c)); [apply mute_lift|intros f _]. reflexivity.
  - destruct X as [r [v [_ [-> _]]]]. discriminate.
  - destruct X as [r [v [_ [-> _]]]]. discriminate.
  - destruct X as [-> _]. refine (G2 _ _ _ _ _ _ H (mute_unroll _ _) _). intros c'. reflexivity.
  - destruct X as [-> _]. exact (G1 _ _ _ _ _ H (mute_unroll _ _)).
  - destruct X as [-> _]. refine (G2 _ _ _ _ _ _ H (mute_unroll _ _) _). intros c'. reflexivity.
Qed.

Lemma mute_rename : forall c l, mute (c_out c) this (rename c l).
Proof.
  intros c l. unfold rename. destruct (next_free_from _ _ _); [|reflexivity]. destruct (negb _); [reflexivity|].
  apply (mute_bind _ _ _ (fun _ => c)); [destruct (rget _ _); [apply mute_opt|reflexivity]|intros f1 _].
  mute_bind_opt c. mute_bind_opt c. reflexivity.
Qed.
Lemma mute_set_lreg : forall c l v, mute (c_out c) this (set_lreg c l v).
Proof. intros c l v. unfold set_lreg. destruct (rget _ _); [|reflexivity]. destruct (pset _ _ _); reflexivity. Qed.
Lemma mute_add_products : forall ps c ids, mute (c_out c) fst (add_products c ids ps).
Proof.
  induction ps as [|x ps IH]; intros c ids; cbn [add_products]; [reflexivity|].
  destruct x as [l|a|]; [destruct (is_pc l)|destruct (wm_register_at (c_wm c) a) as [w id]|destruct (wm_register (c_wm c)) as [w id]].
  - apply IH.
  - apply (mute_bind _ _ _ this); [apply mute_rename|]. intros c' E. unfold this in E. rewrite <- E. apply IH.
  - exact (IH (set_wm c w) _).
  - exact (IH (set_wm c w) _).
Qed.
Lemma mute_add : forall c i pc, mute (c_out c) this (add c i pc).
Proof.
  intros c i pc. unfold add. destruct (negb _); [exact I|].
  apply (mute_bind _ _ _ this); [apply mute_rename|]. intros c1 E1. unfold this in E1. rewrite <- E1. clear E1.
  apply (mute_bind _ _ _ this); [apply mute_set_lreg|]. intros c2 E2. unfold this in E2. rewrite <- E2. clear E2. cbv zeta.
  mute_bind_opt c2. destruct (produces i) as [ps|]; [|reflexivity].
  apply (mute_bind _ _ _ fst); [exact (mute_add_products ps (set_regs c2 a) [])|]. intros [c4 ids] E4. cbn [fst] in E4. rewrite <- E4.
  mute_bind_opt c4. destruct (operands i); reflexivity.
Qed.
Lemma mute_decode : forall c, mute (c_out c) this (tick_decode c).
Proof.
  intros c. unfold tick_decode. destruct (c_decode c) as [[i pc]|]; [|reflexivity]. destruct (Nat.ltb _ _); [|reflexivity].
  apply (mute_bind _ _ _ this); [apply mute_add|]. intros c' E. exact E.
Qed.

(** ---- errors ---- *)

Lemma putting_reads : forall E A i os vs, (exists r, i = IPutchar r) \/ (exists r, i = IPutnum r) -> operands i = Some os -> evs E A os = Some (vs, true) -> False.
Proof.
  intros E A i os vs Hi Ho He. apply evs_fault in He. destruct He as [o [v [Hin He]]].
  assert (Hr : exists r, os = [OReg r]). { destruct Hi as [[r ->]|[r ->]]; cbn in Ho; injection Ho as <-; eauto. }
  destruct Hr as [r ->]. destruct Hin as [<-|[]]. remember 3%nat as k. cbn [ev requirement supply] in He. subst k. apply ev_imm in He. destruct He as [_ He]. discriminate.
Qed.

Lemma retire_entry_out : forall E den role A c e es ex s,
  K E den role A c -> c_rs c = e :: es -> e_state e = Retiring -> retire_entry (set_rs c es) e = Throw ex s ->
  exists k A', io_steps E (c_prog c) k A A' /\ c_out s = a_out A'.
Proof.
  intros E den role A c e es ex s HK Hrs Hst H. pose proof HK as [HJ Hha Hsr].
  assert (Hns : ~ stop c). { intros Hs. destruct (Hsr Hs) as [Hr _]. congruence. }
  destruct (j_ent _ _ _ _ _ _ _ HJ [] e es Hrs) as [Hpa [os [Hos [Hpr Hx]]]]. rewrite Hst in Hx.
  destruct Hx as [vs [ws [acts [Hev [Hex [Hws Hops]]]]]]. change (sfold E A []) with A in *.
  assert (H0 : c_out (set_rs c es) = a_out A) by (symmetry; apply (j_out _ _ _ _ _ _ _ HJ)).
  assert (Stay : c_out s = a_out A -> exists k A', io_steps E (c_prog c) k A A' /\ c_out s = a_out A').
  { intros X. exists 0%nat, A. split; [constructor|exact X]. }
  unfold retire_entry in H. rewrite Hops in H. cbn [opt bind] in H.
  apply bind_throw in H. destruct H as [H|[racts [Hra H]]].
  { apply Stay. rewrite <- H0. pose proof (mute_lift _ (set_rs c es) (retire_acts (e_ins e) (vs ++ ws))) as M. rewrite H in M. exact M. }
  apply lift_ok in Hra. apply bind_throw in H. destruct H as [H|[c1 [Hdo H]]].
  { apply Stay. rewrite <- H0. exact (mute_racts _ _ _ _ _ _ _ Hpr Hra H). }
  destruct (do_racts_inv _ _ _ _ _ _ _ _ _ _ _ _ _ HJ Hrs Hst Hos Hpr Hpa Hev Hex Hws Hra Hdo) as [Rt [Hbd Hgc]].
  pose proof (j_out _ _ _ _ _ _ _ (rt_J _ _ _ _ _ _ _ Rt)) as Ho1.
  destruct (e_exn e) eqn:Hexn.
  - injection H as _ <-. apply Stay. rewrite <- Ho1.
    destruct (eff_parts _ _ _ _ _ _ _ Hos Hev Hex) as [Eo _]. rewrite Eo.
    assert (Hno : out_of (e_ins e) vs = []); [|now rewrite Hno, app_nil_r].
    destruct (e_ins e) eqn:Hi; try reflexivity; exfalso; (eapply putting_reads; [|exact Hos|exact Hev]); [left|right]; eauto.
  - set (T := eff E (e_ins e) A) in *.
    assert (HT : T = commit (e_ins e) vs acts A) by (apply (eff_commit _ _ _ _ _ _ _ Hos Hev Hex)).
    assert (Hh0 : a_halted A = false).
    { rewrite Hha. destruct (c_halted c) eqn:Hc; [|reflexivity]. exfalso. apply Hns. now left. }
    exists 1%nat, T. split.
    { econstructor; [|constructor]. rewrite HT. rewrite Hpa. eapply io_intro; [exact Hh0|rewrite <- Hpa; exact Hos|exact Hev|
        rewrite <- Hpa; exact Hex| |]; rewrite <- Hpa; [|exact Hgc].
      intros a v Hs. eapply Hbd. rewrite (eff_store_eq _ _ _ _ _ _ _ Hos Hev Hex). exact Hs. }
    rewrite Ho1. apply bind_throw in H. destruct H as [H|[c2 [_ H]]].
    + pose proof (mute_unroll c1 (e_wrat e)) as M. destruct (c_trap c1).
      * apply bind_throw in H. destruct H as [H|[c3 [_ H]]]; [|discriminate]. rewrite H in M. exact M.
      * destruct (negb _); [|discriminate]. rewrite H in M. exact M.
    + apply bind_throw in H. destruct H as [H|[f [_ H]]]; [|discriminate]. destruct (unsub_entries _ _); discriminate.
Qed.

Lemma retire_loop_out : forall E den role n A c ex s, K E den role A c -> retire_loop n c = Throw ex s ->
  exists k A', io_steps E (c_prog c) k A A' /\ c_out s = a_out A'.
Proof.
  induction n as [|n IH]; intros A c ex s HK H; cbn [retire_loop] in H; [discriminate|].
  destruct (c_rs c) as [|e es] eqn:Hrs; [discriminate|].
  destruct (e_state e) eqn:Hst; try discriminate.
  apply bind_throw in H. destruct H as [H|[c1 [H1 H]]].
  - eapply retire_entry_out; eauto.
  - destruct (retire_entry_inv _ _ _ _ _ _ _ _ HK Hrs Hst H1) as [Hpa [Hio [R1 R2 R3 R4 R5 R6 R7]]].
    destruct (IH _ _ _ _ R1 H) as [k [A' [I1 I2]]]. rewrite R2 in *.
    exists (Datatypes.S k), A'. split; [econstructor; eauto|exact I2].
Qed.

(** When a tick reports an error, the output is that of the sequential machine after
    some number of instructions. *)
Lemma tick_throw_out : forall E A c ex s, Inv E A c -> tick E c = Throw ex s ->
  exists k A', io_steps E (c_prog c) k A A' /\ c_out s = a_out A'.
Proof.
  intros E A c ex s HI H. unfold tick in H. apply bind_throw in H. destruct H as [H|[c2 [H2 H]]].
  - rewrite tick_retire_eq in H. apply bind_throw in H. destruct H as [H|[x [Hex H]]].
    + exists 0%nat, A. split; [constructor|]. destruct HI as [_ [_ [_ [den [role HJ]]]]]. rewrite (j_out _ _ _ _ _ _ _ HJ).
      destruct (exec_phase E c); cbn [lift] in H; try discriminate. injection H as _ <-. reflexivity.
    + apply lift_ok in Hex. destruct (exec_phase_inv _ _ _ _ HI Hex) as [den [role [K1 Hl1]]].
      replace (c_prog c) with (c_prog (exec_state c x)) by (destruct x as [[[? ?] ?] ?]; reflexivity).
      eapply retire_loop_out; eauto.
  - destruct (tick_retire_inv _ _ _ _ HI H2) as [den [role [is [A' [[I1 I2 I3 I4 I5 I6 I7 I8 I9] _]]]]].
    exists (length is), A'. split; [eapply io_run_steps; eauto|]. rewrite (j_out _ _ _ _ _ _ _ (k_J _ _ _ _ _ I2)).
    destruct (c_halted c2); [discriminate|]. cbv zeta in H. destruct (negb _); [discriminate|].
    set (c3 := if c_single c2 then set_stop c2 false (if c_int c2 =? 0 then 1 else c_int c2) else c2) in *.
    assert (E3 : c_out c3 = c_out c2) by (unfold c3; destruct (c_single c2); reflexivity). rewrite <- E3.
    apply bind_throw in H. destruct H as [H|[[[r a] es] [_ H]]].
    + match type of H with lift c3 ?x = _ => pose proof (mute_lift _ c3 x) as M end. rewrite H in M. exact M.
    + apply bind_throw in H. destruct H as [H|[c5 [_ H]]]; [|discriminate].
      pose proof (mute_decode (set_polled c3 r es a)) as M. rewrite H in M. exact M.
Qed.
