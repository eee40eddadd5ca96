(** C70: how a run of the VM ends. *)
From Coq Require Import ZArith NArith List Bool Lia.
From Verif Require Import Base Alu Isa IsaSpec Exec Ram Writes Rat Cpu Os DbgSpec Session PropPipe PipeBasics.
Import ListNotations.
Open Scope Z_scope.

(** In the course of the session the processor reported an error: after some of the
    events the machine was running and its next tick failed. *)
Definition faulted (E : env) (G : cfg) (dbg : bool) (xs : list event) (h : host) : Prop :=
  exists ys zs stop c e c', xs = ys ++ ETick :: zs /\ session E G dbg ys h (Going stop c) /\ tick E c = Throw e c'.

Definition bad (h : host) : Prop := match h with At RCpuError _ | Ended _ _ => True | _ => False end.

Lemma bad_event : forall E G dbg x h h1, bad h -> os_event E G dbg x h = Some (Ok h1) ->
  bad h1 /\ (forall b c, h1 = Ended b c -> b = false).
Proof.
  intros E G dbg x h h1 Hb He. destruct h as [r c|s c|b c]; destruct x; cbn [os_event] in He; try discriminate; [|destruct Hb].
  destruct r; try destruct Hb. unfold os_cmd in He.
  destruct (do_cmd G RCpuError k c) as [[[a c'] n]|e s|w]; cbn [bind] in He; try discriminate.
  injection He as <-. destruct n; cbn; split; try exact I; congruence.
Qed.

Lemma bad_session : forall E G dbg xs h h', session E G dbg xs h h' -> bad h ->
  bad h' /\ (forall b c, h' = Ended b c -> h = Ended b c \/ b = false).
Proof.
  induction 1 as [h|x xs h h1 h2 He Hs IH]; intros Hb; [split; auto|].
  destruct (bad_event _ _ _ _ _ _ Hb He) as [B1 B2]. destruct (IH B1) as [I1 I2]. split; [exact I1|].
  intros b c Hc. destruct (I2 b c Hc) as [->|Hf]; [right; eauto|auto].
Qed.

Lemma ended_session : forall E G dbg xs b c h', session E G dbg xs (Ended b c) h' -> h' = Ended b c /\ xs = [].
Proof.
  intros E G dbg xs b c h' H. inversion H as [|x xs' h h1 h2 He Hs]; subst; [auto|]. destruct x; discriminate He.
Qed.

Lemma faulted_cons : forall E G dbg x xs h h1, os_event E G dbg x h = Some (Ok h1) ->
  (faulted E G dbg (x :: xs) h <->
   (x = ETick /\ exists stop c e c', h = Going stop c /\ tick E c = Throw e c') \/ faulted E G dbg xs h1).
Proof.
  intros E G dbg x xs h h1 He. split.
  - intros [ys [zs [stop [c [e [c' [H1 [H2 H3]]]]]]]]. destruct ys as [|y ys]; cbn [app] in H1; injection H1 as -> ->.
    + left. split; [reflexivity|]. inversion H2; subst. eauto 8.
    + right. inversion H2 as [|y' ys' h0 h2 h3 He' Hs]; subst. rewrite He in He'. injection He' as <-.
      exists ys, zs, stop, c, e, c'. auto.
  - intros [[-> [stop [c [e [c' [-> H]]]]]]|[ys [zs [stop [c [e [c' [-> [H2 H3]]]]]]]]].
    + exists [], xs, stop, c, e, c'. split; [reflexivity|]. split; [constructor|exact H].
    + exists (x :: ys), zs, stop, c, e, c'. split; [reflexivity|]. split; [econstructor; eauto|exact H3].
Qed.

Lemma bad_not_faulted : forall E G dbg xs h, bad h -> ~ faulted E G dbg xs h.
Proof.
  intros E G dbg xs h Hb [ys [zs [stop [c [e [c' [_ [H2 _]]]]]]]]. apply bad_session in H2; [|exact Hb]. destruct H2 as [[] _].
Qed.

Lemma exit_error : forall E G dbg xs h h', session E G dbg xs h h' -> forall b c, h' = Ended b c -> ~ bad h ->
  (b = false <-> faulted E G dbg xs h).
Proof.
  induction 1 as [h|x xs h h1 h2 He Hs IH]; intros b c Hc Hb; [subst; exfalso; now apply Hb|].
  rewrite (faulted_cons _ _ _ _ _ _ _ He).
  destruct h as [r c0|stop c0|b0 c0]; destruct x as [|k]; cbn [os_event] in He; try discriminate.
  - (* a command *)
    unfold os_cmd in He. destruct (do_cmd G r k c0) as [[[a c1] n]|e s|w]; cbn [bind] in He; try discriminate.
    injection He as <-.
    assert (Hq : forall q, bad (leave r q c1) -> leave r q c1 = Ended true c1) by (destruct q, r; cbn; intros []; try reflexivity; exfalso; now apply Hb).
    assert (Hgo : ~ bad (match n with Stay => At r c1 | Resume => leave r false c1 | Quit => leave r true c1 end) ->
      b = false <-> (ECmd k = ETick /\ exists stop c e c', At r c0 = Going stop c /\ tick E c = Throw e c') \/
       faulted E G dbg xs (match n with Stay => At r c1 | Resume => leave r false c1 | Quit => leave r true c1 end)).
    { intros Hn. rewrite (IH b c Hc Hn). split; [auto|]. intros [[Hx _]|Hx]; [discriminate|exact Hx]. }
    assert (Hend : forall q, bad (leave r q c1) -> session E G dbg xs (leave r q c1) h2 ->
      b = false <-> (ECmd k = ETick /\ exists stop c e c', At r c0 = Going stop c /\ tick E c = Throw e c') \/ faulted E G dbg xs (leave r q c1)).
    { intros q Hbq Hsq. rewrite (Hq q Hbq) in *. apply ended_session in Hsq. destruct Hsq as [Hsq ->]. rewrite Hc in Hsq.
      injection Hsq as -> ->. split; [discriminate|]. intros [[Hx _]|Hx]; [discriminate|].
      exfalso. eapply bad_not_faulted; [|exact Hx]. exact I. }
    destruct n.
    + apply Hgo. destruct r; auto.
    + destruct (leave r false c1) eqn:Hl; rewrite <- Hl in *; try (apply Hgo; rewrite Hl; cbn; auto; fail); apply Hend; auto; rewrite Hl; try exact I.
      destruct r; discriminate Hl.
    + destruct (leave r true c1) eqn:Hl; rewrite <- Hl in *; try (apply Hgo; rewrite Hl; cbn; auto; fail); apply Hend; auto; rewrite Hl; try exact I.
      destruct r; discriminate Hl.
  - (* a tick *)
    injection He as He. unfold os_tick in He. destruct (tick E c0) as [c'|e s|w] eqn:Ht; [| |discriminate].
    + assert (Hgo : ~ bad h1 -> b = false <-> (ETick = ETick /\ exists stop0 c e c', Going stop c0 = Going stop0 c /\ tick E c = Throw e c') \/ faulted E G dbg xs h1).
      { intros Hn. rewrite (IH b c Hc Hn). split; [auto|].
        intros [[_ [s' [c2 [e [c3 [Hx Hy]]]]]]|Hx]; [injection Hx as <- <-; congruence|exact Hx]. }
      assert (Hend : h1 = Ended true c' -> b = false <-> (ETick = ETick /\ exists stop0 c e c', Going stop c0 = Going stop0 c /\ tick E c = Throw e c') \/ faulted E G dbg xs h1).
      { intros ->. apply ended_session in Hs. destruct Hs as [Hs ->]. rewrite Hc in Hs. injection Hs as -> ->. split; [discriminate|].
        intros [[_ [s' [c2 [e [c3 [Hx Hy]]]]]]|Hx]; [injection Hx as <- <-; congruence|].
        exfalso. eapply bad_not_faulted; [|exact Hx]. exact I. }
      destruct (c_halted c').
      { apply Ok_eq in He. destruct dbg; [apply Hgo; subst h1; cbn; auto|apply Hend; auto]. }
      destruct (0 <? c_int c').
      * unfold reason_of in He. destruct (c_int c' =? 3); [|destruct (c_int c' =? 2); [|destruct (c_int c' =? 1)]]; try discriminate;
          apply Ok_eq in He; (destruct dbg; [apply Hgo; subst h1; cbn; auto|destruct stop; [apply Hend; auto|apply Hgo; subst h1; cbn; auto]]).
      * apply Ok_eq in He. destruct stop; [apply Hend; auto|apply Hgo; subst h1; cbn; auto].
    + (* it fails *)
      apply Ok_eq in He. split; [intros _; left; split; [reflexivity|eauto 8]|]. intros _.
      destruct dbg; subst h1.
      * destruct (bad_session _ _ _ _ _ _ Hs I) as [_ H]. destruct (H b c Hc) as [Hx|Hx]; [discriminate|exact Hx].
      * apply ended_session in Hs. destruct Hs as [Hs _]. rewrite Hc in Hs. now injection Hs.
Qed.

Lemma exit_cause : forall E G dbg xs h h', session E G dbg xs h h' -> forall c, h' = Ended true c -> halted_ok h ->
  (exists b c1, h = Ended b c1) \/ (exists c1, h = Going true c1) \/ c_halted c = true \/ In (ECmd CTerminate) xs.
Proof.
  induction 1 as [h|x xs h h1 h2 He Hs IH]; intros c Hc Hh; [subst; eauto|].
  assert (Hin : forall P Q R, (P \/ Q \/ R \/ In (ECmd CTerminate) xs) -> P \/ Q \/ R \/ In (ECmd CTerminate) (x :: xs)).
  { intros P Q R. cbn [In]. tauto. }
  destruct h as [r c0|stop c0|b0 c0]; destruct x as [|k]; cbn [os_event] in He; try discriminate.
  - unfold os_cmd in He. destruct (do_cmd G r k c0) as [[[a c1] n]|e s|w] eqn:Hk; cbn [bind] in He; try discriminate.
    injection He as <-. pose proof (do_cmd_halted _ _ _ _ _ _ _ Hk) as Hd. right. right.
    destruct n.
    + destruct (IH c Hc) as [[b [c2 Hx]]|[[c2 Hx]|Hx]]; try discriminate; [destruct r; cbn in *; auto; congruence|].
      destruct Hx; [auto|right; now right].
    + destruct (IH c Hc) as [[b [c2 Hx]]|[[c2 Hx]|Hx]].
      * destruct r; cbn in *; auto; congruence.
      * left. destruct r; cbn [leave] in Hx; try discriminate.
        -- apply ended_session in Hs. destruct Hs as [Hs _]. rewrite Hc in Hs. injection Hs as -> . cbn in Hh. congruence.
        -- apply ended_session in Hs. destruct Hs as [Hs _]. rewrite Hc in Hs. discriminate.
      * destruct r; discriminate.
      * destruct Hx; [auto|right; now right].
    + right. left. destruct (cmd_quit _ _ _ _ _ _ Hk) as [-> _]. reflexivity.
  - injection He as He. unfold os_tick in He. destruct stop; [right; left; eauto|]. right. right.
    destruct (tick E c0) as [c'|e s|w]; [| |discriminate].
    + destruct (c_halted c') eqn:Hc'.
      * apply Ok_eq in He. destruct dbg; subst h1.
        -- destruct (IH c Hc Hc') as [[b [c2 Hx]]|[[c2 Hx]|[Hx|Hx]]]; try discriminate; [auto|right; now right].
        -- apply ended_session in Hs. destruct Hs as [Hs _]. rewrite Hc in Hs. injection Hs as ->. auto.
      * assert (Hgo : (forall b c2, h1 <> Ended b c2) -> (forall c2, h1 <> Going true c2) -> halted_ok h1 -> c_halted c = true \/ In (ECmd CTerminate) (ETick :: xs)).
        { intros Q1 Q2 Q3. destruct (IH c Hc Q3) as [[b [c2 Hx]]|[[c2 Hx]|[Hx|Hx]]]; [exfalso; eapply Q1; eauto|exfalso; eapply Q2; eauto|auto|right; now right]. }
        destruct (0 <? c_int c').
        -- unfold reason_of in He. destruct (c_int c' =? 3); [|destruct (c_int c' =? 2); [|destruct (c_int c' =? 1)]]; try discriminate;
             apply Ok_eq in He; subst h1; destruct dbg; apply Hgo; try discriminate; exact I.
        -- apply Ok_eq in He. subst h1. apply Hgo; try discriminate; exact I.
    + apply Ok_eq in He. destruct dbg; subst h1.
      * destruct (bad_session _ _ _ _ _ _ Hs I) as [_ H]. destruct (H true c Hc) as [Hx|Hx]; discriminate.
      * apply ended_session in Hs. destruct Hs as [Hs _]. rewrite Hc in Hs. discriminate.
Qed.

(** C70. OS::Run ends with success exactly when the processor never reported an error, and
    then either because the program executed HALT or because the debugger asked for it. *)
Theorem C70_exit : forall E G dbg xs c0 b c, session E G dbg xs (os_start dbg c0) (Ended b c) ->
  (b = false <-> faulted E G dbg xs (os_start dbg c0)) /\
  (b = true -> c_halted c = true \/ In (ECmd CTerminate) xs).
Proof.
  intros E G dbg xs c0 b c H.
  assert (Hn : ~ bad (os_start dbg c0)) by (destruct dbg; cbn; auto).
  split; [eapply exit_error; eauto|]. intros ->.
  assert (Ho : halted_ok (os_start dbg c0)) by (destruct dbg; exact I).
  destruct (exit_cause _ _ _ _ _ _ H c eq_refl Ho) as [[b [c1 Hx]]|[[c1 Hx]|Hx]]; auto;
    destruct dbg; discriminate.
Qed.

(** Without a debugger success means HALT. *)
Theorem C70_alone : forall E G xs c0 c, session E G false xs (os_start false c0) (Ended true c) -> c_halted c = true.
Proof.
  intros E G xs c0 c H. destruct (C70_exit _ _ _ _ _ _ _ H) as [_ Hx]. destruct (Hx eq_refl) as [Hh|Hin]; [exact Hh|].
  exfalso. clear Hx.
  assert (Hg : forall xs h h', session E G false xs h h' -> (forall r c, h <> At r c) -> ~ In (ECmd CTerminate) xs).
  { clear. induction 1 as [h|x xs h h1 h2 He Hs IH]; intros Hh Hin; [destruct Hin|].
    destruct h as [r c|s c|b c]; destruct x as [|k]; cbn [os_event] in He; try discriminate; [now apply (Hh r c)|].
    destruct Hin as [Hin|Hin]; [discriminate|]. revert Hin. apply IH. intros r d ->. injection He as He. unfold os_tick in He.
    destruct (tick E c) as [c'|e s'|w]; [|discriminate|discriminate]. destruct (c_halted c'); [discriminate|].
    destruct (0 <? c_int c'); [destruct (reason_of _); [|discriminate]|]; destruct s; discriminate. }
  eapply (Hg _ _ _ H); [|exact Hin]. discriminate.
Qed.

(** Two runs that meet the hypotheses: a program that halts, and one that reads outside the memory,
    both under the debugger. *)
Definition prog_far : list instr := [IMov (OReg (R 0)) (OMemImm 9999); IHalt].

Definition ended (E : env) (xs : list event) (c0 : cpu) : option (bool * bool) :=
  match play E cfg1 true xs (os_start true c0) with Some (Ok (Ended b c)) => Some (b, c_halted c) | _ => None end.

Lemma ended_play : forall E xs c0 b hl, ended E xs c0 = Some (b, hl) ->
  exists c, session E cfg1 true xs (os_start true c0) (Ended b c) /\ c_halted c = hl.
Proof.
  intros E xs c0 b hl H. unfold ended in H. destruct (play E cfg1 true xs (os_start true c0)) as [[[r c|s c|b' c]|e s|w]|] eqn:Hp; try discriminate.
  injection H as -> <-. exists c. split; [now apply play_session|reflexivity].
Qed.

Example C70_case : exists c d,
  session env0 cfg1 true ([ECmd CContinue] ++ ticks_of 43 ++ [ECmd CContinue])
    (os_start true (booted cfg1 prog0 [7; 8] [65; 10])) (Ended true c) /\ c_halted c = true /\
  session env0 cfg1 true ([ECmd CContinue] ++ ticks_of 8 ++ [ECmd CContinue])
    (os_start true (booted cfg1 prog_far [] [])) (Ended false d) /\
  faulted env0 cfg1 true ([ECmd CContinue] ++ ticks_of 8 ++ [ECmd CContinue]) (os_start true (booted cfg1 prog_far [] [])).
Proof.
  destruct (ended_play env0 ([ECmd CContinue] ++ ticks_of 43 ++ [ECmd CContinue]) (booted cfg1 prog0 [7; 8] [65; 10]) true true) as [c [H1 H2]];
    [vm_compute; reflexivity|].
  destruct (ended_play env0 ([ECmd CContinue] ++ ticks_of 8 ++ [ECmd CContinue]) (booted cfg1 prog_far [] []) false false) as [d [H3 _]];
    [vm_compute; reflexivity|].
  exists c, d. split; [exact H1|]. split; [exact H2|]. split; [exact H3|]. now apply (C70_exit _ _ _ _ _ _ _ H3).
Qed.

Print Assumptions C70_exit.
Print Assumptions C70_alone.
