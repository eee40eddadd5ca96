(** The sequential machine is deterministic, save for shifts by amounts that the manual
    leaves open. *)
From Coq Require Import ZArith NArith List Bool Lia.
From Verif Require Import Base Alu Isa AluSpec AluProofs State IsaSpec IsaRefine Stops IsaStep SafeSpec.
Import ListNotations.
Open Scope Z_scope.

(** ---- states that look the same ---- *)
Lemma same_refl : forall S, same S S.
Proof. intros S. now constructor. Qed.
Lemma same_sym : forall S T, same S T -> same T S.
Proof. intros S T [A B C D E F]. constructor; auto. intros l H. symmetry. auto. Qed.
Lemma same_trans : forall S T U, same S T -> same T U -> same S U.
Proof.
  intros S T U [A B C D E F] [A' B' C' D' E' F']. constructor; [congruence|intros l H; rewrite B by exact H; now apply B'|intros a; now rewrite C|congruence|congruence|congruence].
Qed.
Lemma same_put : forall S T l v, same S T -> same (put S l v) (put T l v).
Proof. intros S T l v [A B C D E F]. constructor; auto. intros k H. cbn. unfold upd. destruct (lreg_eqb _ _); auto. Qed.
Lemma same_store : forall S T a v, same S T -> same (store S a v) (store T a v).
Proof. intros S T a v [A B C D E F]. constructor; auto. intros k. cbn. unfold mupd. destruct (_ =? _); auto. Qed.
Lemma same_print : forall S T o, same S T -> same (print S o) (print T o).
Proof. intros S T o [A B C D E F]. constructor; auto. cbn. congruence. Qed.
Lemma same_take : forall S T s, same S T -> same (take_input S s) (take_input T s).
Proof. intros S T s [A B C D E F]. constructor; auto. Qed.
Lemma same_halt : forall S T, same S T -> same (halt S) (halt T).
Proof. intros S T [A B C D E F]. constructor; auto. Qed.
Lemma same_jump : forall S T t, same S T -> same (jump S t) (jump T t).
Proof. intros S T t [A B C D E F]. constructor; auto. Qed.
Lemma same_next : forall S T, same S T -> same (next S) (next T).
Proof. intros S T [A B C D E F]. constructor; auto. cbn. congruence. Qed.
Lemma same_result : forall S T l q, same S T -> same (result S l q) (result T l q).
Proof. intros. unfold result. now do 2 apply same_put. Qed.
Lemma same_float : forall F S T f r, same S T -> same (float_result F S f r) (float_result F T f r).
Proof. intros. unfold float_result. now do 2 apply same_put. Qed.

Lemma reg_val_same : forall S T l v, same S T -> reg_val S l v -> reg_val T l v.
Proof. intros S T l v H [w Hw|k Hk]; [constructor; now rewrite <- (s_pc _ _ H)|rewrite (s_reg _ _ H k Hk); now constructor]. Qed.
Lemma inside_same : forall S T o v, same S T -> inside S o v -> inside T o v.
Proof. intros S T o v H Hi. pose proof (fun l v => reg_val_same S T l v H) as R. destruct Hi; constructor; auto. Qed.
Lemma opnd_same : forall S T o v, same S T -> opnd S o v -> opnd T o v.
Proof.
  intros S T o v H Ho. pose proof (fun l v => reg_val_same S T l v H) as R. destruct Ho; try (econstructor; eauto; fail).
  eapply op_mem; [eapply inside_same; eassumption|]. now rewrite <- (s_mem _ _ H).
Qed.
Lemma accesses_same : forall S T i a, same S T -> accesses S i a -> accesses T i a.
Proof.
  intros S T i a H Ha. destruct Ha.
  - eapply ac_source; [eassumption|]. eapply inside_same; eassumption.
  - apply ac_mov. eapply inside_same; eassumption.
  - rewrite (s_reg _ _ H) by discriminate. now apply ac_pop.
  - rewrite (s_reg _ _ H) by discriminate. now apply ac_push.
Qed.

(** ---- operations ---- *)
Lemma iff_bool : forall (b c : bool) (P : Prop), (b = true <-> P) -> (c = true <-> P) -> b = c.
Proof. intros [] [] P H1 H2; try reflexivity; [symmetry; apply H2, H1|apply H1, H2]; reflexivity. Qed.
Lemma sz_fun : forall q q', rval q = rval q' -> sz_spec q -> sz_spec q' -> sf (rflags q) = sf (rflags q') /\ zf (rflags q) = zf (rflags q').
Proof. intros q q' E [A B] [A' B']. rewrite E in *. split; eapply iff_bool; eassumption. Qed.
Lemma res_eq : forall q q', rval q = rval q' -> sz_spec q -> sz_spec q' -> cf (rflags q) = cf (rflags q') -> vf (rflags q) = vf (rflags q') -> q = q'.
Proof.
  intros q q' E H H' C V. destruct (sz_fun q q' E H H') as [A B]. destruct q as [v [s z c o]], q' as [v' [s' z' c' o']]. cbn in *. congruence.
Qed.

Lemma un_fun : forall op x q q', un_spec op x q -> un_spec op x q' -> q = q'.
Proof.
  intros op x q q' [Z H] [Z' H']. destruct op.
  - destruct H as (A & B & C), H' as (A' & B' & C'). apply res_eq; auto; [eapply word_unique; eassumption| |]; eapply iff_bool; eassumption.
  - destruct H as (A & B & C), H' as (A' & B' & C'). apply res_eq; auto; [eapply word_unique; eassumption| |]; eapply iff_bool; eassumption.
  - destruct H as (A & B & C), H' as (A' & B' & C'). apply res_eq; auto; [eapply word_unique; eassumption| |]; congruence.
  - destruct H as (A & (B & C) & T), H' as (A' & (B' & C') & T'). apply res_eq; auto; try congruence. apply Z.bits_inj'. intros n Hn. now rewrite T, T' by exact Hn.
Qed.

Lemma bin_fun : forall op x y q q', match op with BLSH | BRSH => 1 <= y < 64 | _ => True end -> bin_spec op x y q -> bin_spec op x y q' -> q = q'.
Proof.
  intros op x y q q' S [Z H] [Z' H']. destruct op.
  - destruct H as (A & B & C), H' as (A' & B' & C'). apply res_eq; auto; [eapply word_unique; eassumption| |]; eapply iff_bool; eassumption.
  - destruct H as (A & B & C), H' as (A' & B' & C'). apply res_eq; auto; [eapply word_unique; eassumption| |]; eapply iff_bool; eassumption.
  - destruct H as (A & B & C), H' as (A' & B' & C'). apply res_eq; auto; [eapply word_unique; eassumption|eapply iff_bool; eassumption|congruence].
  - destruct H as (_ & A & B & C), H' as (_ & A' & B' & C'). apply res_eq; auto; [eapply word_unique; eassumption| |]; congruence.
  - destruct H as (_ & A & _ & B & C), H' as (_ & A' & _ & B' & C'). apply res_eq; auto; congruence.
  - destruct H as (A & B & C), H' as (A' & B' & C'). apply res_eq; auto; [eapply word_unique; eassumption|congruence|eapply iff_bool; eassumption].
  - destruct H as (_ & A & _ & B & C), H' as (_ & A' & _ & B' & C'). apply res_eq; auto; congruence.
  - destruct H as (A & (B & C) & T), H' as (A' & (B' & C') & T'). apply res_eq; auto; try congruence. apply Z.bits_inj'. intros n Hn. now rewrite T, T' by exact Hn.
  - destruct H as (A & (B & C) & T), H' as (A' & (B' & C') & T'). apply res_eq; auto; try congruence. apply Z.bits_inj'. intros n Hn. now rewrite T, T' by exact Hn.
  - destruct H as (A & (B & C) & T), H' as (A' & (B' & C') & T'). apply res_eq; auto; try congruence. apply Z.bits_inj'. intros n Hn. now rewrite T, T' by exact Hn.
  - destruct H as (_ & A & B & C), H' as (_ & A' & B' & C'). specialize (B ltac:(lia)). specialize (B' ltac:(lia)). specialize (C ltac:(lia)). specialize (C' ltac:(lia)). apply res_eq; auto; [eapply word_unique; eassumption| |]; congruence.
  - destruct H as (_ & A & B & C), H' as (_ & A' & B' & C'). specialize (B ltac:(lia)). specialize (B' ltac:(lia)). specialize (C ltac:(lia)). specialize (C' ltac:(lia)). apply res_eq; auto; congruence.
Qed.

Lemma read_char_fun : forall s c rest, read_char s c rest -> forall c' rest', read_char s c' rest' -> c = c' /\ rest = rest'.
Proof.
  assert (B : forall b, In b [32; 9; 10; 11; 12; 13] -> b < 128) by (intros b H; cbn in H; lia).
  induction 1 as [b s c rest Hb H IH|b rest Hb Hl|b rest Hb]; intros c' rest' H'; inversion H' as [b' s' c2 r2 Hb' H2|b' r2 Hb' Hl'|b' r2 Hb']; subst; try contradiction; auto;
    try (pose proof (B _ Hb); lia); try (pose proof (B _ Hb'); lia); lia.
Qed.

(** ---- one instruction ---- *)

Ltac unify_values HS :=
  repeat match goal with
  | H : reg_val ?S ?l ?x, H' : reg_val ?T ?l ?y |- _ => apply (reg_val_same S T l x HS) in H; pose proof (reg_val_fun _ _ _ _ H H'); subst; clear H
  | H : opnd ?S ?l ?x, H' : opnd ?T ?l ?y |- _ => apply (opnd_same S T l x HS) in H; pose proof (opnd_fun _ _ _ _ H H'); subst; clear H
  | H : inside ?S ?l ?x, H' : inside ?T ?l ?y |- _ => apply (inside_same S T l x HS) in H; pose proof (inside_fun _ _ _ _ H H'); subst; clear H
  | H : is_word_of ?z ?x, H' : is_word_of ?z ?y |- _ => pose proof (word_unique z x y H H'); subst; clear H
  | H : un_spec ?op ?x ?q, H' : un_spec ?op ?x ?q' |- _ => pose proof (un_fun op x q q' H H'); subst; clear H
  | H : bin_spec BSUB ?x ?y ?q, H' : bin_spec BSUB ?x ?y ?q' |- _ => pose proof (bin_fun BSUB x y q q' I H H'); subst; clear H
  end.

Ltac same_steps := repeat first [assumption | apply same_next | apply same_jump | apply same_put | apply same_store | apply same_print | apply same_take | apply same_halt | apply same_result | apply same_float].
Ltac finish HS := match goal with A : same ?S' ?X, B : same ?T' ?Y |- same ?S' ?T' => 
  apply (same_trans _ _ _ A); apply same_sym; apply (same_trans _ _ _ B); apply same_sym; same_steps end.

Lemma effect_det : forall F i S T S' T', settled i = true -> same S T -> effect F i S S' -> effect F i T T' -> same S' T'.
Proof.
  intros F i S T S' T' Hi HS H H'.
  assert (Hsp : a_reg S (LR SP) = a_reg T (LR SP)) by (apply (s_reg _ _ HS); discriminate).
  assert (Hfl : a_reg S (LR Flags) = a_reg T (LR Flags)) by (apply (s_reg _ _ HS); discriminate).
  pose proof (s_pc _ _ HS) as Hpc. pose proof (s_mem _ _ HS) as Hm. pose proof (s_in _ _ HS) as Hin.
  destruct i; cbn [effect] in H, H'.
  - destruct H as (x & y & q & A & B & C & D), H' as (x' & y' & q' & A' & B' & C' & D'). unify_values HS.
    assert (q = q').
    { eapply bin_fun; [|exact C|exact C']. destruct op; try exact I; destruct v; try discriminate Hi; cbn [settled] in Hi; inversion B'; subst; try (match goal with X : inside _ _ _ |- _ => inversion X end); lia. }
    subst. finish HS.
  - destruct H as (x & q & A & B & C), H' as (x' & q' & A' & B' & C'). unify_values HS. finish HS.
  - destruct H as (x & y & A & B & C), H' as (x' & y' & A' & B' & C'). unify_values HS. finish HS.
  - destruct d; try (destruct H as (z & y & A & B & C & D), H' as (z' & y' & A' & B' & C' & D'); unify_values HS; finish HS; fail);
      destruct H as (y & A & B), H' as (y' & A' & B'); unify_values HS; finish HS.
  - destruct H as (z & v & A & B & C), H' as (z' & v' & A' & B' & C'). unify_values HS. finish HS.
  - finish HS.
  - finish HS.
  - finish HS.
  - finish HS.
  - finish HS.
  - destruct H as (x & y & q & A & B & C & D), H' as (x' & y' & q' & A' & B' & C' & D'). unify_values HS. finish HS.
  - destruct H as (x & y & A & B & C), H' as (x' & y' & A' & B' & C'). unify_values HS. cbv zeta in *. finish HS.
  - destruct H as (t & A & B), H' as (t' & A' & B'). unify_values HS. finish HS.
  - destruct H as (x & t & q & A & B & C & D), H' as (x' & t' & q' & A' & B' & C' & D'). unify_values HS. destruct (rval q' =? 0); [destruct r|]; finish HS.
  - destruct H as (t & A & B), H' as (t' & A' & B'). unify_values HS. rewrite Hfl in B. destruct (taken _ _); finish HS.
  - destruct H as (t & sp & ret & A & B & C & D & G), H' as (t' & sp' & ret' & A' & B' & C' & D' & G'). rewrite Hsp, Hpc in *. unify_values HS. finish HS.
  - destruct H as (t & sp & A & B & C), H' as (t' & sp' & A' & B' & C'). rewrite Hsp in *. rewrite Hm in A. unify_values HS. assert (t = t') by congruence. subst. finish HS.
  - destruct H as (t & sp & A & B & C & D), H' as (t' & sp' & A' & B' & C' & D'). rewrite Hsp in *. unify_values HS. finish HS.
  - destruct H as (t & sp & A & B & C & D), H' as (t' & sp' & A' & B' & C' & D'). rewrite Hsp in *. unify_values HS. finish HS.
  - destruct H as (t & sp & A & B & C), H' as (t' & sp' & A' & B' & C'). rewrite Hsp in *. rewrite Hm in A. unify_values HS. assert (t = t') by congruence. subst. finish HS.
  - destruct H as (t & sp & A & B & C), H' as (t' & sp' & A' & B' & C'). rewrite Hsp in *. rewrite Hm in A. unify_values HS. assert (t = t') by congruence. subst. finish HS.
  - destruct H as (x & A & B), H' as (x' & A' & B'). unify_values HS. finish HS.
  - destruct H as (x & n & A & B & C & D), H' as (x' & n' & A' & B' & C' & D'). unify_values HS. assert (n = n').
    { apply Z.mod_divide in C; [|discriminate]. apply Z.mod_divide in C'; [|discriminate]. destruct C as [k C], C' as [k' C']. lia. }
    subst. finish HS.
  - destruct H as (c & rest & A & B), H' as (c' & rest' & A' & B'). rewrite Hin in A. destruct (read_char_fun _ _ _ A _ _ A') as [-> ->]. finish HS.
  - destruct H as (x & A & B), H' as (x' & A' & B'). unify_values HS. finish HS.
  - destruct H as (x & z & A & B & C), H' as (x' & z' & A' & B' & C'). unify_values HS. assert (z = z') by congruence. subst. finish HS.
Qed.

(** An instruction that has an effect finds its cells. *)
Lemma word_address : forall z v, is_word_of z v -> address v = address z.
Proof. intros z v [_ [k ->]]. unfold address. now rewrite Z.mod_add. Qed.
Lemma opnd_memory : forall S o v z, opnd S o v -> inside S o z -> a_mem S (address z) <> None.
Proof.
  intros S o v z Ho Hz. assert (H : exists w, inside S o w /\ a_mem S (address w) = Some v) by (destruct Ho; try (inversion Hz; fail); eauto).
  destruct H as (w & H1 & H2). rewrite (inside_fun _ _ _ _ Hz H1). congruence.
Qed.
Lemma effect_inside : forall F i S S' a, effect F i S S' -> accesses S i a -> a_mem S a <> None.
Proof.
  intros F i S S' a H Ha. destruct Ha as [i o z Ho Hz|d v z Hz|i Hi|i Hi].
  - destruct i; cbn [sources In] in Ho; try contradiction; destruct Ho as [->|[]]; cbn [effect] in H;
      try (destruct H as (? & ? & ? & ? & A & _); exact (opnd_memory _ _ _ _ A Hz)); try (destruct H as (? & ? & ? & A & _); exact (opnd_memory _ _ _ _ A Hz));
      try (destruct H as (? & A & _); exact (opnd_memory _ _ _ _ A Hz)); try (destruct H as (? & ? & A & _); exact (opnd_memory _ _ _ _ A Hz));
      try (destruct H as (? & ? & ? & A & _); exact (opnd_memory _ _ _ _ A Hz)); try (destruct H as (? & ? & ? & A & _); exact (opnd_memory _ _ _ _ A Hz)).
    destruct d; try (destruct H as (? & ? & ? & A & _); exact (opnd_memory _ _ _ _ A Hz)); destruct H as (? & A & _); exact (opnd_memory _ _ _ _ A Hz).
  - cbn [effect] in H. destruct d; try (inversion Hz; fail); destruct H as (w & y & A & _ & B & _); rewrite (inside_fun _ _ _ _ Hz A); exact B.
  - destruct Hi as [->|[[r ->]|[f ->]]]; cbn [effect] in H; destruct H as (? & ? & A & _); congruence.
  - destruct Hi as [[b ->]|[[v ->]|[v ->]]]; cbn [effect] in H.
    + destruct H as (? & sp & ? & _ & A & _ & B & _). now rewrite <- (word_address _ _ A).
    + destruct H as (? & sp & _ & A & B & _). now rewrite <- (word_address _ _ A).
    + destruct H as (? & sp & _ & A & B & _). now rewrite <- (word_address _ _ A).
Qed.

(** ---- runs ---- *)
Section Run.
Variable F : fops.
Variable p : list instr.
Hypothesis all_settled : Forall (fun i => settled i = true) p.

Lemma settled_at : forall pc, settled (instr_at p pc) = true.
Proof.
  intros pc. unfold instr_at. destruct (nth_in_or_default (Z.to_nat pc) p INop) as [H| ->]; [|reflexivity]. rewrite Forall_forall in all_settled. now apply all_settled.
Qed.

(** A state that a run comes to is one that a longer run comes through. *)
Theorem runs_agree : forall n S T, isa_run F p n S T -> forall m S' T', same S S' -> isa_run F p m S' T' -> (n <= m)%nat ->
  exists U, same T U /\ isa_run F p n S' U /\ isa_run F p (m - n) U T'.
Proof.
  induction 1 as [S|n S T U [Hh He] Hr IH]; intros m S' T' HS H' Hnm.
  - exists S'. rewrite Nat.sub_0_r. split; [exact HS|]. split; [constructor|exact H'].
  - destruct m as [|m]; [lia|]. inversion H' as [|? ? X ? [Hh' He'] Hr']; subst. rewrite <- (s_pc _ _ HS) in He'.
    assert (HX : same T X) by (eapply effect_det; [apply settled_at|exact HS|exact He|exact He']).
    destruct (IH m X T' HX Hr' ltac:(lia)) as (V & H1 & H2 & H3). exists V. split; [exact H1|]. split; [|exact H3].
    econstructor; [|exact H2]. constructor; [exact Hh'|]. now rewrite <- (s_pc _ _ HS).
Qed.

Lemma halted_stops : forall n S T, isa_run F p n S T -> a_halted S = true -> n = 0%nat.
Proof. intros n S T H Hh. destruct H as [|n S T U [H _] _]; [reflexivity|congruence]. Qed.

Theorem longer_run : forall S m T n U, isa_run F p m S T -> isa_run F p n S U -> (n < m)%nat ->
  a_halted U = false /\ exists V W, same U V /\ effect F (instr_at p (a_pc V)) V W.
Proof.
  intros S m T n U H HU Hl. destruct (runs_agree _ _ _ HU m S T (same_refl S) H ltac:(lia)) as (V & A & B & C).
  destruct (m - n)%nat as [|k] eqn:K; [lia|]. inversion C as [|? ? W ? [Hv Hw] _]; subst. split; [now rewrite (s_halted _ _ A)|]. exists V, W. auto.
Qed.

(** A machine that halts halts in one way. *)
Theorem halting_runs : forall S m T, isa_run F p m S T -> a_halted T = true -> forall n U, isa_run F p n S U ->
  (n <= m)%nat /\ (n = m -> same U T) /\ (a_halted U = true -> n = m).
Proof.
  intros S m T H Hh n U HU. assert (Hle : (n <= m)%nat).
  { destruct (Nat.le_gt_cases n m) as [L|L]; [exact L|]. destruct (longer_run _ _ _ _ _ HU H L) as [X _]. congruence. }
  split; [exact Hle|]. split.
  - intros ->. destruct (runs_agree _ _ _ HU m S T (same_refl S) H Hle) as (V & A & B & C). rewrite Nat.sub_diag in C. inversion C; subst. exact A.
  - intros HhU. destruct (Nat.eq_dec n m) as [E|E]; [exact E|]. destruct (longer_run _ _ _ _ _ H HU ltac:(lia)) as [X _]. congruence.
Qed.
End Run.
