(** L8: what one SINGLESTEP does, seen through the registers and the memory the
    debugger shows, and facts about runs of the sequential machine. *)
From Coq Require Import ZArith NArith List Bool Lia.
From Verif Require Import Base Alu Isa State AluSpec Exec Ram Writes Rat Cpu InOrder PipeInv PipeBasics PipeDom PipeRun
  IsaSpec IsaRefine Os DbgSpec PipePoke Session Stops.
Import ListNotations.
Open Scope Z_scope.

(** ---- the vocabulary of the statements ---- *)

(** The VM waits for a command: it was started on some program, and a session of
    polite commands led to this stop, which is not an error. *)
Definition a_stop (E : env) (G : cfg) (h : host) : Prop :=
  exists g p data input c0 xs r c, started E g p data input c0 /\ h = At r c /\ r <> RCpuError /\
    psession E G true xs (os_start true c0) h /\ Forall typed_cmd (cmds xs).

(** SINGLESTEP leads from one stop to the next. *)
Definition step1 (E : env) (G : cfg) (h h' : host) : Prop :=
  exists ys r c, cmds ys = [CSingleStep] /\ psession E G true ys h h' /\ h' = At r c /\ r <> RCpuError.

(** What the debugger shows at a stop: a register, a memory cell, the instruction
    that is to be executed next. *)
Definition reg_of (h : host) (l : lreg) : option Z := get_lreg (host_cpu h) l.
Definition cell_of (h : host) (a : Z) : option Z := ram_get (c_ram (host_cpu h)) a.
Definition next_is (h : host) (i : instr) : Prop :=
  exists v, reg_of h (LR PC) = Some v /\ instr_at (c_prog (host_cpu h)) (address v) = i.

(** What an instruction reads in a register: the program counter reads as the
    address of the next instruction. *)
Definition reads (h : host) (r : reg) (x : Z) : Prop :=
  match r with
  | PC => exists v, reg_of h (LR PC) = Some v /\ is_word_of (v + 1) x
  | _ => reg_of h (LR r) = Some x
  end.

(** The number between the brackets of a memory operand. *)
Definition bracket (h : host) (o : operand) (z : Z) : Prop :=
  match o with
  | OMemImm a => z = a
  | OMemReg r => reads h r z
  | OMemRegOff r i => exists x, reads h r x /\ z = x + i
  | OMemRegScaled r s => exists x, reads h r x /\ z = x * s
  | OMemRegReg r r2 => exists x y, reads h r x /\ reads h r2 y /\ z = x + y
  | OMemRegOffReg r i r2 => exists x y, reads h r x /\ reads h r2 y /\ z = x + i + y
  | OMemRegRegScaled r r2 s => exists x y, reads h r x /\ reads h r2 y /\ z = x + y * s
  | OMemRegOffRegScaled r i r2 s => exists x y, reads h r x /\ reads h r2 y /\ z = x + i + y * s
  | _ => False
  end.

(** The value of an operand. *)
Definition value (h : host) (o : operand) (v : Z) : Prop :=
  match o with
  | OImm x | OFImm x => v = x
  | OReg r => reads h r v
  | OFReg n => reg_of h (LF n) = Some v
  | ORegOff r i => exists x, reads h r x /\ is_word_of (x + i) v
  | ORegScaled r s => exists x, reads h r x /\ is_word_of (x * s) v
  | ORegReg r r2 => exists x y, reads h r x /\ reads h r2 y /\ is_word_of (x + y) v
  | ORegOffReg r i r2 => exists x y, reads h r x /\ reads h r2 y /\ is_word_of (x + i + y) v
  | ORegRegScaled r r2 s => exists x y, reads h r x /\ reads h r2 y /\ is_word_of (x + y * s) v
  | ORegOffRegScaled r i r2 s => exists x y, reads h r x /\ reads h r2 y /\ is_word_of (x + i + y * s) v
  | _ => exists z, bracket h o z /\ cell_of h (address z) = Some v
  end.

(** ---- the connection with the sequential machine ---- *)

Record vstate (E : env) (h : host) (S : arch) : Prop := mkVstate {
  vs_at : exists r c, h = At r c /\ live r /\ rests E S c /\ (r <> RHalted -> c_halted c = false);
  vs_wordy : wordy S;
  vs_typed : Forall typed_instr (c_prog (host_cpu h));
  vs_fops : typed_fops (e_fops E)
}.

Definition bounded (S : arch) : Prop := forall a, a_mem S a <> None -> 0 <= a < 2 ^ 63 - 1.

Lemma same_bounded : forall S T, same S T -> bounded T -> bounded S.
Proof. intros S T H HT a Ha. apply HT. now rewrite <- (s_mem _ _ H a). Qed.

Lemma mupd_bounded : forall S a v, bounded S -> a_mem S a <> None ->
  forall b, mupd (a_mem S) a v b <> None -> 0 <= b < 2 ^ 63 - 1.
Proof.
  intros S a v HS Ha b Hb. unfold mupd in Hb. revert Hb; destruct (Z.eqb_spec b a) as [Hn|Hn]; intros Hb; [rewrite Hn|]; auto.
Qed.

Lemma effect_bounded : forall F i S S', effect F i S S' -> bounded S -> bounded S'.
Proof.
  intros F i S S' H HS.
  assert (K : forall T, same S' T -> a_mem T = a_mem S -> bounded S').
  { intros T Hs HT. eapply same_bounded; [exact Hs|]. intros a Ha. rewrite HT in Ha. auto. }
  assert (L : forall T a v, same S' T -> a_mem S a <> None -> a_mem T = mupd (a_mem S) a v -> bounded S').
  { intros T a v Hs Ha HT. eapply same_bounded; [exact Hs|]. intros b Hb. rewrite HT in Hb. eapply mupd_bounded; eauto. }
  destruct i; cbn [effect] in H;
    repeat match goal with
    | H : exists _, _ |- _ => destruct H
    | H : _ /\ _ |- _ => destruct H
    end;
    try (eapply K; [eassumption|reflexivity]);
    try (eapply L; [eassumption|eassumption|reflexivity]).
  - destruct d;
    repeat match goal with
    | H : exists _, _ |- _ => destruct H
    | H : _ /\ _ |- _ => destruct H
    end;
    try (eapply K; [eassumption|reflexivity]);
    try (eapply L; [eassumption|eassumption|reflexivity]).
  - eapply K; [eassumption|]. destruct (_ =? _); [destruct r|]; reflexivity.
  - eapply K; [eassumption|]. destruct (taken _ _); reflexivity.
Qed.

Lemma run_bounded : forall F p n S S', isa_run F p n S S' -> bounded S -> bounded S'.
Proof.
  induction 1 as [S|n S T U [_ H] _ IH]; intros HS; [exact HS|]. apply IH. eapply effect_bounded; eauto.
Qed.

Lemma debug_bounded : forall F ks n s s', debug_run F ks n s s' -> bounded (snd s) -> bounded (snd s').
Proof.
  induction 1 as [s|k ks n s s' Hk H IH|k ks n s s1 s' Hp H IH|ks n p S S1 s' Hr H IH|k ks m n p S S1 s' Hk Hr H IH];
    intros HS; auto.
  - apply IH. clear IH H. destruct Hp; cbn [snd] in *; auto. intros b Hb. exact (mupd_bounded S a v HS H b Hb).
  - apply IH. cbn [snd] in *. eapply run_bounded; eauto.
  - apply IH. cbn [snd] in *. eapply run_bounded; eauto.
Qed.

Lemma boot_bounded : forall n data input, Z.of_nat n < 2 ^ 63 -> bounded (isa_boot n data input).
Proof.
  intros n data input Hn a Ha. cbn [isa_boot a_mem] in Ha. destruct (Z.leb_spec 0 a); [|cbn in Ha; congruence].
  destruct (Z.ltb_spec a (Z.of_nat n)); [|cbn in Ha; congruence]. lia.
Qed.

Lemma stop_vstate : forall E G h, a_stop E G h -> exists S, vstate E h S /\ bounded S.
Proof.
  intros E G h [g [p [data [input [c0 [xs [r [c [[Hip Hty Hb] [-> [Hr [Hs Htc]]]]]]]]]]]].
  assert (Hv : valid_prog p) by (eapply Forall_impl; [|exact Hip]; exact keeps_ip_ok).
  destruct (boot_host E g p data input c0 true Hv Hb) as [HA [Hp [Hg [HR Hh]]]].
  destruct (session_sound _ _ _ _ _ Hs _ _ _ eq_refl Hr HA) as [m [A1 [n [A' [[_ ->] [I2 [I3 [I4 I5]]]]]]]].
  pose proof (boot_wordy _ _ _ _ _ Hty) as W. destruct Hty as [T1 T2 T3 T4 T5].
  cbn [os_start enter host_cpu] in I2. rewrite Hp in I2.
  destruct (io_debug _ _ _ _ _ I2 T1 Htc T2 W) as [HD [W' T']]. cbn [fst snd] in W', T'.
  exists A'. split.
  - constructor; auto. exists r, c. auto.
  - apply (debug_bounded _ _ _ _ _ HD). cbn [snd]. now apply boot_bounded.
Qed.

Lemma step_vstate : forall E G h h' S, vstate E h S -> step1 E G h h' ->
  exists S', vstate E h' S' /\ isa_step (e_fops E) (c_prog (host_cpu h)) S S' /\
    c_prog (host_cpu h') = c_prog (host_cpu h) /\ c_cfg (host_cpu h') = c_cfg (host_cpu h).
Proof.
  intros E G h h' S [[r [c [-> [Hl [HR Hh]]]]] W T TF] [ys [r' [c' [Hy [Hs [-> Hr']]]]]]. cbn [host_cpu] in *.
  destruct (session_sound _ _ _ _ _ Hs S _ _ eq_refl Hr') as [m2 [A2 [n2 [A'' [[_ ->] [J2 [J3 [J4 J5]]]]]]]].
  { intros _. split; [exact HR|exact Hh]. }
  rewrite Hy in J2. cbn [host_cpu] in J2. inversion J2; subst; try contradiction.
  - match goal with H : pokes _ _ _ |- _ => inversion H end.
  - match goal with H : io_session _ [] _ _ _ |- _ => inversion H; subst end.
    match goal with H : io_steps _ _ 1 _ _ |- _ => inversion H; subst end.
    match goal with H : io_steps _ _ 0 _ _ |- _ => inversion H; subst end.
    assert (Hst : isa_step (e_fops E) (c_prog c) S A'') by (eapply io_isa; eauto).
    exists A''. split; [|auto]. constructor; auto.
    + exists r', c'. auto.
    + destruct Hst as [_ He]. eapply effect_wordy; eauto. now apply typed_at.
    + cbn [host_cpu]. congruence.
  - match goal with H : _ \/ _ |- _ => destruct H; discriminate end.
Qed.

Lemma vs_shows : forall E h S, vstate E h S -> shows (host_cpu h) S.
Proof. intros E h S [[r [c [-> [_ [HR _]]]]] _ _ _]. now apply (rests_shows E). Qed.

Lemma vs_ok : forall E h S l v, vstate E h S -> reg_of h l = Some v -> lreg_ok (c_cfg (host_cpu h)) l = true.
Proof.
  intros E h S l v [[r [c [-> [_ [[_ [Hl Hd] _] _]]]]] _ _ _] H. unfold reg_of, get_lreg in H. cbn [host_cpu] in *.
  destruct (rget (c_rat c) l) as [q|] eqn:Hq; [|discriminate].
  destruct (lreg_ok (c_cfg c) l) eqn:Hok; [reflexivity|].
  exfalso. pose proof (tb_only _ _ (dt_tab _ _ _ Hd) l q Hq). congruence.
Qed.

Lemma vs_reg : forall E h S l v, vstate E h S -> l <> LR PC -> reg_of h l = Some v -> v = a_reg S l.
Proof.
  intros E h S l v HV Hl H. pose proof (vs_ok _ _ _ _ _ HV H) as Hok.
  pose proof (sh_reg _ _ (vs_shows _ _ _ HV) l Hok Hl) as H2. unfold reg_of in H. congruence.
Qed.

Lemma reads_val : forall E h S r x, vstate E h S -> reads h r x -> reg_val S (LR r) x.
Proof.
  intros E h S r x HV H.
  assert (G : LR r <> LR PC -> reg_of h (LR r) = Some x -> reg_val S (LR r) x).
  { intros Hr Hx. rewrite (vs_reg _ _ _ _ _ HV Hr Hx). now constructor. }
  destruct r; try (apply G; [discriminate|exact H]).
  destruct H as [v [H1 [H2 [k H3]]]]. destruct (sh_pc _ _ (vs_shows _ _ _ HV)) as [v' [H4 H5]].
  unfold reg_of in H1. rewrite H1 in H4. injection H4 as <-. constructor. split; [exact H2|].
  unfold address in H5. exists (k + v / 2 ^ 64). lia.
Qed.

Lemma bracket_inside : forall E h S o z, vstate E h S -> bracket h o z -> inside S o z.
Proof.
  intros E h S o z HV H. destruct o; cbn [bracket] in H; try contradiction;
    repeat match goal with
    | H : exists _, _ |- _ => destruct H
    | H : _ /\ _ |- _ => destruct H
    | H : reads h _ _ |- _ => apply (reads_val _ _ _ _ _ HV) in H
    end; subst; now constructor.
Qed.

Lemma value_opnd : forall E h S o v, vstate E h S -> value h o v -> opnd S o v.
Proof.
  intros E h S o v HV H. destruct o; cbn [value] in H; try (subst v; constructor; fail);
    try (destruct H as [z [Hz Hc]]; apply (bracket_inside _ _ _ _ _ HV) in Hz; eapply op_mem; [exact Hz|];
         unfold cell_of in Hc; now rewrite (sh_mem _ _ (vs_shows _ _ _ HV)) in Hc);
    try (repeat match goal with
    | H : exists _, _ |- _ => destruct H
    | H : _ /\ _ |- _ => destruct H
    | H : reads h _ _ |- _ => apply (reads_val _ _ _ _ _ HV) in H
    end; subst; econstructor; eassumption || reflexivity).
  pose proof (vs_reg E h S (LF n) v HV ltac:(discriminate) H). subst v. constructor. now constructor.
Qed.

(** ---- values are determined ---- *)

Lemma word_fun : forall z v w, is_word_of z v -> is_word_of z w -> v = w.
Proof. intros z v w [A1 [k A2]] [B1 [j B2]]. lia. Qed.

Lemma opnd_fun : forall S o v w, opnd S o v -> opnd S o w -> v = w.
Proof.
  intros S o v w H1 H2.
  destruct H1; inversion H2; subst; try reflexivity;
    try (match goal with H : inside _ _ _ |- _ => inversion H; fail end);
    try (match goal with H : inside _ _ _, H' : inside _ _ _ |- _ => rewrite (inside_fun _ _ _ _ H H') in * end; congruence);
    repeat match goal with A : reg_val S ?l ?v, B : reg_val S ?l ?w |- _ =>
      tryif constr_eq v w then fail else (pose proof (reg_val_fun _ _ _ _ A B); subst; clear B) end;
    try reflexivity; eapply word_fun; eauto.
Qed.

(** The instruction at the program counter. *)
Lemma next_instr : forall E h S i, vstate E h S -> next_is h i -> instr_at (c_prog (host_cpu h)) (a_pc S) = i.
Proof.
  intros E h S i HV [v [H1 H2]]. destruct (sh_pc _ _ (vs_shows _ _ _ HV)) as [v' [H4 H5]].
  unfold reg_of in H1. rewrite H1 in H4. injection H4 as <-. now rewrite <- H5.
Qed.

Lemma step_effect : forall E G h h' S i, vstate E h S -> step1 E G h h' -> next_is h i ->
  exists S', vstate E h' S' /\ effect (e_fops E) i S S' /\ c_prog (host_cpu h') = c_prog (host_cpu h) /\
    c_cfg (host_cpu h') = c_cfg (host_cpu h) /\ (bounded S -> bounded S').
Proof.
  intros E G h h' S i HV Hs Hi. destruct (step_vstate _ _ _ _ _ HV Hs) as [S' [H1 [[_ H2] [H3 H4]]]].
  rewrite (next_instr _ _ _ _ HV Hi) in H2. exists S'. do 4 (split; [assumption|]). eapply effect_bounded; eauto.
Qed.
