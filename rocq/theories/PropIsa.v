(** C14, C15, C16: addressing, the stack, and memory consistency. *)
From Coq Require Import ZArith NArith List Bool Lia.
From Verif Require Import Base Alu Isa State AluSpec Exec Ram Writes Rat Cpu InOrder PipeInv PipeBasics PipeDom PipeRun
  IsaSpec IsaRefine Os DbgSpec PipePoke Session Stops IsaStep PropPipe.
Import ListNotations.
Open Scope Z_scope.

(** ---- from the sequential machine to what the debugger shows ---- *)

Lemma reg_after : forall E h h' S S' l, vstate E h S -> vstate E h' S' -> c_cfg (host_cpu h') = c_cfg (host_cpu h) ->
  l <> LR PC -> a_reg S' l = a_reg S l -> reg_of h' l = reg_of h l.
Proof.
  intros E h h' S S' l V V' Hc Hl H. destruct (lreg_ok (c_cfg (host_cpu h)) l) eqn:Hok.
  - unfold reg_of. rewrite (sh_reg _ _ (vs_shows _ _ _ V) l Hok Hl). rewrite <- Hc in Hok.
    rewrite (sh_reg _ _ (vs_shows _ _ _ V') l Hok Hl). now rewrite H.
  - destruct (reg_of h l) as [v|] eqn:H1; [rewrite (vs_ok _ _ _ _ _ V H1) in Hok; discriminate|].
    destruct (reg_of h' l) as [v|] eqn:H2; [|reflexivity].
    rewrite <- Hc, (vs_ok _ _ _ _ _ V' H2) in Hok. discriminate.
Qed.

Lemma reg_is : forall E h h' S S' l, vstate E h S -> vstate E h' S' -> c_cfg (host_cpu h') = c_cfg (host_cpu h) ->
  l <> LR PC -> reg_of h l <> None -> reg_of h' l = Some (a_reg S' l).
Proof.
  intros E h h' S S' l V V' Hc Hl H. destruct (reg_of h l) as [v|] eqn:Hv; [|congruence].
  apply (vs_ok _ _ _ _ _ V) in Hv. rewrite <- Hc in Hv. exact (sh_reg _ _ (vs_shows _ _ _ V') l Hv Hl).
Qed.

Lemma cell_is : forall E h S a, vstate E h S -> cell_of h a = a_mem S a.
Proof. intros E h S a V. exact (sh_mem _ _ (vs_shows _ _ _ V) a). Qed.

Lemma upd_same : forall V (f : lreg -> V) l v, upd f l v l = v.
Proof. intros V f l v. unfold upd. destruct (lreg_eqb_spec l l); congruence. Qed.

Lemma upd_other : forall V (f : lreg -> V) l k v, k <> l -> upd f l v k = f k.
Proof. intros V f l k v H. unfold upd. destruct (lreg_eqb_spec k l); congruence. Qed.

(** ---- C14 ---- *)

(** MOV into a register: the register gets the value of the operand, for every
    operand form; nothing else changes. *)
Theorem C14_load : forall E G h h' d o v,
  a_stop E G h -> step1 E G h h' -> next_is h (IMov (OReg d) o) -> d <> PC -> reg_of h (LR d) <> None ->
  value h o v ->
  reg_of h' (LR d) = Some v /\ (forall l, l <> LR d -> l <> LR PC -> reg_of h' l = reg_of h l) /\
  (forall a, cell_of h' a = cell_of h a).
Proof.
  intros E G h h' d o v HS Hst Hi Hd Hx Hv. destruct (stop_vstate _ _ _ HS) as [S [V _]].
  destruct (step_effect _ _ _ _ _ _ V Hst Hi) as [S' [V' [He [_ [Hc _]]]]]. cbn [effect] in He.
  destruct He as [y [Hy Hsame]]. apply (value_opnd _ _ _ _ _ V) in Hv. rewrite (opnd_fun _ _ _ _ Hy Hv) in Hsame.
  assert (Hne : LR d <> LR PC) by congruence.
  split; [|split].
  - rewrite (reg_is _ _ _ _ _ _ V V' Hc Hne Hx). f_equal. rewrite (s_reg _ _ Hsame _ Hne). apply upd_same.
  - intros l Hl Hp. apply (reg_after _ _ _ _ _ _ V V' Hc Hp). rewrite (s_reg _ _ Hsame _ Hp). now apply upd_other.
  - intros a. rewrite (cell_is _ _ _ _ V), (cell_is _ _ _ _ V'). exact (s_mem _ _ Hsame a).
Qed.

(** MOV into memory: the cell at the number between the brackets, modulo 2^64, gets
    the value of the operand; nothing else changes. *)
Theorem C14_store : forall E G h h' d o z v,
  a_stop E G h -> step1 E G h h' -> next_is h (IMov d o) -> bracket h d z -> value h o v ->
  cell_of h' (address z) = Some v /\ (forall a, a <> address z -> cell_of h' a = cell_of h a) /\
  (forall l, l <> LR PC -> reg_of h' l = reg_of h l).
Proof.
  intros E G h h' d o z v HS Hst Hi Hz Hv. destruct (stop_vstate _ _ _ HS) as [S [V _]].
  destruct (step_effect _ _ _ _ _ _ V Hst Hi) as [S' [V' [He [_ [Hc _]]]]].
  apply (value_opnd _ _ _ _ _ V) in Hv. apply (bracket_inside _ _ _ _ _ V) in Hz.
  assert (Hs : same S' (next (store S (address z) v))).
  { cbn [effect] in He. destruct d; try (inversion Hz; fail); destruct He as [z' [y [Hz' [Hy [_ Hs]]]]];
      rewrite (opnd_fun _ _ _ _ Hy Hv), (inside_fun _ _ _ _ Hz' Hz) in Hs; exact Hs. }
  split; [|split].
  - rewrite (cell_is _ _ _ _ V'), (s_mem _ _ Hs). cbn [next set_pc store a_mem]. unfold mupd. now rewrite Z.eqb_refl.
  - intros a Ha. rewrite (cell_is _ _ _ _ V), (cell_is _ _ _ _ V'), (s_mem _ _ Hs). cbn [next set_pc store a_mem].
    unfold mupd. destruct (Z.eqb_spec a (address z)); congruence.
  - intros l Hp. apply (reg_after _ _ _ _ _ _ V V' Hc Hp). exact (s_reg _ _ Hs _ Hp).
Qed.

(** LEA: the register gets the number between the brackets, as a 64-bit number. *)
Theorem C14_lea_partial : forall E G h h' d o z,
  a_stop E G h -> step1 E G h h' -> next_is h (ILea d o) -> d <> PC -> reg_of h (LR d) <> None -> bracket h o z ->
  exists v, reg_of h' (LR d) = Some v /\ is_word_of z v /\
    (forall l, l <> LR d -> l <> LR PC -> reg_of h' l = reg_of h l) /\ (forall a, cell_of h' a = cell_of h a).
Proof.
  intros E G h h' d o z HS Hst Hi Hd Hx Hz. destruct (stop_vstate _ _ _ HS) as [S [V _]].
  destruct (step_effect _ _ _ _ _ _ V Hst Hi) as [S' [V' [He [_ [Hc _]]]]]. cbn [effect] in He.
  destruct He as [z' [v [Hz' [Hv Hs]]]]. apply (bracket_inside _ _ _ _ _ V) in Hz. rewrite (inside_fun _ _ _ _ Hz' Hz) in Hv.
  assert (Hne : LR d <> LR PC) by congruence. exists v.
  split; [|split; [exact Hv|split]].
  - rewrite (reg_is _ _ _ _ _ _ V V' Hc Hne Hx). f_equal. rewrite (s_reg _ _ Hs _ Hne). apply upd_same.
  - intros l Hl Hp. apply (reg_after _ _ _ _ _ _ V V' Hc Hp). rewrite (s_reg _ _ Hs _ Hp). now apply upd_other.
  - intros a. rewrite (cell_is _ _ _ _ V), (cell_is _ _ _ _ V'). exact (s_mem _ _ Hs a).
Qed.

(** ---- C15 ---- *)

Definition sp_of (h : host) : option Z := reg_of h (LR SP).

Definition pushes (i : instr) (o : operand) : Prop := i = IPush o \/ i = IFpush o.
Definition pops (i : instr) (l : lreg) : Prop := (exists r, i = IPop r /\ l = LR r) \/ (exists n, i = IFpop n /\ l = LF n).

(** The cells [K] keep their contents. *)
Definition keeps (K : list Z) (h h' : host) : Prop := forall a, In a K -> cell_of h' a = cell_of h a.

(** Executions that use the stack as a stack. [K] are the stack cells in use by
    whoever started the execution. An execution is a sequence of
    - instructions that change neither SP nor those cells,
    - frames: SP is lowered, an execution follows, SP is set back,
    - PUSH, an execution, POP,
    - CALL, an execution, RET,
    nested to any depth. That the stack instructions spare [K] is not required but
    proved. *)
Inductive nested (E : env) (G : cfg) : list Z -> host -> host -> Prop :=
| ns_done : forall K h, nested E G K h h
| ns_plain : forall K h h1 h2, step1 E G h h1 -> sp_of h1 = sp_of h -> keeps K h h1 ->
    nested E G K h1 h2 -> nested E G K h h2
| ns_frame : forall K h h1 h2 h3 h4 s s1, step1 E G h h1 -> keeps K h h1 -> sp_of h = Some s -> sp_of h1 = Some s1 -> s1 <= s ->
    nested E G K h1 h2 -> step1 E G h2 h3 -> keeps K h2 h3 -> sp_of h3 = Some s -> nested E G K h3 h4 -> nested E G K h h4
| ns_push : forall K h h1 h2 h3 h4 s i o j l, sp_of h = Some s -> next_is h i -> pushes i o -> step1 E G h h1 ->
    nested E G ((s - 1) :: K) h1 h2 -> next_is h2 j -> pops j l -> step1 E G h2 h3 -> nested E G K h3 h4 -> nested E G K h h4
| ns_call : forall K h h1 h2 h3 h4 s o, sp_of h = Some s -> next_is h (ICall o) -> step1 E G h h1 ->
    nested E G ((s - 1) :: K) h1 h2 -> next_is h2 IRet -> step1 E G h2 h3 -> nested E G K h3 h4 -> nested E G K h h4.

Definition Rsp (S : arch) : Z := a_reg S (LR SP).

Lemma sp_is : forall E h S, vstate E h S -> sp_of h = Some (Rsp S).
Proof. intros E h S V. exact (sh_reg _ _ (vs_shows _ _ _ V) (LR SP) eq_refl ltac:(discriminate)). Qed.

Lemma down : forall S sp, wordy S -> bounded S -> is_word_of (Rsp S - 1) sp -> a_mem S (address sp) <> None ->
  sp = Rsp S - 1 /\ address sp = Rsp S - 1.
Proof.
  intros S sp W B [H1 [k H2]] Hm. pose proof (B _ Hm) as Hr. pose proof (w_reg S W (LR SP) ltac:(discriminate)) as Hf.
  fold (Rsp S) in Hf. unfold fits, address in *. lia.
Qed.

Lemma up : forall S sp t, wordy S -> bounded S -> a_mem S (address (Rsp S)) = Some t -> is_word_of (Rsp S + 1) sp ->
  sp = Rsp S + 1 /\ address (Rsp S) = Rsp S.
Proof.
  intros S sp t W B Hm [H1 [k H2]]. assert (Hn : a_mem S (address (Rsp S)) <> None) by congruence.
  pose proof (B _ Hn) as Hr. pose proof (w_reg S W (LR SP) ltac:(discriminate)) as Hf.
  fold (Rsp S) in Hf. unfold fits, address in *. lia.
Qed.

Lemma push_step : forall E G h h1 S i o, vstate E h S -> bounded S -> step1 E G h h1 -> next_is h i -> pushes i o ->
  exists S1 y, vstate E h1 S1 /\ bounded S1 /\ c_cfg (host_cpu h1) = c_cfg (host_cpu h) /\ opnd S o y /\
    Rsp S1 = Rsp S - 1 /\ a_mem S1 (Rsp S - 1) = Some y /\ (forall a, a <> Rsp S - 1 -> a_mem S1 a = a_mem S a) /\
    (forall l, l <> LR PC -> l <> LR SP -> a_reg S1 l = a_reg S l).
Proof.
  intros E G h h1 S i o V B Hs Hi Hp. destruct (step_effect _ _ _ _ _ _ V Hs Hi) as [S1 [V1 [He [_ [Hc HB]]]]].
  assert (He' : exists y sp, opnd S o y /\ is_word_of (a_reg S (LR SP) - 1) sp /\
      a_mem S (address sp) <> None /\ same S1 (next (put (store S (address sp) y) (LR SP) sp))).
  { destruct Hp as [-> | ->]; exact He. }
  destruct He' as [y [sp [Hy [Hsp [Hm Hsame]]]]].
  destruct (down S sp (vs_wordy _ _ _ V) B Hsp Hm) as [D1 D2].
  exists S1, y. do 4 (split; [auto|]).
  rewrite D2 in Hsame. split; [|split; [|split]].
  - unfold Rsp. rewrite (s_reg _ _ Hsame) by discriminate. cbn [next set_pc put a_reg]. rewrite upd_same. exact D1.
  - rewrite (s_mem _ _ Hsame). cbn [next set_pc put store a_mem]. unfold mupd. now rewrite Z.eqb_refl.
  - intros a Ha. rewrite (s_mem _ _ Hsame). cbn [next set_pc put store a_mem]. unfold mupd.
    destruct (Z.eqb_spec a (Rsp S - 1)); congruence.
  - intros l Hl Hl'. rewrite (s_reg _ _ Hsame) by exact Hl. cbn [next set_pc put store a_reg]. now apply upd_other.
Qed.

Lemma pop_step : forall E G h h1 S i l, vstate E h S -> bounded S -> step1 E G h h1 -> next_is h i -> pops i l ->
  exists S1 y, vstate E h1 S1 /\ bounded S1 /\ c_cfg (host_cpu h1) = c_cfg (host_cpu h) /\ a_mem S (Rsp S) = Some y /\
    Rsp S1 = Rsp S + 1 /\ (l <> LR PC -> l <> LR SP -> a_reg S1 l = y) /\ (forall a, a_mem S1 a = a_mem S a) /\
    (forall k, k <> LR PC -> k <> LR SP -> k <> l -> a_reg S1 k = a_reg S k).
Proof.
  intros E G h h1 S i l V B Hs Hi Hp. destruct (step_effect _ _ _ _ _ _ V Hs Hi) as [S1 [V1 [He [_ [Hc HB]]]]].
  assert (He' : exists y sp, a_mem S (address (a_reg S (LR SP))) = Some y /\
      is_word_of (a_reg S (LR SP) + 1) sp /\ same S1 (next (put (put S l y) (LR SP) sp))).
  { destruct Hp as [[r [-> ->]] | [n [-> ->]]]; exact He. }
  destruct He' as [y [sp [Hy [Hsp Hsame]]]].
  destruct (up S sp y (vs_wordy _ _ _ V) B Hy Hsp) as [D1 D2]. fold (Rsp S) in Hy. rewrite D2 in Hy.
  exists S1, y. do 4 (split; [auto|]). split; [|split; [|split]].
  - unfold Rsp. rewrite (s_reg _ _ Hsame) by discriminate. cbn [next set_pc put a_reg]. rewrite upd_same. exact D1.
  - intros H1 H2. rewrite (s_reg _ _ Hsame) by exact H1. cbn [next set_pc put a_reg]. rewrite upd_other by exact H2. apply upd_same.
  - intros a. exact (s_mem _ _ Hsame a).
  - intros k H1 H2 H3. rewrite (s_reg _ _ Hsame) by exact H1. cbn [next set_pc put a_reg]. rewrite !upd_other by assumption. reflexivity.
Qed.

Lemma call_step : forall E G h h1 S o, vstate E h S -> bounded S -> step1 E G h h1 -> next_is h (ICall o) ->
  exists S1 y t, vstate E h1 S1 /\ bounded S1 /\ c_cfg (host_cpu h1) = c_cfg (host_cpu h) /\ is_word_of (a_pc S + 1) y /\
    Rsp S1 = Rsp S - 1 /\ a_mem S1 (Rsp S - 1) = Some y /\ (forall a, a <> Rsp S - 1 -> a_mem S1 a = a_mem S a) /\
    opnd S o t /\ a_pc S1 = address t /\ (forall l, l <> LR PC -> l <> LR SP -> a_reg S1 l = a_reg S l).
Proof.
  intros E G h h1 S o V B Hs Hi. destruct (step_effect _ _ _ _ _ _ V Hs Hi) as [S1 [V1 [He [_ [Hc HB]]]]].
  cbn [effect] in He. destruct He as [t [sp [ret [Ht [Hsp [Hret [Hm Hsame]]]]]]].
  destruct (down S sp (vs_wordy _ _ _ V) B Hsp Hm) as [D1 D2].
  exists S1, ret, t. do 4 (split; [auto|]).
  rewrite D2 in Hsame. split; [|split; [|split; [|split; [|split]]]].
  - unfold Rsp. rewrite (s_reg _ _ Hsame) by discriminate. cbn [jump set_pc put a_reg]. rewrite upd_same. exact D1.
  - rewrite (s_mem _ _ Hsame). cbn [jump set_pc put store a_mem]. unfold mupd. now rewrite Z.eqb_refl.
  - intros a Ha. rewrite (s_mem _ _ Hsame). cbn [jump set_pc put store a_mem]. unfold mupd.
    destruct (Z.eqb_spec a (Rsp S - 1)); congruence.
  - exact Ht.
  - exact (s_pc _ _ Hsame).
  - intros l Hl Hl'. rewrite (s_reg _ _ Hsame) by exact Hl. cbn [jump set_pc put store a_reg]. now apply upd_other.
Qed.

Lemma ret_step : forall E G h h1 S, vstate E h S -> bounded S -> step1 E G h h1 -> next_is h IRet ->
  exists S1 y, vstate E h1 S1 /\ bounded S1 /\ c_cfg (host_cpu h1) = c_cfg (host_cpu h) /\ a_mem S (Rsp S) = Some y /\
    Rsp S1 = Rsp S + 1 /\ a_pc S1 = address y /\ (forall a, a_mem S1 a = a_mem S a) /\
    (forall k, k <> LR PC -> k <> LR SP -> a_reg S1 k = a_reg S k).
Proof.
  intros E G h h1 S V B Hs Hi. destruct (step_effect _ _ _ _ _ _ V Hs Hi) as [S1 [V1 [He [_ [Hc HB]]]]].
  cbn [effect] in He. destruct He as [t [sp [Hy [Hsp Hsame]]]].
  destruct (up S sp t (vs_wordy _ _ _ V) B Hy Hsp) as [D1 D2]. fold (Rsp S) in Hy. rewrite D2 in Hy.
  exists S1, t. do 4 (split; [auto|]). split; [|split; [|split]].
  - unfold Rsp. rewrite (s_reg _ _ Hsame) by discriminate. cbn [jump set_pc put a_reg]. rewrite upd_same. exact D1.
  - exact (s_pc _ _ Hsame).
  - intros a. exact (s_mem _ _ Hsame a).
  - intros k H1 H2. rewrite (s_reg _ _ Hsame) by exact H1. cbn [jump set_pc put a_reg]. now rewrite upd_other by assumption.
Qed.

Lemma plain_step : forall E G h h1 S, vstate E h S -> bounded S -> step1 E G h h1 ->
  exists S1, vstate E h1 S1 /\ bounded S1 /\ c_cfg (host_cpu h1) = c_cfg (host_cpu h).
Proof.
  intros E G h h1 S V B Hs. destruct (step_vstate _ _ _ _ _ V Hs) as [S1 [V1 [[_ He] [_ Hc]]]].
  exists S1. split; [exact V1|]. split; [|exact Hc]. eapply effect_bounded; eauto.
Qed.

Lemma nested_sound : forall E G K h h', nested E G K h h' -> forall S, vstate E h S -> bounded S ->
  Forall (fun a => Rsp S <= a) K ->
  exists S', vstate E h' S' /\ bounded S' /\ c_cfg (host_cpu h') = c_cfg (host_cpu h) /\ Rsp S' = Rsp S /\
    forall a, In a K -> a_mem S' a = a_mem S a.
Proof.
  induction 1 as [K h|K h h1 h2 Hs Hsp Hk Hn IH|K h h1 h2 h3 h4 s s1 Hs Hk Hsp Hsp1 Hle Hn1 IH1 Hs2 Hk2 Hsp3 Hn2 IH2
    |K h h1 h2 h3 h4 s i o j l Hsp Hi Hpu Hs Hn1 IH1 Hj Hpo Hs2 Hn2 IH2
    |K h h1 h2 h3 h4 s o Hsp Hi Hs Hn1 IH1 Hj Hs2 Hn2 IH2]; intros S V B HK.
  - exists S. auto.
  - destruct (plain_step _ _ _ _ _ V B Hs) as [S1 [V1 [B1 C1]]].
    rewrite (sp_is _ _ _ V), (sp_is _ _ _ V1) in Hsp. injection Hsp as Hsp.
    destruct (IH S1 V1 B1) as [S2 [V2 [B2 [C2 [P2 M2]]]]]; [now rewrite Hsp|].
    exists S2. do 2 (split; [assumption|]). split; [congruence|]. split; [congruence|].
    intros a Ha. rewrite (M2 a Ha). rewrite <- (cell_is _ _ _ a V), <- (cell_is _ _ _ a V1). exact (Hk a Ha).
  - destruct (plain_step _ _ _ _ _ V B Hs) as [S1 [V1 [B1 C1]]].
    rewrite (sp_is _ _ _ V) in Hsp. rewrite (sp_is _ _ _ V1) in Hsp1. injection Hsp as Hsp. injection Hsp1 as Hsp1.
    destruct (IH1 S1 V1 B1) as [S2 [V2 [B2 [C2 [P2 M2]]]]].
    { eapply Forall_impl; [|exact HK]. cbn. intros a Ha. lia. }
    destruct (plain_step _ _ _ _ _ V2 B2 Hs2) as [S3 [V3 [B3 C3]]].
    rewrite (sp_is _ _ _ V3) in Hsp3. injection Hsp3 as Hsp3.
    destruct (IH2 S3 V3 B3) as [S4 [V4 [B4 [C4 [P4 M4]]]]].
    { rewrite Hsp3, <- Hsp. exact HK. }
    exists S4. do 2 (split; [assumption|]). split; [congruence|]. split; [congruence|].
    intros a Ha. rewrite (M4 a Ha). rewrite <- (cell_is _ _ _ a V3), (Hk2 a Ha), (cell_is _ _ _ a V2), (M2 a Ha).
    rewrite <- (cell_is _ _ _ a V), <- (cell_is _ _ _ a V1). exact (Hk a Ha).
  - destruct (push_step _ _ _ _ _ _ _ V B Hs Hi Hpu) as [S1 [y [V1 [B1 [C1 [_ [P1 [M1 [O1 _]]]]]]]]].
    rewrite (sp_is _ _ _ V) in Hsp. injection Hsp as <-.
    destruct (IH1 S1 V1 B1) as [S2 [V2 [B2 [C2 [P2 M2]]]]].
    { constructor; [lia|]. eapply Forall_impl; [|exact HK]. cbn. intros a Ha. lia. }
    destruct (pop_step _ _ _ _ _ _ _ V2 B2 Hs2 Hj Hpo) as [S3 [y3 [V3 [B3 [C3 [_ [P3 [_ [M3 _]]]]]]]]].
    destruct (IH2 S3 V3 B3) as [S4 [V4 [B4 [C4 [P4 M4]]]]].
    { replace (Rsp S3) with (Rsp S) by lia. exact HK. }
    exists S4. do 2 (split; [assumption|]). split; [congruence|]. split; [lia|].
    intros a Ha. rewrite (M4 a Ha), M3, (M2 a (or_intror Ha)), O1; [reflexivity|].
    rewrite Forall_forall in HK. specialize (HK a Ha). cbn in HK. lia.
  - destruct (call_step _ _ _ _ _ _ V B Hs Hi) as [S1 [y [t [V1 [B1 [C1 [_ [P1 [M1 [O1 _]]]]]]]]]].
    rewrite (sp_is _ _ _ V) in Hsp. injection Hsp as <-.
    destruct (IH1 S1 V1 B1) as [S2 [V2 [B2 [C2 [P2 M2]]]]].
    { constructor; [lia|]. eapply Forall_impl; [|exact HK]. cbn. intros a Ha. lia. }
    destruct (ret_step _ _ _ _ _ V2 B2 Hs2 Hj) as [S3 [y3 [V3 [B3 [C3 [_ [P3 [_ [M3 _]]]]]]]]].
    destruct (IH2 S3 V3 B3) as [S4 [V4 [B4 [C4 [P4 M4]]]]].
    { replace (Rsp S3) with (Rsp S) by lia. exact HK. }
    exists S4. do 2 (split; [assumption|]). split; [congruence|]. split; [lia|].
    intros a Ha. rewrite (M4 a Ha), M3, (M2 a (or_intror Ha)), O1; [reflexivity|].
    rewrite Forall_forall in HK. specialize (HK a Ha). cbn in HK. lia.
Qed.

(** PUSH changes the cell below SP, and SP, and nothing else. *)
Theorem C15_push : forall E G h h1 s i o v,
  a_stop E G h -> sp_of h = Some s -> next_is h i -> pushes i o -> value h o v -> step1 E G h h1 ->
  sp_of h1 = Some (s - 1) /\ cell_of h1 (s - 1) = Some v /\ (forall a, a <> s - 1 -> cell_of h1 a = cell_of h a) /\
  (forall l, l <> LR PC -> l <> LR SP -> reg_of h1 l = reg_of h l).
Proof.
  intros E G h h1 s i o v HS Hsp Hi Hp Hv Hst. destruct (stop_vstate _ _ _ HS) as [S [V B]].
  destruct (push_step _ _ _ _ _ _ _ V B Hst Hi Hp) as [S1 [y [V1 [B1 [C1 [Y1 [P1 [M1 [O1 R1]]]]]]]]].
  rewrite (sp_is _ _ _ V) in Hsp. injection Hsp as <-.
  rewrite (opnd_fun _ _ _ _ Y1 (value_opnd _ _ _ _ _ V Hv)) in M1.
  split; [now rewrite (sp_is _ _ _ V1), P1|]. split; [now rewrite (cell_is _ _ _ _ V1)|]. split.
  - intros a Ha. rewrite (cell_is _ _ _ _ V1), (cell_is _ _ _ _ V). now apply O1.
  - intros l H1 H2. apply (reg_after _ _ _ _ _ _ V V1 C1 H1). now apply R1.
Qed.

(** PUSH, any stack-disciplined execution, POP: the pushed value comes back and SP
    is what it was. *)
Theorem C15_push_pop : forall E G h h1 h2 h3 s i o v j l,
  a_stop E G h -> sp_of h = Some s -> next_is h i -> pushes i o -> value h o v -> step1 E G h h1 ->
  nested E G [s - 1] h1 h2 ->
  next_is h2 j -> pops j l -> step1 E G h2 h3 -> l <> LR PC -> l <> LR SP -> reg_of h l <> None ->
  reg_of h3 l = Some v /\ sp_of h3 = Some s.
Proof.
  intros E G h h1 h2 h3 s i o v j l HS Hsp Hi Hp Hv Hst Hn Hj Hpo Hst2 Hl Hl' Hx.
  destruct (stop_vstate _ _ _ HS) as [S [V B]].
  destruct (push_step _ _ _ _ _ _ _ V B Hst Hi Hp) as [S1 [y [V1 [B1 [C1 [Y1 [P1 [M1 [O1 R1]]]]]]]]].
  rewrite (sp_is _ _ _ V) in Hsp. injection Hsp as <-.
  rewrite (opnd_fun _ _ _ _ Y1 (value_opnd _ _ _ _ _ V Hv)) in M1.
  destruct (nested_sound _ _ _ _ _ Hn S1 V1 B1) as [S2 [V2 [B2 [C2 [P2 M2]]]]]; [constructor; [lia|constructor]|].
  destruct (pop_step _ _ _ _ _ _ _ V2 B2 Hst2 Hj Hpo) as [S3 [y3 [V3 [B3 [C3 [Y3 [P3 [Q3 _]]]]]]]].
  rewrite P2, P1, (M2 (Rsp S - 1) (or_introl eq_refl)), M1 in Y3. injection Y3 as <-.
  split.
  - rewrite (reg_is E h h3 S S3 l V V3) by (congruence || assumption). now rewrite Q3.
  - rewrite (sp_is _ _ _ V3). f_equal. lia.
Qed.

(** CALL, any stack-disciplined execution, RET: control is at the instruction after
    the CALL and SP is what it was. *)
Theorem C15_call_ret : forall E G h h1 h2 h3 s o v,
  a_stop E G h -> sp_of h = Some s -> next_is h (ICall o) -> reg_of h (LR PC) = Some v -> step1 E G h h1 ->
  nested E G [s - 1] h1 h2 -> next_is h2 IRet -> step1 E G h2 h3 ->
  sp_of h3 = Some s /\ exists w, reg_of h3 (LR PC) = Some w /\ address w = address (v + 1).
Proof.
  intros E G h h1 h2 h3 s o v HS Hsp Hi Hv Hst Hn Hj Hst2.
  destruct (stop_vstate _ _ _ HS) as [S [V B]].
  destruct (call_step _ _ _ _ _ _ V B Hst Hi) as [S1 [y [t [V1 [B1 [C1 [Y1 [P1 [M1 [O1 _]]]]]]]]]].
  rewrite (sp_is _ _ _ V) in Hsp. injection Hsp as <-.
  destruct (nested_sound _ _ _ _ _ Hn S1 V1 B1) as [S2 [V2 [B2 [C2 [P2 M2]]]]]; [constructor; [lia|constructor]|].
  destruct (ret_step _ _ _ _ _ V2 B2 Hst2 Hj) as [S3 [y3 [V3 [B3 [C3 [Y3 [P3 [Q3 _]]]]]]]].
  rewrite P2, P1, (M2 (Rsp S - 1) (or_introl eq_refl)), M1 in Y3. injection Y3 as <-.
  split; [rewrite (sp_is _ _ _ V3); f_equal; lia|].
  destruct (sh_pc _ _ (vs_shows _ _ _ V3)) as [w [H1 H2]]. exists w. split; [exact H1|].
  rewrite H2, Q3. destruct (sh_pc _ _ (vs_shows _ _ _ V)) as [v' [H3 H4]]. unfold reg_of in Hv. rewrite Hv in H3.
  injection H3 as <-. rewrite <- H4 in Y1. destruct Y1 as [_ [k Hk]]. unfold address in *. subst y.
  rewrite Z_mod_plus_full. now rewrite Zplus_mod_idemp_l.
Qed.

(** The caller's part of the stack survives. *)
Theorem C15_nested : forall E G K h h' s,
  a_stop E G h -> sp_of h = Some s -> Forall (fun a => s <= a) K -> nested E G K h h' ->
  sp_of h' = Some s /\ keeps K h h'.
Proof.
  intros E G K h h' s HS Hsp HK Hn. destruct (stop_vstate _ _ _ HS) as [S [V B]].
  rewrite (sp_is _ _ _ V) in Hsp. injection Hsp as <-.
  destruct (nested_sound _ _ _ _ _ Hn S V B HK) as [S2 [V2 [B2 [C2 [P2 M2]]]]].
  split; [rewrite (sp_is _ _ _ V2); now f_equal|].
  intros a Ha. rewrite (cell_is _ _ _ _ V2), (cell_is _ _ _ _ V). now apply M2.
Qed.

(** ---- C16 ---- *)

(** The instruction [i] stores [v] into the cell [a] in state [S]. *)
Inductive stores (S : arch) : instr -> Z -> Z -> Prop :=
| so_mov : forall d o z v, inside S d z -> opnd S o v -> stores S (IMov d o) (address z) v
| so_push : forall o sp v, is_word_of (a_reg S (LR SP) - 1) sp -> opnd S o v -> stores S (IPush o) (address sp) v
| so_fpush : forall o sp v, is_word_of (a_reg S (LR SP) - 1) sp -> opnd S o v -> stores S (IFpush o) (address sp) v
| so_call : forall o sp v, is_word_of (a_reg S (LR SP) - 1) sp -> is_word_of (a_pc S + 1) v -> stores S (ICall o) (address sp) v.

(** An execution with the stores it makes, the latest one first. *)
Inductive history (F : fops) (p : list instr) (S : arch) : list (Z * Z) -> arch -> Prop :=
| hi_start : history F p S [] S
| hi_store : forall l T U a v, history F p S l T -> isa_step F p T U ->
    stores T (instr_at p (a_pc T)) a v -> history F p S ((a, v) :: l) U
| hi_other : forall l T U, history F p S l T -> isa_step F p T U ->
    (forall a v, ~ stores T (instr_at p (a_pc T)) a v) -> history F p S l U.

(** The latest store to a cell, otherwise what was there before. *)
Fixpoint recall (l : list (Z * Z)) (before : Z -> option Z) (a : Z) : option Z :=
  match l with
  | [] => before a
  | (b, v) :: l' => if a =? b then Some v else recall l' before a
  end.

Lemma effect_stores : forall F i S S', effect F i S S' ->
  (exists a v, stores S i a v /\ forall b, a_mem S' b = mupd (a_mem S) a v b) \/
  ((forall a v, ~ stores S i a v) /\ forall b, a_mem S' b = a_mem S b).
Proof.
  intros F i S S' H.
  assert (K : forall T, same S' T -> a_mem T = a_mem S -> (forall a v, ~ stores S i a v) ->
    (exists a v, stores S i a v /\ forall b, a_mem S' b = mupd (a_mem S) a v b) \/
    ((forall a v, ~ stores S i a v) /\ forall b, a_mem S' b = a_mem S b)).
  { intros T Hs HT Hn. right. split; [exact Hn|]. intros b. now rewrite (s_mem _ _ Hs b), HT. }
  assert (L : forall T a v, same S' T -> a_mem T = mupd (a_mem S) a v -> stores S i a v ->
    (exists a v, stores S i a v /\ forall b, a_mem S' b = mupd (a_mem S) a v b) \/
    ((forall a v, ~ stores S i a v) /\ forall b, a_mem S' b = a_mem S b)).
  { intros T a v Hs HT Hst. left. exists a, v. split; [exact Hst|]. intros b. now rewrite (s_mem _ _ Hs b), HT. }
  destruct i; cbn [effect] in H;
    repeat match goal with
    | H : exists _, _ |- _ => destruct H
    | H : _ /\ _ |- _ => destruct H
    end;
    try (eapply K; [eassumption|reflexivity|intros ? ? Hx; inversion Hx; fail]);
    try (eapply L; [eassumption|reflexivity|econstructor; eassumption]).
  - destruct d;
    repeat match goal with
    | H : exists _, _ |- _ => destruct H
    | H : _ /\ _ |- _ => destruct H
    end;
    try (eapply L; [eassumption|reflexivity|econstructor; eassumption]);
    try (eapply K; [eassumption|reflexivity|intros ? ? Hx; inversion Hx; subst;
       match goal with H : inside _ (OReg _) _ |- _ => inversion H | H : inside _ (OFReg _) _ |- _ => inversion H end]);
    exfalso; match goal with H : inside _ _ _ |- _ => inversion H end.
  - eapply K; [eassumption| |intros ? ? Hx; inversion Hx; fail]. destruct (_ =? _); [destruct r|]; reflexivity.
  - eapply K; [eassumption| |intros ? ? Hx; inversion Hx; fail]. destruct (taken _ _); reflexivity.
Qed.

Lemma stores_fun : forall S i a v b w, stores S i a v -> stores S i b w -> a = b /\ v = w.
Proof.
  intros S i a v b w H1 H2. destruct H1; inversion H2; subst;
    repeat match goal with
    | A : inside S ?o ?z, B : inside S ?o ?y |- _ => tryif constr_eq z y then fail else (pose proof (inside_fun _ _ _ _ A B); subst; clear B)
    | A : opnd S ?o ?z, B : opnd S ?o ?y |- _ => tryif constr_eq z y then fail else (pose proof (opnd_fun _ _ _ _ A B); subst; clear B)
    | A : is_word_of ?o ?z, B : is_word_of ?o ?y |- _ => tryif constr_eq z y then fail else (pose proof (word_fun _ _ _ A B); subst; clear B)
    end; auto.
Qed.

(** In the sequential machine a cell holds the latest value stored into it. *)
Lemma history_mem : forall F p S l U, history F p S l U -> forall a, a_mem U a = recall l (a_mem S) a.
Proof.
  induction 1 as [|l T U b v Hh IH [_ Hst] Hs|l T U Hh IH [_ Hst] Hs]; intros a.
  - reflexivity.
  - cbn [recall]. destruct (effect_stores _ _ _ _ Hst) as [[b' [v' [H1 H2]]]|[H1 H2]].
    + destruct (stores_fun _ _ _ _ _ _ Hs H1) as [-> ->]. rewrite H2. unfold mupd. destruct (a =? b'); [reflexivity|apply IH].
    + exfalso. exact (H1 _ _ Hs).
  - destruct (effect_stores _ _ _ _ Hst) as [[b' [v' [H1 H2]]]|[H1 H2]].
    + exfalso. exact (Hs _ _ H1).
    + rewrite H2. apply IH.
Qed.

Lemma history_run : forall F p n S T, isa_run F p n S T -> forall S0 l, history F p S0 l S -> exists l', history F p S0 l' T.
Proof.
  induction 1 as [S|n S T U Hst Hr IH]; intros S0 l Hh; [eauto|].
  destruct (effect_stores _ _ _ _ (match Hst with isa_intro _ _ _ _ _ H => H end)) as [[a [v [H1 _]]]|[H1 _]].
  - apply (IH S0 ((a, v) :: l)). eapply hi_store; eauto.
  - apply (IH S0 l). eapply hi_other; eauto.
Qed.

(** At which place of its operand list an instruction has a value that may come
    from memory. *)
Inductive source : instr -> nat -> operand -> Prop :=
| sc_mov : forall r o, source (IMov (OReg r) o) 0 o
| sc_fmov : forall n o, source (IMov (OFReg n) o) 0 o
| sc_bin : forall op d r o b, source (IBin op d r o b) 1 o
| sc_fbin : forall op f o, source (IFBin op f o) 1 o
| sc_cmp : forall r o, source (ICmp r o) 1 o
| sc_fcmp : forall f o, source (IFcmp f o) 1 o
| sc_push : forall o, source (IPush o) 0 o
| sc_fpush : forall o, source (IFpush o) 0 o
| sc_pop : forall r, source (IPop r) 0 (OMemReg SP)
| sc_fpop : forall f, source (IFpop f) 0 (OMemReg SP)
| sc_ret : source IRet 0 (OMemReg SP)
| sc_jmp : forall o, source (IJmp o) 0 o
| sc_jcc : forall c o, source (IJcc c o) 0 o
| sc_loop : forall r o, source (ILoop r o) 1 o
| sc_call : forall o, source (ICall o) 0 o.

Lemma evs_nth : forall E S os vs, evs E S os = Some (vs, false) -> forall k o, nth_error os k = Some o ->
  exists v, nth_error vs k = Some v /\ ev 4 E S o = Some (v, false).
Proof.
  induction os as [|x os IH]; intros vs H k o Hk; [destruct k; discriminate|].
  apply evs_cons in H. destruct H as [v [ws [-> [H1 H2]]]]. destruct k as [|k]; cbn [nth_error] in *.
  - injection Hk as <-. eauto.
  - eauto.
Qed.

Lemma op_vals_nth : forall os vs, op_vals os = Some vs -> forall k o, nth_error os k = Some o -> op_val o = nth_error vs k.
Proof.
  induction os as [|x os IH]; intros vs H k o Hk; [destruct k; discriminate|]. cbn [op_vals] in H.
  destruct (op_val x) as [v|] eqn:Hx; [|discriminate]. destruct (op_vals os) as [ws|]; [|discriminate]. injection H as <-.
  destruct k as [|k]; cbn [nth_error] in *; [congruence|]. eauto.
Qed.

Lemma source_operand : forall i k o os, source i k o -> operands i = Some os -> nth_error os k = Some o.
Proof. intros i k o os H Ho. destruct H; cbn [operands] in Ho; injection Ho as <-; reflexivity. Qed.

Lemma source_typed : forall i k o, source i k o -> typed_instr i -> typed_operand o.
Proof. intros i k o H T. destruct H; cbn [typed_instr] in T; tauto || exact I. Qed.

(** After any number of ticks memory holds the latest value stored into each cell by
    the sequential execution of some number of instructions. The instruction that
    is next in that execution, if it is in the reservation station and has its
    operands, got from memory the latest value stored, although stores before it
    may have been pending when it read, and stores after it may have been executed
    already. *)
Theorem C16_latest_store : forall E g p data input c0 n c,
  started E g p data input c0 -> ticks E n c0 = Ok c ->
  exists l S, history (e_fops E) p (isa_boot (g_ram g) data input) l S /\
    (forall a, ram_get (c_ram c) a = recall l (a_mem (isa_boot (g_ram g) data input)) a) /\
    forall e es k o v, c_rs c = e :: es -> e_state e <> Preparing -> e_exn e = false ->
      source (e_ins e) k o -> nth_error (e_ops e) k = Some (OImm v) ->
      instr_at p (a_pc S) = e_ins e /\ opnd S o v /\
      forall z, inside S o z -> Some v = recall l (a_mem (isa_boot (g_ram g) data input)) (address z).
Proof.
  intros E g p data input c0 n c [Hip Hty Hb] Ht.
  destruct (boot_reached E g p data input c0 n c (keeps_valid _ Hip) Hb Ht) as [k [A' [R [Hp Hg]]]].
  destruct R as [R1 R2 R3 R4 R5 R6 R7]. rewrite Hp in R1.
  pose proof (boot_wordy _ _ _ _ _ Hty) as W. destruct Hty as [T1 T2 T3 T4 T5].
  change (PipeBoot.arch_boot g data input) with (isa_boot (g_ram g) data input) in *.
  destruct (io_isa_run _ _ _ _ _ (keeps_valid _ Hip) T2 T1 R1 W) as [H1 W'].
  destruct (history_run _ _ _ _ _ H1 _ _ (hi_start _ _ _)) as [l Hl].
  exists l, A'. split; [exact Hl|].
  destruct R2 as [I1 [I2 [I3 [den [role [Jp Je Jr Jw Jm Ja Jl Jo Ji]]]]]].
  split. { intros a. rewrite <- (history_mem _ _ _ _ _ Hl). now rewrite (ra_mem _ _ _ Jm). }
  intros e es k' o v Hrs Hst Hx Hso Hv.
  destruct (Je [] e es Hrs) as [He [os [Hos [_ Hk]]]]. cbn [sfold fold_left] in He, Hk.
  rewrite R4, Hp, prog_at_instr in He by apply W'.
  assert (Hins : instr_at p (a_pc A') = e_ins e) by (now symmetry).
  assert (Hty : typed_instr (e_ins e)) by (rewrite He; now apply typed_at).
  assert (Hev : exists vs ws, evs E A' os = Some (vs, false) /\ op_vals (e_ops e) = Some (vs ++ ws)).
  { rewrite Hx in Hk. destruct (e_state e); [congruence| | |].
    - destruct Hk as [vs [K1 K2]]. exists vs, []. now rewrite app_nil_r.
    - destruct Hk as [vs [K1 K2]]. exists vs, []. now rewrite app_nil_r.
    - destruct Hk as [vs [ws [acts [K1 [_ [_ K2]]]]]]. eauto. }
  destruct Hev as [vs [ws [E1 E2]]].
  destruct (evs_nth _ _ _ _ E1 _ _ (source_operand _ _ _ _ Hso Hos)) as [w [N1 N2]].
  pose proof (op_vals_nth _ _ E2 _ _ Hv) as N3. cbn [op_val] in N3.
  rewrite nth_error_app1 in N3 by (apply nth_error_Some; congruence). rewrite N1 in N3. injection N3 as <-.
  destruct (ev_spec _ _ _ _ W' (source_typed _ _ _ Hso Hty) N2) as [O1 _].
  split; [exact Hins|]. split; [exact O1|].
  intros z Hz. rewrite <- (history_mem _ _ _ _ _ Hl).
  assert (G : forall x, opnd A' o x -> inside A' o z -> Some x = a_mem A' (address z)).
  { clear. intros x Hx Hz. destruct Hx; try (inversion Hz; fail). now rewrite (inside_fun _ _ _ _ Hz H). }
  auto.
Qed.

(** ---- the hypotheses can be met ---- *)

(** SINGLESTEP, then ticks until the VM stops. *)
Fixpoint tick_on (E : env) (G : cfg) (n : nat) (h : host) : option host :=
  match h with
  | At _ _ => Some h
  | Going _ _ => match n with
                 | O => None
                 | S n' => match os_event E G true ETick h with Some (Ok h1) => tick_on E G n' h1 | _ => None end
                 end
  | Ended _ _ => None
  end.

Definition step_fun (E : env) (G : cfg) (h : host) : option host :=
  match os_event E G true (ECmd CSingleStep) h with
  | Some (Ok h1) => match tick_on E G 40 h1 with
                    | Some (At RCpuError _) => None
                    | o => o
                    end
  | _ => None
  end.

Lemma tick_on_session : forall E G n h h', tick_on E G n h = Some h' ->
  (exists m, psession E G true (repeat ETick m) h h') /\ exists r c, h' = At r c.
Proof.
  induction n as [|n IH]; intros h h' H; destruct h as [r c|b c|b c]; cbn [tick_on] in H; try discriminate;
    try (injection H as <-; split; [exists 0%nat; constructor|eauto]).
  destruct (os_event E G true ETick (Going b c)) as [[h1| |]|] eqn:He; try discriminate.
  destruct (IH _ _ H) as [[m Hm] Hat]. split; [|exact Hat]. exists (S m). cbn [repeat]. econstructor; [|exact He|exact Hm].
  exact I.
Qed.

Lemma cmds_ticks : forall m, cmds (repeat ETick m) = [].
Proof. induction m; auto. Qed.

Lemma step_fun_step : forall E G h h', step_fun E G h = Some h' -> (exists r c, h = At r c) -> step1 E G h h'.
Proof.
  intros E G h h' H [r [c ->]]. unfold step_fun in H.
  destruct (os_event E G true (ECmd CSingleStep) (At r c)) as [[h1| |]|] eqn:He; try discriminate.
  destruct (tick_on E G 40 h1) as [h2|] eqn:Ht; [|discriminate].
  destruct (tick_on_session _ _ _ _ _ Ht) as [[m Hm] [r2 [c2 ->]]].
  assert (Hh : r2 <> RCpuError /\ h' = At r2 c2).
  { destruct r2; try discriminate; injection H as <-; split; congruence. }
  destruct Hh as [Hr ->]. exists (ECmd CSingleStep :: repeat ETick m), r2, c2.
  split; [cbn [cmds]; now rewrite cmds_ticks|]. split; [|auto]. econstructor; [exact I|exact He|exact Hm].
Qed.

(** The stop after [n] single steps. *)
Fixpoint after (E : env) (G : cfg) (n : nat) (h : host) : host :=
  match n with
  | O => h
  | S n' => match step_fun E G (after E G n' h) with Some h' => h' | None => Ended false (host_cpu h) end
  end.

Definition alive (h : host) : bool := match h with At RCpuError _ => false | At _ _ => true | _ => false end.

Lemma after_step : forall E G n h, alive (after E G n h) = true -> alive (after E G (S n) h) = true ->
  step1 E G (after E G n h) (after E G (S n) h).
Proof.
  intros E G n h H1 H2. cbn [after] in *. destruct (step_fun E G (after E G n h)) as [h'|] eqn:Hs; [|discriminate].
  apply step_fun_step; [exact Hs|]. destruct (after E G n h) as [r c| |]; try discriminate. eauto.
Qed.

Lemma psession_app : forall E G dbg xs h h1, psession E G dbg xs h h1 -> forall ys h2, psession E G dbg ys h1 h2 ->
  psession E G dbg (xs ++ ys) h h2.
Proof. induction 1; intros ys h3 H3; [exact H3|]. cbn [app]. econstructor; eauto. Qed.

Lemma cmds_app : forall xs ys, cmds (xs ++ ys) = cmds xs ++ cmds ys.
Proof. induction xs as [|[|k] xs IH]; intros ys; cbn [app cmds]; [reflexivity|apply IH|]. now rewrite IH. Qed.

Lemma step_stop : forall E G h h', a_stop E G h -> step1 E G h h' -> a_stop E G h'.
Proof.
  intros E G h h' [g [p [data [input [c0 [xs [r [c [H1 [-> [H3 [H4 H5]]]]]]]]]]]] [ys [r' [c' [G1 [G2 [-> G4]]]]]].
  exists g, p, data, input, c0, (xs ++ ys), r', c'. do 3 (split; [auto|]). split; [eapply psession_app; eauto|].
  rewrite cmds_app, G1. apply Forall_app. split; [exact H5|]. constructor; [exact I|constructor].
Qed.

(** A function that is called with a value on the stack; it pushes and pops. *)
Definition prog_stack : list instr :=
  [ IMov (OReg (R 0)) (OImm 7); IPush (OReg (R 0)); ICall (OImm 5); IPop (R 1); IHalt;
    IPush (OImm 9); IPop (R 2); IMov (OMemRegOff SP (-3)) (OReg (R 2)); ILea (R 3) (OMemRegOff SP (-3));
    IMov (OReg (R 0)) (OMemRegRegScaled (R 3) (R 1) 4); IRet ].

Lemma stack_started : started env0 cfg1 prog_stack [] [] (booted cfg1 prog_stack [] []).
Proof.
  constructor.
  - repeat (constructor; [cbn; discriminate || exact I|]). constructor.
  - constructor; [exact no_floats_typed| | | |].
    + repeat (constructor; [cbn; repeat split; unfold fits, u64_range; lia || exact I|]). constructor.
    + cbn. lia.
    + constructor.
    + constructor.
  - vm_compute. reflexivity.
Qed.

Definition hs (n : nat) : host := after env0 cfg1 n (os_start true (booted cfg1 prog_stack [] [])).

Lemma hs_alive : forallb (fun n => alive (hs n)) (seq 0 12) = true.
Proof. vm_compute. reflexivity. Qed.

Lemma hs_step : forall n, (n < 11)%nat -> step1 env0 cfg1 (hs n) (hs (S n)).
Proof.
  intros n Hn. pose proof hs_alive as H. rewrite forallb_forall in H.
  apply after_step; [apply (H n)|apply (H (S n))]; apply in_seq; lia.
Qed.

Lemma hs_stop : forall n, (n <= 11)%nat -> a_stop env0 cfg1 (hs n).
Proof.
  induction n as [|n IH]; intros Hn.
  - exists cfg1, prog_stack, [], [], (booted cfg1 prog_stack [] []), [], RBegin, (booted cfg1 prog_stack [] []).
    split; [exact stack_started|]. split; [reflexivity|]. split; [discriminate|]. split; [constructor|constructor].
  - eapply step_stop; [apply IH; lia|apply hs_step; lia].
Qed.

(** The instruction the debugger shows at the program counter. *)
Definition here (h : host) : option instr :=
  match reg_of h (LR PC) with Some v => Some (instr_at (c_prog (host_cpu h)) (address v)) | None => None end.

Lemma here_next : forall h i, here h = Some i -> next_is h i.
Proof.
  intros h i H. unfold here in H. destruct (reg_of h (LR PC)) as [v|] eqn:Hv; [|discriminate]. injection H as <-.
  exists v. auto.
Qed.

(** PUSH R0, CALL (with PUSH 9, POP, a store, a load and LEA inside), RET, POP R1. *)
Example C15_case : reg_of (hs 10) (LR (R 1)) = Some 7 /\ sp_of (hs 10) = Some 16 /\
  cell_of (hs 10) 11 = Some 9 /\ reg_of (hs 10) (LR (R 3)) = Some 11 /\ reg_of (hs 10) (LR (R 0)) = Some 9.
Proof.
  assert (Hin : nested env0 cfg1 [14; 15] (hs 3) (hs 8)).
  { eapply (ns_push env0 cfg1 [14; 15] (hs 3) (hs 4) (hs 4) (hs 5) (hs 8) 14).
    - vm_compute; reflexivity.
    - apply (here_next _ (IPush (OImm 9))). vm_compute; reflexivity.
    - left; reflexivity.
    - apply hs_step; lia.
    - apply ns_done.
    - apply (here_next _ (IPop (R 2))). vm_compute; reflexivity.
    - left. eauto.
    - apply hs_step; lia.
    - apply (ns_plain _ _ _ (hs 5) (hs 6)); [apply hs_step; lia|vm_compute; reflexivity| |].
      { intros a [<- | [<- | []]]; vm_compute; reflexivity. }
      apply (ns_plain _ _ _ (hs 6) (hs 7)); [apply hs_step; lia|vm_compute; reflexivity| |].
      { intros a [<- | [<- | []]]; vm_compute; reflexivity. }
      apply (ns_plain _ _ _ (hs 7) (hs 8)); [apply hs_step; lia|vm_compute; reflexivity| |].
      { intros a [<- | [<- | []]]; vm_compute; reflexivity. }
      apply ns_done. }
  assert (Hout : nested env0 cfg1 [15] (hs 2) (hs 9)).
  { eapply (ns_call env0 cfg1 [15] (hs 2) (hs 3) (hs 8) (hs 9) (hs 9) 15).
    - vm_compute; reflexivity.
    - apply (here_next _ (ICall (OImm 5))). vm_compute; reflexivity.
    - apply hs_step; lia.
    - exact Hin.
    - apply here_next. vm_compute; reflexivity.
    - apply hs_step; lia.
    - apply ns_done. }
  assert (S1 : sp_of (hs 1) = Some 16) by (vm_compute; reflexivity).
  assert (S2 : next_is (hs 1) (IPush (OReg (R 0)))) by (apply here_next; vm_compute; reflexivity).
  assert (S3 : value (hs 1) (OReg (R 0)) 7) by (vm_compute; reflexivity).
  assert (S4 : next_is (hs 9) (IPop (R 1))) by (apply here_next; vm_compute; reflexivity).
  assert (S5 : pops (IPop (R 1)) (LR (R 1))) by (left; exists (R 1); split; reflexivity).
  assert (S6 : LR (R 1) <> LR PC) by discriminate.
  assert (S7 : LR (R 1) <> LR SP) by discriminate.
  assert (S8 : reg_of (hs 1) (LR (R 1)) <> None) by (vm_compute; discriminate).
  destruct (C15_push_pop env0 cfg1 (hs 1) (hs 2) (hs 9) (hs 10) 16 (IPush (OReg (R 0))) (OReg (R 0)) 7 (IPop (R 1)) (LR (R 1))
    (hs_stop 1 ltac:(lia)) S1 S2 (or_introl eq_refl) S3 (hs_step 1 ltac:(lia)) Hout S4 S5 (hs_step 9 ltac:(lia)) S6 S7 S8) as [H1 H2].
  split; [exact H1|]. split; [exact H2|]. vm_compute. auto.
Qed.

(** The store of the same program into [SP - 3], and the load of [R3 + R1*4]. *)
Example C14_case : next_is (hs 5) (IMov (OMemRegOff SP (-3)) (OReg (R 2))) /\ bracket (hs 5) (OMemRegOff SP (-3)) 11 /\
  value (hs 5) (OReg (R 2)) 9 /\ cell_of (hs 6) 11 = Some 9.
Proof.
  assert (H1 : next_is (hs 5) (IMov (OMemRegOff SP (-3)) (OReg (R 2)))) by (apply here_next; vm_compute; reflexivity).
  assert (H2 : bracket (hs 5) (OMemRegOff SP (-3)) 11).
  { exists 14. split; [vm_compute; reflexivity|reflexivity]. }
  assert (H3 : value (hs 5) (OReg (R 2)) 9) by (vm_compute; reflexivity).
  do 3 (split; [assumption|]).
  destruct (C14_store env0 cfg1 (hs 5) (hs 6) _ _ 11 9 (hs_stop 5 ltac:(lia)) (hs_step 5 ltac:(lia)) H1 H2 H3) as [H _].
  exact H.
Qed.

(** LEA computes [R + R] with operands[2] of a vector of two elements
    (instruction.cpp:679): undefined behaviour for every program that does it. *)
Definition prog_lea : list instr := [ILea (R 0) (OMemRegReg (R 1) (R 2)); IHalt].

Lemma lea_started : started env0 cfg1 prog_lea [] [] (booted cfg1 prog_lea [] []).
Proof.
  constructor.
  - repeat (constructor; [cbn; discriminate || exact I|]). constructor.
  - constructor; [exact no_floats_typed| | | |].
    + repeat (constructor; [cbn; repeat split; unfold fits, u64_range; lia || exact I|]). constructor.
    + cbn. lia.
    + constructor.
    + constructor.
  - vm_compute. reflexivity.
Qed.

Theorem C14_lea_register_sum_refuted : exists E g p c0 n, started E g p [] [] c0 /\ instr_at p 0 = ILea (R 0) (OMemRegReg (R 1) (R 2)) /\
  ticks E n c0 = Undef UIndex.
Proof.
  exists env0, cfg1, prog_lea, (booted cfg1 prog_lea [] []), 8%nat. split; [exact lea_started|]. split; [reflexivity|].
  vm_compute. reflexivity.
Qed.

(** Two stores to one cell and a load behind them: when the load is the oldest
    instruction in flight it has the second value, 2. *)
Definition prog_hist : list instr :=
  [IMov (OMemImm 5) (OImm 1); INop; INop; INop; INop; INop; INop; IMov (OMemImm 5) (OImm 2); IMov (OReg (R 0)) (OMemImm 5); IHalt].

Lemma hist_started : started env0 cfg2 prog_hist [] [] (booted cfg2 prog_hist [] []).
Proof.
  constructor.
  - repeat (constructor; [cbn; discriminate || exact I|]). constructor.
  - constructor; [exact no_floats_typed| | | |].
    + repeat (constructor; [cbn; repeat split; unfold fits, u64_range; lia || exact I|]). constructor.
    + cbn. lia.
    + constructor.
    + constructor.
  - vm_compute. reflexivity.
Qed.

Definition oldest (r : res cpu cpu) : option (instr * estate * bool * list operand) :=
  match r with Ok c => match c_rs c with e :: _ => Some (e_ins e, e_state e, e_exn e, e_ops e) | [] => None end | _ => None end.

Example C16_case : exists c e es, ticks env0 15 (booted cfg2 prog_hist [] []) = Ok c /\ c_rs c = e :: es /\
  e_state e <> Preparing /\ e_exn e = false /\ source (e_ins e) 0 (OMemImm 5) /\ nth_error (e_ops e) 0 = Some (OImm 2).
Proof.
  assert (H : oldest (ticks env0 15 (booted cfg2 prog_hist [] [])) = Some (IMov (OReg (R 0)) (OMemImm 5), Executing, false, [OImm 2]))
    by (vm_compute; reflexivity).
  unfold oldest in H. destruct (ticks env0 15 (booted cfg2 prog_hist [] [])) as [c| |] eqn:Ht; try discriminate H.
  destruct (c_rs c) as [|e es] eqn:Hc; [discriminate H|]. injection H as H1 H2 H3 H4.
  exists c, e, es. rewrite H1, H2, H3, H4. split; [reflexivity|]. split; [exact Hc|]. split; [discriminate|]. split; [reflexivity|].
  split; [constructor|reflexivity].
Qed.

Print Assumptions C14_load.
Print Assumptions C14_store.
Print Assumptions C14_lea_partial.
Print Assumptions C14_lea_register_sum_refuted.
Print Assumptions C15_push.
Print Assumptions C15_push_pop.
Print Assumptions C15_call_ret.
Print Assumptions C15_nested.
Print Assumptions C16_latest_store.
