(** The machine starts in the state the invariant describes, and stays there. *)
From Coq Require Import ZArith NArith List Bool Sorted Lia.
From Verif Require Import Base Alu Isa Exec Ram Writes Rat Cpu InOrder PipeInv PipeBasics PipeActs PipeMem
  PipeExec PipePoll PipeRetire PipeAdd PipeTick.
Import ListNotations.
Open Scope Z_scope.

(** Architectural state when a program starts: registers are zero, the stack and
    base pointers are the size of the memory, the memory holds the .data section
    and zeros behind it. *)
Definition arch_boot (g : cfg) (data input : list Z) : arch :=
  mkArch 0
    (fun l => match l with LR SP | LR BP => Z.of_nat (g_ram g) | _ => 0 end)
    (fun a => if (0 <=? a) && (a <? Z.of_nat (g_ram g)) then Some (nth (Z.to_nat a) data 0) else None)
    [] input false.

(** ---- the initial table ---- *)

Lemma rget_app : forall a b l, rget (a ++ b) l = match rget a l with Some p => Some p | None => rget b l end.
Proof.
  induction a as [|[k q] a IH]; intros b l; cbn; [reflexivity|]. destruct (lreg_eqb l k); auto.
Qed.

Lemma rget_seq_R : forall n from ph l p, rget (seq_regs (fun n => LR (R n)) from ph n) l = Some p ->
  exists k, l = LR (R k) /\ (from <= k)%N /\ (N.to_nat k < N.to_nat from + n)%nat /\ p = (ph + (N.to_nat k - N.to_nat from))%nat.
Proof.
  induction n as [|n IH]; intros from ph l p H; cbn [seq_regs rget] in H; [discriminate|].
  revert H. destruct (lreg_eqb_spec l (LR (R from))) as [->|Hne]; intros H.
  - inversion H; subst. exists from. repeat split; lia.
  - apply IH in H. destruct H as [k [H1 [H2 [H3 H4]]]]. exists k. repeat split; auto; lia.
Qed.

Lemma rget_seq_F : forall n from ph l p, rget (seq_regs LF from ph n) l = Some p ->
  exists k, l = LF k /\ (from <= k)%N /\ (N.to_nat k < N.to_nat from + n)%nat /\ p = (ph + (N.to_nat k - N.to_nat from))%nat.
Proof.
  induction n as [|n IH]; intros from ph l p H; cbn [seq_regs rget] in H; [discriminate|].
  revert H. destruct (lreg_eqb_spec l (LF from)) as [->|Hne]; intros H.
  - inversion H; subst. exists from. repeat split; lia.
  - apply IH in H. destruct H as [k [H1 [H2 [H3 H4]]]]. exists k. repeat split; auto; lia.
Qed.

(** the logical register behind a physical one *)
Definition role0 (r f : nat) (p : nat) : lreg :=
  if Nat.ltb p r then LR (R (N.of_nat p))
  else if Nat.ltb p (r + f) then LF (N.of_nat (p - r))
  else if Nat.eqb p (r + f + 1) then LR PC
  else if Nat.eqb p (r + f + 2) then LR SP
  else if Nat.eqb p (r + f + 3) then LR BP
  else LR Flags.

Lemma rat_init_role : forall r f l p, rget (rat_init r f) l = Some p -> role0 r f p = l.
Proof.
  intros r f l p H. unfold rat_init in H. rewrite !rget_app in H.
  destruct (rget (seq_regs (fun n => LR (R n)) 0 0 r) l) as [q|] eqn:H1.
  - inversion H; subst q. apply rget_seq_R in H1. destruct H1 as [k [-> [_ [H2 ->]]]].
    unfold role0. change (N.to_nat 0) with 0%nat in *. rewrite Nat.sub_0_r. cbn [Nat.add] in *.
    destruct (Nat.ltb_spec (N.to_nat k) r); [|lia]. now rewrite N2Nat.id.
  - destruct (rget (seq_regs LF 0 r f) l) as [q|] eqn:H2.
    + inversion H; subst q. apply rget_seq_F in H2. destruct H2 as [k [-> [_ [H3 ->]]]].
      unfold role0. change (N.to_nat 0) with 0%nat in *. rewrite Nat.sub_0_r. cbn [Nat.add] in *.
      destruct (Nat.ltb_spec (r + N.to_nat k) r); [lia|].
      destruct (Nat.ltb_spec (r + N.to_nat k) (r + f)); [|lia].
      replace (r + N.to_nat k - r)%nat with (N.to_nat k) by lia. now rewrite N2Nat.id.
    + cbn [rget] in H. unfold role0.
      repeat match type of H with (if lreg_eqb l ?k then _ else _) = _ =>
        revert H; destruct (lreg_eqb_spec l k) as [->|]; intros H;
        [inversion H; subst p;
         repeat match goal with |- context [Nat.ltb ?a ?b] => destruct (Nat.ltb_spec a b); [lia|] end;
         repeat match goal with |- context [Nat.eqb ?a ?b] => destruct (Nat.eqb_spec a b); try lia end;
         reflexivity|] end.
      discriminate.
Qed.

(** ---- setting the registers ---- *)

Lemma set_lregs_spec : forall vs c c', set_lregs c vs = Ok c' ->
  inj_tab (c_rat c) ->
  exists f', c' = set_regs c f' /\
    (forall p, option_map p_subs (nth_error f' p) = option_map p_subs (nth_error (c_regs c) p)) /\
    (forall l p, rget (c_rat c) l = Some p ->
       (forall v, ~ In (l, v) vs) -> nth_error f' p = nth_error (c_regs c) p) /\
    (forall l p v, rget (c_rat c) l = Some p -> In (l, v) vs -> (forall v', In (l, v') vs -> v' = v) ->
       exists r, nth_error f' p = Some r /\ p_ready r = true /\ p_val r = v).
Proof.
  induction vs as [|[k u] vs IH]; intros c c' H Hinj; cbn [set_lregs] in H.
  - apply Ok_eq in H. subst c'. exists (c_regs c). split; [now destruct c|]. split; [reflexivity|].
    split; [auto|]. intros l p v _ [].
  - apply bind_ok in H. destruct H as [c1 [H1 H]]. unfold set_lreg in H1.
    destruct (rget (c_rat c) k) as [pk|] eqn:Hk; [|discriminate].
    unfold pset in H1. destruct (nth_error (c_regs c) pk) as [rk|] eqn:Hpk; [|discriminate].
    apply Ok_eq in H1. subst c1.
    destruct (IH _ _ H Hinj) as [f' [-> [Hs [Hn Hv]]]]. cbn [set_regs c_regs c_rat] in *.
    exists f'. split; [reflexivity|]. split; [|split].
    + intros p. rewrite Hs. destruct (Nat.eq_dec p pk) as [->|Hne].
      * rewrite (nth_set_nth_same _ _ _ _ _ Hpk), Hpk. reflexivity.
      * now rewrite nth_set_nth_other by auto.
    + intros l p Hl Hni. rewrite (Hn l p Hl).
      * apply nth_set_nth_other. intros ->. assert (l = k) by (eapply Hinj; eauto). subst l.
        apply (Hni u). now left.
      * intros v Hv'. apply (Hni v). now right.
    + intros l p v Hl Hin Hu.
      destruct (in_dec lreg_eq_dec l (map fst vs)) as [Hd|Hd].
      * apply in_map_iff in Hd. destruct Hd as [[l' v'] [Hl' Hin']]. cbn in Hl'. subst l'.
        assert (v' = v) by (apply Hu; now right). subst v'.
        apply (Hv l p v Hl Hin'). intros v'' Hv''. apply Hu. now right.
      * destruct Hin as [Hin|Hin].
        -- inversion Hin; subst l v. assert (p = pk) by congruence. subst p.
           rewrite (Hn k pk Hl).
           ++ rewrite (nth_set_nth_same _ _ _ _ _ Hpk). eexists. split; [reflexivity|]. cbn. auto.
           ++ intros v' Hv'. apply Hd. apply in_map_iff. now exists (k, v').
        -- exfalso. apply Hd. apply in_map_iff. now exists (l, v).
Qed.

Definition init_vals (g : cfg) : list (lreg * Z) :=
  zero_regs (fun n => LR (R n)) 0 (g_reg g) ++ zero_regs LF 0 (g_freg g)
    ++ [(LR PC, 0); (LR Flags, 0); (LR SP, Z.of_nat (g_ram g)); (LR BP, Z.of_nat (g_ram g))].

Lemma zero_regs_in : forall (f : N -> lreg) n from l v, In (l, v) (zero_regs f from n) ->
  v = 0 /\ exists k, l = f k.
Proof.
  induction n as [|n IH]; intros from l v H; cbn in H; [destruct H|].
  destruct H as [H|H]; [inversion H; eauto|eauto].
Qed.

Lemma zero_regs_has : forall (f : N -> lreg) n from k, (from <= k)%N -> (N.to_nat k < N.to_nat from + n)%nat ->
  In (f k, 0) (zero_regs f from n).
Proof.
  induction n as [|n IH]; intros from k H1 H2; cbn; [lia|].
  destruct (N.eq_dec from k) as [->|Hne]; [now left|]. right. apply IH; lia.
Qed.

Lemma init_vals_fun : forall g l v, In (l, v) (init_vals g) ->
  v = match l with LR SP | LR BP => Z.of_nat (g_ram g) | _ => 0 end.
Proof.
  intros g l v H. unfold init_vals in H. apply in_app_or in H. destruct H as [H|H].
  - apply zero_regs_in in H. destruct H as [-> [k ->]]. reflexivity.
  - apply in_app_or in H. destruct H as [H|H].
    + apply zero_regs_in in H. destruct H as [-> [k ->]]. reflexivity.
    + cbn in H. destruct H as [H|[H|[H|[H|[]]]]]; inversion H; reflexivity.
Qed.

Lemma init_vals_all : forall g l p, rget (rat_init (g_reg g) (g_freg g)) l = Some p ->
  In (l, match l with LR SP | LR BP => Z.of_nat (g_ram g) | _ => 0 end) (init_vals g).
Proof.
  intros g l p H. unfold rat_init in H. rewrite !rget_app in H. unfold init_vals.
  destruct (rget (seq_regs (fun n => LR (R n)) 0 0 (g_reg g)) l) as [q|] eqn:H1.
  - apply rget_seq_R in H1. destruct H1 as [k [-> [H2 [H3 _]]]]. apply in_or_app. left.
    now apply (zero_regs_has (fun n => LR (R n))).
  - destruct (rget (seq_regs LF 0 (g_reg g) (g_freg g)) l) as [q|] eqn:H2.
    + apply rget_seq_F in H2. destruct H2 as [k [-> [H3 [H4 _]]]]. apply in_or_app. right. apply in_or_app. left.
      now apply (zero_regs_has LF).
    + cbn [rget] in H. apply in_or_app. right. apply in_or_app. right.
      repeat match type of H with (if lreg_eqb l ?k then _ else _) = _ =>
        revert H; destruct (lreg_eqb_spec l k) as [->|]; intros H; [cbn; tauto|] end.
      discriminate.
Qed.

(** ---- loading the data ---- *)

Lemma load_data_spec : forall data c a c', load_data c a data = Ok c' -> 0 <= a ->
  exists m, c' = set_mem c (mkRam m (ram_reads (c_ram c)) (ram_writes (c_ram c)) (ram_next (c_ram c))) (c_wm c) /\
    forall b, mem_at m b = match mem_at (ram_mem (c_ram c)) b with
                           | None => None
                           | Some v => Some (if a <=? b then nth (Z.to_nat (b - a)) data v else v)
                           end.
Proof.
  induction data as [|v data IH]; intros c a c' H Ha; cbn [load_data] in H.
  - apply Ok_eq in H. subst c'. exists (ram_mem (c_ram c)). split; [destruct c; cbn; now destruct c_ram|].
    intros b. destruct (mem_at (ram_mem (c_ram c)) b); [|reflexivity].
    destruct (a <=? b); [|reflexivity]. now destruct (Z.to_nat (b - a)).
  - unfold ram_set in H. destruct (mem_at (ram_mem (c_ram c)) a) as [old|] eqn:Hat; [|discriminate].
    apply IH in H; [|lia]. destruct H as [m [-> Hm]]. cbn [set_mem c_ram c_wm ram_reads ram_writes ram_next ram_mem] in *.
    exists m. split; [reflexivity|]. intros b. rewrite Hm, mem_at_set by congruence.
    destruct (Z.eqb_spec b a) as [->|Hne].
    + rewrite Hat. rewrite Z.leb_refl, Z.sub_diag. cbn.
      destruct (Z.leb_spec (a + 1) a); [lia|reflexivity].
    + destruct (mem_at (ram_mem (c_ram c)) b) as [x|]; [|reflexivity].
      destruct (Z.leb_spec (a + 1) b), (Z.leb_spec a b); try lia; [|reflexivity].
      replace (Z.to_nat (b - a)) with (Datatypes.S (Z.to_nat (b - (a + 1)))) by lia. reflexivity.
Qed.

Lemma mem_at_repeat : forall n a, mem_at (repeat 0 n) a = if (0 <=? a) && (a <? Z.of_nat n) then Some 0 else None.
Proof.
  intros n a. unfold mem_at. rewrite repeat_length.
  destruct ((0 <=? a) && (a <? Z.of_nat n)) eqn:H; [|reflexivity].
  apply andb_prop in H. destruct H as [H1 H2]. apply Z.leb_le in H1. apply Z.ltb_lt in H2.
  rewrite nth_error_repeat; [reflexivity|lia].
Qed.

Theorem boot_inv : forall E g p data input c, valid_prog p -> boot g p data input = Ok c ->
  Inv E (arch_boot g data input) c /\ at_rest (arch_boot g data input) c /\
  c_prog c = p /\ c_cfg c = g /\ c_trap c = false /\ c_int c = 0 /\ c_dbg c = [0; 0; 0; 0; 0].
Proof.
  intros E g p data input c Hvp H. unfold boot in H. apply bind_ok in H. destruct H as [c0 [H0 H]].
  unfold cpu_init in H0. cbv zeta in H0.
  set (t := rat_init (g_reg g) (g_freg g)) in *.
  set (f0 := repeat (mkPreg 0 false 0) (4 + g_reg g + g_freg g + 7 * g_rs g)) in *.
  destruct (psub_all f0 t) as [f|] eqn:Hf; [|discriminate].
  fold (init_vals g) in H0.
  assert (Hinj : inj_tab t).
  { intros k l q Hk Hl. apply rat_init_role in Hk, Hl. congruence. }
  destruct (set_lregs_spec _ _ _ H0 Hinj) as [f1 [-> [Hs [_ Hv]]]]. clear H0.
  cbn [c_regs c_rat] in Hs, Hv.
  apply load_data_spec in H; [|lia]. destruct H as [m [-> Hm]].
  cbn [set_regs set_mem c_ram c_wm ram_reads ram_writes ram_next ram_mem ram_init] in *.
  set (A := arch_boot g data input).
  pose proof (psub_all_spec _ _ _ Hf) as Hsub.
  assert (Hval : forall l q, rget t l = Some q -> exists r, nth_error f1 q = Some r /\ p_ready r = true /\ p_val r = a_reg A l).
  { intros l q Hl. apply (Hv l q); [exact Hl|eapply init_vals_all; exact Hl|].
    intros v' Hv'. apply init_vals_fun in Hv'. exact Hv'. }
  assert (Hmem : forall a, a_mem A a = mem_at m a).
  { intros a. rewrite Hm, mem_at_repeat. cbn [A arch_boot a_mem].
    destruct ((0 <=? a) && (a <? Z.of_nat (g_ram g))) eqn:Ha; [|reflexivity].
    apply andb_prop in Ha. destruct Ha as [-> _]. now rewrite Z.sub_0_r. }
  assert (HJ : J E (fun q => match nth_error f1 q with Some r => p_val r | None => 0 end) (role0 (g_reg g) (g_freg g)) [] [] A
     (set_mem (set_regs (mkCpu g p 0 None None f [] (g_alus g) t (ram_init (g_ram g)) wm_init [] false false 0 false [0;0;0;0;0] [] input) f1)
       (mkRam m [] [] 0) wm_init)).
  { constructor; cbn [set_mem set_regs c_prog c_rs c_regs c_rat c_wm c_ram c_alus c_cfg c_out c_in].
    - constructor; cbn; auto. split; [lia|]. reflexivity.
    - intros pre e post Hx. destruct pre; discriminate.
    - constructor; try (intros pre e post Hx; destruct pre; discriminate);
        try (intros pre e post x Hx; destruct pre; discriminate).
      + intros l q Hl. split; [eapply rat_init_role; exact Hl|]. intros _.
        destruct (Hval l q Hl) as [r [R1 [R2 R3]]]. rewrite R1. exact R3.
      + intros q r Hq _ _. now rewrite Hq.
      + intros l q _ Hl. left. destruct (Hval l q Hl) as [r [R1 [R2 R3]]]. exists r. auto.
      + intros q r Hq. specialize (Hs q). rewrite Hq in Hs. cbn in Hs. rewrite Hsub in Hs.
        rewrite occ_tables. cbn [entry_tabs flat_map]. rewrite !occ_nil, Nat.add_0_r. cbn [Nat.add].
        destruct (nth_error f0 q) as [r0|] eqn:H0; [|discriminate]. cbn in Hs. inversion Hs as [Hs'].
        apply nth_error_In in H0. apply repeat_spec in H0. subst r0. cbn [p_subs] in Hs'. lia.
    - constructor; cbn; try (intros; contradiction).
      + constructor.
      + intros a. constructor.
      + intros pre e post id Hx. destruct pre; discriminate.
      + intros pre e post Hx. destruct pre; discriminate.
    - constructor; cbn; try (intros; contradiction); try constructor. exact Hmem.
    - cbn. unfold count_alus. cbn. lia.
    - cbn. lia.
    - reflexivity.
    - reflexivity. }
  assert (Hr : at_rest A (set_mem (set_regs (mkCpu g p 0 None None f [] (g_alus g) t (ram_init (g_ram g)) wm_init [] false false 0 false [0;0;0;0;0] [] input) f1)
       (mkRam m [] [] 0) wm_init)).
  { unfold at_rest. cbn [set_mem set_regs c_rs c_decode c_fetch c_pred c_spec c_ram c_out c_in ram_mem].
    do 5 (split; [reflexivity|]). split; [|split; [|split; [intros a; now rewrite <- Hmem|split; reflexivity]]].
    - intros l v _ Hl. unfold get_lreg in Hl. cbn [set_mem set_regs c_rat] in Hl.
      destruct (rget t l) as [q|] eqn:Hq; [|discriminate]. destruct (Hval l q Hq) as [r [R1 [R2 R3]]].
      unfold get_preg in Hl. cbn [set_mem set_regs c_regs] in Hl. rewrite R1 in Hl. cbn in Hl. inversion Hl; subst. exact R3.
    - assert (Hpc : exists q, rget t (LR PC) = Some q).
      { unfold t, rat_init. rewrite !rget_app.
        destruct (rget (seq_regs (fun n => LR (R n)) 0 0 (g_reg g)) (LR PC)); [eauto|].
        destruct (rget (seq_regs LF 0 (g_reg g) (g_freg g)) (LR PC)); [eauto|]. cbn. eauto. }
      destruct Hpc as [q Hq]. destruct (Hval _ _ Hq) as [r [R1 [R2 R3]]]. exists (p_val r).
      split; [|rewrite R3; reflexivity]. unfold get_lreg. cbn [set_mem set_regs c_rat]. rewrite Hq.
      unfold get_preg. cbn [set_mem set_regs c_regs]. now rewrite R1. }
  split; [|split; [exact Hr|repeat split]].
  split; [reflexivity|]. split; [intros _; exact Hr|]. split; [reflexivity|]. eauto.
Qed.
