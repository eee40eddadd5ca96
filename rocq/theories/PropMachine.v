(** C113, C114: the size of the machine and the configuration. *)
From Coq Require Import Ascii String ZArith NArith List Bool Lia.
From Verif Require Import Base Text PropText Config PropNet Isa Cpu Ram PropMain Machine.
Import ListNotations.
Open Scope Z_scope.

(** On the command line [argv] the number called [k] is to be [n]: an argument gives the
    option the number in decimal, or no argument mentions it and it has its default. *)
Inductive asked (argv : list text) (k : setting) (n : Z) : Prop :=
| as_given : forall x w, In x (tl argv) -> given x (option_name k) w -> w <> [] -> denotes w n -> n < 2 ^ 64 -> asked argv k n
| as_default : (forall x w, In x (tl argv) -> ~ given x (option_name k) w) -> n = default k -> asked argv k n.

Lemma digit_plain : forall c k, digit c = Some k -> is_space c = false /\ Ascii.eqb c (ch 45) = false /\ Ascii.eqb c (ch 43) = false.
Proof.
  intros c k H. unfold digit in H. destruct (_ && _) eqn:B; [|discriminate]. apply andb_prop in B. destruct B as [B1 B2]. apply Z.leb_le in B1, B2.
  split; [|split].
  - unfold is_space. cbv zeta. destruct (N.leb_spec 9 (N_of_ascii c)); destruct (N.leb_spec (N_of_ascii c) 13); destruct (N.eqb_spec (N_of_ascii c) 32); cbn [andb orb]; try reflexivity; lia.
  - apply Ascii.eqb_neq. intros ->. cbn in B1. lia.
  - apply Ascii.eqb_neq. intros ->. cbn in B1. lia.
Qed.

Lemma stoul_digits : forall w n, w <> [] -> denotes w n -> n < 2 ^ 64 -> stoul w = Some n.
Proof.
  intros w n Hne Hw Hn. pose proof (C28_read_unsigned w [] n Hne Hw I) as H. rewrite app_nil_r in H. destruct (Z.ltb_spec n (2 ^ 64)); [|lia].
  destruct w as [|c w]; [congruence|]. destruct (digit c) as [k|] eqn:D; [|exfalso; eapply (denotes_digits _ _ c); eauto; now left].
  destruct (digit_plain _ _ D) as (D1 & D2 & D3). unfold stoul. cbn [strip_front]. rewrite D1, D2, D3. exact H.
Qed.

Lemma option_name_inj : forall k k', option_name k = option_name k' -> k = k'.
Proof. intros [] [] H; try reflexivity; discriminate H. Qed.

Lemma with_default_get : forall a k k', get (with_default a k) (option_name k') =
  match get a (option_name k') with Some v => Some v | None => if teqb (option_name k) (option_name k') then Some (show_Z (default k)) else None end.
Proof.
  intros a k k'. unfold with_default. destruct (C42_default a (option_name k) (show_Z (default k))) as (H1 & H2 & _).
  destruct (teqb (option_name k) (option_name k')) eqn:T.
  - apply teqb_eq in T. rewrite <- T, H1. destruct (get a (option_name k)); reflexivity.
  - rewrite H2; [destruct (get a (option_name k')); reflexivity|]. intros X. rewrite X, teqb_refl in T. discriminate.
Qed.

Lemma with_defaults_get : forall a k, get (with_defaults a) (option_name k) = Some (match get a (option_name k) with Some v => v | None => show_Z (default k) end).
Proof.
  intros a k. unfold with_defaults. cbn [fold_left]. rewrite !with_default_get. destruct (get a (option_name k)); [reflexivity|]. destruct k; reflexivity.
Qed.

Lemma asked_configured : forall argv m k n, parse argv = Some m -> asked argv k n -> configured m k = Some n.
Proof.
  intros argv m k n P H. destruct (C42_values _ _ P) as (V1 & V2 & _). unfold configured. rewrite with_defaults_get.
  destruct H as [x w H1 H2 H3 H4 H5|H1 ->].
  - rewrite (V1 _ _ _ H1 H2). now apply stoul_digits.
  - destruct (get m (option_name k)) as [v|] eqn:Gv.
    + exfalso. destruct (V2 _ _ Gv) as [(x & X1 & X2)|(X & _)]; [exact (H1 _ _ X1 X2)|]. destruct k; discriminate X.
    + destruct k; reflexivity.
Qed.

(** A machine made with the number of its registers, float registers and memory cells
    has these, the ALUs and gates of the configuration and twice as many entries of
    the reservation station as ALUs; where the number of float
    registers or cells is left out, it is that of the configuration. *)
Theorem C113_sizes : forall argv m r f n fregs alus cells gates, parse argv = Some m ->
  asked argv NFregs fregs -> asked argv NAlus alus -> asked argv NRam cells -> asked argv NGates gates ->
  let entries := (2 * alus) mod 2 ^ 64 in
  cpu3 m r f n = Some (mkSizes r f alus entries n gates) /\
  cpu2 m r f = Some (mkSizes r f alus entries cells gates) /\
  cpu1 m r = Some (mkSizes r fregs alus entries cells gates).
Proof.
  intros argv m r f n fregs alus cells gates P Hf Ha Hc Hg. pose proof (fun k n => asked_configured argv m k n P) as C.
  apply C in Hf, Ha, Hc, Hg. unfold cpu1, cpu2, cpu3. rewrite Hf, Hc. cbn [obind]. rewrite Ha. cbn [obind]. rewrite Hg. cbn [obind].
  repeat split; reflexivity.
Qed.

(** A value that does not begin with a number makes the constructors throw. *)
Theorem C113_no_number : forall argv m x v, parse argv = Some m -> In x (tl argv) -> given x (option_name NAlus) v ->
  (forall c w, v = c :: w -> is_space c = false /\ c <> ch 45 /\ c <> ch 43 /\ digit c = None) ->
  forall r f n, cpu3 m r f n = None /\ cpu2 m r f = None /\ cpu1 m r = None /\ cpu0 m = None.
Proof.
  intros argv m x v P Hx Hv Hb r f n. destruct (C42_values _ _ P) as (V1 & _).
  assert (H : configured m NAlus = None).
  { unfold configured. rewrite with_defaults_get, (V1 _ _ _ Hx Hv). unfold stoul. destruct v as [|c w]; [reflexivity|].
    destruct (Hb c w eq_refl) as (B1 & B2 & B3 & B4). cbn [strip_front]. rewrite B1. apply Ascii.eqb_neq in B2, B3. rewrite B2, B3. unfold svtou64. cbn [number]. now rewrite B4. }
  assert (H3 : forall r f n, cpu3 m r f n = None) by (intros; unfold cpu3; now rewrite H).
  unfold cpu2, cpu1, cpu0. rewrite H3, H. split; [reflexivity|]. split; [destruct (configured m NRam); cbn [obind]; auto|].
  split; [destruct (configured m NFregs), (configured m NRam); cbn [obind]; auto|]. destruct (configured m NRegs); reflexivity.
Qed.

(** C114: the machine made without arguments has as many float registers as ALUs are
    configured and as many memory cells as entries of the reservation station. Unless these
    numbers agree with those configured for the float registers and cells, it is not the
    machine configured. *)
Theorem C114_default_machine_refuted : forall argv m regs fregs alus entries cells gates, parse argv = Some m ->
  asked argv NRegs regs -> asked argv NFregs fregs -> asked argv NAlus alus -> asked argv NEntries entries -> asked argv NRam cells -> asked argv NGates gates ->
  exists z, cpu0 m = Some z /\ z_regs z = regs /\ z_fregs z = alus /\ z_ram z = entries /\
    (fregs <> alus \/ cells <> entries -> z <> mkSizes regs fregs alus entries cells gates).
Proof.
  intros argv m regs fregs alus entries cells gates P Hr Hf Ha He Hc Hg. pose proof (fun k n => asked_configured argv m k n P) as C. apply C in Hr, Hf, Ha, He, Hc, Hg.
  unfold cpu0, cpu3. rewrite Hr. cbn [obind]. rewrite Ha. cbn [obind]. rewrite He. cbn [obind]. rewrite Hg. cbn [obind].
  eexists. split; [reflexivity|]. repeat (split; [reflexivity|]). intros H X. injection X as X1 X2 X3. destruct H; congruence.
Qed.

(** So a program whose data would fit into the memory configured cannot be started
    on it when it has more than that many cells. *)
Theorem C114_data_refuted : forall argv m regs alus entries gates p data input, parse argv = Some m ->
  asked argv NRegs regs -> asked argv NAlus alus -> asked argv NEntries entries -> asked argv NGates gates ->
  0 <= entries < Z.of_nat (length data) -> exists z, cpu0 m = Some z /\ forall c, boot (machine z) p data input <> Ok c.
Proof.
  intros argv m regs alus entries gates p data input P Hr Ha He Hg Hd. pose proof (fun k n => asked_configured argv m k n P) as C. apply C in Hr, Ha, He, Hg.
  unfold cpu0, cpu3. rewrite Hr. cbn [obind]. rewrite Ha. cbn [obind]. rewrite He. cbn [obind]. rewrite Hg. cbn [obind].
  eexists. split; [reflexivity|]. intros c H. revert H. apply boot_overflow. cbn [machine g_ram z_ram]. lia.
Qed.

(** Whichever constructor is used, the number of entries configured for the reservation
    station is not its number of entries: that is twice the number of ALUs. *)
Theorem C114_entries_refuted : forall argv m alus entries z, parse argv = Some m -> asked argv NAlus alus -> asked argv NEntries entries ->
  (exists r f n, cpu3 m r f n = Some z \/ cpu2 m r f = Some z \/ cpu1 m r = Some z \/ cpu0 m = Some z) ->
  z_entries z = (2 * alus) mod 2 ^ 64 /\ (entries <> (2 * alus) mod 2 ^ 64 -> z_entries z <> entries).
Proof.
  intros argv m alus entries z P Ha He (r & f & n & H). apply (asked_configured _ _ _ _ P) in Ha.
  assert (H3 : forall r f n, cpu3 m r f n = Some z -> z_entries z = (2 * alus) mod 2 ^ 64).
  { intros r1 f1 n1 X. unfold cpu3 in X. rewrite Ha in X. cbn [obind] in X. destruct (configured m NGates); [|discriminate]. injection X as <-. reflexivity. }
  assert (G : z_entries z = (2 * alus) mod 2 ^ 64); [|split; [exact G|congruence]].
  unfold cpu2, cpu1, cpu0 in H. destruct H as [H|[H|[H|H]]]; [eauto| | |];
    repeat match type of H with obind ?x _ = _ => destruct x; cbn [obind] in H; [|discriminate H] end; eauto.
Qed.

(** ---- cases ---- *)

Definition line113 : list text := [str "vm"; str "-aluCnt=3"; str "-ram=0064"; str "prog.t86"].
Definition line114 : list text := [str "vm"; str "-reservationStationEntriesCnt=9"].

Lemma asked_value : forall argv k x w n, In x (tl argv) -> option_of x = (option_name k, w) -> w <> [] -> denotes w n -> n < 2 ^ 64 -> asked argv k n.
Proof. intros argv k x w n H1 H2 H3 H4 H5. eapply as_given; eauto. pose proof (option_of_given x) as G. now rewrite H2 in G. Qed.
Lemma asked_nothing : forall argv k, forallb (fun x => negb (teqb (fst (option_of x)) (option_name k))) (tl argv) = true -> asked argv k (default k).
Proof.
  intros argv k H. apply as_default; [|reflexivity]. intros x w Hx Hg. rewrite forallb_forall in H. specialize (H x Hx). apply given_option_of in Hg. rewrite Hg in H. cbn [fst] in H.
  rewrite teqb_refl in H. discriminate.
Qed.

Example C113_case :
  asked line113 NFregs 5 /\ asked line113 NAlus 3 /\ asked line113 NRam 64 /\ asked line113 NGates 4 /\
  exists m, parse line113 = Some m /\ cpu3 m 8 4 100 = Some (mkSizes 8 4 3 6 100 4) /\ cpu2 m 8 4 = Some (mkSizes 8 4 3 6 64 4) /\ cpu1 m 8 = Some (mkSizes 8 5 3 6 64 4).
Proof.
  split; [apply (asked_nothing line113 NFregs); reflexivity|].
  split; [apply (asked_value line113 NAlus (str "-aluCnt=3") (str "3")); [now left|reflexivity|discriminate|apply (show_nat_spec 3); lia|lia]|].
  split; [apply (asked_value line113 NRam (str "-ram=0064") (str "0064")); [right; now left|reflexivity|discriminate| |lia]|].
  { change 64 with (10 * (10 * (10 * (10 * 0 + 0) + 0) + 6) + 4). change (str "0064") with (((([] ++ [ch 48]) ++ [ch 48]) ++ [ch 54]) ++ [ch 52]).
    repeat (apply dn_snoc; [|lia|reflexivity]). apply dn_nil. }
  split; [apply (asked_nothing line113 NGates); reflexivity|].
  eexists. split; [vm_compute; reflexivity|]. repeat split; vm_compute; reflexivity.
Qed.

(** Nine entries and otherwise the defaults: the memory has nine cells instead of 1024, the
    station two entries. *)
Example C114_case :
  asked line114 NRegs 10 /\ asked line114 NFregs 5 /\ asked line114 NAlus 1 /\ asked line114 NEntries 9 /\ asked line114 NRam 1024 /\ asked line114 NGates 4 /\
  exists m, parse line114 = Some m /\ cpu0 m = Some (mkSizes 10 1 1 2 9 4).
Proof.
  split; [apply (asked_nothing line114 NRegs); reflexivity|]. split; [apply (asked_nothing line114 NFregs); reflexivity|]. split; [apply (asked_nothing line114 NAlus); reflexivity|].
  split; [apply (asked_value line114 NEntries (str "-reservationStationEntriesCnt=9") (str "9")); [now left|reflexivity|discriminate|apply (show_nat_spec 9); lia|lia]|].
  split; [apply (asked_nothing line114 NRam); reflexivity|]. split; [apply (asked_nothing line114 NGates); reflexivity|].
  eexists. split; [vm_compute; reflexivity|vm_compute; reflexivity].
Qed.

Print Assumptions C113_sizes.
Print Assumptions C113_no_number.
Print Assumptions C114_default_machine_refuted.
Print Assumptions C114_data_refuted.
Print Assumptions C114_entries_refuted.
