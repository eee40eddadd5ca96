(** C108, C109: the execution statistics. *)
From Coq Require Import String ZArith NArith List Bool Lia.
From Verif Require Import Base Alu Isa Exec Ram Writes Rat Cpu InOrder LiveSpec IsaSpec IsaRefine PipeInv PipeBasics PipeTick PipeBoot PipeDom PipeRun
  DbgSpec PropPipe Stats StatsProof StatsLife StatsRun StatsSpec.
Import ListNotations.
Open Scope Z_scope.

(** What holds of the log when a program has run to its end. *)
Record logged (E : env) (g : cfg) (p : list instr) (data input : list Z) (c0 : cpu) (n : nat) (x : lcpu) : Prop := mkLogged {
  lg_ticks : length (s_ticks (l_log x)) = n;
  lg_states : Forall2 StatsProof.fits (states E n (fresh c0)) (rev (s_ticks (l_log x)));
  lg_done : forall id, In id (map fst (s_ins (l_log x))) -> finished (hist (s_ticks (l_log x)) id);
  lg_trace : exists S, isa_trace (e_fops E) p (map (fun y => snd (snd y)) (s_ins (l_log x))) (isa_boot (g_ram g) data input) S /\ a_halted S = true
}.

Lemma states_length : forall E n x x', lticks E n x = Ok x' -> length (states E n x) = n.
Proof. intros E. induction n as [|n IH]; intros x x' H; [reflexivity|]. cbn [lticks states] in *. apply bind_ok in H. destruct H as (y & -> & H). cbn. f_equal. eauto. Qed.

Lemma run_logged : forall E g p data input c0 n c, started E g p data input c0 -> ticks E n c0 = Ok c -> c_halted c = true ->
  exists x, lticks E n (fresh c0) = Ok x /\ l_cpu x = c /\ logged E g p data input c0 n x.
Proof.
  intros E g p data input c0 n c [Hip Hty Hb] Ht Hh.
  destruct (boot_inv E _ _ _ _ _ (keeps_valid _ Hip) Hb) as [B1 [B2 [B3 _]]]. pose proof (boot_D _ _ _ _ _ Hb) as BD.
  pose proof (fresh_SInv _ _ B2) as SI.
  destruct (lticks_total E n (fresh c0) [] _ c SI B1 BD Ht) as (x & Hx & Hc). exists x. split; [exact Hx|]. split; [exact Hc|].
  destruct (lticks_ok E n (fresh c0) x [] _ SI B1 BD (fun _ => B2) Hx) as (_ & rn & A' & ts & R1 & R2 & R3 & R4 & R5 & R6).
  cbn [fresh l_log log_reset s_ticks l_cpu app] in *. rewrite app_nil_r in R2. rewrite B3 in R4. destruct R1 as [L F].
  assert (Es : s_ins (l_log x) = rn).
  { destruct (R6 (or_introl (eq_trans (f_equal c_halted Hc) Hh))) as (Q1 & Q2 & Q3 & _). destruct (li_ins _ _ _ L) as (fl & I1 & I2 & I3). rewrite Q1, Q2, Q3 in I3. cbn in I3. apply map_eq_nil in I3. subst fl. now rewrite app_nil_r in I1. }
  constructor.
  - rewrite <- (states_length _ _ _ _ Hx). apply forall2_length in R3. rewrite rev_length in R3. rewrite R2. auto.
  - now rewrite R2.
  - rewrite Es. exact F.
  - pose proof (boot_wordy _ _ _ _ _ Hty) as W. destruct Hty as [T1 T2 T3 T4 T5]. exists A'. rewrite Es. split.
    + apply (io_isa_trace E p _ _ _ (keeps_valid _ Hip) T2 T1 R4 W).
    + destruct R5 as [Q _]. rewrite Q, Hc. exact Hh.
Qed.

Lemma filter_map_length : forall (A B : Type) (f : A -> B) (h : B -> bool) l, length (filter h (map f l)) = length (filter (fun a => h (f a)) l).
Proof. induction l as [|a l IH]; [reflexivity|]. cbn [map filter]. destruct (h (f a)); cbn; congruence. Qed.

(** C108. A program is run to its end with the statistics switched on (docs/t86.md:141-153).
    The processor does what it does without them. The report is produced, it gives the
    number of ticks, and the instructions it counts are exactly those the sequential machine
    executes, in this order: the ones fetched on a wrong guess and thrown away are not
    counted. *)
Theorem C108_counts : forall E g p data input c0 n c,
  started E g p data input c0 -> ticks E n c0 = Ok c -> c_halted c = true ->
  exists x trace S report, lticks E n (fresh c0) = Ok x /\ l_cpu x = c /\
    isa_trace (e_fops E) p trace (isa_boot (g_ram g) data input) S /\ a_halted S = true /\
    map (fun y => snd (snd y)) (s_ins (l_log x)) = trace /\
    basic_stats (l_log x) = Ok report /\
    In ("Total ticks"%string, Count (Z.of_nat n)) report /\
    In ("Total instructions executed"%string, Count (Z.of_nat (length trace))) report /\
    In ("Throughput"%string, Quot (Z.of_nat (length trace)) (Z.of_nat n)) report /\
    In ("Average instruction latency"%string, Quot (Z.of_nat n) (Z.of_nat (length trace))) report.
Proof.
  intros E g p data input c0 n c HS Ht Hh. destruct (run_logged _ _ _ _ _ _ _ _ HS Ht Hh) as (x & Hx & Hc & [G1 G2 G3 (S & G4 & G5)]).
  destruct (life_sum_summed (fun _ => true) _ _ _ G2 G3) as (t & E1 & _).
  exists x, (map (fun y => snd (snd y)) (s_ins (l_log x))), S. eexists. split; [exact Hx|]. split; [exact Hc|]. split; [exact G4|]. split; [exact G5|]. split; [reflexivity|].
  split; [unfold basic_stats; rewrite E1; cbn [bind]; reflexivity|]. rewrite G1, map_length. cbn [app In]. tauto.
Qed.

(** The detailed report says of every kind of instructions how often the sequential machine
    executes them. *)
Theorem C108_kinds : forall E g p data input c0 n x pick,
  started E g p data input c0 -> lticks E n (fresh c0) = Ok x -> c_halted (l_cpu x) = true ->
  exists trace S report, isa_trace (e_fops E) p trace (isa_boot (g_ram g) data input) S /\ a_halted S = true /\
    detailed_stats pick (l_log x) = Ok report /\
    In ("Times executed"%string, Count (Z.of_nat (length (filter pick trace)))) report.
Proof.
  intros E g p data input c0 n x pick HS Hx Hh.
  assert (Ht : ticks E n c0 = Ok (l_cpu x)).
  { destruct HS as [Hip Hty Hb]. destruct (boot_inv E _ _ _ _ _ (keeps_valid _ Hip) Hb) as [B1 [B2 _]].
    apply (lticks_ok E n (fresh c0) x [] _ (fresh_SInv _ _ B2) B1 (boot_D _ _ _ _ _ Hb) (fun _ => B2) Hx). }
  destruct (run_logged _ _ _ _ _ _ _ _ HS Ht Hh) as (y & Hy & Hc & [G1 G2 G3 (S & G4 & G5)]). rewrite Hx in Hy. apply Ok_eq in Hy. subst y.
  destruct (life_sum_summed pick _ _ _ G2 G3) as (t & E1 & _).
  exists (map (fun y => snd (snd y)) (s_ins (l_log x))), S. eexists. split; [exact G4|]. split; [exact G5|].
  split; [unfold detailed_stats; rewrite E1; cbn [bind]; reflexivity|]. rewrite filter_map_length. cbn [averages In]. tauto.
Qed.

(** The average lifetime is that of the instructions executed: the ticks after which an
    instruction is in the pipeline, and the one in which it retires. *)
Theorem C108_lifetimes : forall E g p data input c0 n x pick,
  started E g p data input c0 -> lticks E n (fresh c0) = Ok x -> c_halted (l_cpu x) = true ->
  let xs := states E n (fresh c0) in
  let sum ids := total (fun id => Z.of_nat (times (in_pipe id) xs) + 1) ids in
  length xs = n /\
  (exists report, basic_stats (l_log x) = Ok report /\
     In ("Average instruction lifetime"%string, Quot (u64 (sum (of_kind all (l_log x)))) (Z.of_nat (length (of_kind all (l_log x))))) report) /\
  (exists report, detailed_stats pick (l_log x) = Ok report /\
     In ("Average instruction lifetime"%string, Quot (u64 (sum (of_kind pick (l_log x)))) (Z.of_nat (length (of_kind pick (l_log x))))) report).
Proof.
  intros E g p data input c0 n x pick HS Hx Hh xs sum. split; [eapply states_length; eauto|].
  assert (Ht : ticks E n c0 = Ok (l_cpu x)).
  { destruct HS as [Hip Hty Hb]. destruct (boot_inv E _ _ _ _ _ (keeps_valid _ Hip) Hb) as [B1 [B2 _]].
    apply (lticks_ok E n (fresh c0) x [] _ (fresh_SInv _ _ B2) B1 (boot_D _ _ _ _ _ Hb) (fun _ => B2) Hx). }
  destruct (run_logged _ _ _ _ _ _ _ _ HS Ht Hh) as (y & Hy & Hc & [G1 G2 G3 (S & G4 & G5)]). rewrite Hx in Hy. apply Ok_eq in Hy. subst y.
  split.
  - destruct (life_sum_summed all _ _ _ G2 G3) as (t & E1 & [U1 U2 U3]).
    assert (Ea : filter (fun y : nat * (Z * instr) => all (snd (snd y))) (s_ins (l_log x)) = s_ins (l_log x)) by (generalize (s_ins (l_log x)); intros l; induction l as [|a l IH]; [reflexivity|]; cbn [filter all]; unfold all in *; now rewrite IH).
    eexists. split; [unfold basic_stats; change (fun _ : instr => true) with all; rewrite E1; cbn [bind]; reflexivity|].
    unfold of_kind, sum, xs in *. rewrite Ea in *. rewrite map_length. cbn [averages app In]. rewrite U1. tauto.
  - destruct (life_sum_summed pick _ _ _ G2 G3) as (t & E1 & [U1 U2 U3]).
    eexists. split; [unfold detailed_stats; rewrite E1; cbn [bind]; reflexivity|].
    unfold of_kind, sum, xs in *. rewrite map_length. cbn [averages In]. rewrite U1. tauto.
Qed.

(** C109 (refuted). An instruction stalls in the fetch stage for every tick it spends there
    beyond the first; the report should give the average of these stalls. Whenever two
    instructions or more have been executed it does not: one tick is taken off the sum of all
    instructions instead of one off each. *)
Theorem C109_fetch_stalls_refuted : forall E g p data input c0 n x,
  started E g p data input c0 -> lticks E n (fresh c0) = Ok x -> c_halted (l_cpu x) = true ->
  let ids := of_kind all (l_log x) in
  let xs := states E n (fresh c0) in
  let stalls := total (fun id => Z.of_nat (times (in_fetch id) xs) - 1) ids in
  (2 <= length ids)%nat -> stalls + Z.of_nat (length ids) < 2 ^ 64 ->
  exists report printed, basic_stats (l_log x) = Ok report /\
    In ("Average fetch stalls"%string, Quot printed (Z.of_nat (length ids))) report /\
    (forall printed', In ("Average fetch stalls"%string, printed') report -> printed' = Quot printed (Z.of_nat (length ids))) /\
    printed = stalls + (Z.of_nat (length ids) - 1) /\ printed <> stalls.
Proof.
  intros E g p data input c0 n x HS Hx Hh ids xs stalls H2 Hb.
  assert (Ht : ticks E n c0 = Ok (l_cpu x)).
  { destruct HS as [Hip Hty Hbo]. destruct (boot_inv E _ _ _ _ _ (keeps_valid _ Hip) Hbo) as [B1 [B2 _]].
    apply (lticks_ok E n (fresh c0) x [] _ (fresh_SInv _ _ B2) B1 (boot_D _ _ _ _ _ Hbo) (fun _ => B2) Hx). }
  destruct (run_logged _ _ _ _ _ _ _ _ HS Ht Hh) as (y & Hy & Hc & [G1 G2 G3 (S & G4 & G5)]). rewrite Hx in Hy. apply Ok_eq in Hy. subst y.
  destruct (life_sum_summed all _ _ _ G2 G3) as (t & E1 & [U1 U2 U3]).
  assert (Ea : filter (fun y : nat * (Z * instr) => all (snd (snd y))) (s_ins (l_log x)) = s_ins (l_log x)) by (generalize (s_ins (l_log x)); intros l; induction l as [|a l IH]; [reflexivity|]; cbn [filter all]; unfold all in *; now rewrite IH).
  assert (Hlen : length ids = length (s_ins (l_log x))) by (unfold ids, of_kind; rewrite Ea, map_length; reflexivity).
  assert (Hst : Z.of_nat (lt_fetch t) = stalls + Z.of_nat (length ids)).
  { rewrite U2. unfold stalls. fold (of_kind all (l_log x)). fold ids. fold xs. clear. induction ids as [|a l IH]; [reflexivity|]. unfold total in *. cbn [fold_right length]. rewrite IH. lia. }
  assert (Hnn : 0 <= stalls).
  { assert (Hf : forall id, In id ids -> finished (hist (s_ticks (l_log x)) id)) by (intros id I; apply G3; unfold ids, of_kind in I; now rewrite Ea in I).
    unfold stalls. revert Hf. clear -G2. intros Hf. induction ids as [|a l IH]; [cbn; lia|]. unfold total in *. cbn [fold_right].
    destruct (life_time_summed xs (s_ticks (l_log x)) a G2 (Hf a (or_introl eq_refl))) as (_ & _ & _ & H1). assert (0 <= fold_right (fun id s => Z.of_nat (times (in_fetch id) xs) - 1 + s) 0 l) by (apply IH; intros; apply Hf; now right). lia. }
  assert (Hu : u64 (Z.of_nat (lt_fetch t) - 1) = stalls + (Z.of_nat (length ids) - 1)).
  { unfold u64, two64. change (2 ^ 64) with 18446744073709551616 in *. rewrite Z.mod_small by lia. lia. }
  eexists. exists (stalls + (Z.of_nat (length ids) - 1)). split; [unfold basic_stats; change (fun _ : instr => true) with all; rewrite E1; cbn [bind]; reflexivity|].
  unfold averages. rewrite Hu, Hlen. cbn [app In]. split; [tauto|]. split; [|lia].
  intros f I. repeat (destruct I as [I|I]; [try discriminate; injection I as <-; reflexivity|]). contradiction.
Qed.

(** The same of the stalls in the decode stage. *)
Theorem C109_decode_stalls_refuted : forall E g p data input c0 n x,
  started E g p data input c0 -> lticks E n (fresh c0) = Ok x -> c_halted (l_cpu x) = true ->
  let ids := of_kind all (l_log x) in
  let xs := states E n (fresh c0) in
  let stalls := total (fun id => Z.of_nat (times (in_decode id) xs) - 1) ids in
  (2 <= length ids)%nat -> stalls + Z.of_nat (length ids) < 2 ^ 64 ->
  exists report printed, basic_stats (l_log x) = Ok report /\
    In ("Average decode stalls"%string, Quot printed (Z.of_nat (length ids))) report /\
    (forall printed', In ("Average decode stalls"%string, printed') report -> printed' = Quot printed (Z.of_nat (length ids))) /\
    printed = u64 (stalls + (Z.of_nat (length ids) - 1)) /\ printed <> stalls.
Proof.
  intros E g p data input c0 n x HS Hx Hh ids xs stalls H2 Hb.
  assert (Ht : ticks E n c0 = Ok (l_cpu x)).
  { destruct HS as [Hip Hty Hbo]. destruct (boot_inv E _ _ _ _ _ (keeps_valid _ Hip) Hbo) as [B1 [B2 _]].
    apply (lticks_ok E n (fresh c0) x [] _ (fresh_SInv _ _ B2) B1 (boot_D _ _ _ _ _ Hbo) (fun _ => B2) Hx). }
  destruct (run_logged _ _ _ _ _ _ _ _ HS Ht Hh) as (y & Hy & Hc & [G1 G2 G3 (S & G4 & G5)]). rewrite Hx in Hy. apply Ok_eq in Hy. subst y.
  destruct (life_sum_summed all _ _ _ G2 G3) as (t & E1 & [U1 U2 U3]).
  assert (Ea : filter (fun y : nat * (Z * instr) => all (snd (snd y))) (s_ins (l_log x)) = s_ins (l_log x)) by (generalize (s_ins (l_log x)); intros l; induction l as [|a l IH]; [reflexivity|]; cbn [filter all]; unfold all in *; now rewrite IH).
  assert (Hlen : length ids = length (s_ins (l_log x))) by (unfold ids, of_kind; rewrite Ea, map_length; reflexivity).
  assert (Hst : Z.of_nat (lt_decode t) = stalls + Z.of_nat (length ids)).
  { rewrite U3. unfold stalls. fold (of_kind all (l_log x)). fold ids. fold xs. clear. induction ids as [|a l IH]; [reflexivity|]. unfold total in *. cbn [fold_right length]. rewrite IH. lia. }
  assert (Hu : u64 (Z.of_nat (lt_decode t) - 1) = u64 (stalls + (Z.of_nat (length ids) - 1))) by (f_equal; lia).
  assert (Hne : u64 (stalls + (Z.of_nat (length ids) - 1)) <> stalls).
  { unfold u64, two64. change (2 ^ 64) with 18446744073709551616 in *. pose proof (Z.mod_pos_bound (stalls + (Z.of_nat (length ids) - 1)) 18446744073709551616 eq_refl).
    destruct (Z_lt_le_dec stalls 0); [lia|]. rewrite Z.mod_small by lia. lia. }
  eexists. exists (u64 (stalls + (Z.of_nat (length ids) - 1))). split; [unfold basic_stats; change (fun _ : instr => true) with all; rewrite E1; cbn [bind]; reflexivity|].
  unfold averages. rewrite Hu. rewrite Hlen in *. cbn [app In]. split; [tauto|]. split; [|split; [reflexivity|exact Hne]].
  intros f I. repeat (destruct I as [I|I]; [try discriminate; injection I as <-; reflexivity|]). contradiction.
Qed.

(** The program of PropPipe.v (with a loop, so that wrong guesses are thrown away) runs to
    its end in 43 ticks; 12 instructions are executed, 17 were fetched. *)
Definition run1 (n : nat) : lcpu :=
  match lticks env0 n (fresh (booted cfg1 prog0 [7; 8] [65; 10])) with Ok x => x | _ => fresh (booted cfg1 prog0 [7; 8] [65; 10]) end.
Definition summary (x : lcpu) : bool * nat * nat * nat :=
  (c_halted (l_cpu x), length (s_ticks (l_log x)), length (s_ins (l_log x)), s_next (l_log x)).

Example C108_ex : exists c, started env0 cfg1 prog0 [7; 8] [65; 10] (booted cfg1 prog0 [7; 8] [65; 10]) /\
  ticks env0 43 (booted cfg1 prog0 [7; 8] [65; 10]) = Ok c /\ c_halted c = true.
Proof. exists (l_cpu (run1 43)). split; [exact started1|]. split; vm_compute; reflexivity. Qed.

Example C108_C109_ex : lticks env0 43 (fresh (booted cfg1 prog0 [7; 8] [65; 10])) = Ok (run1 43) /\ summary (run1 43) = (true, 43%nat, 12%nat, 17%nat) /\
  length (of_kind all (l_log (run1 43))) = 12%nat /\
  (* three of them add *)
  length (of_kind (fun i => match i with IBin BADD _ _ _ _ => true | _ => false end) (l_log (run1 43))) = 3%nat /\
  (* they stall in the fetch stage 12 times; the report says 23 *)
  total (fun id => Z.of_nat (times (in_fetch id) (states env0 43 (fresh (booted cfg1 prog0 [7; 8] [65; 10])))) - 1) (of_kind all (l_log (run1 43))) = 12 /\
  total (fun id => Z.of_nat (times (in_decode id) (states env0 43 (fresh (booted cfg1 prog0 [7; 8] [65; 10])))) - 1) (of_kind all (l_log (run1 43))) = 17 /\
  match basic_stats (l_log (run1 43)) with
  | Ok report => In ("Average fetch stalls"%string, Quot 23 12) report /\ In ("Average decode stalls"%string, Quot 28 12) report
  | _ => False
  end.
Proof.
  split; [vm_compute; reflexivity|]. split; [vm_compute; reflexivity|]. split; [vm_compute; reflexivity|]. split; [vm_compute; reflexivity|]. split; [vm_compute; reflexivity|]. split; [vm_compute; reflexivity|].
  vm_compute. tauto.
Qed.

Print Assumptions C108_counts.
Print Assumptions C108_kinds.
Print Assumptions C108_lifetimes.
Print Assumptions C109_fetch_stalls_refuted.
Print Assumptions C109_decode_stalls_refuted.
