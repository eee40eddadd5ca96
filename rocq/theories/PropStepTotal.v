(** C111: the debugger's single step comes back. *)
From Coq Require Import Ascii String ZArith NArith List Bool Lia.
From Verif Require Import Base Text Alu PropText PropNet StdMap Isa AluSpec State IsaSpec IsaSame Lexer Asm Show AsmPrint AsmSpec PropAsm Exec Ram Writes Rat Cpu Os DbgText Spaces
  InOrder PipeInv PipeBasics PipeActs PipeMem PipeTick PipeDom PipeRun PipePoke Session IsaRefine DbgSpec Stops PropPipe PropDbg Client Proto PropProto Native PropBreak PropWatch LibSpec NatRun NatStop
  LiveSpec PropLive SafeSpec SafeDbgSpec SafeDbg PropSafeDbg PipeFault StepTotal PropStep PropOver PropLineStep.
From Verif Require PropFits.
Import ListNotations.
Open Scope Z_scope.

(** A debugger of a well-formed program: made of C30's and C110's conditions. *)
Record steady (U : setup) (g : cfg) (p : list instr) (data input : list Z) (c0 : cpu) : Prop := mkSteady {
  sd_debuggee : debuggee U g p data input c0;
  sd_wraps : e_mode (u_env U) = Wrap;
  sd_formed : well_formed g p;
  sd_two : (g_rs g <= 2)%nat;
  sd_alus : (1 <= g_alus g)%nat;
  sd_gates : (1 <= g_gates g)%nat;
  sd_simple : Forall loads_or_stores p
}.

(** The library after the calls [ks], over a machine stopped at [c]: its instruction
    pointer is [v], its watchpoints are those of the library, and it has
    come there by commands that name what exists. *)
Record at_hand (U : setup) (fuel : nat) (g : cfg) (p : list instr) (c0 : cpu) (ks : list call) (N : native) (r : reason) (c : cpu) (v : Z) : Prop := mkAtHand {
  ah_calls : exists xs, did_well U fuel ks (connected c0) xs N;
  ah_usable : Forall (usable U p) ks;
  ah_watch : Forall no_over ks \/ Forall no_watch ks;
  ah_link : n_link N = stopped r c;
  ah_more : r <> RHalted;
  ah_ip : get_lreg c (LR PC) = Some v;
  ah_owns : forall i a, watches (c_dbg c) i a -> In (a, i) (n_wps N);
  ah_came : exists xs, psession (u_env U) (u_cfg U) true xs (os_start true c0) (At r c) /\ Forall (SafeDbgSpec.plain g p) (cmds xs)
}.

Lemma plain_typed : forall g p ks, Forall typed_instr p -> Forall (SafeDbgSpec.plain g p) ks -> Forall typed_cmd ks.
Proof.
  intros g p ks Hp H. eapply Forall_impl; [|exact H]. intros k Hk. destruct k; cbn [SafeDbgSpec.plain typed_cmd] in *; try tauto.
  destruct Hk as [_ [->|Hk]]; [exact I|]. eapply Forall_forall; [exact Hp|]. eapply nth_error_In; eauto.
Qed.

Lemma at_hand_viewed : forall U fuel g p data input c0 ks N r c v, steady U g p data input c0 -> at_hand U fuel g p c0 ks N r c v ->
  exists w, viewed U p w N r c /\ a_pc (v_state w) = u64 v /\ pc_fits c /\ owns N c /\ come_to U p g c0 r c.
Proof.
  intros U fuel g p data input c0 ks N r c v [HD S1 S2 S3 S4 S5 S6] [[xs A1] A2 A3 A4 A5 A6 A8 A9]. pose proof HD as [PL [Hip Hty Hb] Hl Hbk R1 R2].
  destruct (calls_ok U fuel PL (ty_fops _ _ _ _ _ Hty) p (ty_prog _ _ _ _ _ Hty) Hip Hl Hbk ks _ _ _ _ xs N (at_start U g p data input c0 HD)) as (w & r1 & c1 & V1 & V2); auto.
  { destruct A3; [now left|right; now split]. }
  pose proof (vw_rested _ _ _ _ _ _ V2) as HR. pose proof (rs_link _ _ _ _ _ _ _ HR) as HL. rewrite A4 in HL. unfold stopped in HL.
  assert (r1 = r /\ c1 = c) as [-> ->] by (split; congruence). exists w. split; [exact V2|]. split; [symmetry; eapply rests_pc; [apply HR|exact A6]|].
  split; [destruct A9 as (ys & Y1 & Y2); exact (PropFits.C112_ip _ _ _ _ _ _ _ _ _ _ (mkStarted _ _ _ _ _ _ Hip Hty Hb) Y1 (plain_typed g p _ (ty_prog _ _ _ _ _ Hty) Y2))|]. split; [|exact A9]. intros i a W. exists a. now apply A8.
Qed.

Lemma goes_wrong_access : forall U p A, wordy A -> Forall typed_instr p -> goes_wrong U p A ->
  exists a, accesses A (instr_at p (a_pc A)) a /\ a_mem A a = None.
Proof.
  intros U p A W T H. eapply faulty_spec; eauto. apply W.
Qed.

(** The step comes back with an event, having executed one instruction of the program; or
    that instruction, as the program has it, accesses a cell outside the memory. *)
Theorem C111_step : forall U fuel g p data input c0 ks N r c v, steady U g p data input c0 -> at_hand U fuel g p c0 ks N r c v -> (90 <= fuel)%nat ->
  exists S, shows c S /\
  ((exists e N' r' c' S', single_step U fuel N = Done e N' /\ steps (e_fops (u_env U)) p (fun a => In a (map fst (n_wps N))) S e S' /\
    n_link N' = stopped r' c' /\ shows c' S') \/
   exists a, accesses S (instr_at p (a_pc S)) a /\ a_mem S a = None).
Proof.
  intros U fuel g p data input c0 ks N r c v HS HA Hf. destruct (at_hand_viewed _ _ _ _ _ _ _ _ _ _ _ _ HS HA) as (w & V & Hpc & H1 & H2 & H3).
  pose proof HS as [HD S1 S2 S3 S4 S5 S6]. pose proof HD as [PL Hst Hl Hbk R1 R2]. pose proof Hst as [Hip Hty Hb].
  pose proof (vw_rested _ _ _ _ _ _ V) as HR. exists (v_state w). split; [exact (rests_shows _ _ _ (rs_rests _ _ _ _ _ _ _ HR))|].
  destruct (single_total U fuel PL (ty_fops _ _ _ _ _ Hty) p (ty_prog _ _ _ _ _ Hty) Hip Hl Hbk g data input c0 Hst S1 S2 S3 S4 S5 S6 Hf _ _ _ _ _ HR (ah_more _ _ _ _ _ _ _ _ _ _ HA) H1 H2 H3) as [(e & N' & G1 & G2)|G]; [left|right].
  2:{ eapply goes_wrong_access; [exact (rs_wordy _ _ _ _ _ _ _ HR)|exact (ty_prog _ _ _ _ _ Hty)|exact G]. }
  destruct (single_ok U fuel PL (ty_fops _ _ _ _ _ Hty) p (ty_prog _ _ _ _ _ Hty) Hip Hl Hbk _ _ _ _ _ _ _ _ HR (vw_watching _ _ _ _ _ _ V) G1) as [[[a ->] _]|(A' & r' & c' & X1 & X2 & _)].
  { exfalso. destruct G2 as [G2|[G2|[b G2]]]; discriminate. }
  exists e, N', r', c', A'. split; [exact G1|]. split; [exact X1|].
  split; [exact (rs_link _ _ _ _ _ _ _ X2)|exact (rests_shows _ _ _ (rs_rests _ _ _ _ _ _ _ X2))].
Qed.

(** Continuing comes back, too: also from a breakpoint, which takes a step. *)
Theorem C111_continue : forall U fuel g p data input c0 ks N r c v, steady U g p data input c0 -> at_hand U fuel g p c0 ks N r c v -> (90 <= fuel)%nat ->
  (exists N', continue_ U fuel N = Done tt N') \/ exists S a, shows c S /\ accesses S (instr_at p (a_pc S)) a /\ a_mem S a = None.
Proof.
  intros U fuel g p data input c0 ks N r c v HS HA Hf. destruct (at_hand_viewed _ _ _ _ _ _ _ _ _ _ _ _ HS HA) as (w & V & Hpc & H1 & H2 & H3).
  pose proof HS as [HD S1 S2 S3 S4 S5 S6]. pose proof HD as [PL Hst Hl Hbk R1 R2]. pose proof Hst as [Hip Hty Hb].
  pose proof (vw_rested _ _ _ _ _ _ V) as HR.
  destruct (continue_total U fuel PL (ty_fops _ _ _ _ _ Hty) p (ty_prog _ _ _ _ _ Hty) Hip Hl Hbk g data input c0 Hst S1 S2 S3 S4 S5 S6 Hf _ _ _ _ _ HR (ah_more _ _ _ _ _ _ _ _ _ _ HA) H1 H2 H3) as [G|G]; [now left|right].
  destruct (goes_wrong_access U p (v_state w)) as (a & G1 & G2); [exact (rs_wordy _ _ _ _ _ _ _ HR)|exact (ty_prog _ _ _ _ _ Hty)|exact G|].
  exists (v_state w), a. split; [exact (rests_shows _ _ _ (rs_rests _ _ _ _ _ _ _ HR))|auto].
Qed.

(** ---- a case ---- *)

(** The program of C81_case, stopped at its start on a breakpoint that the user has set
    there. *)
Definition c81 : cpu := booted cfg1 prog81 [7; 8] [65; 10].
Definition c111 : cpu := set_prog c81 (IBkpt :: tl prog81).
Definition N111 : native := match play_well U1 100 [KBp (OpSet 0)] (connected c81) with Some (_, N) => N | None => connected c81 end.

Lemma steady81 : steady U1 cfg1 prog81 [7; 8] [65; 10] c81.
Proof.
  constructor.
  - destruct (case81 [] (Forall_nil _)) as [H _]. exact H.
  - reflexivity.
  - constructor; [repeat constructor; discriminate| | |vm_compute; reflexivity|repeat constructor].
    + repeat (constructor; [cbn; repeat split; reflexivity || (unfold fits; cbn; lia)|]). constructor.
    + repeat constructor.
  - cbn; lia.
  - cbn; lia.
  - cbn; lia.
  - unfold loads_or_stores. repeat (constructor; [cbn; auto|]). constructor.
Qed.

Lemma usable111 : Forall (usable U1 prog81) [KBp (OpSet 0)].
Proof.
  assert (H : debuggee U1 cfg1 prog81 [7; 8] [65; 10] (booted cfg1 prog81 [7; 8] [65; 10]) /\ Forall (usable U1 prog81) [KBp (OpSet 0)] /\ Forall no_watch [KBp (OpSet 0)]) by case_tac.
  apply H.
Qed.

Lemma came111 : psession (u_env U1) (u_cfg U1) true [ECmd (CPokeText 0 IBkpt)] (os_start true c81) (At RBegin c111).
Proof. econstructor; [exact I|vm_compute; reflexivity|constructor]. Qed.

Example C111_case : steady U1 cfg1 prog81 [7; 8] [65; 10] c81 /\ at_hand U1 100 cfg1 prog81 c81 [KBp (OpSet 0)] N111 RBegin c111 0 /\
  match single_step U1 100 N111 with Done EvSinglestep N' => enabled_at N' 0 = true | _ => False end /\
  match (single_step U1 100;; single_step U1 100) N111 with Done EvSinglestep N' => n_cache N' = None | _ => False end.
Proof.
  split; [exact steady81|]. split; [|split; vm_compute; reflexivity]. constructor.
  - exists [Fine]. apply play_did_well. vm_compute. reflexivity.
  - exact usable111.
  - right. repeat constructor.
  - vm_compute. reflexivity.
  - discriminate.
  - vm_compute. reflexivity.
  - intros i a (Hi & Hb & _). exfalso. assert (H : nth 4 (c_dbg c111) 0 = 0) by (vm_compute; reflexivity). revert Hb. rewrite H. now rewrite Z.bits_0.
  - exists [ECmd (CPokeText 0 IBkpt)]. split; [exact came111|]. constructor; [|constructor]. cbn [SafeDbgSpec.plain]. split; [cbn; lia|now left].
Qed.

Print Assumptions C111_step.
Print Assumptions C111_continue.
