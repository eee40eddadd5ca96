(** Changing a stopped program under the debugger: registers, memory and instructions.
    The machine then is at rest in the changed state, and goes on from there. *)
From Coq Require Import Ascii String ZArith NArith List Bool Lia.
From Verif Require Import Base Text PropText PropNet StdMap Isa Alu AluSpec State IsaSpec IsaSame Lexer Asm Show AsmPrint AsmSpec PropAsm Exec Ram Writes Rat Cpu Os DbgText Spaces
  InOrder PipeInv PipeBasics PipeActs PipeMem PipeTick PipeDom PipeRun PipeBoot PipePoke Session IsaRefine DbgSpec Stops PropPipe PropDbg Client Proto PropProto Native PropBreak PropWatch
  LibSpec NatRun NatStop SrcFacts SetReg.
Import ListNotations.
Open Scope Z_scope.

(** ---- specification ---- *)

(** A register gets a value; the program counter is one of them. *)
Definition reg_to (S : arch) (rg : reg) (v : Z) : arch := match rg with PC => jump S v | _ => put S (LR rg) v end.
(** Consecutive cells get values. *)
Fixpoint cells_to (S : arch) (a : Z) (vs : list Z) : arch := match vs with [] => S | v :: vs' => cells_to (store S a v) (a + 1) vs' end.
(** Consecutive instructions are replaced. *)
Fixpoint text_to (p : list instr) (a : Z) (l : list instr) : list instr := match l with [] => p | i :: l' => text_to (set_nth p (Z.to_nat a) i) (a + 1) l' end.
Definition with_state (v : view) (S : arch) : view := mkView (v_marks v) (v_watch v) S (v_left v).

(** ---- registers ---- *)

Lemma reg_to_same : forall A B rg v, same A B -> same (reg_to A rg v) (reg_to B rg v).
Proof.
  intros A B rg v [H1 H2 H3 H4 H5 H6]. destruct (reg_eqb_spec rg PC) as [->|N].
  - constructor; cbn [reg_to jump set_pc a_pc a_reg a_mem a_out a_in a_halted]; auto.
  - assert (E : forall S, reg_to S rg v = put S (LR rg) v) by (intros S; destruct rg; reflexivity || congruence). rewrite !E. constructor; cbn [put a_pc a_reg a_mem a_out a_in a_halted]; auto.
    intros l Hl. unfold upd. destruct (lreg_eqb l (LR rg)); auto.
Qed.
Lemma same_refl : forall A, same A A. Proof. intros A. constructor; auto. Qed.
Lemma same_trans : forall A B C, same A B -> same B C -> same A C.
Proof. intros A B C [] []. constructor; try congruence; intros; rewrite ?s_reg, ?s_mem by assumption; auto. Qed.
Definition reg_is (A : arch) (rg : reg) (v : Z) : Prop := match rg with PC => address v = a_pc A | _ => v = a_reg A (LR rg) end.
Lemma reg_to_is : forall A rg v, reg_is A rg v -> same (reg_to A rg v) A.
Proof.
  intros A rg v H. destruct (reg_eqb_spec rg PC) as [->|N]; [constructor; auto|].
  assert (E : reg_to A rg v = put A (LR rg) v) by (destruct rg; reflexivity || congruence). assert (V : v = a_reg A (LR rg)) by (destruct rg; exact H || congruence). rewrite E. constructor; auto.
  intros l Hl. cbn [put a_reg]. unfold upd. destruct (lreg_eqb_spec l (LR rg)) as [->|Q]; auto.
Qed.
Lemma reg_is_to : forall A rg v, reg_is (reg_to A rg v) rg v.
Proof.
  intros A rg v. destruct (reg_eqb_spec rg PC) as [->|N]; [reflexivity|].
  assert (E : reg_to A rg v = put A (LR rg) v) by (destruct rg; reflexivity || congruence). rewrite E. unfold reg_is. destruct rg; try congruence; cbn [put a_reg]; unfold upd; now rewrite lreg_eqb_refl.
Qed.
Lemma reg_is_other : forall A rg v g x, g <> rg -> reg_is A g x -> reg_is (reg_to A rg v) g x.
Proof.
  intros A rg v g x N H. destruct (reg_eqb_spec rg PC) as [->|Np]; [destruct g; exact H || congruence|].
  assert (E : reg_to A rg v = put A (LR rg) v) by (destruct rg; reflexivity || congruence). rewrite E. destruct (reg_eqb_spec g PC) as [->|Ng]; [exact H|].
  assert (X : x = a_reg A (LR g)) by (destruct g; exact H || congruence). assert (G : a_reg (put A (LR rg) v) (LR g) = a_reg A (LR g)) by (cbn [put a_reg]; unfold upd; rewrite lreg_eqb_neq; congruence).
  destruct g; unfold reg_is; congruence.
Qed.
Lemma reg_is_same : forall A B g x, same A B -> reg_is A g x -> reg_is B g x.
Proof. intros A B g x [H1 H2 _ _ _ _] H. destruct g; unfold reg_is in *; try (rewrite <- H2 by discriminate); congruence. Qed.

Definition regs_to (A : arch) (ps : list (reg * Z)) : arch := fold_left (fun A x => reg_to A (fst x) (snd x)) ps A.
(** Writing all registers back with one changed changes the one. *)
Lemma regs_to_one : forall A rg v ps, (forall g x, In (g, x) ps -> if reg_eqb g rg then x = v else reg_is A g x) -> In (rg, v) ps -> same (regs_to A ps) (reg_to A rg v).
Proof.
  intros A rg v ps H I. assert (G : forall ps B, (forall g x, In (g, x) ps -> if reg_eqb g rg then x = v else reg_is A g x) -> same B A /\ In (rg, v) ps \/ same B (reg_to A rg v) -> same (regs_to B ps) (reg_to A rg v)).
  { clear ps H I. induction ps as [|[g x] ps IH]; intros B H HB; [destruct HB as [[_ []]|HB]; exact HB|]. cbn [regs_to fold_left fst snd]. apply IH; [intros g' x' J; apply H; now right|].
    pose proof (H g x (or_introl eq_refl)) as K. destruct (reg_eqb_spec g rg) as [->|N].
    - subst x. right. destruct HB as [[HB _]|HB]; [now apply reg_to_same|]. eapply same_trans; [apply reg_to_same; exact HB|]. apply reg_to_is, reg_is_to.
    - destruct HB as [[HB J]|HB].
      + left. split; [|destruct J as [J|J]; [congruence|exact J]]. eapply same_trans; [apply reg_to_same; exact HB|]. now apply reg_to_is.
      + right. eapply same_trans; [apply reg_to_same; exact HB|]. apply reg_to_is. now apply reg_is_other. }
  apply G; [exact H|]. left. split; [apply same_refl|exact I].
Qed.

Section U.
Variable U : setup.
Notation E := (u_env U).
Notation F := (e_fops (u_env U)).

Lemma poke_regs : forall r ps c A, rests E A c -> readable c -> Forall (fun x => known_reg U c (fst x) /\ fits (snd x)) ps ->
  exists c', set_registers U (reg_rows ps) (stopped r c) = Done tt (stopped r c') /\ rests E (regs_to A ps) c' /\ keeps c c'.
Proof.
  intros r ps. induction ps as [|[rg v] ps IH]; intros c A HR Rd H.
  - exists c. split; [reflexivity|]. split; [exact HR|constructor; reflexivity].
  - inversion H as [|? ? (K & Fv) H']; subst. cbn [fst snd] in *. destruct (valid_name U c rg K) as [V1 T]. destruct (show_reg_word rg) as (W1 & W2 & _).
    destruct (poke_reg_ok U r c rg v Rd (proj1 K) Fv) as (c1 & E1 & R1 & C1 & S1).
    destruct (cmd_poke E (u_cfg U) r (CPokeRegs rg v) c AOk c1 A HR I E1) as (A1 & P1 & P2 & P3 & P4 & P5).
    destruct P2 as [[[] _]|P2].
    assert (KE : keeps c c1) by (destruct S1; constructor; assumption).
    assert (HA : A1 = reg_to A rg v) by (clear - P2; inversion P2; subst; [reflexivity|destruct rg; reflexivity || congruence]). subst A1.
    destruct (IH c1 (reg_to A rg v) P1 R1) as (c' & I1 & I2 & I3).
    { eapply Forall_impl; [|exact H']. intros [rg' v'] ((K1 & K2) & F'). cbn [fst snd] in *. split; [split; [now rewrite C1|exact K2]|exact F']. }
    exists c'. split; [|split; [exact I2|eapply keeps_trans; eauto]].
    unfold set_registers, set_with. cbn [reg_rows map each fst snd]. unfold then_ at 1. rewrite V1.
    rewrite (command_ok U _ _ _ _ _ (decode_pokeregs_msg _ _ _ _ _ W1 W2 T Fv) E1). exact I1.
Qed.

(** The registers as fetched, one of them changed. *)
Lemma rows_one : forall c m rg v, ordered m -> (forall l, In l (reg_list (c_cfg c)) -> tget m (lreg_name l) = get_lreg c l) ->
  (forall n, tget m n <> None -> exists l, In l (reg_list (c_cfg c)) /\ n = lreg_name l) -> In (LR rg) (reg_list (c_cfg c)) ->
  exists ps, tput m (show_reg rg) v = reg_rows ps /\ In (rg, v) ps /\
    forall g x, In (g, x) ps -> In (LR g) (reg_list (c_cfg c)) /\ (if reg_eqb g rg then x = v else get_lreg c (LR g) = Some x).
Proof.
  intros c m rg v O F1 F2 I. set (m' := tput m (show_reg rg) v).
  assert (OM : distinct m') by (apply ordered_distinct, put_ordered, O).
  assert (GM : forall n, tget m' n = if teqb n (show_reg rg) then Some v else tget m n) by
    (intros n; unfold m'; destruct (teqb n (show_reg rg)) eqn:Q; [apply teqb_eq in Q; subst; apply (mget_put_same teqb tltb teqb_eq)|apply (mget_put_other teqb tltb teqb_eq); intros ->; now rewrite teqb_refl in Q]).
  assert (RM : forall x, In x m' -> exists g, In (LR g) (reg_list (c_cfg c)) /\ fst x = show_reg g /\ (if reg_eqb g rg then snd x = v else get_lreg c (LR g) = Some (snd x))).
  { intros [n x] J. apply (mget_distinct teqb teqb_eq) in J; [|exact OM]. rewrite GM in J. cbn [fst snd].
    destruct (teqb n (show_reg rg)) eqn:Q.
    - apply teqb_eq in Q. exists rg. subst n. destruct (reg_eqb_spec rg rg); [|congruence]. split; [exact I|]. split; [reflexivity|congruence].
    - destruct (F2 n) as (l & Il & ->); [congruence|]. assert (exists g, l = LR g) as [g ->].
      { unfold reg_list in Il. apply in_app_or in Il. destruct Il as [[<-|[<-|[<-|[]]]]|Il]; eauto. apply in_map_iff in Il. destruct Il as (k & <- & _). eauto. }
      exists g. pose proof (F1 _ Il) as J2. cbn [lreg_name] in *. rewrite J2 in J.
      destruct (reg_eqb_spec g rg); [subst; now rewrite teqb_refl in Q|]. auto. }
  assert (PS : exists ps, m' = reg_rows ps /\ forall g x, In (g, x) ps -> In (LR g) (reg_list (c_cfg c)) /\ (if reg_eqb g rg then x = v else get_lreg c (LR g) = Some x)).
  { clear -RM. induction m' as [|x m' IH]; [exists []; split; [reflexivity|intros ? ? []]|]. destruct IH as (ps & -> & P); [intros y J; apply RM; now right|].
    destruct (RM x) as (g & A & B & C); [now left|]. exists ((g, snd x) :: ps). split; [cbn [reg_rows map fst snd]; rewrite <- B; now destruct x|].
    intros g' y [J|J]; [injection J as <- <-; auto|now apply P]. }
  destruct PS as (ps & EP & P). exists ps. split; [exact EP|]. split; [|exact P].
  assert (J : In (show_reg rg, v) m') by (apply (mget_in teqb teqb_eq); rewrite GM; now rewrite teqb_refl).
  rewrite EP in J. apply in_map_iff in J. destruct J as ([g x] & Q1 & Q2). cbn [fst snd] in Q1. injection Q1 as Q1 ->. pose proof (lreg_name_inj (LR g) (LR rg) Q1) as Q3. injection Q3 as ->. exact Q2.
Qed.

(** ---- the library's picture ---- *)

Lemma viewed_keep : forall p v N r c A' c', viewed U p v N r c -> keeps c c' -> rests E A' c' -> wordy A' -> a_halted A' = a_halted (v_state v) ->
  viewed U p (with_state v A') (set_link N (stopped r c')) r c'.
Proof.
  intros p v N r c A' c' [[L1 L2 L3 L4 L5 L6 L7 L8 [(q & Q1 & Q2 & Q3) H2 H3] L10 L11] W1 W2 W3 W4 W5] [K1 K2 K3 K4 K5] HR HW HA. constructor; cbn [with_state v_marks v_watch v_state v_left]; auto.
  - constructor; auto.
    + rewrite K4. exact L5.
    + rewrite K2. exact L6.
    + rewrite K2. exact L7.
    + rewrite K2. exact L8.
    + constructor; auto. exists q. split; [|auto]. cbn [set_link n_link]. f_equal.
      assert (q = c_prog c) as ->.
      { rewrite L1 in Q1. unfold stopped in Q1. injection Q1 as Q1. rewrite Q1. now destruct c. }
      rewrite <- K1. symmetry. apply set_prog_same.
    + unfold covers_regs in *. now rewrite K5.
  - intros a. unfold watching, watched in *. rewrite K2. apply W1.
  - rewrite K3. exact W4.
  - rewrite K3, HA. exact W5.
Qed.

Lemma reg_wordy : forall A rg v, wordy A -> fits v -> wordy (reg_to A rg v).
Proof.
  intros A rg v [W1 W2 W3 W4] Hv. destruct (reg_eqb_spec rg PC) as [->|N].
  - constructor; auto. cbn [reg_to jump set_pc a_pc]. unfold address. apply Z.mod_pos_bound. reflexivity.
  - assert (X : reg_to A rg v = put A (LR rg) v) by (destruct rg; reflexivity || congruence). rewrite X. constructor; auto. intros l Hl. cbn [put a_reg]. unfold upd. destruct (lreg_eqb l (LR rg)); auto.
Qed.

(** A register is set. *)
Lemma view_reg : forall p v N r c rg x u N', viewed U p v N r c -> fits x -> set_register U (show_reg rg) x N = Done u N' ->
  exists c' A', viewed U p (with_state v A') N' r c' /\ same A' (reg_to (v_state v) rg x).
Proof.
  intros p v N r c rg x u N' V Fx H. pose proof (vw_rested _ _ _ _ _ _ V) as RS. pose proof (rs_link _ _ _ _ _ _ _ RS) as L. pose proof (rs_rests _ _ _ _ _ _ _ RS) as HR. pose proof (rs_wordy _ _ _ _ _ _ _ RS) as W.
  pose proof (rs_regs _ _ _ _ _ _ _ RS) as K. unfold set_register, then_ in H. destruct (proc (fetch_registers U) N) as [m N1| | |] eqn:Hf; try discriminate.
  destruct (proc_fetch U _ _ _ _ _ L Hf) as [Hm Hfit]. pose proof (rests_readable U _ c HR W Hfit) as Rd. destruct (C33_fetch_registers U r c Rd) as (m1 & E1 & F1 & F2).
  rewrite E1 in Hm. assert (m = m1) as -> by congruence. pose proof (fetch_ordered _ _ _ _ _ _ E1) as O.
  assert (N1 = N) as ->. { unfold proc in Hf. rewrite L, E1 in Hf. assert (N1 = set_link N (stopped r c)) as -> by congruence. rewrite <- L. apply set_link_same. }
  destruct (tget m1 (show_reg rg)) as [w|] eqn:G; [|discriminate].
  assert (I : In (LR rg) (reg_list (c_cfg c))).
  { destruct (F2 (show_reg rg)) as (l & I & Q); [congruence|]. change (show_reg rg) with (lreg_name (LR rg)) in Q. apply lreg_name_inj in Q. now subst. }
  destruct (rows_one c m1 rg x O F1 F2 I) as (ps & Ep & Ip & P). rewrite Ep in H.
  destruct (poke_regs r ps c (v_state v) HR Rd) as (c' & S1 & S2 & S3).
  { apply Forall_forall. intros [g y] J. destruct (P g y J) as [P1 P2]. cbn [fst snd]. split; [now apply listed_known|]. destruct (reg_eqb g rg); [congruence|].
    destruct (rd_reg c Rd (LR g) (listed_ok _ _ (or_introl P1))) as (z & Z & Fz). congruence. }
  unfold proc in H. rewrite L, S1 in H. assert (N' = set_link N (stopped r c')) as -> by congruence.
  assert (SM : same (regs_to (v_state v) ps) (reg_to (v_state v) rg x)).
  { apply regs_to_one; [|exact Ip]. intros g y J. destruct (P g y J) as [P1 P2]. destruct (reg_eqb g rg); [exact P2|]. destruct (reg_eqb_spec g PC) as [->|Ng].
    - apply (rests_pc U _ _ _ HR P2).
    - rewrite (sh_reg _ _ (rests_shows _ _ _ HR)) in P2; [|apply listed_ok; now left|congruence]. injection P2 as <-. destruct g; reflexivity || congruence. }
  exists c', (regs_to (v_state v) ps). split; [|exact SM]. apply viewed_keep with c; auto.
  - destruct SM as [M1 M2 M3 M4 M5 M6]. destruct (reg_wordy _ rg x W Fx) as [W1 W2 W3 W4]. constructor; intros; rewrite ?M1, ?M2, ?M5 in * by assumption; auto. rewrite M3 in *. eauto.
  - rewrite (s_halted _ _ SM). destruct rg; reflexivity.
Qed.

(** ---- memory ---- *)

Lemma command_inv : forall msg k r c u L', decode (u_stod U) (u_stof U) msg = DCmd k -> (forall a c' n, do_cmd (u_cfg U) r k c = Ok (a, c', n) -> n = Stay /\ a = AOk) ->
  command U msg (stopped r c) = Done u L' -> exists c', do_cmd (u_cfg U) r k c = Ok (AOk, c', Stay) /\ L' = stopped r c'.
Proof.
  intros msg k r c u L' D Hk H. unfold command, then_, ask, stopped in H. cbn [k_host k_told] in H. unfold serve in H. rewrite D in H.
  destruct (do_cmd (u_cfg U) r k c) as [[[a c'] n]| |] eqn:X; [|destruct (u_local U); discriminate|destruct (u_local U); discriminate].
  destruct (Hk _ _ _ eq_refl) as [-> ->]. exists c'. split; [reflexivity|]. cbn [bind] in H. change (teqb (reply_text (u_ftos U) (u_gtos U) AOk) (str "OK")) with true in H. unfold ret in H. unfold stopped. congruence.
Qed.

Lemma poke_cells : forall r l a c A u L', rests E A c -> 0 <= a -> a + Z.of_nat (length l) < 2 ^ 63 -> Forall fits l -> (forall k, (k < length l)%nat -> quiet c (a + Z.of_nat k)) ->
  each (fun x => command U (str "POKEDATA " ++ show_Z (fst x) ++ [SPACE] ++ show_Z (snd x))) (combine (addresses a (length l)) l) (stopped r c) = Done u L' ->
  exists c', L' = stopped r c' /\ rests E (cells_to A a l) c' /\ keeps c c'.
Proof.
  intros r. induction l as [|v l IH]; intros a c A u L' HR A0 A1 Fl Q H.
  - exists c. cbn [addresses length seq map combine each ret] in H. split; [unfold ret in H; congruence|]. split; [exact HR|constructor; reflexivity].
  - inversion Fl as [|? ? Fv Fl']; subst. cbn [length] in *.
    assert (AD : addresses a (S (length l)) = a :: addresses (a + 1) (length l)).
    { unfold addresses. cbn [seq map]. f_equal; [unfold u64, two64; rewrite Z.mod_small; lia|]. rewrite <- seq_shift, map_map. apply map_ext. intros k. f_equal. lia. }
    rewrite AD in H. cbn [combine each] in H. unfold then_ in H. cbn [fst snd] in H.
    destruct (command U (str "POKEDATA " ++ show_Z a ++ [SPACE] ++ show_Z v) (stopped r c)) as [u1 L1| | |] eqn:C; try discriminate.
    destruct (command_inv _ (CPokeData a v) r c u1 L1 (decode_pokedata_msg _ _ a v ltac:(lia) Fv)) as (c1 & D & ->); [|exact C|].
    { intros b c' n X. cbn [do_cmd] in X. apply bind_ok in X. destruct X as (c2 & _ & X). apply Ok_eq in X. injection X as <- _ <-. auto. }
    assert (Qa : quiet c a) by (specialize (Q 0%nat ltac:(lia)); now rewrite Z.add_0_r in Q).
    destruct (cmd_poke E (u_cfg U) r (CPokeData a v) c AOk c1 A HR Qa D) as (A2 & P1 & P2 & P3 & P4 & P5). destruct P2 as [[[] _]|P2]. assert (HA : A2 = store A a v) by (now inversion P2). subst A2.
    cbn [do_cmd] in D. apply bind_ok in D. destruct D as (c2 & D & D2). apply Ok_eq in D2. injection D2 as <-. unfold poke_data in D. destruct (ram_set (c_ram c) a v) as [rm|] eqn:Rm; [|discriminate]. apply Ok_eq in D. subst c2.
    destruct (IH (a + 1) (set_mem c rm (c_wm c)) (store A a v) u L' P1) as (c' & I1 & I2 & I3); try lia; auto.
    { intros k Hk. replace (a + 1 + Z.of_nat k) with (a + Z.of_nat (S k)) by lia. destruct (Q (S k) ltac:(lia)) as [Q1 Q2]. split; [exact Q1|]. cbn [set_mem c_ram].
      unfold ram_set in Rm. destruct (mem_at (ram_mem (c_ram c)) a); [|discriminate]. injection Rm as <-. exact Q2. }
    exists c'. split; [exact I1|]. split; [exact I2|]. eapply keeps_trans; [|exact I3]. constructor; reflexivity.
Qed.
Lemma cells_wordy : forall l a A, wordy A -> Forall fits l -> wordy (cells_to A a l).
Proof.
  induction l as [|v l IH]; intros a A W H; [exact W|]. inversion H as [|? ? H1 H2]; subst. cbn [cells_to]. apply IH; [|exact H2]. destruct W as [W1 W2 W3 W4]. constructor; auto.
  intros b x X. cbn [store a_mem] in X. unfold mupd in X. destruct (b =? a); [congruence|eauto].
Qed.
Lemma cells_halted : forall l a A, a_halted (cells_to A a l) = a_halted A.
Proof. induction l as [|v l IH]; intros a A; [reflexivity|]. cbn [cells_to]. now rewrite IH. Qed.

(** Cells of the memory are set. *)
Lemma view_cells : forall p v N r c a l u N', viewed U p v N r c -> 0 <= a -> a + Z.of_nat (length l) < 2 ^ 63 -> Forall fits l -> (forall k, (k < length l)%nat -> quiet c (a + Z.of_nat k)) ->
  set_memory U a l N = Done u N' -> exists c', viewed U p (with_state v (cells_to (v_state v) a l)) N' r c'.
Proof.
  intros p v N r c a l u N' V A0 A1 Fl Q H. pose proof (vw_rested _ _ _ _ _ _ V) as RS. pose proof (rs_link _ _ _ _ _ _ _ RS) as L. unfold set_memory, proc in H. rewrite L in H.
  destruct (write_memory U a l (stopped r c)) as [u1 L1| | |] eqn:X; try discriminate. unfold write_memory in X. destruct (_ <? _); [discriminate|].
  destruct (poke_cells r l a c (v_state v) u1 L1 (rs_rests _ _ _ _ _ _ _ RS) A0 A1 Fl Q X) as (c' & -> & X2 & X3). assert (N' = set_link N (stopped r c')) as -> by congruence.
  exists c'. apply viewed_keep with c; auto; [apply cells_wordy; [exact (rs_wordy _ _ _ _ _ _ _ RS)|exact Fl]|apply cells_halted].
Qed.

(** ---- instructions ---- *)

Lemma write_two : forall r c p a t l N N1 N2, Z.of_nat (length p) < 2 ^ 63 -> n_link N = stopped r (set_prog c p) -> 0 <= a -> a + 1 + Z.of_nat (length l) <= Z.of_nat (length p) ->
  n_link N1 = stopped r (set_prog c p) \/ (exists q, n_link N1 = stopped r (set_prog c q) /\ length q = length p) ->
  nwrite_text U a [t] N = Done tt N1 -> nwrite_text U (a + 1) l N1 = Done tt N2 -> nwrite_text U a (t :: l) N = Done tt N2.
Proof.
  intros r c p a t l N N1 N2 Hl L A0 A1 L1 H1 H2. assert (L1' : exists q, n_link N1 = stopped r (set_prog c q) /\ length q = length p) by (destruct L1 as [L1|L1]; [now exists p|exact L1]). clear L1. destruct L1' as (q & L1 & Lq).
  assert (Z1 : forall n, 0 <= n -> a + n <= Z.of_nat (length p) -> u64 (a + n) = a + n) by (intros n X Y; unfold u64, two64; rewrite Z.mod_small; lia).
  assert (SZ : forall N q, n_link N = stopped r (set_prog c q) -> length q = length p -> proc (text_size U) N = Done (Z.of_nat (length p)) N).
  { intros N0 q0 X Y. unfold proc. rewrite X, C33_text_size by (cbn [set_prog c_prog]; lia). cbn [set_prog c_prog]. rewrite Y, <- X, set_link_same. reflexivity. }
  unfold nwrite_text in H1. unfold then_ at 1 in H1. rewrite (SZ N p L eq_refl) in H1. cbn [length] in H1. rewrite Z1 in H1 by lia. destruct (Z.ltb_spec (Z.of_nat (length p)) (a + Z.of_nat 1)); [lia|].
  unfold nwrite_text in H2. unfold then_ at 1 in H2. rewrite (SZ N1 q L1 Lq) in H2. rewrite <- Z.add_assoc, Z1 in H2 by lia. destruct (Z.ltb_spec (Z.of_nat (length p)) (a + (1 + Z.of_nat (length l)))); [lia|].
  unfold nwrite_text, then_ at 1. rewrite (SZ N p L eq_refl). cbn [length]. rewrite Z1 by lia. destruct (Z.ltb_spec (Z.of_nat (length p)) (a + Z.of_nat (S (length l)))); [lia|].
  unfold get in H1, H2 |- *. unfold then_ at 1 in H1. unfold then_ at 1 in H2. unfold then_ at 1.
  assert (UN : exists t1 m1, uncover (n_bps N) a [t] = (m1, [t1]) /\ uncover (n_bps N) a (t :: l) = (let (m, l2) := uncover m1 (a + 1) l in (m, t1 :: l2))).
  { cbn [uncover]. rewrite (Z1 1) by lia. destruct (zget (n_bps N) a) as [b|]; eexists _, _; split; reflexivity. }
  destruct UN as (t1 & m1 & U1 & U2). rewrite U1 in H1. rewrite U2. clear U1 U2.
  unfold update, then_ in H1. unfold proc in H1. cbn [set_bps n_link] in H1. destruct (write_text U a [t1] (n_link N)) as [[] La| | |] eqn:Wa; try discriminate.
  assert (N1 = set_link (set_bps N m1) La) as -> by congruence. cbn [set_link set_bps n_bps n_link] in *. destruct (uncover m1 (a + 1) l) as [m2 l2] eqn:U3.
  unfold update, then_, proc in H2 |- *. cbn [set_bps set_link n_link] in *.
  destruct (write_text U (a + 1) l2 La) as [[] Lb| | |] eqn:Wb; try discriminate.
  assert (X : write_text U a (t1 :: l2) (n_link N) = Done tt Lb).
  { unfold write_text in *. cbn [length] in *.
    assert (AD : addresses a (S (length l2)) = u64 (a + Z.of_nat 0) :: addresses (a + 1) (length l2)).
    { unfold addresses. cbn [seq map]. f_equal. rewrite <- seq_shift, map_map. apply map_ext. intros k. f_equal. lia. }
    rewrite AD. unfold addresses at 1 in Wa. cbn [seq map combine each] in Wa |- *. unfold then_ in *. destruct (write_text_1 U (u64 (a + Z.of_nat 0), t1) (n_link N)) as [[] Lc| | |]; try discriminate.
    unfold ret in Wa. assert (Lc = La) as -> by congruence. exact Wb. }
  rewrite X. assert (N2 = set_link (set_bps (set_link (set_bps N m1) La) m2) Lb) as -> by congruence. reflexivity.
Qed.
Lemma write_keeps : forall a l N N', nwrite_text U a l N = Done tt N' -> n_wps N' = n_wps N /\ n_cache N' = n_cache N.
Proof.
  intros a l N N' H. unfold nwrite_text, then_, proc, get, update in H. destruct (text_size U (n_link N)) as [z La| | |]; try discriminate. destruct (_ <? _); [discriminate|].
  destruct (uncover _ _ _) as [m l2]. cbn [set_link set_bps n_link] in H. destruct (write_text U a l2 La) as [[] Lb| | |]; try discriminate.
  assert (N' = set_link (set_bps (set_link N La) m) Lb) as -> by congruence. split; reflexivity.
Qed.
Lemma text_to_length : forall l p a, length (text_to p a l) = length p.
Proof. induction l as [|i l IH]; intros p a; [reflexivity|]. cbn [text_to]. now rewrite IH, set_nth_length. Qed.

(** The lines stand for instructions; no disabled breakpoint is among the places, and under
    an enabled one the text is as the debugger prints it. *)
Definition writable_line (m : marks) (x : Z * (text * instr)) : Prop :=
  let '(a, (t, i)) := x in writes_as U t i /\ match m a with None => True | Some true => t = show_instr (u_ftos U) i | Some false => False end.
Definition places {A} (a : Z) (l : list A) : list (Z * A) := combine (map (fun k => a + Z.of_nat k) (seq 0 (length l))) l.
Lemma places_cons : forall A a (x : A) l, places a (x :: l) = (a, x) :: places (a + 1) l.
Proof. intros A a x l. unfold places. cbn [length seq map combine]. rewrite Z.add_0_r. f_equal. f_equal. rewrite <- seq_shift, map_map. apply map_ext. intros k. lia. Qed.

Lemma lines_hold : forall l r c p m N a, Z.of_nat (length p) < 2 ^ 63 -> holds (exact_text U) r c p m N -> 0 <= a -> a + Z.of_nat (length l) <= Z.of_nat (length p) ->
  Forall (writable_line m) (places a l) -> exists N', nwrite_text U a (map fst l) N = Done tt N' /\ holds (exact_text U) r c (text_to p a (map snd l)) m N'.
Proof.
  induction l as [|[t i] l IH]; intros r c p m N a Hl H A0 A1 W.
  - exists N. split; [|exact H]. destruct H as [(q & L & Lq & P) _ _]. unfold nwrite_text, then_ at 1. unfold proc at 1. rewrite L, C33_text_size by (cbn [set_prog c_prog]; lia). cbn [set_prog c_prog map length].
    rewrite Lq. cbn [length] in A1. replace (u64 (a + Z.of_nat 0)) with a by (unfold u64, two64; rewrite Z.mod_small; lia). destruct (Z.ltb_spec (Z.of_nat (length p)) a); [lia|].
    unfold get, then_ at 1. cbn [uncover]. unfold update, then_, proc, write_text. cbn [set_link set_bps n_link addresses length seq map combine each]. unfold ret. f_equal. rewrite <- L. now destruct N.
  - rewrite places_cons in W. inversion W as [|? ? W0 W3]; subst. destruct W0 as [W1 W2]. cbn [length] in A1. cbn [map fst snd text_to].
    assert (Qw : forall t i, exact_text U t i -> writes_as U t i) by (intros t0 i0 [-> X]; exact X).
    destruct (write_ok U (exact_text U) Qw (fun _ => True) r c p m N a t i Hl H) as (N1 & E1 & H1); [lia|destruct (m a) as [[]|]; congruence || contradiction|exact W1| |].
    { intros X. destruct (m a) as [[]|]; try contradiction. split; [exact W2|]. subst t. exact W1. }
    destruct (IH r c (set_nth p (Z.to_nat a) i) m N1 (a + 1)) as (N2 & E2 & H2); rewrite ?set_nth_length; auto; try lia. exists N2. split; [|exact H2].
    pose proof H as [(q & L & Lq & _) _ _]. pose proof H1 as [(q1 & L1 & Lq1 & _) _ _]. rewrite set_nth_length in Lq1.
    apply (write_two r c q a t (map fst l) N N1 N2); auto; rewrite ?Lq, ?map_length; try lia. right. exists q1. split; [exact L1|congruence].
Qed.

(** What makes a program fit for the debugger (C30): no BKPT of its own, no instruction but
    jumps that changes the program counter, C++ constants, of a sensible length. *)
Record decent (p : list instr) : Prop := mkDecent {
  dc_typed : Forall typed_instr p; dc_ip : Forall IsaSpec.keeps_ip p; dc_len : Z.of_nat (length p) < 2 ^ 63; dc_bkpt : Forall (fun i => i <> IBkpt) p }.
Definition decent_instr (i : instr) : Prop := typed_instr i /\ IsaSpec.keeps_ip i /\ i <> IBkpt.

Lemma Forall_set : forall (P : instr -> Prop) p n i, Forall P p -> P i -> Forall P (set_nth p n i).
Proof. intros P. induction p as [|x p IH]; intros n i H Hi; [exact H|]. inversion H as [|? ? H1 H2]; subst. destruct n as [|n]; cbn [set_nth]; constructor; auto. Qed.
Lemma decent_to : forall l p a, decent p -> Forall decent_instr l -> decent (text_to p a l).
Proof.
  induction l as [|i l IH]; intros p a H Hl; [exact H|]. inversion Hl as [|? ? (D1 & D2 & D3) Hl']; subst. cbn [text_to]. apply IH; [|exact Hl']. destruct H as [H1 H2 H3 H4].
  constructor; try (apply Forall_set; assumption). now rewrite set_nth_length.
Qed.

(** Instructions are replaced. *)
Lemma view_text : forall p v N r c a l, decent p -> viewed U p v N r c -> 0 <= a -> a + Z.of_nat (length l) <= Z.of_nat (length p) ->
  Forall (writable_line (v_marks v)) (places a l) -> Forall decent_instr (map snd l) ->
  exists N' c', nwrite_text U a (map fst l) N = Done tt N' /\ viewed U (text_to p a (map snd l)) v N' r c'.
Proof.
  intros p v N r c a l HD [[L1 L2 L3 L4 L5 L6 L7 L8 L9 L10 L11] W1 W2 W3 W4 W5] A0 A1 W Dl.
  destruct (lines_hold l r c p (v_marks v) N a (dc_len _ HD) L9 A0 A1 W) as (N' & E1 & H1). destruct (write_keeps _ _ _ _ E1) as [K1 K2].
  pose proof (decent_to (map snd l) p a HD Dl) as HD'. set (p' := text_to p a (map snd l)) in *. pose proof H1 as [(q & Q1 & Q2 & Q3) M D].
  exists N', (set_prog c q). split; [exact E1|].
  assert (HR : rests E (v_state v) (set_prog c q)).
  { destruct L3 as [I1 I2 I3]. destruct (poke_prog_inv E (v_state v) c q I1 I2 I3) as (P1 & P2 & P3); [|constructor; assumption].
    assert (Fq : Forall IsaSpec.keeps_ip q).
    { apply Forall_forall. intros i Ii. destruct (at_in q q i Ii) as (b & B1 & <-). rewrite Q2 in B1. rewrite (Q3 b B1). destruct (v_marks v b) as [[]|]; [exact I| |]; (pose proof (dc_ip _ HD') as X; rewrite Forall_forall in X; apply X; eapply in_at; exact B1 || exact q). }
    clear - Fq. unfold valid_prog. eapply Forall_impl; [|exact Fq]. intros i. apply keeps_ip_ok. }
  assert (LI : forall b, listed N' b <-> listed N b) by (intros b; unfold listed; rewrite K1; tauto).
  constructor; auto.
  - constructor; auto; try exact L5; try exact L6; try exact L7; try exact L10.
    + rewrite K1. exact L8.
    + constructor; auto. exists q. split; [rewrite set_prog_set; exact Q1|auto].
    + now rewrite K2.
  - intros b. rewrite LI. apply W1.
  - intros b. rewrite LI. apply W2.
  - now rewrite K1.
Qed.
End U.
