(** C17-C19, C21: the debugging interface. *)
From Coq Require Import ZArith NArith List Bool Lia.
From Verif Require Import Base Alu Isa State AluSpec Exec Ram Writes Rat Cpu InOrder PipeInv PipeBasics PipeDom PipeRun
  IsaSpec IsaRefine Os DbgSpec PipePoke Session Stops PropPipe.
Import ListNotations.
Open Scope Z_scope.

(** ---- C17 ---- *)

(** Resumed from any stop, the machine stops again at the first instruction that
    gives cause to (HALT, BKPT, a write to a watched cell) and reports that cause,
    or after one instruction if it is stepping; the debug registers change only
    when a watchpoint is hit, and then name a register that watches the cell. *)
Theorem C17_stop : forall E G g p data input c0 xs r c k ys r' c',
  started E g p data input c0 -> psession E G true xs (os_start true c0) (At r c) -> Forall typed_cmd (cmds xs) ->
  k = CSingleStep \/ k = CContinue -> psession E G true (ECmd k :: ys) (At r c) (At r' c') -> cmds ys = [] -> r' <> RCpuError ->
  exists t S S', shows c S /\ shows c' S' /\ (k = CSingleStep -> t = true) /\
    stop_means (e_fops E) (c_dbg c) (c_dbg c') (c_prog c) t S S' r'.
Proof.
  intros. destruct (stop_sound E G g p data input c0 xs r c k ys r' c') as [t [S [S' [H6 [H7 [H8 [H9 [H10 H11]]]]]]]]; auto.
  exists t, S, S'. auto.
Qed.

Lemma noticed_fun : forall d p S q r, noticed d p S q -> noticed d p S r -> q = r.
Proof.
  intros d p S q r H1 H2. inversion H1 as [A|A|i a A B]; subst; inversion H2 as [A'|A'|i' a' A' B']; subst; try reflexivity;
    try congruence; try (rewrite A in A'; inversion A'); rewrite A' in A; inversion A.
Qed.

(** In particular: a watchpoint is reported if and only if the last instruction
    executed wrote a watched cell. *)
Theorem C17_watchpoint : forall E G g p data input c0 xs r c k ys r' c',
  started E g p data input c0 -> psession E G true xs (os_start true c0) (At r c) -> Forall typed_cmd (cmds xs) ->
  k = CSingleStep \/ k = CContinue -> psession E G true (ECmd k :: ys) (At r c) (At r' c') -> cmds ys = [] -> r' <> RCpuError ->
  exists n S S1 S', shows c S /\ isa_run (e_fops E) (c_prog c) n S S1 /\ isa_step (e_fops E) (c_prog c) S1 S' /\ shows c' S' /\
    (r' = RHwBkpt <-> exists i a, writes_cell S1 (instr_at (c_prog c) (a_pc S1)) a /\ watches (c_dbg c) i a) /\
    (r' = RHwBkpt -> exists a, writes_cell S1 (instr_at (c_prog c) (a_pc S1)) a /\ recorded (c_dbg c) (c_dbg c') a).
Proof.
  intros. destruct (C17_stop E G g p data input c0 xs r c k ys r' c') as [t [S [S' [H6 [H7 [H8 [H9 H10]]]]]]]; auto.
  destruct H9 as [n [S1 [C1 [C2 [C3 [C4 C5]]]]]]. exists n, S, S1, S'. split; [exact H6|]. split.
  { clear - C1. induction C1; [constructor|]. econstructor; eauto. }
  split; [exact C2|]. split; [exact H7|]. split; [|exact C5]. split.
  - intros Hr. destruct (C5 Hr) as [a [Ha [i [Hi _]]]]. eauto.
  - intros [i [a [Ha Hi]]]. assert (Hn : noticed (c_dbg c) (c_prog c) S1 RHwBkpt) by (econstructor; eauto).
    destruct C4 as [C4|[_ [_ C4]]]; [eapply noticed_fun; eauto|]. exfalso. exact (C4 _ Hn).
Qed.

(** The program of PropPipe with debug register 2 watching cell 5. *)
Definition events_watch : list event :=
  [ECmd (CPokeDebugRegs 2 5); ECmd (CPokeDebugRegs 4 4); ECmd CContinue] ++ ticks_of 35.

Definition dbg_of (h : host) : list Z := c_dbg (host_cpu h).

Example C17_case : exists c,
  psession env0 cfg1 true events_watch (os_start true (booted cfg1 prog0 [7; 8] [65; 10])) (At RHwBkpt c) /\
  get_lreg c (LR PC) = Some 5 /\ ram_get (c_ram c) 5 = Some 6 /\ nth 4 (c_dbg c) 0 = 4 + 4 * 256.
Proof.
  set (h := after_pplay (pplay env0 cfg1 true events_watch (os_start true (booted cfg1 prog0 [7; 8] [65; 10])))).
  assert (Hh : pplay env0 cfg1 true events_watch (os_start true (booted cfg1 prog0 [7; 8] [65; 10])) = Some h) by (vm_compute; reflexivity).
  exists (host_cpu h). split; [|vm_compute; repeat split; reflexivity].
  replace (At RHwBkpt _) with h by (vm_compute; reflexivity). now apply pplay_psession.
Qed.

(** ---- C18 ---- *)

(** What the debugger can ask for, and the answer it gets. *)
Inductive place : Type := PMem (a : Z) | PText (i : Z) | PRegister (l : lreg) | PDebug (i : nat).
Inductive content : Type := VWord (v : Z) | VIns (i : instr).

Definition ask (G : cfg) (r : reason) (k : cmd) (c : cpu) : option reply :=
  match do_cmd G r k c with Ok (x, _, _) => Some x | _ => None end.

Definition look_up (l : lreg) (xs : list (lreg * Z)) : option content :=
  match find (fun x => lreg_eqb l (fst x)) xs with Some (_, v) => Some (VWord v) | None => None end.

Definition seen (G : cfg) (r : reason) (c : cpu) (q : place) : option content :=
  match q with
  | PMem a => match ask G r (CPeekData a 1) c with Some (AData [v]) => Some (VWord v) | _ => None end
  | PText i => match ask G r (CPeekText i 1) c with Some (AText [ins]) => Some (VIns ins) | _ => None end
  | PRegister (LR rg) => match ask G r CPeekRegs c with Some (ARegs l) => look_up (LR rg) l | _ => None end
  | PRegister (LF n) => match ask G r CPeekFloatRegs c with Some (ARegs l) => look_up (LF n) l | _ => None end
  | PDebug i => match ask G r CPeekDebugRegs c with Some (ADebugRegs l) => option_map VWord (nth_error l i) | _ => None end
  end.

Inductive pokes_place : cmd -> place -> content -> Prop :=
| pp_mem : forall a v, pokes_place (CPokeData a v) (PMem a) (VWord v)
| pp_text : forall i ins, pokes_place (CPokeText i ins) (PText i) (VIns ins)
| pp_reg : forall r v, pokes_place (CPokeRegs r v) (PRegister (LR r)) (VWord v)
| pp_freg : forall n v, pokes_place (CPokeFloatRegs n v) (PRegister (LF n)) (VWord v)
| pp_dbg : forall i v, pokes_place (CPokeDebugRegs (Z.of_nat i) v) (PDebug i) (VWord v).

Lemma seen_mem : forall G r c a, seen G r c (PMem a) = option_map VWord (ram_get (c_ram c) a).
Proof.
  intros G r c a. unfold seen, ask. cbn [do_cmd range seq map collect]. rewrite Z.add_0_r.
  destruct (ram_get (c_ram c) a); reflexivity.
Qed.

Lemma seen_text : forall G r c i, seen G r c (PText i) = Some (VIns (prog_at (c_prog c) i)).
Proof. intros G r c i. unfold seen, ask. cbn [do_cmd range seq map]. now rewrite Z.add_0_r. Qed.

Lemma seen_dbg : forall G r c i, seen G r c (PDebug i) = option_map VWord (nth_error (c_dbg c) i).
Proof. reflexivity. Qed.

Lemma look_up_shown : forall c L l xs, show_regs c L = Some xs ->
  look_up l xs = if existsb (lreg_eqb l) L then option_map VWord (get_lreg c l) else None.
Proof.
  intros c L l. unfold show_regs. induction L as [|k L IH]; intros xs H; cbn [collect] in H.
  - injection H as <-. reflexivity.
  - destruct (get_lreg c k) as [v|] eqn:Hk; cbn [option_map] in H; [|discriminate].
    destruct (collect _ L) as [ys|]; [|discriminate]. injection H as <-. unfold look_up in *. cbn [find existsb fst].
    destruct (lreg_eqb_spec l k) as [->|Hne]; cbn [orb].
    + now rewrite Hk.
    + now apply IH.
Qed.

Lemma show_some : forall c L, (forall l, In l L -> get_lreg c l <> None) -> exists xs, show_regs c L = Some xs.
Proof.
  intros c L. unfold show_regs. induction L as [|k L IH]; intros H; cbn [collect]; [eauto|].
  destruct (get_lreg c k) as [v|] eqn:Hk; [|exfalso; apply (H k); [now left|exact Hk]].
  destruct IH as [xs Hx]; [intros l Hl; apply H; now right|]. cbn [option_map]. rewrite Hx. eauto.
Qed.

Lemma listed_ok : forall g l, In l (reg_list g) \/ In l (freg_list g) -> lreg_ok g l = true.
Proof.
  intros g l [H|H].
  - unfold reg_list in H. apply in_app_or in H. destruct H as [H|H].
    + destruct H as [<-|[<-|[<-|[]]]]; reflexivity.
    + apply in_map_iff in H. destruct H as [k [<- H]]. apply in_seq in H. cbn. apply N.ltb_lt. lia.
  - unfold freg_list in H. apply in_map_iff in H. destruct H as [k [<- H]]. apply in_seq in H. cbn. apply N.ltb_lt. lia.
Qed.

(** The list of registers in which a register is reported. *)
Definition list_of (g : cfg) (l : lreg) : list lreg := match l with LR _ => reg_list g | LF _ => freg_list g end.

Lemma seen_reg : forall G r c l, (forall k, lreg_ok (c_cfg c) k = true -> get_lreg c k <> None) ->
  seen G r c (PRegister l) = if existsb (lreg_eqb l) (list_of (c_cfg c) l) then option_map VWord (get_lreg c l) else None.
Proof.
  intros G r c l H. destruct l as [rg|n]; unfold seen, ask; cbn [do_cmd list_of].
  - destruct (show_some c (reg_list (c_cfg c))) as [xs Hx]; [intros l Hl; apply H, listed_ok; now left|].
    rewrite Hx. now apply look_up_shown.
  - destruct (show_some c (freg_list (c_cfg c))) as [xs Hx]; [intros l Hl; apply H, listed_ok; now right|].
    rewrite Hx. now apply look_up_shown.
Qed.

Lemma seen_same_regs : forall G r c c1 l, c_cfg c1 = c_cfg c -> (forall k, get_lreg c1 k = get_lreg c k) ->
  seen G r c1 (PRegister l) = seen G r c (PRegister l).
Proof.
  intros G r c c1 l H1 H2.
  assert (Hs : forall L, show_regs c1 L = show_regs c L).
  { intros L. unfold show_regs. induction L as [|k L IH]; [reflexivity|]. cbn [collect]. now rewrite H2, IH. }
  destruct l; unfold seen, ask; cbn [do_cmd]; rewrite H1, Hs; destruct (show_regs c _); reflexivity.
Qed.

Lemma listed : forall g l, lreg_ok g l = true -> l <> LR Flags -> existsb (lreg_eqb l) (list_of g l) = true.
Proof.
  intros g l H Hf. apply existsb_exists. exists l. split; [|destruct (lreg_eqb_spec l l); congruence].
  destruct l as [[n| | | |]|n]; cbn [list_of]; try congruence; try (cbn; tauto).
  - unfold reg_list. apply in_or_app. right. apply in_map_iff. exists (N.to_nat n). split; [now rewrite N2Nat.id|].
    apply in_seq. cbn in H. apply N.ltb_lt in H. lia.
  - unfold freg_list. apply in_map_iff. exists (N.to_nat n). split; [now rewrite N2Nat.id|].
    apply in_seq. cbn in H. apply N.ltb_lt in H. lia.
Qed.

Lemma nth_error_set_nth : forall T (l : list T) n m x,
  nth_error (set_nth l n x) m = if (m =? n)%nat then (if (n <? length l)%nat then Some x else None) else nth_error l m.
Proof.
  induction l as [|y l IH]; intros [|n] [|m] x; cbn [set_nth nth_error Nat.eqb length]; try reflexivity.
  - destruct (m =? n)%nat; reflexivity.
  - rewrite IH. reflexivity.
Qed.

Lemma set_lreg_get : forall E A c l v c', Inv E A c -> set_lreg c l v = Ok c' ->
  forall k, get_lreg c' k = if lreg_eqb k l then Some v else get_lreg c k.
Proof.
  intros E A c l v c' [_ [_ [_ [den [role HJ]]]]] H k. unfold set_lreg in H.
  destruct (rget (c_rat c) l) as [p|] eqn:Hp; [|discriminate]. unfold pset in H.
  destruct (nth_error (c_regs c) p) as [r|] eqn:Hr; [|discriminate]. apply Ok_eq in H. subst c'.
  pose proof (ri_tab _ _ _ _ _ _ _ _ (j_regs _ _ _ _ _ _ _ HJ)) as Ht.
  unfold get_lreg, get_preg. cbn [set_regs c_rat c_regs]. destruct (lreg_eqb_spec k l) as [->|Hne].
  - rewrite Hp, nth_error_set_nth, Nat.eqb_refl. assert (Hl : (p <? length (c_regs c))%nat = true).
    { apply Nat.ltb_lt, nth_error_Some. congruence. } now rewrite Hl.
  - destruct (rget (c_rat c) k) as [q|] eqn:Hq; [|reflexivity]. rewrite nth_error_set_nth.
    destruct (Nat.eqb_spec q p) as [->|Hqp]; [|reflexivity].
    exfalso. apply Hne. destruct (Ht _ _ Hp) as [R1 _], (Ht _ _ Hq) as [R2 _]. congruence.
Qed.

Lemma prog_at_set : forall p i ins j, 0 <= i < Z.of_nat (length p) ->
  prog_at (set_nth p (Z.to_nat i) ins) j = if j =? i then ins else prog_at p j.
Proof.
  intros p i ins j Hi. unfold prog_at. rewrite set_nth_length.
  destruct ((0 <=? j) && (j <? Z.of_nat (length p))) eqn:Hj.
  - apply andb_prop in Hj. destruct Hj as [J1 J2]. apply Z.leb_le in J1. apply Z.ltb_lt in J2.
    destruct (Z.eqb_spec j i) as [->|Hne].
    + apply nth_error_nth. rewrite nth_error_set_nth, Nat.eqb_refl.
      assert (Hl : (Z.to_nat i <? length p)%nat = true) by (apply Nat.ltb_lt; lia). now rewrite Hl.
    + assert (Hn : nth_error (set_nth p (Z.to_nat i) ins) (Z.to_nat j) = nth_error p (Z.to_nat j)).
      { rewrite nth_error_set_nth. destruct (Nat.eqb_spec (Z.to_nat j) (Z.to_nat i)); [lia|reflexivity]. }
      destruct (nth_error p (Z.to_nat j)) as [x|] eqn:Hx; [|apply nth_error_None in Hx; lia].
      rewrite (nth_error_nth _ _ INop Hn), (nth_error_nth _ _ INop Hx). reflexivity.
  - destruct (Z.eqb_spec j i) as [->|Hne]; [|reflexivity].
    destruct (Z.leb_spec 0 i), (Z.ltb_spec i (Z.of_nat (length p))); try discriminate Hj; lia.
Qed.

(** At a stop other than an error: a poke is answered with OK, the value can be
    read back, and every other place is as it was. FLAGS, which can be poked, is the
    only register PEEKREGS does not report. *)
Theorem C18_poke_peek : forall E G g p data input c0 xs r c k q v x c1 n,
  started E g p data input c0 -> psession E G true xs (os_start true c0) (At r c) -> r <> RCpuError ->
  pokes_place k q v -> do_cmd G r k c = Ok (x, c1, n) ->
  x = AOk /\ n = Stay /\ (q <> PRegister (LR Flags) -> seen G r c1 q = Some v) /\
  forall q', q' <> q -> seen G r c1 q' = seen G r c q'.
Proof.
  intros E G g p data input c0 xs r c k q v x c1 n [Hip Hty Hb] Hs Hr Hk H.
  destruct (boot_host E g p data input c0 true (keeps_valid _ Hip) Hb) as [HA _].
  destruct (host_session _ _ _ _ _ _ Hs _ HA) as [A HA']. destruct (HA' Hr) as [[HI HD HR] _].
  assert (Hall : forall k, lreg_ok (c_cfg c) k = true -> get_lreg c k <> None).
  { intros l Hl. destruct (D_reg c l HD Hl) as [w Hw]. congruence. }
  assert (Hregs : forall l u, set_lreg c l u = Ok c1 \/ (l = LR PC /\ exists c2, set_lreg c l u = Ok c2 /\ c1 = set_spec c2 (u64 u)) ->
    c_ram c1 = c_ram c /\ c_prog c1 = c_prog c /\ c_dbg c1 = c_dbg c /\ c_cfg c1 = c_cfg c /\ lreg_ok (c_cfg c) l = true /\
    forall j, get_lreg c1 j = if lreg_eqb j l then Some u else get_lreg c j).
  { intros l u Hl.
    assert (Hx : exists c2, set_lreg c l u = Ok c2 /\ (c1 = c2 \/ c1 = set_spec c2 (u64 u))).
    { destruct Hl as [Hl|[_ [c2 [Hl ->]]]]; eauto. }
    destruct Hx as [c2 [H2 H1]]. pose proof (set_lreg_get _ _ _ _ _ _ HI H2) as Hget.
    assert (Hok : lreg_ok (c_cfg c) l = true).
    { unfold set_lreg in H2. destruct (rget (c_rat c) l) as [pl|] eqn:Hp; [|discriminate].
      destruct HD as [_ [HD _]]. exact (tb_only _ _ HD l pl Hp). }
    destruct (set_lreg_regs _ _ _ _ H2) as [f Hf].
    assert (Hc : c_ram c1 = c_ram c /\ c_prog c1 = c_prog c /\ c_dbg c1 = c_dbg c /\ c_cfg c1 = c_cfg c /\
                 forall j, get_lreg c1 j = get_lreg c2 j) by (destruct H1 as [H1|H1]; subst c1 c2; auto).
    destruct Hc as [C1 [C2 [C3 [C4 C5]]]]. do 5 (split; [assumption|]). intros j. rewrite C5. apply Hget. }
  assert (Hreg : forall l u, set_lreg c l u = Ok c1 \/ (l = LR PC /\ exists c2, set_lreg c l u = Ok c2 /\ c1 = set_spec c2 (u64 u)) ->
    (PRegister l <> PRegister (LR Flags) -> seen G r c1 (PRegister l) = Some (VWord u)) /\
    forall q', q' <> PRegister l -> seen G r c1 q' = seen G r c q').
  { intros l u Hl. destruct (Hregs l u Hl) as [C1 [C2 [C3 [C4 [C5 C6]]]]].
    assert (Hall1 : forall j, lreg_ok (c_cfg c1) j = true -> get_lreg c1 j <> None).
    { intros j Hj. rewrite C6. destruct (lreg_eqb j l); [discriminate|]. apply Hall. now rewrite <- C4. }
    split.
    - intros Hf. rewrite (seen_reg _ _ _ _ Hall1), C4, (listed _ _ C5) by congruence. rewrite C6.
      destruct (lreg_eqb_spec l l); [reflexivity|congruence].
    - intros q' Hq. destruct q' as [a|i|j|i]; [rewrite !seen_mem; congruence|rewrite !seen_text; congruence| |rewrite !seen_dbg; congruence].
      rewrite (seen_reg _ _ _ _ Hall1), (seen_reg _ _ _ _ Hall), C4, C6. destruct (lreg_eqb_spec j l); [congruence|reflexivity]. }
  destruct Hk; cbn [do_cmd] in H; apply bind_ok in H; destruct H as [c2 [H1 H]]; apply Ok_eq in H; injection H as <- <- <-;
    (split; [reflexivity|]); (split; [reflexivity|]).
  - unfold poke_data in H1. destruct (ram_set (c_ram c) a v) as [m|] eqn:Hm; [|discriminate]. apply Ok_eq in H1. subst c2.
    assert (Hget : forall b, ram_get m b = if b =? a then Some v else ram_get (c_ram c) b).
    { intros b. unfold ram_set in Hm. destruct (mem_at (ram_mem (c_ram c)) a) as [y|] eqn:Hy; [|discriminate]. injection Hm as <-.
      apply mem_at_set. congruence. }
    split.
    + intros _. rewrite seen_mem. cbn [set_mem c_ram]. now rewrite Hget, Z.eqb_refl.
    + intros q' Hq. destruct q' as [b|i|j|i]; (first [rewrite !seen_mem; reflexivity|rewrite !seen_text; reflexivity|rewrite !seen_dbg; reflexivity|apply seen_same_regs; auto; fail|idtac]). rewrite !seen_mem. cbn [set_mem c_ram]. rewrite Hget. destruct (Z.eqb_spec b a); [congruence|reflexivity].
  - unfold poke_text in H1. destruct (_ && _) eqn:Hi; [|discriminate]. apply Ok_eq in H1. subst c2.
    apply andb_prop in Hi. destruct Hi as [I1 I2]. apply Z.leb_le in I1. apply Z.ltb_lt in I2. split.
    + intros _. rewrite seen_text. cbn [set_prog c_prog]. rewrite prog_at_set by lia. now rewrite Z.eqb_refl.
    + intros q' Hq. destruct q' as [b|j|j|j]; (first [rewrite !seen_mem; reflexivity|rewrite !seen_text; reflexivity|rewrite !seen_dbg; reflexivity|apply seen_same_regs; auto; fail|idtac]). rewrite !seen_text. cbn [set_prog c_prog]. rewrite prog_at_set by lia. destruct (Z.eqb_spec j i); [congruence|reflexivity].
  - apply Hreg. unfold poke_reg in H1. apply bind_ok in H1. destruct H1 as [c3 [H1 H]]. apply Ok_eq in H.
    destruct r0; try (left; congruence). right. split; [reflexivity|]. exists c3. auto.
  - apply Hreg. now left.
  - unfold poke_dbg in H1. destruct (_ && _) eqn:Hi; [|discriminate]. apply Ok_eq in H1. subst c2. rewrite Nat2Z.id.
    apply andb_prop in Hi. destruct Hi as [_ I2]. apply Z.ltb_lt in I2. split.
    + intros _. rewrite seen_dbg. cbn [set_dbg c_dbg]. rewrite nth_error_set_nth, Nat.eqb_refl.
      assert (Hl : (i <? length (c_dbg c))%nat = true) by (apply Nat.ltb_lt; lia). now rewrite Hl.
    + intros q' Hq. destruct q' as [b|j|j|j]; (first [rewrite !seen_mem; reflexivity|rewrite !seen_text; reflexivity|rewrite !seen_dbg; reflexivity|apply seen_same_regs; auto; fail|idtac]).
      rewrite !seen_dbg. cbn [set_dbg c_dbg]. rewrite nth_error_set_nth. destruct (Nat.eqb_spec j i); [congruence|reflexivity].
Qed.

(** At the watchpoint of C17_case every kind of poke is accepted. *)
Example C18_case :
  let h := after_pplay (pplay env0 cfg1 true events_watch (os_start true (booted cfg1 prog0 [7; 8] [65; 10]))) in
  let c := host_cpu h in
  Forall (fun k => exists c1, do_cmd cfg1 RHwBkpt k c = Ok (AOk, c1, Stay))
    [CPokeData 3 99; CPokeText 7 INop; CPokeRegs (R 2) 5; CPokeRegs PC 0; CPokeFloatRegs 0 77; CPokeDebugRegs 4 0].
Proof.
  intros h c.
  assert (H : forallb (fun k => match do_cmd cfg1 RHwBkpt k c with Ok (AOk, _, Stay) => true | _ => false end)
    [CPokeData 3 99; CPokeText 7 INop; CPokeRegs (R 2) 5; CPokeRegs PC 0; CPokeFloatRegs 0 77; CPokeDebugRegs 4 0] = true)
    by (vm_compute; reflexivity).
  apply Forall_forall. intros k Hk. rewrite forallb_forall in H. specialize (H k Hk).
  destruct (do_cmd cfg1 RHwBkpt k c) as [[[[] c1] []]| |]; try discriminate. now exists c1.
Qed.

(** ---- C19 ---- *)

(** A session in which text is changed only to instructions that keep IP and memory
    only where no access is on its way is, stop by stop, the same session with the
    sequential machine; registers and debug registers may be changed freely. *)
Theorem C19_pokes_take_effect_partial : forall E G g p data input c0 xs r c,
  started E g p data input c0 -> psession E G true xs (os_start true c0) (At r c) -> r <> RCpuError ->
  Forall typed_cmd (cmds xs) ->
  exists n S, debug_run (e_fops E) (cmds xs) n (p, isa_boot (g_ram g) data input) (c_prog c, S) /\ shows c S.
Proof. exact C01_session. Qed.

(** Without the restriction on memory it fails: a store that has been executed but
    not yet reached the RAM hides the value poked. *)
Definition prog_stale : list instr := [IMov (OMemImm 5) (OImm 1); IMov (OReg (R 0)) (OMemImm 5); IHalt].

Definition events_stale : list event :=
  step_events 7 ++ [ECmd (CPokeData 5 42); ECmd CContinue] ++ ticks_of 8.

(** The sequential machine reads 42. *)
Definition stale_inv (S : arch) : Prop :=
  (a_pc S = 1 /\ a_mem S 5 = Some 42 /\ a_halted S = false) \/
  (a_reg S (LR (R 0)) = 42 /\ (a_halted S = false -> a_pc S = 2)).

Lemma stale_step : forall F S S', stale_inv S -> isa_step F prog_stale S S' -> stale_inv S'.
Proof.
  intros F S S' HS [Hh He]. destruct HS as [[H1 [H2 H3]]|[H1 H2]].
  - rewrite H1 in He. unfold instr_at, prog_stale in He. cbn [Z.to_nat Pos.to_nat Pos.iter_op nth Nat.add effect] in He.
    destruct He as [y [Hy Hs]]. right. inversion Hy as [| | | | | | | | | |o z v Hz Hm]; subst.
    inversion Hz; subst. change (address 5) with 5 in Hm. rewrite H2 in Hm. injection Hm as <-.
    split; [now rewrite (s_reg _ _ Hs) by discriminate|]. intros _. rewrite (s_pc _ _ Hs). cbn [next set_pc put a_pc]. rewrite H1. reflexivity.
  - rewrite (H2 Hh) in He. unfold instr_at, prog_stale in He. cbn [Z.to_nat Pos.to_nat Pos.iter_op nth Nat.add effect] in He.
    right. split; [now rewrite (s_reg _ _ He) by discriminate|]. rewrite (s_halted _ _ He). discriminate.
Qed.

Lemma stale_run : forall F n S S', isa_run F prog_stale n S S' -> stale_inv S -> stale_inv S'.
Proof. induction 1 as [S|n S T U H1 H2 IH]; intros H; [exact H|]. apply IH. eapply stale_step; eauto. Qed.

Lemma stale_debug : forall F n S, debug_run F [CSingleStep; CPokeData 5 42; CContinue] n
  (prog_stale, isa_boot 16 [] []) (prog_stale, S) -> a_halted S = true -> a_reg S (LR (R 0)) = 42.
Proof.
  intros F n S H Hh. inversion H as [|k ks m s s' L|k ks m s s1 s' Hk|ks m p0 S0 S1 s' H1 H2|k ks a m p0 S0 S1 s' Hk]; subst; [contradiction L|inversion Hk| |destruct Hk; discriminate].
  inversion H1 as [|a b T U Ha Hb]; subst. inversion Hb; subst. clear Hb H1 H.
  destruct Ha as [_ He]. change (instr_at prog_stale (a_pc (isa_boot 16 [] []))) with (IMov (OMemImm 5) (OImm 1)) in He.
  cbn [effect] in He. destruct He as [z [y [Hz [Hy [Hn Hs]]]]].
  inversion H2 as [|k ks a s s' L|k ks a s s1 s' Hk H3|ks a p0 S0 S2 s' H3 H4|k ks a b p0 S0 S2 s' Hk]; subst; [contradiction L| |destruct Hk; discriminate].
  inversion Hk as [|p0 S0 a v Hm| | |]; subst. clear Hk H2.
  inversion H3 as [|k ks a s s' L|k ks a s s1 s' Hk|ks a p0 S0 S2 s' H4 H5|k ks a b p0 S0 S2 s' Hk H4 H5]; subst; [contradiction L|inversion Hk|].
  inversion H5; subst. apply stale_run in H4.
  - destruct H4 as [[_ [_ H4]]|[H4 _]]; [congruence|exact H4].
  - left. cbn [store a_pc a_mem a_halted]. split; [rewrite (s_pc _ _ Hs); reflexivity|].
    split; [unfold mupd; now rewrite Z.eqb_refl|]. rewrite (s_halted _ _ Hs). reflexivity.
Qed.

Lemma stale_started : started env0 cfg1 prog_stale [] [] (booted cfg1 prog_stale [] []).
Proof.
  constructor.
  - repeat (constructor; [cbn; discriminate || exact I|]). constructor.
  - constructor; [exact no_floats_typed| |cbn; lia|constructor|constructor].
    repeat (constructor; [cbn; repeat split; unfold fits, u64_range; lia || exact I|]). constructor.
  - vm_compute; reflexivity.
Qed.

Theorem C19_stale_poke_refuted : exists E G g p c0 xs c,
  started E g p [] [] c0 /\ session E G true xs (os_start true c0) (At RHalted c) /\
  Forall typed_cmd (cmds xs) /\ cmds xs = [CSingleStep; CPokeData 5 42; CContinue] /\
  get_lreg c (LR (R 0)) = Some 1 /\
  forall n S, debug_run (e_fops E) (cmds xs) n (p, isa_boot (g_ram g) [] []) (c_prog c, S) -> ~ shows c S.
Proof.
  pose (c0 := booted cfg1 prog_stale [] []).
  pose (h := match play env0 cfg1 true events_stale (os_start true c0) with Some (Ok h) => h | _ => At RCpuError c0 end).
  assert (Hp : play env0 cfg1 true events_stale (os_start true c0) = Some (Ok h)) by (vm_compute; reflexivity).
  assert (Hh : h = At RHalted (host_cpu h)) by (vm_compute; reflexivity).
  assert (Hr : get_lreg (host_cpu h) (LR (R 0)) = Some 1) by (vm_compute; reflexivity).
  assert (Hpr : c_prog (host_cpu h) = prog_stale) by (vm_compute; reflexivity).
  assert (Hok : lreg_ok (c_cfg (host_cpu h)) (LR (R 0)) = true) by (vm_compute; reflexivity).
  assert (Hha : c_halted (host_cpu h) = true) by (vm_compute; reflexivity).
  exists env0, cfg1, cfg1, prog_stale, c0, events_stale, (host_cpu h).
  split; [exact stale_started|].
  split; [rewrite <- Hh; now apply play_session|].
  split; [repeat (constructor; [cbn; unfold fits; lia || exact I|]); constructor|]. split; [reflexivity|]. split; [exact Hr|].
  clearbody h. intros n S Hd Hs. rewrite Hpr in Hd. apply stale_debug in Hd.
  - pose proof (sh_reg _ _ Hs (LR (R 0)) Hok ltac:(discriminate)) as H1. rewrite Hr, Hd in H1. discriminate.
  - now rewrite <- (sh_halted _ _ Hs).
Qed.

(** ---- C21 ---- *)

(** After a stop reported as a single step, or if no SINGLESTEP was given yet,
    CONTINUE runs until an instruction gives cause to stop. *)
Theorem C21_continue_runs_partial : forall E G g p data input c0 xs r c ys r' c',
  started E g p data input c0 -> psession E G true xs (os_start true c0) (At r c) -> Forall typed_cmd (cmds xs) ->
  r = RSingle \/ ~ In CSingleStep (cmds xs) ->
  psession E G true (ECmd CContinue :: ys) (At r c) (At r' c') -> cmds ys = [] -> r' <> RCpuError ->
  exists n S S1 S', shows c S /\ calm_run (e_fops E) (c_dbg c) (c_prog c) n S S1 /\
    isa_step (e_fops E) (c_prog c) S1 S' /\ shows c' S' /\ noticed (c_dbg c) (c_prog c) S1 r'.
Proof.
  intros E G g p data input c0 xs r c ys r' c' H1 H2 H3 H4 H5 H6 H7.
  destruct (stop_sound E G g p data input c0 xs r c CContinue ys r' c') as [t [S [S' [G1 [G2 [G3 [G4 [G5 [G6 _]]]]]]]]]; auto.
  destruct G6 as [n [S1 [C1 [C2 [C3 [C4 C5]]]]]]. exists n, S, S1, S'. do 4 (split; [assumption|]).
  destruct C4 as [C4|[_ [Ht _]]]; [exact C4|]. rewrite (G5 eq_refl H4) in Ht. discriminate.
Qed.

(** If a step ends in a breakpoint or watchpoint, stepping mode stays on: CONTINUE
    then stops after one instruction that gives no cause to. *)
Definition prog_leak : list instr := [IBkpt; INop; INop; IHalt].

Lemma leak_started : started env0 cfg1 prog_leak [] [] (booted cfg1 prog_leak [] []).
Proof.
  constructor.
  - repeat (constructor; [cbn; exact I|]). constructor.
  - constructor; [exact no_floats_typed| |cbn; lia|constructor|constructor].
    repeat (constructor; [cbn; exact I|]). constructor.
  - vm_compute; reflexivity.
Qed.

Theorem C21_stepping_leaks_refuted : exists E G g p c0 xs ys c c',
  started E g p [] [] c0 /\ psession E G true xs (os_start true c0) (At RSwBkpt c) /\ cmds xs = [CSingleStep] /\
  psession E G true (ECmd CContinue :: ys) (At RSwBkpt c) (At RSingle c') /\ cmds ys = [] /\
  get_lreg c (LR PC) = Some 1 /\ get_lreg c' (LR PC) = Some 2 /\ instr_at p 1 = INop.
Proof.
  pose (c0 := booted cfg1 prog_leak [] []).
  pose (h := after_pplay (pplay env0 cfg1 true (step_events 7) (os_start true c0))).
  assert (Hp : pplay env0 cfg1 true (step_events 7) (os_start true c0) = Some h) by (vm_compute; reflexivity).
  assert (Hh : h = At RSwBkpt (host_cpu h)) by (vm_compute; reflexivity).
  pose (h' := after_pplay (pplay env0 cfg1 true (ECmd CContinue :: ticks_of 7) h)).
  assert (Hp' : pplay env0 cfg1 true (ECmd CContinue :: ticks_of 7) h = Some h') by (vm_compute; reflexivity).
  assert (Hh' : h' = At RSingle (host_cpu h')) by (vm_compute; reflexivity).
  exists env0, cfg1, cfg1, prog_leak, c0, (step_events 7), (ticks_of 7), (host_cpu h), (host_cpu h').
  split; [exact leak_started|].
  split; [rewrite <- Hh; now apply pplay_psession|]. split; [reflexivity|].
  split; [rewrite <- Hh, <- Hh'; now apply pplay_psession|]. split; [reflexivity|].
  split; [vm_compute; reflexivity|]. split; vm_compute; reflexivity.
Qed.

Print Assumptions C17_stop.
Print Assumptions C17_watchpoint.
Print Assumptions C18_poke_peek.
Print Assumptions C19_pokes_take_effect_partial.
Print Assumptions C19_stale_poke_refuted.
Print Assumptions C21_continue_runs_partial.
Print Assumptions C21_stepping_leaks_refuted.
