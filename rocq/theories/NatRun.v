(** How the debugger library of Native.v makes the machine run. *)
From Coq Require Import Ascii String ZArith NArith List Bool Lia.
From Verif Require Import Base Text PropText PropNet StdMap Isa AluSpec State IsaSpec IsaSame Lexer Asm Show AsmPrint AsmSpec PropAsm Exec Ram Writes Rat Cpu Os DbgText Spaces
  PipeInv PipeBasics PipeDom PipeRun PipePoke Session IsaRefine DbgSpec Stops PropPipe PropDbg Client Proto PropProto Native PropBreak.
Import ListNotations.
Open Scope Z_scope.

(** ---- registers ---- *)

(** A register that reads as a number of 64 bits has one. *)
Lemma svtoi64_fits : forall v z, svtoi64 (show_Z v) = Some z -> z = v /\ fits v.
Proof.
  intros v z H. destruct (C28_print v) as [w [n [H1 [H2 [H3 H4]]]]]. rewrite <- (app_nil_r (show_Z v)), H3, <- app_assoc in H.
  rewrite (C28_read_signed _ _ _ _ H1 H2) in H by exact I. cbv zeta in H. rewrite <- H4 in H.
  destruct (Z.leb_spec (- 2 ^ 63) v); [|discriminate]. destruct (Z.ltb_spec v (2 ^ 63)); [|discriminate]. cbn [andb] in H.
  split; [congruence|]. unfold fits. lia.
Qed.

Section U.
Variable U : setup.
Notation E := (u_env U).
Notation F := (e_fops (u_env U)).

Lemma fetch_fits : forall r c m l, fetch_registers U (stopped r c) = Done m l ->
  forall v, get_lreg c (LR PC) = Some v -> fits v.
Proof.
  intros r c m l H v Hv. unfold fetch_registers, fetch, then_ in H.
  destruct (show_regs c (reg_list (c_cfg c))) as [xs|] eqn:X.
  - rewrite (ask_ok U (str "PEEKREGS") CPeekRegs r c (ARegs xs) c eq_refl) in H by (cbn [do_cmd]; now rewrite X).
    assert (Hx : exists ys, xs = (LR PC, v) :: ys).
    { unfold show_regs, reg_list in X. cbn [app collect] in X. rewrite Hv in X. cbn [option_map] in X.
      match type of X with match ?y with _ => _ end = _ => destruct y; [|discriminate] end. injection X as <-. eauto. }
    destruct Hx as [ys ->]. cbn [reply_text map concat reg_line] in H.
    unfold line in H. change (show_reg PC) with (str "IP") in H. rewrite <- app_assoc in H. cbn [app] in H.
    rewrite split_cmd in H.
    + cbn [fetch_lines] in H. unfold fetch_line in H.
      change (str "IP" ++ COLON :: show_Z v) with (str "IP" ++ COLON :: show_Z v) in H.
      rewrite split_cmd in H by (cbn; intuition discriminate). destruct (show_Z_word v) as (W1 & _ & _ & W2).
      rewrite split_one in H by assumption. destruct (svtoi64 (show_Z v)) as [z|] eqn:Hz; [|discriminate]. now apply svtoi64_fits in Hz.
    + discriminate.
    + intros J. destruct (show_Z_word v) as (_ & _ & W & _). cbn in J. intuition discriminate.
  - exfalso. unfold ask, stopped in H. cbn [k_host k_told] in H. unfold serve in H.
    change (decode (u_stod U) (u_stof U) (str "PEEKREGS")) with (DCmd CPeekRegs) in H. cbn [do_cmd] in H. rewrite X in H. destruct (u_local U); discriminate.
Qed.

Lemma rests_readable : forall A c, rests E A c -> wordy A -> (forall v, get_lreg c (LR PC) = Some v -> fits v) -> readable c.
Proof.
  intros A c HR W Hpc. pose proof (rests_shows _ _ _ HR) as Sh. destruct HR as [HI HD HRest]. constructor.
  - intros l Hl. destruct (D_reg c l HD Hl) as [v Hv]. exists v. split; [exact Hv|].
    destruct (lreg_eqb_spec l (LR PC)) as [->|N]; [now apply Hpc|]. rewrite (sh_reg _ _ Sh l Hl N) in Hv. injection Hv as <-. now apply (w_reg _ W).
  - intros a v Hv. rewrite (sh_mem _ _ Sh) in Hv. exact (w_mem _ W _ _ Hv).
  - intros l l' q Hl Hl'. destruct HI as [_ [_ [_ [den [role HJ]]]]]. pose proof (ri_tab _ _ _ _ _ _ _ _ (j_regs _ _ _ _ _ _ _ HJ)) as Ht.
    destruct (Ht _ _ Hl) as [R1 _], (Ht _ _ Hl') as [R2 _]. congruence.
Qed.

(** What fetching registers yields, in the order of the map. *)
Definition later (x : text * Z) : Prop := fst x <> str "BP" /\ fst x <> str "IP".
Lemma shape_put : forall (b v : Z) (rest : list (text * Z)) (x : text * Z), (exists n, fst x = str "R" ++ n) \/ fst x = str "SP" ->
  exists rest', tput ((str "BP", b) :: (str "IP", v) :: rest) (fst x) (snd x) = (str "BP", b) :: (str "IP", v) :: rest' /\
    forall y, In y rest' -> y = x \/ In y rest.
Proof.
  intros b v rest [n z] H. cbn [fst snd] in *.
  assert (G : forall (m : list (text * Z)) (n : text) z y, In y (tput m n z) -> y = (n, z) \/ In y m).
  { clear. induction m as [|[k w] m IH]; intros n z y; cbn [mput In]; [intuition|]. destruct (teqb n k); cbn [In]; [intuition|].
    destruct (tltb n k); cbn [In]; [intuition|]. intros [J|J]; [intuition|]. destruct (IH n z y J); intuition. }
  exists (tput rest n z). split; [|apply G]. destruct H as [[s ->]| ->]; reflexivity.
Qed.

Lemma shape_rows : forall (xs : list (text * Z)) (b v : Z) (rest : list (text * Z)), Forall (fun x => (exists n, fst x = str "R" ++ n) \/ fst x = str "SP") xs ->
  exists rest', put_rows xs ((str "BP", b) :: (str "IP", v) :: rest) = (str "BP", b) :: (str "IP", v) :: rest' /\
    forall y, In y rest' -> In y xs \/ In y rest.
Proof.
  induction xs as [|x xs IH]; intros b v rest H; [exists rest; split; [reflexivity|auto]|].
  inversion H as [|? ? Hx H']; subst. destruct (shape_put b v rest x Hx) as (r1 & E1 & G1).
  destruct (IH b v r1 H') as (r2 & E2 & G2). exists r2. split.
  - unfold put_rows in *. cbn [fold_left]. rewrite E1. exact E2.
  - intros y Hy. cbn [In]. destruct (G2 y Hy) as [J|J]; [auto|]. destruct (G1 y J) as [->|K]; auto.
Qed.

Lemma fetch_shape : forall r c, readable c -> exists b v ps, get_lreg c (LR PC) = Some v /\ get_lreg c (LR BP) = Some b /\
  fetch_registers U (stopped r c) = Done ((str "BP", b) :: (str "IP", v) :: reg_rows ps) (stopped r c) /\
  forall rg z, In (rg, z) ps -> rg <> PC /\ rg <> Flags /\ In (LR rg) (reg_list (c_cfg c)) /\ get_lreg c (LR rg) = Some z.
Proof.
  intros r c Rd. destruct (shown_rows c (reg_list (c_cfg c))) as (xs & X & X2 & X3).
  { intros l I. destruct (rd_reg c Rd l (listed_ok _ _ (or_introl I))) as (v & V & _). eauto. }
  destruct (fetch_rows_ok U svtoi64 show_Z (str "PEEKREGS") CPeekRegs c r (reg_list (c_cfg c)) xs) as (E1 & E2 & E3); auto.
  - cbn [do_cmd]. now rewrite X.
  - intros l I. destruct (rd_reg c Rd l (listed_ok _ _ (or_introl I))) as (v & V & Fv). exists v. destruct (show_Z_word v) as (A & B & C & D).
    split; [exact V|]. split; [now apply svtoi64_show|auto].
  - intros l v I. unfold reg_list in I. apply in_app_or in I. destruct I as [[<-|[<-|[<-|[]]]]|I]; try reflexivity.
    apply in_map_iff in I. destruct I as (k & <- & _). reflexivity.
  - unfold reg_list in E2. cbn [app] in E2. destruct xs as [|[l1 v] [|[l2 b] ys]]; try discriminate E2. cbn [map fst] in E2. injection E2 as -> -> E2.
    assert (E2' : map fst ys = LR SP :: map (fun k => LR (R (N.of_nat k))) (seq 0 (g_reg (c_cfg c)))) by exact E2.
    destruct (shape_rows (map row ys) b v []) as (rest & S1 & S2).
    { apply Forall_forall. intros x I. apply in_map_iff in I. destruct I as ([l z] & <- & I). cbn [row fst].
      assert (J : In l (map fst ys)) by (apply in_map_iff; now exists (l, z)). rewrite E2' in J. destruct J as [<-|J]; [now right|].
      apply in_map_iff in J. destruct J as (k & <- & _). left. eexists. reflexivity. }
    assert (Hps : exists ps, rest = reg_rows ps /\ forall rg z, In (rg, z) ps -> In (LR rg, z) ys).
    { clear - S2 E2'. assert (S3 : forall y, In y rest -> In y (map row ys)) by (intros y Hy; destruct (S2 y Hy) as [J|[]]; exact J). clear S2.
      induction rest as [|y rest IH]; [exists []; split; [reflexivity|intros ? ? []]|].
      destruct IH as (ps & -> & P); [intros z Hz; apply S3; now right|]. specialize (S3 y (or_introl eq_refl)). apply in_map_iff in S3.
      destruct S3 as ([l z] & <- & I). assert (J : In l (map fst ys)) by (apply in_map_iff; now exists (l, z)).
      assert (K : exists rg, l = LR rg). { rewrite E2' in J. destruct J as [<-|J]; [eauto|]. apply in_map_iff in J. destruct J as (k & <- & _). eauto. }
      destruct K as [rg ->]. exists ((rg, z) :: ps). split; [reflexivity|]. intros rg' z' [Q|Q]; [injection Q as <- <-; exact I|now apply P]. }
    destruct Hps as (ps & -> & P). exists b, v, ps.
    split; [apply E3; now left|]. split; [apply E3; right; now left|]. split.
    + rewrite <- S1. exact E1.
    + intros rg z I. specialize (P rg z I). assert (J : In (LR rg) (map fst ys)) by (apply in_map_iff; now exists (LR rg, z)). rewrite E2' in J.
      assert (Hn : rg <> PC /\ rg <> Flags). { destruct J as [J|J]; [injection J as <-; split; discriminate|]. apply in_map_iff in J. destruct J as (k & J & _). injection J as <-. split; discriminate. }
      destruct Hn as [N1 N2]. split; [exact N1|]. split; [exact N2|]. split; [|apply E3; right; now right].
      unfold reg_list. cbn [app In]. right. right. destruct J as [J|J]; [now left|now right].
Qed.


(** ---- moving the program counter ---- *)

Record keeps (c c' : cpu) : Prop := mkKeeps {
  ke_prog : c_prog c' = c_prog c; ke_dbg : c_dbg c' = c_dbg c; ke_trap : c_trap c' = c_trap c;
  ke_halted : c_halted c' = c_halted c; ke_cfg : c_cfg c' = c_cfg c }.
Lemma keeps_trans : forall a b c, keeps a b -> keeps b c -> keeps a c.
Proof. intros a b c [] []. constructor; congruence. Qed.

(** [A] is [A0] except that the program counter may be at [w]. *)
Record but_pc (A0 : arch) (w : Z) (A : arch) : Prop := mkButPc {
  bu_reg : forall l, l <> LR PC -> a_reg A l = a_reg A0 l; bu_mem : forall a, a_mem A a = a_mem A0 a;
  bu_out : a_out A = a_out A0; bu_in : a_in A = a_in A0; bu_halted : a_halted A = a_halted A0;
  bu_pc : a_pc A = a_pc A0 \/ a_pc A = address w }.

Definition kept_value (A0 : arch) (w : Z) (x : reg * Z) : Prop :=
  match fst x with PC => snd x = w | rg => snd x = a_reg A0 (LR rg) end.

Lemma poke_back : forall r A0 w ps c A, rests E A c -> readable c -> but_pc A0 w A ->
  Forall (fun x => known_reg U c (fst x) /\ fits (snd x) /\ kept_value A0 w x) ps ->
  exists c' A', set_registers U (reg_rows ps) (stopped r c) = Done tt (stopped r c') /\ rests E A' c' /\ readable c' /\ but_pc A0 w A' /\
    (In PC (map fst ps) \/ a_pc A = address w -> a_pc A' = address w) /\ keeps c c'.
Proof.
  intros r A0 w ps. induction ps as [|[rg v] ps IH]; intros c A HR Rd HB H.
  - exists c, A. split; [reflexivity|]. split; [exact HR|]. split; [exact Rd|]. split; [exact HB|]. split; [|constructor; reflexivity].
    intros [[]|Hp]; exact Hp.
  - inversion H as [|? ? (K & Fv & V) H']; subst. cbn [fst snd] in *. destruct (valid_name U c rg K) as [V1 T]. destruct (show_reg_word rg) as (W1 & W2 & _).
    destruct (poke_reg_ok U r c rg v Rd (proj1 K) Fv) as (c1 & E1 & R1 & C1 & S1).
    destruct (cmd_poke E (u_cfg U) r (CPokeRegs rg v) c AOk c1 A HR I E1) as (A1 & P1 & P2 & P3 & P4 & P5).
    destruct P2 as [[[] _]|P2].
    assert (KE : keeps c c1) by (destruct S1; constructor; assumption).
    assert (HB1 : but_pc A0 w A1 /\ (rg = PC \/ a_pc A = address w -> a_pc A1 = address w)).
    { destruct HB as [B1 B2 B3 B4 B5 B6]. inversion P2; subst; cbn [kept_value fst snd] in V.
      - subst v. split; [|intros _; reflexivity]. constructor; auto.
      - assert (Hv : v = a_reg A0 (LR rg)) by (destruct rg; try exact V; congruence). subst v.
        split; [|intros [->|Hp]; [congruence|exact Hp]]. constructor; auto.
        intros l Hl. cbn [put a_reg]. unfold upd. destruct (lreg_eqb_spec l (LR rg)) as [->|N]; [reflexivity|auto]. }
    destruct HB1 as [HB1 HB2].
    destruct (IH c1 A1 P1 R1 HB1) as (c' & A' & I1 & I2 & I3 & I4 & I5 & I6).
    { eapply Forall_impl; [|exact H']. intros [rg' v'] ((K1 & K2) & F'). cbn [fst snd] in *. split; [split; [now rewrite C1|exact K2]|exact F']. }
    exists c', A'. split; [|split; [exact I2|split; [exact I3|split; [exact I4|split; [|eapply keeps_trans; eauto]]]]].
    + unfold set_registers, set_with. cbn [reg_rows map each fst snd]. unfold then_ at 1. rewrite V1.
      rewrite (command_ok U _ _ _ _ _ (decode_pokeregs_msg _ _ _ _ _ W1 W2 T Fv) E1). exact I1.
    + cbn [map fst In]. intros Hin. apply I5. destruct Hin as [[Hin|Hin]|Hin]; [right; apply HB2; now left|now left|right; apply HB2; now right].
Qed.

(** The debugger knows at least as many registers as the machine has. *)
Definition covers_regs (c : cpu) : Prop := Z.of_nat (g_reg (c_cfg c)) <= u_regs U /\ Z.of_nat (g_reg (c_cfg c)) < 2 ^ 63.

Lemma listed_known : forall c rg, covers_regs c -> In (LR rg) (reg_list (c_cfg c)) -> known_reg U c rg.
Proof.
  intros c rg [K1 K2] J. split; [apply listed_ok; now left|]. unfold reg_list in J. cbn [app In] in J.
  destruct J as [J|[J|[J|J]]]; [injection J as <-; exact I|injection J as <-; exact I|injection J as <-; exact I|].
  apply in_map_iff in J. destruct J as (k & J & Hk). injection J as <-. apply in_seq in Hk. rewrite nat_N_Z. lia.
Qed.

Lemma rests_pc : forall A c v, rests E A c -> get_lreg c (LR PC) = Some v -> u64 v = a_pc A.
Proof.
  intros A c v [_ _ HR] Hv. destruct HR as (_ & _ & _ & _ & _ & _ & (w & W1 & W2) & _). congruence.
Qed.

Lemma proc_fetch : forall N r c m N', n_link N = stopped r c -> proc (fetch_registers U) N = Done m N' ->
  fetch_registers U (stopped r c) = Done m (n_link N') /\ forall v, get_lreg c (LR PC) = Some v -> fits v.
Proof.
  intros N r c m N' L H. unfold proc in H. rewrite L in H. destruct (fetch_registers U (stopped r c)) as [m' l| | |] eqn:Hf; try discriminate.
  assert (m' = m /\ N' = set_link N l) as [-> ->] by (split; congruence). split; [reflexivity|]. eapply fetch_fits; exact Hf.
Qed.

Lemma step_back_ok : forall N r c A u N', n_link N = stopped r c -> rests E A c -> wordy A -> covers_regs c ->
  step_back U N = Done u N' ->
  exists c' A', N' = set_link N (stopped r c') /\ rests E A' c' /\ same A' (set_pc A (address (a_pc A - 1))) /\ keeps c c'.
Proof.
  intros N r c A u N' L HR W K H. unfold step_back, then_ in H.
  destruct (proc (fetch_registers U) N) as [m N1| | |] eqn:Hf; try discriminate.
  destruct (proc_fetch _ _ _ _ _ L Hf) as [Hm Hfit].
  pose proof (rests_readable A c HR W Hfit) as Rd. destruct (fetch_shape r c Rd) as (b & v & ps & Hv & Hb & Hs & P).
  rewrite Hs in Hm. assert (m = (str "BP", b) :: (str "IP", v) :: reg_rows ps) as -> by congruence.
  assert (N1 = N) as ->. { unfold proc in Hf. rewrite L, Hs in Hf. assert (N1 = set_link N (stopped r c)) as -> by congruence. rewrite <- L. apply set_link_same. }
  change (tget ((str "BP", b) :: (str "IP", v) :: reg_rows ps) (str "IP")) with (Some v) in H. cbv beta iota in H.
  destruct (Z.eqb_spec v (- 2 ^ 63)) as [Hmin|Hmin]; [discriminate|].
  change (tput ((str "BP", b) :: (str "IP", v) :: reg_rows ps) (str "IP") (v - 1)) with (reg_rows ((BP, b) :: (PC, v - 1) :: ps)) in H.
  pose proof (rests_shows _ _ _ HR) as Sh.
  destruct (poke_back r A (v - 1) ((BP, b) :: (PC, v - 1) :: ps) c A HR Rd) as (c' & A' & B1 & B2 & B3 & B4 & B5 & B6).
  - constructor; auto.
  - assert (Hk : forall rg z, rg <> PC -> In (LR rg) (reg_list (c_cfg c)) -> get_lreg c (LR rg) = Some z ->
      known_reg U c rg /\ fits z /\ kept_value A (v - 1) (rg, z)).
    { intros rg z Hn Hin Hg. split; [now apply listed_known|]. rewrite (sh_reg _ _ Sh) in Hg; [|apply listed_ok; now left|congruence]. injection Hg as <-.
      split; [apply (w_reg _ W); congruence|]. unfold kept_value. cbn [fst snd]. destruct rg; congruence. }
    constructor; [|constructor].
    + apply Hk; [discriminate|unfold reg_list; cbn; auto|exact Hb].
    + cbn [fst snd]. split; [apply listed_known; [exact K|unfold reg_list; cbn; auto]|]. split; [|reflexivity]. specialize (Hfit v Hv). unfold fits in *. lia.
    + apply Forall_forall. intros [rg z] Hin. destruct (P rg z Hin) as (N1 & _ & N3 & N4). now apply Hk.
  - unfold proc in H. rewrite L, B1 in H. exists c', A'. split; [congruence|]. split; [exact B2|]. split; [|exact B6].
    destruct B4 as [D1 D2 D3 D4 D5 _]. constructor; auto.
    cbn [set_pc a_pc]. rewrite B5 by (left; cbn; auto). rewrite <- (rests_pc A c v HR Hv). unfold address, u64, two64.
    change (2 ^ 64) with 18446744073709551616. now rewrite Zminus_mod_idemp_l.
Qed.

Lemma get_ip_ok : forall N r c A ip N', n_link N = stopped r c -> rests E A c -> wordy A -> get_ip U N = Done ip N' ->
  N' = N /\ ip = a_pc A.
Proof.
  intros N r c A ip N' L HR W H. unfold get_ip, get_register, then_ in H.
  destruct (proc (fetch_registers U) N) as [m N1| | |] eqn:Hf; try discriminate.
  destruct (proc_fetch _ _ _ _ _ L Hf) as [Hm Hfit].
  pose proof (rests_readable A c HR W Hfit) as Rd. destruct (fetch_shape r c Rd) as (b & v & ps & Hv & Hb & Hs & P).
  rewrite Hs in Hm. assert (m = (str "BP", b) :: (str "IP", v) :: reg_rows ps) as -> by congruence.
  assert (N1 = N) as ->. { unfold proc in Hf. rewrite L, Hs in Hf. assert (N1 = set_link N (stopped r c)) as -> by congruence. rewrite <- L. apply set_link_same. }
  change (tget ((str "BP", b) :: (str "IP", v) :: reg_rows ps) (str "IP")) with (Some v) in H. cbn [opt_or] in H. unfold ret in H.
  split; [congruence|]. rewrite <- (rests_pc A c v HR Hv). congruence.
Qed.

Lemma get_bp_ok : forall N r c A b N', n_link N = stopped r c -> rests E A c -> wordy A -> get_register U (str "BP") N = Done b N' ->
  N' = N /\ b = a_reg A (LR BP).
Proof.
  intros N r c A b N' L HR W H. unfold get_register, then_ in H.
  destruct (proc (fetch_registers U) N) as [m N1| | |] eqn:Hf; try discriminate.
  destruct (proc_fetch _ _ _ _ _ L Hf) as [Hm Hfit].
  pose proof (rests_readable A c HR W Hfit) as Rd. destruct (fetch_shape r c Rd) as (b' & v & ps & Hv & Hb & Hs & P).
  rewrite Hs in Hm. assert (m = (str "BP", b') :: (str "IP", v) :: reg_rows ps) as -> by congruence.
  assert (N1 = N) as ->. { unfold proc in Hf. rewrite L, Hs in Hf. assert (N1 = set_link N (stopped r c)) as -> by congruence. rewrite <- L. apply set_link_same. }
  change (tget ((str "BP", b') :: (str "IP", v) :: reg_rows ps) (str "BP")) with (Some b') in H. cbn [opt_or] in H. unfold ret in H.
  split; [congruence|]. pose proof (rests_shows _ _ _ HR) as Sh. rewrite (sh_reg _ _ Sh) in Hb; [congruence|apply listed_ok; left; unfold reg_list; cbn; auto|discriminate].
Qed.


(** ---- running ---- *)

Lemma wait_stop : forall n c u l, wait U n (mkLink (Some (Going false c)) false) = Done u l ->
  exists r c' xs, l = stopped r c' /\ psession E (u_cfg U) true xs (Going false c) (At r c') /\ cmds xs = [].
Proof.
  induction n as [|n IH]; intros c u l H; cbn [wait k_host] in H; [discriminate|].
  destruct (os_tick E true false c) as [h|e s|w] eqn:Ht; [|destruct (u_local U); discriminate|destruct (u_local U); discriminate].
  assert (Ho : os_event E (u_cfg U) true ETick (Going false c) = Some (Ok h)) by (cbn [os_event]; now rewrite Ht).
  destruct h as [r c'|b c'|b c'].
  - assert (l = stopped r c') as ->. { destruct n; cbn [wait k_host k_told] in H; unfold stopped; congruence. }
    exists r, c', [ETick]. split; [reflexivity|]. split; [|reflexivity]. econstructor; [exact I|exact Ho|constructor].
  - assert (b = false) as ->.
    { unfold os_tick in Ht. destruct (tick E c) as [cc|e s|w]; try discriminate. destruct (c_halted cc); [discriminate|].
      destruct (0 <? c_int cc); [destruct (reason_of (c_int cc)); discriminate|]. apply Ok_eq in Ht. congruence. }
    destruct (IH _ _ _ H) as (r & c1 & xs & -> & Hs & Hc). exists r, c1, (ETick :: xs). split; [reflexivity|].
    split; [|exact Hc]. econstructor; [exact I|exact Ho|exact Hs].
  - destruct n; cbn [wait k_host] in H; destruct (u_local U); discriminate.
Qed.

Lemma run_cfg : forall xs h h', psession E (u_cfg U) true xs h h' -> forall c r c' A, h = Going false c -> h' = At r c' -> cmds xs = [] ->
  live r -> Inv E A c -> D c -> c_halted c = false -> c_cfg c' = c_cfg c.
Proof.
  induction 1 as [h|x xs h h1 h2 Hp He Hs IH]; intros c r c' A Hc Hc' Hk Hl HI HD Hh; [congruence|]. subst h.
  destruct x as [|k]; cbn [os_event] in He; [|discriminate]. cbn [cmds] in Hk. injection He as He.
  pose proof (tick_seg E A false c h1 HI HD Hh He) as Ht.
  unfold os_tick in He. destruct (tick E c) as [c1|e s|w] eqn:Htk; [| |discriminate].
  - destruct (tick_reached _ _ _ _ HI HD Htk) as (ii & A' & _ & RR). pose proof (PipeRun.re_cfg _ _ _ _ _ _ RR) as Rc.
    assert (Hat : forall r1, h1 = enter r1 c1 -> c_cfg c' = c_cfg c).
    { intros r1 ->. unfold enter in Hs. inversion Hs as [|x0 xs0 ? hh ? Po Ev Ps]; subst.
      - match goal with H : At _ _ = At _ _ |- _ => injection H as _ <- end. destruct r1; exact Rc.
      - destruct x0; [discriminate|discriminate Hk]. }
    destruct (c_halted c1); [apply Ok_eq in He; now apply (Hat RHalted)|].
    destruct (0 <? c_int c1); [destruct (reason_of (c_int c1)) as [r1|]; [|discriminate]; apply Ok_eq in He; now apply (Hat r1)|].
    apply Ok_eq in He. subst h1. destruct Ht as (jj & A1 & _ & T2 & T3 & T4 & _). rewrite <- Rc. eapply IH; eauto.
  - apply Ok_eq in He. subst h1. unfold enter in Hs. inversion Hs as [|x0 xs0 ? hh ? Po Ev Ps]; subst.
    + match goal with H : At _ _ = At _ _ |- _ => injection H as <- _ end. now elim Hl.
    + destruct x0; [discriminate|discriminate Hk].
Qed.

Lemma effect_halted : forall i S S', effect F i S S' -> a_halted S' = match i with IHalt => true | _ => a_halted S end.
Proof.
  intros i S S' H.
  destruct i; cbn [effect] in H; try (repeat match type of H with exists _, _ => destruct H as [? H] | _ /\ _ => destruct H as [_ H] end;
    rewrite (s_halted _ _ H); reflexivity).
  - destruct d; repeat match type of H with exists _, _ => destruct H as [? H] | _ /\ _ => destruct H as [_ H] end; rewrite (s_halted _ _ H); reflexivity.
  - repeat match type of H with exists _, _ => destruct H as [? H] | _ /\ _ => destruct H as [_ H] end. rewrite (s_halted _ _ H).
    destruct (_ =? 0); [destruct r|]; reflexivity.
  - repeat match type of H with exists _, _ => destruct H as [? H] | _ /\ _ => destruct H as [_ H] end. rewrite (s_halted _ _ H). destruct (taken _ _); reflexivity.
Qed.

Lemma instr_typed : forall p pc, Forall typed_instr p -> typed_instr (instr_at p pc).
Proof.
  intros p pc H. unfold instr_at. destruct (Nat.lt_ge_cases (Z.to_nat pc) (length p)) as [L|L].
  - rewrite Forall_forall in H. apply H. now apply nth_In.
  - now rewrite nth_overflow by exact L.
Qed.
Lemma step_wordy : forall p S S', typed_fops F -> Forall typed_instr p -> wordy S -> isa_step F p S S' -> wordy S'.
Proof. intros p S S' TF T W [_ He]. eapply effect_wordy; [exact TF|apply instr_typed; exact T|exact W|exact He]. Qed.
Lemma calm_wordy : forall d p n S S', typed_fops F -> Forall typed_instr p -> calm_run F d p n S S' -> wordy S -> wordy S'.
Proof. intros d p n S S' TF T H. induction H; intros W; [exact W|]. apply IHcalm_run. eapply step_wordy; eauto. Qed.

(** The machine after a run that ended for the reason [r]. *)
Record ran (A : arch) (c : cpu) (A' : arch) (r : reason) (c' : cpu) : Prop := mkRan {
  ra_rests : rests E A' c';
  ra_wordy : wordy A';
  ra_means : stop_means F (c_dbg c) (c_dbg c') (c_prog c) (c_trap c) A A' r;
  ra_prog : c_prog c' = c_prog c;
  ra_cfg : c_cfg c' = c_cfg c;
  ra_trap : c_trap c' = match r with RSingle => false | _ => c_trap c end;
  ra_dbg : length (c_dbg c') = 5%nat;
  ra_halted : c_halted c' = true <-> r = RHalted
}.

Lemma wait_ran : forall fuel N c A u N', n_link N = mkLink (Some (Going false c)) false -> Inv E A c -> D c -> c_halted c = false -> wordy A ->
  Forall typed_instr (c_prog c) -> typed_fops F -> length (c_dbg c) = 5%nat -> proc (wait U fuel) N = Done u N' ->
  exists r c', N' = set_link N (stopped r c') /\ (live r -> exists A', ran A c A' r c').
Proof.
  intros fuel N c A u N' L HI HD Hh W T TF Hd H. unfold proc in H. rewrite L in H.
  destruct (wait U fuel (mkLink (Some (Going false c)) false)) as [u' l| | |] eqn:Hw; try discriminate.
  destruct (wait_stop _ _ _ _ Hw) as (r & c' & xs & -> & Hs & Hc). exists r, c'. split; [congruence|]. intros Hl.
  destruct (segment _ _ _ _ _ Hs A c r c' eq_refl eq_refl Hl Hc HI HD Hh) as (ii & A' & n & G1 & G2 & G3 & G4 & G5 & G6 & G7).
  assert (M : stop_means F (c_dbg c) (c_dbg c') (c_prog c) (c_trap c) A A' r) by (eapply run_means; eauto; eapply Inv_valid; eauto).
  exists A'. destruct M as [(k & S1 & M1 & M2 & M3 & M4 & M5) M6]. constructor; auto.
  - eapply step_wordy; [exact TF|exact T|eapply calm_wordy; eauto|exact M2].
  - split; [exists k, S1; auto|exact M6].
  - eapply run_cfg; eauto.
  - apply io_run_len in G1. cbn [fst] in G1. congruence.
  - assert (Ha : a_halted A' = c_halted c') by (destruct G3 as [[G _] _ _]; exact G). rewrite <- Ha.
    destruct M2 as [M2 M2']. rewrite (effect_halted _ _ _ M2'). destruct M4 as [M4|(-> & _ & M4)].
    + inversion M4 as [Q|Q|i a Q Q']; subst.
      * rewrite Q. tauto.
      * rewrite Q, M2. split; discriminate.
      * destruct Q; rewrite M2; split; discriminate.
    + destruct (instr_at (c_prog c) (a_pc S1)) eqn:Q; rewrite ?M2; try (split; discriminate).
      exfalso. apply (M4 RHalted). now constructor.
Qed.

(** Leaving Work. *)
Lemma resume_ok : forall N r c u N', n_link N = stopped r c -> proc (resume U) N = Done u N' -> N' = set_link N (mkLink (Some (leave r false c)) false).
Proof.
  intros N r c u N' L H. unfold proc in H. rewrite L in H.
  assert (G : resume U (stopped r c) = Done tt (mkLink (Some (leave r false c)) false)) by reflexivity. rewrite G in H. congruence.
Qed.
Lemma singlestep_ok : forall N r c u N', n_link N = stopped r c -> proc (singlestep U) N = Done u N' ->
  N' = set_link N (mkLink (Some (leave r false (set_trap c true))) false).
Proof.
  intros N r c u N' L H. unfold proc in H. rewrite L in H.
  assert (G : singlestep U (stopped r c) = Done tt (mkLink (Some (leave r false (set_trap c true))) false)) by reflexivity. rewrite G in H. congruence.
Qed.

End U.
