(** A program that is spread (SafeSpec.v) never has two stores in flight at one address. *)
From Coq Require Import ZArith NArith List Bool Lia.
From Verif Require Import Base Alu Isa Exec Cpu InOrder PipeInv PipeBasics PipeActs SafeSpec PipeSafe PipeSafeTick.
Import ListNotations.
Open Scope Z_scope.

Lemma u64_cong : forall a b, u64 a = u64 b <-> exists k, a = b + two64 * k.
Proof.
  intros a b. unfold u64. split; [intros H|intros [k ->]; rewrite Z.mul_comm; now rewrite Z.mod_add].
  exists (a / two64 - b / two64). pose proof (Z.div_mod a two64 ltac:(discriminate)). pose proof (Z.div_mod b two64 ltac:(discriminate)). lia.
Qed.
Lemma u64_s64 : forall a, u64 (s64 a) = u64 a.
Proof.
  intros a. unfold s64, u64. cbv zeta. destruct (a mod two64 <? two63).
  - now rewrite Z.mod_mod.
  - rewrite <- (Z.mod_mod a two64) at 2 by discriminate. replace (a mod two64 - two64) with (a mod two64 + (-1) * two64) by lia. now rewrite Z.mod_add.
Qed.
Lemma u64_u64 : forall a, u64 (u64 a) = u64 a.
Proof. intros a. unfold u64. now rewrite Z.mod_mod. Qed.
Lemma u64_plus : forall a b k, u64 a = u64 b -> u64 (a + k) = u64 (b + k).
Proof. intros a b k H. apply u64_cong in H. destruct H as [m ->]. apply u64_cong. exists m. lia. Qed.

Lemma evs_cons : forall E S o os vs b, evs E S (o :: os) = Some (vs, b) -> exists v b1 vs' b2, vs = v :: vs' /\ ev 4 E S o = Some (v, b1) /\ evs E S os = Some (vs', b2).
Proof.
  intros E S o os vs b H. cbn [evs] in H. destruct (ev 4 E S o) as [[v b1]|]; [|discriminate]. destruct (evs E S os) as [[vs' b2]|]; [|discriminate].
  injection H as <- _. eauto 8.
Qed.
Lemma ev_reg : forall E S r v b, ev 4 E S (OReg r) = Some (v, b) -> v = rd S (LR r).
Proof. intros E S r v b H. cbn in H. now injection H as <- _. Qed.

Section Env.
Variable E : env.
Hypothesis wraps : e_mode E = Wrap.

(** Where a store goes. *)
Lemma push_addr : forall v, u64 (u64 (s64 (v - 1))) = u64 (v + -1).
Proof. intros v. now rewrite u64_u64, u64_s64. Qed.

Lemma store_place : forall i S a, store_addr E i S = Some a ->
  stores i = true /\
  match place_of i with
  | Some (Absolute b) => a = b
  | Some (Relative r o) => u64 a = u64 (rd S (LR r) + o)
  | None => True
  end.
Proof.
  intros i S a H. unfold store_addr, mem_prod, eff_store in H.
  destruct i; cbn [produces prod_mem] in H; try discriminate.
  1: { destruct d; cbn [product_of prod_mem] in H; try discriminate; (split; [reflexivity|]); cbn [place_of]; try exact I.
    - now injection H as <-.
    - cbn [operands addr_regs map] in H. destruct (evs E S [v; OReg r]) as [[vs b]|] eqn:He; [|discriminate].
      apply evs_cons in He. destruct He as (v1 & b1 & vs1 & b2 & -> & He1 & He). apply evs_cons in He. destruct He as (v2 & b3 & vs2 & b4 & -> & He2 & He). cbn [evs] in He. injection He as <- _. apply ev_reg in He2.
      rewrite <- He2. cbn in H. injection H as <-. rewrite u64_u64. f_equal. lia.
    - cbn [operands addr_regs map] in H. destruct (evs E S [v; OReg r]) as [[vs b]|] eqn:He; [|discriminate].
      apply evs_cons in He. destruct He as (v1 & b1 & vs1 & b2 & -> & He1 & He). apply evs_cons in He. destruct He as (v2 & b3 & vs2 & b4 & -> & He2 & He). cbn [evs] in He. injection He as <- _. apply ev_reg in He2.
      rewrite <- He2. cbn in H. rewrite wraps in H. cbn in H. injection H as <-. now rewrite u64_u64, u64_s64. }
  1: { split; [reflexivity|]. cbn [place_of]. cbn [operands] in H. destruct (evs E S [a0; OReg PC; OReg SP]) as [[vs b]|] eqn:He; [|discriminate].
    apply evs_cons in He. destruct He as (v1 & b1 & vs1 & b2 & -> & He1 & He). apply evs_cons in He. destruct He as (v2 & b3 & vs2 & b4 & -> & He2 & He).
    apply evs_cons in He. destruct He as (v3 & b5 & vs3 & b6 & -> & He3 & He). cbn [evs] in He. injection He as <- _. apply ev_reg in He3.
    rewrite <- He3. cbn [exec_acts] in H. rewrite wraps in H. cbn in H. injection H as <-. apply push_addr. }
  all: split; [reflexivity|]; cbn [place_of]; cbn [operands] in H; destruct (evs E S [v; OReg SP]) as [[vs b]|] eqn:He; [|discriminate];
    apply evs_cons in He; destruct He as (v1 & b1 & vs1 & b2 & -> & He1 & He); apply evs_cons in He; destruct He as (v2 & b3 & vs2 & b4 & -> & He2 & He);
    cbn [evs] in He; injection He as <- _; apply ev_reg in He2;
    rewrite <- He2; cbn [exec_acts] in H; rewrite wraps in H; cbn in H; injection H as <-; apply push_addr.
Qed.

(** By how much a register moves. *)
Lemma rd_reg : forall S r, r <> PC -> rd S (LR r) = a_reg S (LR r).
Proof. intros S r H. destruct r; try reflexivity. now elim H. Qed.
Lemma reg_eqb_eq : forall r s, reg_eqb r s = true <-> r = s.
Proof. intros r s. destruct r, s; cbn [reg_eqb]; split; intros H; try discriminate; try reflexivity; [apply N.eqb_eq in H; congruence|injection H as <-; apply N.eqb_refl]. Qed.

Lemma moves_zero : forall i r, moves i r = Some 0 -> ~ reg_prod i (LR r).
Proof.
  intros i r H (ps & Hp & Hin). destruct i; cbn [produces] in Hp;
    try (injection Hp as <-; cbn [In] in Hin; repeat match type of Hin with _ \/ _ => destruct Hin as [Hin|Hin] end; try discriminate Hin; try exact Hin; injection Hin as Hin; subst;
         cbn [moves is_flags] in H; rewrite ?(proj2 (reg_eqb_eq _ _) eq_refl), ?orb_true_r in H; cbn [orb] in H; try discriminate H; destruct r; discriminate H).
  destruct d; cbn [product_of] in Hp; try discriminate Hp; injection Hp as <-; cbn [In] in Hin; destruct Hin as [Hin|[]]; try discriminate Hin. injection Hin as Hin. subst.
  cbn [moves] in H. rewrite (proj2 (reg_eqb_eq _ _) eq_refl) in H. destruct r; discriminate H.
Qed.
Lemma moves_other : forall i r k, moves i r = Some k -> k = 0 \/ r = SP /\ 
  (k = -1 /\ (exists v, i = IPush v \/ i = IFpush v \/ i = ICall v) \/ k = 1 /\ (i = IRet \/ (exists d, i = IPop d) \/ exists d, i = IFpop d)).
Proof.
  intros i r k H. destruct i; cbn [moves] in H; destruct r; try discriminate H;
    repeat match type of H with
           | (if ?b then _ else _) = _ => destruct b; try discriminate H
           | match ?d with _ => _ end = _ => destruct d; try discriminate H
           end; injection H as <-; try (left; reflexivity); right; split; try reflexivity; eauto 8.
Qed.
Lemma evs_two : forall S v r, exists x, exists b, evs E S [v; OReg r] = Some ([x; rd S (LR r)], b).
Proof.
  intros S v r. destruct (evs_wrap E S [v; OReg r] wraps) as (vs & b & He). rewrite He.
  apply evs_cons in He. destruct He as (v1 & b1 & vs1 & b2 & -> & He1 & He). apply evs_cons in He. destruct He as (v2 & b3 & vs2 & b4 & -> & He2 & He). cbn [evs] in He. injection He as <- _. apply ev_reg in He2. subst. eauto.
Qed.

Lemma moves_ok : forall i S r k, produces i <> None -> moves i r = Some k -> u64 (rd (spec_step E i S) (LR r)) = u64 (rd S (LR r) + k).
Proof.
  intros i S r k Hi H. assert (Hr : r <> PC) by (intros ->; destruct i; discriminate). rewrite (rd_reg _ _ Hr), spec_reg.
  destruct (moves_other _ _ _ H) as [->|(-> & Hk)].
  - rewrite eff_reg_other by (try apply moves_zero; assumption). rewrite rd_reg by exact Hr. f_equal. lia.
  - clear H Hr Hi. enough (a_reg (eff E i S) (LR SP) = s64 (rd S (LR SP) + k)) as -> by apply u64_s64. unfold eff.
    destruct Hk as [(-> & v & [->|[->| ->]])|(-> & [->|[(d & ->)|(d & ->)]])]; cbn [operands].
    3: { destruct (evs_wrap E S [v; OReg PC; OReg SP] wraps) as (vs & b & He). rewrite He.
      apply evs_cons in He. destruct He as (v1 & b1 & vs1 & b2 & -> & He1 & He). apply evs_cons in He. destruct He as (v2 & b3 & vs2 & b4 & -> & He2 & He).
      apply evs_cons in He. destruct He as (v3 & b5 & vs3 & b6 & -> & He3 & He). cbn [evs] in He. injection He as <- _. apply ev_reg in He3. subst v3.
      cbn [exec_acts]. rewrite wraps. reflexivity. }
    1-2: destruct (evs_two S v SP) as (x & b & He). 3-5: destruct (evs_two S (OMemReg SP) SP) as (x & b & He).
    all: rewrite He; cbn [exec_acts]; rewrite wraps; try reflexivity.
Qed.

(** ---- the places tell the addresses ---- *)

Definition at_place (S0 : arch) (x : option place) (a : Z) : Prop :=
  match x with
  | None => True
  | Some (Absolute b) => a = b
  | Some (Relative r o) => u64 a = u64 (rd S0 (LR r) + o)
  end.

Lemma prog_fetched : forall p pc, 0 <= pc -> prog_at p pc = fetched p pc.
Proof.
  intros p pc H. unfold prog_at, fetched. destruct (Z.leb_spec 0 pc); [|lia]. cbn [andb]. destruct (Z.ltb_spec pc (Z.of_nat (length p))); [reflexivity|].
  symmetry. apply nth_overflow. lia.
Qed.
Lemma u64_pos : forall a, 0 <= u64 a.
Proof. intros a. unfold u64. apply Z.mod_pos_bound. reflexivity. Qed.
Lemma guess_next : forall i pc, guess i pc = fetched_next i pc.
Proof. intros i pc. destruct i; try reflexivity; destruct a; reflexivity. Qed.

Lemma differ_addr : forall S0 x y a b, differ x y = true -> at_place S0 x a -> at_place S0 y b -> a <> b.
Proof.
  intros S0 x y a b H Hx Hy <-. destruct x as [[u|r o]|], y as [[v|s o']|]; try discriminate; cbn [differ at_place] in *.
  - subst. now rewrite Z.eqb_refl in H.
  - apply andb_prop in H. destruct H as [H1 H2]. apply reg_eqb_eq in H1. subst s. apply negb_true_iff, Z.eqb_neq in H2. apply H2.
    rewrite Hx in Hy. apply u64_cong in Hy. destruct Hy as [k Hk]. change 0 with (u64 0). apply u64_cong. exists k. lia.
Qed.

Lemma window_places : forall p S0, (forall pc, produces (prog_at p pc) <> None) -> forall n S d, 0 <= a_pc S ->
  (forall r k, d r = Some k -> u64 (rd S (LR r)) = u64 (rd S0 (LR r) + k)) ->
  all_differ (places p n (a_pc S) d) = true ->
  NoDup (window E p n S) /\ forall a, In a (window E p n S) -> exists x, In x (places p n (a_pc S) d) /\ at_place S0 x a.
Proof.
  intros p S0 HP. induction n as [|n IH]; intros S d H0 Hd HA; cbn [window places] in *; [split; [constructor|intros a []]|].
  pose proof (HP (a_pc S)) as Hi. rewrite prog_fetched in * by exact H0. cbv zeta in *. set (i := fetched p (a_pc S)) in *.
  assert (Hn : a_pc (spec_step E i S) = fetched_next i (a_pc S)) by (rewrite <- guess_next; reflexivity).
  assert (HI : all_differ (places p n (fetched_next i (a_pc S)) (plus d (moves i))) = true).
  { destruct (stores i); [|exact HA]. cbn [app all_differ] in HA. now apply andb_prop in HA. }
  destruct (IH (spec_step E i S) (plus d (moves i))) as [N1 N2].
  - rewrite Hn, <- guess_next. unfold guess, next_guess. destruct (jump_dest i) as [q|]; [destruct (op_val q)|]; apply u64_pos.
  - intros r k Hk. unfold plus in Hk. destruct (d r) as [x|] eqn:Hx; [|discriminate]. destruct (moves i r) as [y|] eqn:Hy; [|discriminate]. injection Hk as <-.
    rewrite (moves_ok i S r y Hi Hy). rewrite (u64_plus _ _ y (Hd r x Hx)). f_equal. lia.
  - now rewrite Hn.
  - rewrite Hn in N2. destruct (store_addr E i S) as [a|] eqn:Ha; cbn [optl app].
    2: { split; [exact N1|]. intros b Hb. destruct (N2 b Hb) as (x & Hx & Hxb). exists x. split; [apply in_or_app; now right|exact Hxb]. }
    destruct (store_place i S a Ha) as [Hs Hp]. rewrite Hs in *. cbn [app all_differ] in *. apply andb_prop in HA. destruct HA as [HA _].
    set (x0 := match place_of i with Some x => moved d x | None => None end) in *.
    assert (Hx0 : at_place S0 x0 a).
    { subst x0. destruct (place_of i) as [[b|r o]|]; [exact Hp| |exact I]. cbn [moved]. destruct (d r) as [k|] eqn:Hk; [|exact I]. cbn [at_place].
      rewrite Hp, (u64_plus _ _ o (Hd r k Hk)). f_equal. lia. }
    split.
    + constructor; [|exact N1]. intros Hin. destruct (N2 a Hin) as (x & Hx & Hxa). rewrite forallb_forall in HA. exact (differ_addr S0 x0 x a a (HA x Hx) Hx0 Hxa eq_refl).
    + intros b [<-|Hb]; [exists x0; split; [now left|exact Hx0]|]. destruct (N2 b Hb) as (x & Hx & Hxb). exists x. split; [now right|exact Hxb].
Qed.

(** ---- from the addresses inside the program to all ---- *)
Lemma places_ext : forall p n pc d d', (forall r, d r = d' r) -> places p n pc d = places p n pc d'.
Proof.
  intros p. induction n as [|n IH]; intros pc d d' H; [reflexivity|]. cbn [places]. f_equal.
  - destruct (stores _); [|reflexivity]. f_equal. destruct (place_of _) as [[a|r o]|]; cbn [moved]; now rewrite ?H.
  - apply IH. intros r. unfold plus. now rewrite H.
Qed.
Lemma places_le : forall p n m pc d, (n <= m)%nat -> exists t, places p m pc d = places p n pc d ++ t.
Proof.
  intros p. induction n as [|n IH]; intros m pc d H; [eexists; reflexivity|]. destruct m as [|m]; [lia|]. cbn [places]. cbv zeta.
  destruct (IH m (fetched_next (fetched p pc) pc) (plus d (moves (fetched p pc)))) as [t Ht]; [lia|]. exists t. now rewrite Ht, app_assoc.
Qed.
Lemma all_differ_l : forall l t, all_differ (l ++ t) = true -> all_differ l = true.
Proof.
  induction l as [|x l IH]; intros t H; [reflexivity|]. cbn [app all_differ] in *. apply andb_prop in H. destruct H as [H1 H2]. rewrite forallb_app in H1. apply andb_prop in H1. destruct H1 as [-> _]. now rewrite (IH t H2).
Qed.

Lemma spread_all : forall p n, spread p n = true -> forall m, (m <= n)%nat -> forall pc, 0 <= pc -> all_differ (places p m pc unmoved) = true.
Proof.
  intros p n H. induction m as [|m IH]; intros Hm pc Hpc; [reflexivity|]. destruct (Z.ltb_spec pc (Z.of_nat (length p))) as [Hl|Hl].
  - unfold spread in H. rewrite forallb_forall in H. specialize (H (Z.to_nat pc)). rewrite Z2Nat.id in H by exact Hpc.
    destruct (places_le p (S m) n pc unmoved Hm) as [t Ht]. apply (all_differ_l _ t). rewrite <- Ht. apply H. apply in_seq. lia.
  - cbn [places]. cbv zeta. unfold fetched. rewrite nth_overflow by lia. cbn [stores app fetched_next].
    rewrite (places_ext p m _ (plus unmoved (moves INop)) unmoved) by (intros []; reflexivity). apply IH; [lia|apply u64_pos].
Qed.

Theorem spread_window : forall g p, (forall pc, good_ins g (prog_at p pc) = true) -> spread p (g_rs g) = true -> forall S, 0 <= a_pc S -> NoDup (window E p (g_rs g) S).
Proof.
  intros g p Hg Hs S H0. refine (proj1 (window_places p S _ (g_rs g) S unmoved H0 _ (spread_all p (g_rs g) Hs _ (le_n _) _ H0))).
  - intros pc. apply (good_defined g _ (Hg pc)).
  - intros r k Hk. destruct r; cbn [unmoved] in Hk; try discriminate; injection Hk as <-; f_equal; lia.
Qed.
End Env.
