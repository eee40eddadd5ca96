(** Setting one register: the library reads all of them and writes all of them back, which
    changes only the one that was set (C33). *)
From Coq Require Import Ascii String ZArith NArith List Bool Lia Sorting.Sorted.
From Verif Require Import Base Text PropText PropNet StdMap Isa AluSpec State IsaSpec Lexer Asm Show AsmSpec PropAsm Exec Ram Writes Rat Cpu Os DbgText Spaces
  PipeInv PipeBasics PipeRun PipePoke Session IsaRefine DbgSpec PropPipe PropDbg Client Proto PropProto Native Src SrcFacts.
Import ListNotations.
Open Scope Z_scope.

(** ---- the order of std::map<std::string, ...> ---- *)

Lemma tltb_trans : forall a b c, tltb a b = true -> tltb b c = true -> tltb a c = true.
Proof.
  induction a as [|x a IH]; intros [|y b] [|z c]; cbn [tltb]; try congruence.
  destruct (Ascii.eqb_spec x y), (Ascii.eqb_spec y z), (Ascii.eqb_spec x z); subst; try congruence; try (rewrite ?N.ltb_lt; intros; lia); try (now apply IH).
Qed.
Lemma tltb_total : forall a b, teqb a b = false -> tltb a b = false -> tltb b a = true.
Proof.
  induction a as [|x a IH]; intros [|y b]; cbn [tltb]; try congruence; try reflexivity.
  - intros H. discriminate.
  - intros E. destruct (Ascii.eqb_spec x y), (Ascii.eqb_spec y x); subst; try congruence.
    + apply IH. destruct (teqb a b) eqn:Q; [|reflexivity]. apply teqb_eq in Q. subst. now rewrite teqb_refl in E.
    + intros H. apply N.ltb_ge in H. apply N.ltb_lt. assert (N_of_ascii y <> N_of_ascii x) by (intros Q; apply n; rewrite <- (ascii_N_embedding x), <- (ascii_N_embedding y); congruence). lia.
Qed.
Lemma tltb_irrefl : forall a, tltb a a = false.
Proof. induction a as [|x a IH]; [reflexivity|]. cbn [tltb]. now rewrite Ascii.eqb_refl. Qed.

Definition ordered {V} (m : list (text * V)) : Prop := StronglySorted (fun x y => tltb (fst x) (fst y) = true) m.
Lemma put_ordered : forall V (m : list (text * V)) k v, ordered m -> ordered (tput m k v).
Proof.
  unfold ordered. induction m as [|[k' v'] m IH]; intros k v H; cbn [mput]; [repeat constructor|].
  apply StronglySorted_inv in H. destruct H as [H1 H2]. destruct (teqb k k') eqn:E.
  - apply teqb_eq in E. subst. now constructor.
  - destruct (tltb k k') eqn:L.
    + constructor; [now constructor|]. constructor; [exact L|]. eapply Forall_impl; [|exact H2]. intros y Hy. cbn [fst] in *. now apply tltb_trans with k'.
    + constructor; [now apply IH|]. apply Forall_forall. intros [y w] Hy. cbn [fst].
      assert (J : In y (map fst (tput m k v))) by (apply in_map_iff; now exists (y, w)). apply (mput_keys teqb tltb teqb_eq) in J.
      destruct J as [-> |J]; [now apply tltb_total|]. apply in_map_iff in J. destruct J as ([y' w'] & Q & J). cbn in Q. subst. rewrite Forall_forall in H2. exact (H2 _ J).
Qed.
Lemma ordered_distinct : forall V (m : list (text * V)), ordered m -> distinct m.
Proof.
  unfold ordered, distinct. induction m as [|[k v] m IH]; intros H; cbn [map fst]; [constructor|]. apply StronglySorted_inv in H. destruct H as [H1 H2].
  constructor; [|now apply IH]. intros J. apply in_map_iff in J. destruct J as ([k' w] & Q & J). cbn in Q. subst. rewrite Forall_forall in H2.
  specialize (H2 _ J). cbn [fst] in H2. now rewrite tltb_irrefl in H2.
Qed.
Lemma rows_ordered : forall rows m, ordered m -> ordered (put_rows rows m).
Proof. induction rows as [|x rows IH]; intros m H; [exact H|]. cbn [put_rows fold_left]. apply IH. now apply put_ordered. Qed.


Lemma fetch_lines_ordered : forall num l m m', fetch_lines num m l = Some m' -> ordered m -> ordered m'.
Proof.
  intros num. induction l as [|x l IH]; intros m m' H O; cbn [fetch_lines] in H; [congruence|].
  destruct (fetch_line num m x) as [m1|] eqn:E; [|discriminate]. apply (IH _ _ H). unfold fetch_line in E.
  destruct (split_v x COLON) as [|a [|b ?]]; try discriminate. destruct (num b); [|discriminate]. injection E as <-. now apply put_ordered.
Qed.

Section U.
Variable U : setup.

Lemma fetch_ordered : forall num msg L m L', fetch U num msg L = Done m L' -> ordered m.
Proof.
  intros num msg L m L' H. unfold fetch, then_ in H. destruct (ask U msg L) as [[t|] L1| | |]; try discriminate.
  destruct (fetch_lines num [] (split_v t NL)) as [m'|] eqn:E; [|discriminate]. injection H as <- <-. apply (fetch_lines_ordered _ _ _ _ E). constructor.
Qed.

Lemma assign_get : forall (ps : list (reg * Z)) (f : lreg -> option Z) rg,
  (forall v, In (rg, v) ps -> f (LR rg) = Some v) -> assign lreg_eqb f (reg_values ps) (LR rg) = f (LR rg).
Proof.
  induction ps as [|[r w] ps IH]; intros f rg H; [reflexivity|]. cbn [reg_values map fst snd]. rewrite assign_cons. cbn [fst snd].
  fold (reg_values ps). destruct (lreg_eqb_spec (LR rg) (LR r)) as [Q|Q].
  - injection Q as <-. rewrite IH.
    + rewrite lreg_eqb_refl. symmetry. apply H. now left.
    + intros v J. rewrite lreg_eqb_refl. rewrite <- (H w) by now left. apply H. now right.
  - rewrite IH.
    + destruct (lreg_eqb_spec (LR rg) (LR r)); congruence.
    + intros v J. destruct (lreg_eqb_spec (LR rg) (LR r)); [congruence|]. apply H. now right.
Qed.
Lemma assign_freg : forall (ps : list (reg * Z)) (f : lreg -> option Z) k, assign lreg_eqb f (reg_values ps) (LF k) = f (LF k).
Proof.
  induction ps as [|[r w] ps IH]; intros f k; [reflexivity|]. cbn [reg_values map fst snd]. rewrite assign_cons. fold (reg_values ps). rewrite IH. reflexivity.
Qed.

(** All registers of the VM are among those the debugger believes to exist. *)
Definition all_known (c : cpu) : Prop := forall rg, In (LR rg) (reg_list (c_cfg c)) -> known_reg U c rg.
(** SetRegister: the register named gets the value, everything else stays. *)
Theorem C33_set_register : forall N c rg v, seen U N c -> all_known c -> In (LR rg) (reg_list (c_cfg c)) -> fits v ->
  exists r c', n_link N = stopped r c /\ set_register U (show_reg rg) v N = Done tt (set_link N (stopped r c')) /\ readable c' /\ c_cfg c' = c_cfg c /\
    sees c' (fun l => if lreg_eqb l (LR rg) then Some v else get_lreg c l) (ram_get (c_ram c)) (c_prog c) (c_dbg c).
Proof.
  intros N c rg v [[r L] Rd M D] K I Fv. destruct (C33_fetch_registers U r c Rd) as (m & E & F1 & F2).
  pose proof (fetch_ordered _ _ _ _ _ E) as O.
  unfold set_register, then_, proc. rewrite L, E. cbn [n_link set_link]. rewrite <- L, set_link_same, L.
  assert (G : exists w, tget m (show_reg rg) = Some w).
  { pose proof (F1 _ I) as Q. cbn [lreg_name] in Q. destruct (rd_reg c Rd (LR rg) (listed_ok _ _ (or_introl I))) as (w & W & _). exists w. congruence. }
  destruct G as [w W]. rewrite W.
  set (m' := tput m (show_reg rg) v).
  assert (OM : distinct m') by (apply ordered_distinct, put_ordered, O).
  assert (GM : forall n, tget m' n = if teqb n (show_reg rg) then Some v else tget m n) by
    (intros n; unfold m'; destruct (teqb n (show_reg rg)) eqn:Q; [apply teqb_eq in Q; subst; apply (mget_put_same teqb tltb teqb_eq)|apply (mget_put_other teqb tltb teqb_eq); intros ->; now rewrite teqb_refl in Q]).
  assert (RM : forall x, In x m' -> exists g, In (LR g) (reg_list (c_cfg c)) /\ fst x = show_reg g /\ (if reg_eqb g rg then Some v else get_lreg c (LR g)) = Some (snd x)).
  { intros [n x] J. apply (mget_distinct teqb teqb_eq) in J; [|exact OM]. rewrite GM in J. cbn [fst snd].
    destruct (teqb n (show_reg rg)) eqn:Q.
    - apply teqb_eq in Q. exists rg. subst n. destruct (reg_eqb_spec rg rg); [|congruence]. auto.
    - destruct (F2 n) as (l & Il & ->); [congruence|]. assert (exists g, l = LR g) as [g ->].
      { unfold reg_list in Il. apply in_app_or in Il. destruct Il as [[<-|[<-|[<-|[]]]]|Il]; eauto. apply in_map_iff in Il. destruct Il as (k & <- & _). eauto. }
      exists g. cbn [lreg_name] in *. rewrite (F1 (LR g) Il) in J || (pose proof (F1 _ Il) as J2; cbn [lreg_name] in J2; rewrite J2 in J).
      destruct (reg_eqb_spec g rg); [subst; now rewrite teqb_refl in Q|]. auto. }
  assert (PS : exists ps, m' = reg_rows ps /\ Forall (fun x => In (LR (fst x)) (reg_list (c_cfg c)) /\ (if reg_eqb (fst x) rg then Some v else get_lreg c (LR (fst x))) = Some (snd x)) ps).
  { clear -RM. induction m' as [|x m' IH]; [exists []; split; [reflexivity|constructor]|]. destruct IH as (ps & -> & P); [intros y J; apply RM; now right|].
    destruct (RM x) as (g & A & B & C); [now left|]. exists ((g, snd x) :: ps). split; [|now constructor]. cbn [reg_rows map fst snd]. rewrite <- B. now destruct x. }
  destruct PS as (ps & EP & P). rewrite Forall_forall in P.
  destruct (C33_set_registers U r ps c Rd) as (c' & E' & R' & C' & S').
  { apply Forall_forall. intros [g x] J. destruct (P _ J) as [P1 P2]. cbn [fst snd] in *. split; [now apply K|].
    destruct (reg_eqb g rg); [congruence|]. destruct (rd_reg c Rd (LR g) (listed_ok _ _ (or_introl P1))) as (y & Y & Fy). congruence. }
  exists r, c'. split; [reflexivity|]. rewrite EP, L, E'. split; [reflexivity|]. split; [exact R'|]. split; [exact C'|].
  destruct S' as [S1 S2 S3 S4]. constructor; try assumption. intros [g|k]; rewrite S1; [|now rewrite assign_freg].
  destruct (lreg_eqb_spec (LR g) (LR rg)) as [Q|Q].
  - injection Q as ->. assert (J : In (rg, v) ps).
    { assert (J : In (show_reg rg, v) m') by (apply (mget_in teqb teqb_eq); rewrite GM; now rewrite teqb_refl).
      rewrite EP in J. apply in_map_iff in J. destruct J as ([g x] & Q1 & Q2). cbn [fst snd] in Q1. injection Q1 as Q1 ->. pose proof (lreg_name_inj (LR g) (LR rg) Q1) as Q3. injection Q3 as ->. exact Q2. }
    assert (V : forall x, In (rg, x) ps -> x = v). { intros x J2. destruct (P _ J2) as [_ P2]. cbn [fst snd] in P2. destruct (reg_eqb_spec rg rg); congruence. }
    clear -J V. revert J V. generalize (get_lreg c). induction ps as [|[g x] ps IH]; intros f J V; [destruct J|].
    cbn [reg_values map fst snd]. rewrite assign_cons. fold (reg_values ps). cbn [fst snd].
    destruct (reg_eqb_spec g rg) as [->|Q].
    + rewrite (V x) in * by now left. rewrite assign_get; [now rewrite lreg_eqb_refl|]. intros y Jy. rewrite lreg_eqb_refl. f_equal. symmetry. apply V. now right.
    + destruct J as [J|J]; [congruence|]. apply IH; [exact J|]. intros y Jy. apply V. now right.
  - rewrite assign_get; [reflexivity|]. intros x J. destruct (P _ J) as [_ P2]. cbn [fst snd] in P2. destruct (reg_eqb_spec g rg); congruence.
Qed.
End U.
Print Assumptions C33_set_register.
