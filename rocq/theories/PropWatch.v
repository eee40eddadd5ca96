(** C31, C32, C58: watchpoints and the debug registers. *)
From Coq Require Import Ascii String ZArith NArith List Bool Lia Permutation.
From Verif Require Import Base Text PropText PropNet StdMap Isa AluSpec State IsaSpec Lexer Asm Show AsmSpec PropAsm Exec Ram Writes Rat Cpu Os DbgText Spaces
  PipeInv PipeBasics PipeRun PipePoke Session IsaRefine DbgSpec PropPipe PropDbg Client Proto PropProto Native PropBreak.
Import ListNotations.
Open Scope Z_scope.

(** ---- C32 ---- *)

Definition word64 (v : Z) : Prop := 0 <= v < 2 ^ 64.

Lemma word64_bits : forall v, 0 <= v -> (forall k, 64 <= k -> Z.testbit v k = false) -> word64 v.
Proof.
  intros v P H. split; [exact P|]. destruct (Z.eq_dec v 0) as [->|N]; [lia|]. apply Z.log2_lt_pow2; [lia|].
  destruct (Z_lt_le_dec (Z.log2 v) 64) as [L|L]; [exact L|]. specialize (H (Z.log2 v) L). rewrite Z.bit_log2 in H by lia. discriminate.
Qed.
Lemma bits_word64 : forall v k, word64 v -> 64 <= k -> Z.testbit v k = false.
Proof.
  intros v k [P H] K. destruct (Z.eq_dec v 0) as [->|N]; [apply Z.bits_0|]. apply Z.bits_above_log2; [exact P|]. assert (Z.log2 v < 64) by (apply Z.log2_lt_pow2; lia). lia.
Qed.
Lemma one_bit : forall i k, (i < 64)%nat -> Z.testbit (Z.shiftl 1 (Z.of_nat i)) k = (k =? Z.of_nat i).
Proof. intros i k H. rewrite Z.shiftl_1_l, Z.pow2_bits_eqb by lia. now rewrite Z.eqb_sym. Qed.
Lemma u64_bits : forall v k, 0 <= k < 64 -> Z.testbit (u64 v) k = Z.testbit v k.
Proof. intros v k H. unfold u64, two64. change 18446744073709551616 with (2 ^ 64). rewrite Z.mod_pow2_bits_low by lia. reflexivity. Qed.

Lemma tget_put : forall (m : list (text * Z)) n v x, tget (tput m n v) x = if teqb x n then Some v else tget m x.
Proof.
  intros m n v x. destruct (teqb x n) eqn:E; [apply teqb_eq in E; subst; apply mget_put_same; exact teqb_eq|].
  apply mget_put_other; [exact teqb_eq|]. intros ->. now rewrite teqb_refl in E.
Qed.

(** Activating or deactivating register [i] changes bit [i] of the control register and
    nothing else, *)
Theorem C32_activate : forall i regs v, (i < 4)%nat -> tget regs (dname 4) = Some v -> word64 v ->
  exists v' regs', activate i regs = Some regs' /\ word64 v' /\
    (forall name, tget regs' name = if teqb name (dname 4) then Some v' else tget regs name) /\
    (forall k, 0 <= k -> Z.testbit v' k = if k =? Z.of_nat i then true else Z.testbit v k).
Proof.
  intros i regs v Hi H W. unfold activate, at_put. rewrite H.
  assert (B : forall k, 0 <= k -> Z.testbit (Z.lor v (Z.shiftl 1 (Z.of_nat i))) k = if k =? Z.of_nat i then true else Z.testbit v k).
  { intros k K. rewrite Z.lor_spec, one_bit by lia. destruct (k =? Z.of_nat i); [apply orb_true_r|apply orb_false_r]. }
  eexists. eexists. split; [reflexivity|]. split; [|split; [intros name; apply tget_put|exact B]].
  apply word64_bits; [apply Z.lor_nonneg; split; [apply W|apply Z.shiftl_nonneg; lia]|]. intros k K. rewrite B by lia. destruct (Z.eqb_spec k (Z.of_nat i)); [lia|now apply bits_word64].
Qed.
Theorem C32_deactivate : forall i regs v, (i < 4)%nat -> tget regs (dname 4) = Some v -> word64 v ->
  exists v' regs', deactivate i regs = Some regs' /\ word64 v' /\
    (forall name, tget regs' name = if teqb name (dname 4) then Some v' else tget regs name) /\
    (forall k, 0 <= k -> Z.testbit v' k = if k =? Z.of_nat i then false else Z.testbit v k).
Proof.
  intros i regs v Hi H W. unfold deactivate, at_put. rewrite H.
  assert (B : forall k, 0 <= k -> Z.testbit (Z.land v (u64 (Z.lnot (Z.shiftl 1 (Z.of_nat i))))) k = if k =? Z.of_nat i then false else Z.testbit v k).
  { intros k K. rewrite Z.land_spec. destruct (Z_lt_le_dec k 64) as [L|L].
    - rewrite u64_bits, Z.lnot_spec, one_bit by lia. destruct (k =? Z.of_nat i); [apply andb_false_r|apply andb_true_r].
    - rewrite (bits_word64 v k W L). now destruct (k =? Z.of_nat i). }
  eexists. eexists. split; [reflexivity|]. split; [|split; [intros name; apply tget_put|exact B]].
  apply word64_bits; [apply Z.land_nonneg; left; apply W|]. intros k K. rewrite B by lia. destruct (Z.eqb_spec k (Z.of_nat i)); [reflexivity|now apply bits_word64].
Qed.

(** and the register found responsible after a stop is the one the VM has recorded: it
    watches the cell that was written. [d] and [d'] are the debug registers before and
    after the write (C17_watchpoint). *)
Theorem C32_responsible : forall d d' a regs, recorded d d' a -> length d = 5%nat -> (forall i, tget regs (dname i) = nth_error d' i) ->
  exists i, responsible regs = Some i /\ watches d i a.
Proof.
  intros d d' a regs (i & W & D & L & B) L5 H. exists i. split; [|exact W]. unfold responsible. rewrite H.
  destruct (nth_error d' 4) as [v|] eqn:E; [|apply nth_error_None in E; lia].
  rewrite (nth_error_nth _ _ 0 E) in B. destruct W as [Hi _].
  assert (X : Z.shiftr (Z.land v 65280) 8 = 2 ^ Z.of_nat i).
  { apply Z.bits_inj'. intros k K. rewrite Z.shiftr_spec, Z.land_spec by lia. change 65280 with (Z.shiftl (Z.ones 8) 8).
    rewrite Z.shiftl_spec by lia. replace (k + 8 - 8) with k by lia. rewrite Z.pow2_bits_eqb by lia. rewrite B by lia. rewrite Z.testbit_ones by lia.
    replace (k + 8 - 8) with k by lia. destruct (Z.leb_spec 8 (k + 8)); [|lia]. destruct (Z.leb_spec 0 k); [|lia].
    destruct (Z.ltb_spec (k + 8) 16), (Z.ltb_spec k 8); try lia; cbn [andb]; rewrite ?andb_true_r, ?andb_false_r; [apply Z.eqb_sym]. }
  rewrite X. destruct (Z.eqb_spec (2 ^ Z.of_nat i) 0) as [Y|Y]; [pose proof (Z.pow_pos_nonneg 2 (Z.of_nat i)); lia|]. rewrite Z.log2_pow2 by lia. now rewrite Nat2Z.id.
Qed.

(** ---- C31: specification ---- *)

(** What the user does, and what happens to the VM in between: it may run, which has no
    effect on the debug registers but that of a watchpoint being hit. *)
Inductive wpop : Type := WpSet (a : Z) | WpRemove (a : Z) | WpRun (f : cpu -> reason * cpu).
Definition lets_be (f : cpu -> reason * cpu) : Prop := forall c, c_dbg (snd (f c)) = c_dbg c \/ exists a, recorded (c_dbg c) (c_dbg (snd (f c))) a.
Definition wpop_ok (o : wpop) : Prop := match o with WpSet a | WpRemove a => word64 a | WpRun f => lets_be f end.

(** The addresses that are watched; [None]: the operation is an error. *)
Definition wp_spec (o : wpop) (l : list Z) : option (list Z) :=
  match o with
  | WpSet a => if in_dec Z.eq_dec a l then None else if (4 <=? length l)%nat then None else Some (a :: l)
  | WpRemove a => if in_dec Z.eq_dec a l then Some (remove Z.eq_dec a l) else None
  | WpRun _ => Some l
  end.
Fixpoint wps_spec (os : list wpop) (l : list Z) : list bool * list Z :=
  match os with
  | [] => ([], l)
  | o :: os' => match wp_spec o l with
                | Some l' => let (b, l2) := wps_spec os' l' in (true :: b, l2)
                | None => let (b, l2) := wps_spec os' l in (false :: b, l2)
                end
  end.
Definition run_wp (U : setup) (o : wpop) : act native unit :=
  match o with
  | WpSet a => set_watchpoint U a
  | WpRemove a => remove_watchpoint U a
  | WpRun f => fun N => match k_host (n_link N) with
                        | Some (At _ c) => let (r', c') := f c in Done tt (set_link N (stopped r' c'))
                        | _ => Dead
                        end
  end.
Fixpoint run_wps (U : setup) (os : list wpop) (N : native) : option (list bool * native) :=
  match os with
  | [] => Some ([], N)
  | o :: os' => match run_wp U o N with
                | Done _ N' => option_map (fun x => (true :: fst x, snd x)) (run_wps U os' N')
                | Failed N' => option_map (fun x => (false :: fst x, snd x)) (run_wps U os' N')
                | _ => None
                end
  end.

(** The watchpoints of the library, each with its debug register, agree with the debug
    registers of the VM. *)
Record slots (wps : list (Z * nat)) (d : list Z) : Prop := mkSlots {
  sl_keys : NoDup (map fst wps);
  sl_regs : NoDup (map snd wps);
  sl_watch : forall a i, In (a, i) wps -> watches d i a
}.

(** ---- proof ---- *)

Section U.
Variable U : setup.

Definition rows5 (d : list Z) : list (text * Z) := combine (map dreg_name (seq 0 (length d))) d.

Lemma fetch5 : forall r c, Forall word64 (c_dbg c) -> length (c_dbg c) = 5%nat ->
  fetch_debug_registers U (stopped r c) = Done (rows5 (c_dbg c)) (stopped r c).
Proof.
  intros r c R L. set (rows := rows5 (c_dbg c)).
  assert (E : map fst rows = map dreg_name (seq 0 (length (c_dbg c)))) by (apply combine_fst; now rewrite map_length, seq_length).
  assert (G : Forall (fun x => word_ok (fst x) /\ 0 <= snd x < 2 ^ 64) rows).
  { apply Forall_forall. intros [n v] I. cbn [fst snd]. split.
    - assert (J : In n (map fst rows)) by (apply in_map_iff; now exists (n, v)). rewrite E in J. apply in_map_iff in J. destruct J as (i & <- & _). apply dreg_name_word.
    - apply in_combine_r in I. rewrite Forall_forall in R. now apply R. }
  unfold fetch_debug_registers, fetch, then_. rewrite (ask_ok U _ CPeekDebugRegs r c (ADebugRegs (c_dbg c)) c) by reflexivity. cbn [reply_text].
  rewrite dbg_lines_rows, lines_split.
  - fold rows. change (combine (map dreg_name (seq 0 (Datatypes.length (c_dbg c)))) (c_dbg c)) with rows. rewrite fetch_rows.
    + unfold opt_or, ret. f_equal. unfold rows, rows5. destruct (c_dbg c) as [|d0 [|d1 [|d2 [|d3 [|d4 [|]]]]]]; try discriminate L. reflexivity.
    + eapply Forall_impl; [|exact G]. intros [n v] [G1 G2]. cbn [fst snd] in *.
      destruct (show_Z_word v) as (A & _ & _ & B). split; [exact G1|]. split; [exact A|]. split; [exact B|]. now apply svtou64_show.
  - apply Forall_forall. intros w I. apply in_map_iff in I. destruct I as ([n v] & <- & I). rewrite Forall_forall in G. specialize (G _ I). cbn [fst snd] in *.
    destruct G as [(W1 & _ & W2 & _) _]. destruct (show_Z_word v) as (_ & _ & W3 & _). split; [destruct n; [now elim W1|discriminate]|].
    intros J. apply in_app_or in J. destruct J as [J|[J|J]]; [tauto|discriminate J|tauto].
Qed.

Lemma set_dbg_exact : forall r ps c, length (c_dbg c) = 5%nat -> Forall (fun x => (fst x < 5)%nat /\ word64 (snd x)) ps ->
  set_debug_registers U (dreg_rows ps) (stopped r c) = Done tt (stopped r (set_dbg c (fold_left (fun d x => set_nth d (fst x) (snd x)) ps (c_dbg c)) (c_int c))).
Proof.
  intros r ps. induction ps as [|[i v] ps IH]; intros c L H; [now destruct c|].
  inversion H as [|? ? [K Fv] H']; subst. cbn [fst snd] in *. destruct (valid_dname i K) as [V T]. destruct (dreg_name_word i) as (W1 & W2 & _).
  set (c1 := set_dbg c (set_nth (c_dbg c) i v) (c_int c)).
  assert (E1 : do_cmd (u_cfg U) r (CPokeDebugRegs (Z.of_nat i) v) c = Ok (AOk, c1, Stay)).
  { cbn [do_cmd]. unfold poke_dbg. rewrite L, Nat2Z.id. destruct (Z.leb_spec 0 (Z.of_nat i)); [|lia].
    destruct (Z.ltb_spec (Z.of_nat i) (Z.of_nat 5)); [reflexivity|lia]. }
  unfold set_debug_registers, set_with. cbn [dreg_rows map each fst snd]. unfold then_ at 1. rewrite V.
  rewrite (command_ok U _ _ _ _ _ (decode_pokedebug_msg _ _ _ _ _ W1 W2 T Fv) E1).
  assert (L1 : length (c_dbg c1) = 5%nat) by (cbn [c1 set_dbg c_dbg]; now rewrite set_nth_length).
  exact (IH c1 L1 H').
Qed.

Lemma rows5_get : forall d i, tget (rows5 d) (dname i) = nth_error d i.
Proof.
  intros d i. destruct (nth_error d i) as [v|] eqn:Hi; [exact (combine_get _ 0 _ _ Hi)|].
  destruct (tget (rows5 d) (dname i)) as [v|] eqn:H; [|reflexivity]. exfalso. apply (mget_in teqb (fun a b => teqb_eq a b)) in H.
  assert (E : map fst (rows5 d) = map dreg_name (seq 0 (length d))) by (apply combine_fst; now rewrite map_length, seq_length).
  assert (J : In (dname i) (map fst (rows5 d))) by (apply in_map_iff; now exists (dname i, v)). rewrite E in J. apply in_map_iff in J.
  destruct J as (j & J1 & J2). apply dreg_name_inj in J1. subst j. apply in_seq in J2. apply nth_error_None in Hi. lia.
Qed.

Definition put_watch (d : list Z) (i : nat) (a : Z) : list Z :=
  set_nth (set_nth d i a) 4 (Z.lor (nth 4 d 0) (Z.shiftl 1 (Z.of_nat i))).

Lemma nth_set : forall (d : list Z) i v j, (i < length d)%nat -> nth j (set_nth d i v) 0 = if Nat.eqb j i then v else nth j d 0.
Proof.
  induction d as [|x d IH]; intros [|i] v [|j] H; cbn in *; try lia; try reflexivity. apply IH. lia.
Qed.

Lemma put_watch_bits : forall d i a, length d = 5%nat -> (i < 4)%nat -> Forall word64 d -> word64 a ->
  Forall word64 (put_watch d i a) /\ length (put_watch d i a) = 5%nat /\ watches (put_watch d i a) i a /\
  forall j b, j <> i -> watches d j b -> watches (put_watch d i a) j b.
Proof.
  intros d i a L Hi W Wa. assert (W4 : word64 (nth 4 d 0)) by (rewrite Forall_forall in W; apply W, nth_In; lia).
  destruct (C32_activate i (rows5 d) (nth 4 d 0) Hi) as (v' & m & A & Wv & _ & B); [rewrite rows5_get; now apply nth_error_nth'; lia|exact W4|].
  assert (V : v' = Z.lor (nth 4 d 0) (Z.shiftl 1 (Z.of_nat i))).
  { apply Z.bits_inj'. intros k K. rewrite B by exact K. rewrite Z.lor_spec, one_bit by lia. destruct (k =? Z.of_nat i); [now rewrite orb_true_r|now rewrite orb_false_r]. }
  unfold put_watch. rewrite <- V.
  assert (N4 : nth 4 (set_nth (set_nth d i a) 4 v') 0 = v') by (rewrite nth_set by (rewrite set_nth_length; lia); reflexivity).
  assert (Nj : forall j, (j < 4)%nat -> nth j (set_nth (set_nth d i a) 4 v') 0 = if Nat.eqb j i then a else nth j d 0).
  { intros j Hj. rewrite nth_set by (rewrite set_nth_length; lia). destruct (Nat.eqb_spec j 4); [lia|]. now rewrite nth_set by lia. }
  split; [|split; [now rewrite !set_nth_length|split]].
  - apply Forall_forall. intros x Hx. apply In_nth with (d := 0) in Hx. destruct Hx as (j & J1 & <-). rewrite !set_nth_length, L in J1.
    destruct (Nat.eq_dec j 4) as [->|J]; [now rewrite N4|]. rewrite Nj by lia. destruct (Nat.eqb j i); [exact Wa|]. rewrite Forall_forall in W. apply W, nth_In. lia.
  - split; [exact Hi|]. rewrite N4, B by lia. rewrite Z.eqb_refl. split; [reflexivity|]. rewrite Nj, Nat.eqb_refl by lia. reflexivity.
  - intros j b Hj (J1 & J2 & J3). split; [exact J1|]. rewrite N4, B by lia. destruct (Z.eqb_spec (Z.of_nat j) (Z.of_nat i)); [lia|]. split; [exact J2|].
    rewrite Nj by lia. destruct (Nat.eqb_spec j i); [contradiction|exact J3].
Qed.

(** The three functions that change the map, then sending it. *)
Lemma watch_sent : forall r c i a, Forall word64 (c_dbg c) -> length (c_dbg c) = 5%nat -> (i < 4)%nat -> word64 a ->
  exists regs1 regs2, set_debug_register i a (rows5 (c_dbg c)) = Some regs1 /\ activate i regs1 = Some regs2 /\
    set_debug_registers U regs2 (stopped r c) = Done tt (stopped r (set_dbg c (put_watch (c_dbg c) i a) (c_int c))).
Proof.
  intros r c i a W L Hi Wa.
  assert (P : Forall word64 (put_watch (c_dbg c) i a)) by now apply put_watch_bits.
  assert (G : forall ps, Forall (fun x => (fst x < 5)%nat /\ word64 (snd x)) ps -> fold_left (fun d x => set_nth d (fst x) (snd x)) ps (c_dbg c) = put_watch (c_dbg c) i a ->
    forall regs2, regs2 = dreg_rows ps -> set_debug_registers U regs2 (stopped r c) = Done tt (stopped r (set_dbg c (put_watch (c_dbg c) i a) (c_int c)))).
  { intros ps H1 H2 regs2 ->. rewrite set_dbg_exact by assumption. now rewrite H2. }
  destruct (c_dbg c) as [|d0 [|d1 [|d2 [|d3 [|d4 [|]]]]]]; try discriminate L.
  assert (C : i = 0%nat \/ i = 1%nat \/ i = 2%nat \/ i = 3%nat) by lia.
  assert (Q : Forall (fun x : nat * Z => (fst x < 5)%nat /\ word64 (snd x)) (combine (seq 0 5) (put_watch [d0; d1; d2; d3; d4] i a))).
  { apply Forall_forall. intros [k v] I. split; cbn [fst snd]; [apply in_combine_l, in_seq in I; lia|]. apply in_combine_r in I. rewrite Forall_forall in P. now apply P. }
  specialize (G _ Q). destruct C as [->|[->|[->| ->]]]; (eexists; eexists; split; [reflexivity|]; split; [reflexivity|]; apply G; reflexivity).
Qed.
End U.

Lemma zput_perm : forall {V} (m : list (Z * V)) k v, zget m k = None -> Permutation (zput m k v) ((k, v) :: m).
Proof.
  intros V. induction m as [|[k' v'] m IH]; intros k v H; [apply Permutation_refl|]. cbn [mget mput] in *. destruct (k =? k'); [discriminate|].
  destruct (k <? k'); [apply Permutation_refl|]. etransitivity; [apply perm_skip, IH, H|apply perm_swap].
Qed.
Lemma zget_key : forall {V} (m : list (Z * V)) k, zget m k = None <-> ~ In k (map fst m).
Proof. intros V m k. rewrite <- (mget_keys Z.eqb zeqb_eq). destruct (zget m k); split; intros H; try congruence; [elim H; discriminate]. Qed.

Lemma find_wp_none : forall wps i, find_wp wps i = None <-> ~ In i (map snd wps).
Proof.
  intros wps i. unfold find_wp. split.
  - intros H I. apply in_map_iff in I. destruct I as ([a j] & <- & I). pose proof (find_none _ _ H _ I) as K. cbn in K. now rewrite Nat.eqb_refl in K.
  - intros H. destruct (find _ wps) as [[a j]|] eqn:E; [|reflexivity]. exfalso. apply find_some in E. destruct E as [E1 E2]. cbn in E2. apply Nat.eqb_eq in E2. subst.
    apply H, in_map_iff. now exists (a, i).
Qed.

Lemma free_some : forall wps i, free_register wps = Some i -> (i < 4)%nat /\ ~ In i (map snd wps).
Proof.
  intros wps i H. unfold free_register in H. apply find_some in H. destruct H as [H1 H2]. apply in_seq in H1. unfold watch_count in H1. split; [lia|].
  destruct (find_wp wps i) eqn:E; [discriminate|]. now apply find_wp_none.
Qed.
Lemma free_none : forall wps d, slots wps d -> (free_register wps = None <-> (4 <= length wps)%nat).
Proof.
  intros wps d [K R W]. rewrite <- (map_length snd wps). split.
  - intros H. change 4%nat with (length (seq 0 4)). apply NoDup_incl_length; [apply seq_NoDup|]. intros i Hi. unfold free_register in H.
    pose proof (find_none _ _ H i Hi) as F. cbn in F. destruct (find_wp wps i) as [[a j]|] eqn:E; [|discriminate]. unfold find_wp in E. apply find_some in E.
    destruct E as [E1 E2]. cbn in E2. apply Nat.eqb_eq in E2. subst. apply in_map_iff. now exists (a, i).
  - intros L. destruct (free_register wps) as [i|] eqn:E; [|reflexivity]. exfalso. apply free_some in E. destruct E as [E1 E2]. apply E2.
    assert (I : incl (map snd wps) (seq 0 4)).
    { intros j J. apply in_map_iff in J. destruct J as ([a k] & <- & J). destruct (W a k J) as [Wk _]. apply in_seq. cbn [snd]. lia. }
    apply (NoDup_length_incl R) in I; [|exact L]. apply I, in_seq. lia.
Qed.

Lemma slots_put : forall wps d a i, slots wps d -> zget wps a = None -> ~ In i (map snd wps) -> (i < 4)%nat -> length d = 5%nat -> Forall word64 d -> word64 a ->
  slots (zput wps a i) (put_watch d i a).
Proof.
  intros wps d a i [K R W] A I Hi L Wd Wa. pose proof (zput_perm wps a i A) as P. destruct (put_watch_bits d i a L Hi Wd Wa) as (_ & _ & B1 & B2). constructor.
  - apply (Permutation_NoDup (l := map fst ((a, i) :: wps))); [now apply Permutation_map, Permutation_sym|]. cbn [map fst]. constructor; [now apply zget_key|exact K].
  - apply (Permutation_NoDup (l := map snd ((a, i) :: wps))); [now apply Permutation_map, Permutation_sym|]. cbn [map snd]. constructor; [exact I|exact R].
  - intros b j J. apply (Permutation_in _ P) in J. destruct J as [J|J]; [injection J as <- <-; exact B1|]. apply B2; [|now apply W].
    intros ->. apply I, in_map_iff. now exists (b, i).
Qed.

Lemma nodup_filter_map : forall {A B} (f : A -> B) (g : A -> bool) l, NoDup (map f l) -> NoDup (map f (filter g l)).
Proof.
  intros A B f g. induction l as [|x l IH]; intros H; [constructor|]. cbn [map] in H. inversion H as [|? ? H1 H2]; subst. cbn [filter]. destruct (g x); [|now apply IH].
  cbn [map]. constructor; [|now apply IH]. intros I. apply H1. apply in_map_iff in I. destruct I as (y & <- & I). apply filter_In in I. apply in_map. apply I.
Qed.
Lemma slots_erase : forall wps d a, slots wps d -> slots (zerase wps a) d.
Proof.
  intros wps d a [K R W]. constructor; [now apply nodup_filter_map|now apply nodup_filter_map|]. intros b j J. apply filter_In in J. now apply W.
Qed.

Lemma recorded_words : forall d d' a, recorded d d' a -> length d = 5%nat -> Forall word64 d -> Forall word64 d' /\ length d' = 5%nat /\ forall i b, watches d i b -> watches d' i b.
Proof.
  intros d d' a (i & Wi & D & L & B) L5 W. rewrite L5 in L. split; [|split; [exact L|]].
  - apply Forall_forall. intros x Hx. apply In_nth with (d := 0) in Hx. destruct Hx as (j & J1 & <-). rewrite L in J1. rewrite Forall_forall in W.
    destruct (Nat.eq_dec j 4) as [->|J]; [|rewrite D by lia; apply W, nth_In; lia].
    assert (W4 : word64 (nth 4 d 0)) by (apply W, nth_In; lia).
    assert (H : forall k, 64 <= k -> Z.testbit (nth 4 d' 0) k = false).
    { intros k K. rewrite B by lia. destruct (Z.ltb_spec k 16); [lia|]. rewrite andb_false_r. now apply bits_word64. }
    apply word64_bits; [|exact H]. apply Z.bits_iff_nonneg_ex. exists 64. intros m M. apply H. lia.
  - intros j b (J1 & J2 & J3). split; [exact J1|]. rewrite B by lia. destruct (Z.leb_spec 8 (Z.of_nat j)); [lia|]. split; [exact J2|]. now rewrite D.
Qed.

Record winv (l : list Z) (N : native) : Prop := mkWinv {
  wi_link : exists r c, n_link N = stopped r c /\ length (c_dbg c) = 5%nat /\ Forall word64 (c_dbg c) /\ slots (n_wps N) (c_dbg c);
  wi_nodup : NoDup l;
  wi_keys : forall a, In a l <-> In a (map fst (n_wps N))
}.

Lemma winv_length : forall l N, winv l N -> length l = length (n_wps N).
Proof.
  intros l N [(r & c & _ & _ & _ & [K _ _]) D E]. rewrite <- (map_length fst (n_wps N)). apply Nat.le_antisymm; apply NoDup_incl_length; auto; intros a; apply E.
Qed.

(** One operation: only debug registers of the VM change. *)
Lemma wp_op : forall U o l N, wpop_ok o -> winv l N ->
  match wp_spec o l with
  | Some l' => exists N', run_wp U o N = Done tt N' /\ winv l' N' /\ n_bps N' = n_bps N /\
      (match o with WpRun _ => True | _ => exists r c d, n_link N = stopped r c /\ n_link N' = stopped r (set_dbg c d (c_int c)) end)
  | None => run_wp U o N = Failed N
  end.
Proof.
  intros U o l N Ho H. pose proof (winv_length l N H) as Len. destruct H as [(r & c & L & L5 & W & S) D E]. destruct o as [a|a|f]; cbn [wp_spec run_wp wpop_ok] in *.
  - destruct (in_dec Z.eq_dec a l) as [I|I].
    + apply E, (mget_keys Z.eqb zeqb_eq) in I. unfold set_watchpoint, get, then_. destruct (zget (n_wps N) a); [reflexivity|congruence].
    + assert (A : zget (n_wps N) a = None) by (apply zget_key; rewrite <- E; exact I).
      unfold set_watchpoint, get. destruct (Nat.leb_spec 4 (length l)) as [Le|Le].
      * rewrite Len in Le. apply (free_none _ _ S) in Le. unfold then_. rewrite A, Le. reflexivity.
      * destruct (free_register (n_wps N)) as [i|] eqn:Fr; [|apply (free_none _ _ S) in Fr; lia]. destruct (free_some _ _ Fr) as [Hi Ni].
        unfold then_. rewrite A, Fr. cbn [opt_or]. unfold ret, proc. rewrite L, (fetch5 U r c W L5). cbn [set_link n_link].
        destruct (watch_sent U r c i a W L5 Hi Ho) as (regs1 & regs2 & E1 & E2 & E3). rewrite E1. cbn [opt_or]. unfold ret. rewrite E2. cbn [opt_or]. unfold ret.
        cbn [set_link n_link]. rewrite E3. unfold update. eexists. split; [reflexivity|]. split; [|split; [reflexivity|eexists; eexists; eexists; split; [reflexivity|reflexivity]]].
        destruct (put_watch_bits (c_dbg c) i a L5 Hi W Ho) as (B1 & B2 & _). constructor.
        -- exists r. eexists. split; [reflexivity|]. cbn [set_dbg c_dbg]. split; [exact B2|]. split; [exact B1|]. cbn [set_wps set_link n_wps]. now apply slots_put.
        -- constructor; [exact I|exact D].
        -- intros b. cbn [set_wps set_link n_wps In]. rewrite (mput_keys Z.eqb Z.ltb zeqb_eq), E. intuition congruence.
  - destruct (in_dec Z.eq_dec a l) as [I|I].
    + unfold remove_watchpoint, get, then_ at 1. pose proof I as I2. apply E, (mget_keys Z.eqb zeqb_eq) in I2. destruct (zget (n_wps N) a) as [i|] eqn:G; [|congruence].
      unfold then_ at 1. unfold proc. rewrite L, (fetch5 U r c W L5). rewrite <- L, set_link_same. unfold then_, deactivate, at_put. rewrite rows5_get.
      destruct (nth_error (c_dbg c) 4) eqn:N4; [|apply nth_error_None in N4; lia]. cbn [opt_or]. unfold ret, update. eexists. split; [reflexivity|].
      split; [|split; [reflexivity|exists r, c, (c_dbg c); split; [exact L|cbn [set_wps n_link]; rewrite L; now destruct c]]]. constructor.
      * exists r, c. cbn [set_wps n_link n_wps]. split; [exact L|]. split; [exact L5|]. split; [exact W|now apply slots_erase].
      * apply NoDup_remove_list || (clear - D; induction D as [|x l Hx D IH]; cbn [remove]; [constructor|]; destruct (Z.eq_dec a x); [exact IH|]; constructor; [intros K; apply in_remove in K; tauto|exact IH]).
      * intros b. cbn [set_wps n_wps]. rewrite <- (mget_keys Z.eqb zeqb_eq), zget_erase. destruct (Z.eqb_spec b a) as [->|Nb].
        -- split; [intros K; apply in_remove in K; tauto|congruence].
        -- rewrite (mget_keys Z.eqb zeqb_eq), <- E. split; [intros K; apply in_remove in K; tauto|now apply in_in_remove].
    + assert (A : zget (n_wps N) a = None) by (apply zget_key; rewrite <- E; exact I). unfold remove_watchpoint, get, then_. now rewrite A.
  - rewrite L. cbn [stopped k_host]. destruct (f c) as [r' c'] eqn:F. eexists. split; [reflexivity|]. split; [|split; [reflexivity|exact I]].
    specialize (Ho c). rewrite F in Ho. cbn [snd] in Ho. constructor; [|exact D|exact E]. exists r', c'. split; [reflexivity|]. cbn [set_link n_wps].
    destruct Ho as [->|(a & Rc)]; [auto|]. destruct (recorded_words _ _ _ Rc L5 W) as (R1 & R2 & R3). split; [exact R2|]. split; [exact R1|].
    destruct S as [K R Wt]. constructor; auto.
Qed.

(** C31: whatever sequence of setting and removing watchpoints the user gives, with the
    program running in between, each operation succeeds exactly when it should; there
    are never more than four watchpoints; no two share a debug register; and the
    register of each holds its address and is enabled. *)
Theorem C31_slots : forall U r c N os, n_wps N = [] -> n_link N = stopped r c -> length (c_dbg c) = 5%nat -> Forall word64 (c_dbg c) -> Forall wpop_ok os ->
  let l := snd (wps_spec os []) in
  exists N' r' c', run_wps U os N = Some (fst (wps_spec os []), N') /\ n_link N' = stopped r' c' /\
    (forall a, In a l <-> zget (n_wps N') a <> None) /\ (length (n_wps N') <= 4)%nat /\
    (forall a b i, zget (n_wps N') a = Some i -> zget (n_wps N') b = Some i -> a = b) /\
    (forall a i, zget (n_wps N') a = Some i -> watches (c_dbg c') i a).
Proof.
  intros U r c N os E L L5 W O l.
  assert (G : forall os l N, Forall wpop_ok os -> winv l N -> exists N', run_wps U os N = Some (fst (wps_spec os l), N') /\ winv (snd (wps_spec os l)) N').
  { clear. induction os as [|o os IH]; intros l N O H; [eexists; split; [reflexivity|exact H]|]. inversion O as [|? ? O1 O2]; subst. pose proof (wp_op U o l N O1 H) as K.
    cbn [wps_spec run_wps]. destruct (wp_spec o l) as [l'|].
    - destruct K as (N1 & E & H1 & _). rewrite E. destruct (IH l' N1 O2 H1) as (N' & E2 & H2). rewrite E2. destruct (wps_spec os l'); cbn in *. eauto.
    - rewrite K. destruct (IH l N O2 H) as (N' & E2 & H2). rewrite E2. destruct (wps_spec os l); cbn in *. eauto. }
  destruct (G os [] N O) as (N' & E1 & [(r' & c' & L' & L5' & W' & S) D K]).
  { constructor; [exists r, c; rewrite E; split; [exact L|split; [exact L5|split; [exact W|constructor; [constructor|constructor|intros ? ? []]]]]|constructor|rewrite E; reflexivity]. }
  destruct S as [S1 S2 S3]. exists N', r', c'. split; [exact E1|]. split; [exact L'|]. split; [intros a; rewrite (mget_keys Z.eqb zeqb_eq); apply K|]. split; [|split].
  - rewrite <- (map_length snd). change 4%nat with (length (seq 0 4)). apply NoDup_incl_length; [exact S2|]. intros i Hi. apply in_map_iff in Hi.
    destruct Hi as ([a j] & <- & Hi). destruct (S3 a j Hi) as [J _]. apply in_seq. cbn [snd]. lia.
  - intros a b i Ha Hb. apply (mget_in Z.eqb zeqb_eq) in Ha, Hb. clear - S2 Ha Hb. induction (n_wps N') as [|[x j] m IH]; [destruct Ha|]. cbn [map snd] in S2. inversion S2 as [|? ? X1 X2]; subst.
    destruct Ha as [Ha|Ha], Hb as [Hb|Hb]; [congruence| | |now apply IH].
    + injection Ha as -> ->. elim X1. apply in_map_iff. now exists (b, i).
    + injection Hb as -> ->. elim X1. apply in_map_iff. now exists (a, i).
  - intros a i Ha. apply S3, (mget_in Z.eqb zeqb_eq), Ha.
Qed.

(** Setting or removing a watchpoint changes nothing of the VM but debug registers. *)
Theorem C31_nothing_else : forall U r c N a N' (o : wpop), n_link N = stopped r c -> length (c_dbg c) = 5%nat -> Forall word64 (c_dbg c) -> slots (n_wps N) (c_dbg c) ->
  word64 a -> o = WpSet a \/ o = WpRemove a -> (run_wp U o N = Done tt N' \/ run_wp U o N = Failed N') ->
  n_bps N' = n_bps N /\ exists d, n_link N' = stopped r (set_dbg c d (c_int c)).
Proof.
  intros U r c N a N' o L L5 W S A Ho R.
  assert (H : winv (map fst (n_wps N)) N) by (constructor; [exists r, c; auto|apply S|reflexivity]).
  assert (Ok : wpop_ok o) by (destruct Ho as [->| ->]; exact A).
  pose proof (wp_op U o _ N Ok H) as K. destruct (wp_spec o _) as [l'|].
  - destruct K as (N1 & E & _ & B & X). destruct R as [R|R]; [|congruence]. assert (N1 = N') by congruence. subst N1. split; [exact B|].
    destruct Ho as [-> | ->]; destruct X as (r1 & c1 & d & X1 & X2); rewrite L in X1; injection X1 as <- <-; eauto.
  - destruct R as [R|R]; [congruence|]. assert (N' = N) by congruence. subst. split; [reflexivity|]. exists (c_dbg c). rewrite L. now destruct c.
Qed.

(** When a watchpoint is hit, the event names its address, as long as every debug
    register that is enabled in the VM belongs to a watchpoint of the library. [d]: the
    debug registers before the write. *)
Theorem C31_hit_reported : forall U r c N d a, n_link N = stopped r c -> length d = 5%nat -> Forall word64 d ->
  slots (n_wps N) d -> (forall i b, watches d i b -> In (b, i) (n_wps N)) -> recorded d (c_dbg c) a ->
  event_of U RHwBkpt N = Done (EvWatchpoint a) N.
Proof.
  intros U r c N d a L L5 W [S1 S2 S3] A R. destruct (recorded_words _ _ _ R L5 W) as (W' & L5' & _). cbn [event_of].
  unfold then_ at 1. unfold proc. rewrite L, (fetch5 U r c W' L5'). rewrite <- L, set_link_same.
  destruct (C32_responsible d (c_dbg c) a (rows5 (c_dbg c)) R L5 (rows5_get (c_dbg c))) as (i & Ri & Wi). rewrite Ri. cbn [opt_or]. unfold then_, ret, get.
  pose proof (A _ _ Wi) as I. assert (F : find_wp (n_wps N) i = Some (a, i)).
  { unfold find_wp. destruct (find (fun w => Nat.eqb (snd w) i) (n_wps N)) as [[b j]|] eqn:E.
    - apply find_some in E. destruct E as [E1 E2]. cbn in E2. apply Nat.eqb_eq in E2. subst j. f_equal. f_equal.
      destruct (S3 _ _ E1) as (_ & _ & X). destruct Wi as (_ & _ & Y). congruence.
    - pose proof (find_none _ _ E _ I) as K. cbn in K. now rewrite Nat.eqb_refl in K. }
  now rewrite F.
Qed.

(** ---- C58: removal ---- *)

(** Removing a watchpoint leaves its debug register enabled, with its address, *)
Theorem C58_still_enabled_refuted : forall U r c N a i, n_link N = stopped r c -> length (c_dbg c) = 5%nat -> Forall word64 (c_dbg c) -> slots (n_wps N) (c_dbg c) ->
  zget (n_wps N) a = Some i -> exists N', remove_watchpoint U a N = Done tt N' /\ zget (n_wps N') a = None /\ n_link N' = stopped r c /\ watches (c_dbg c) i a.
Proof.
  intros U r c N a i L L5 W S G. unfold remove_watchpoint, get, then_. rewrite G. unfold proc. rewrite L, (fetch5 U r c W L5). rewrite <- L, set_link_same.
  unfold deactivate, at_put. rewrite rows5_get. destruct (nth_error (c_dbg c) 4) eqn:N4; [|apply nth_error_None in N4; lia]. cbn [opt_or]. unfold ret, update.
  eexists. split; [reflexivity|]. cbn [set_wps n_wps n_link]. rewrite zget_erase, Z.eqb_refl. split; [reflexivity|]. split; [reflexivity|].
  apply (sl_watch _ _ S), (mget_in Z.eqb zeqb_eq), G.
Qed.
(** so that the VM stops at the next write, whereupon the debugger dies. *)
Definition fresh1 : native := mkNative [] [] None (mkLink (Some (os_start true (booted cfg1 prog0 [7; 8] [65; 10]))) false).
Definition watch_remove_go : act native unit :=
  let* _ := wait_event U1 100 in set_watchpoint U1 5;; remove_watchpoint U1 5;; continue_ U1 100.
Theorem C58_removed_watchpoint_refuted :
  match watch_remove_go fresh1 with Done _ N => n_wps N = [] /\ wait_event U1 100 N = Dead | _ => False end.
Proof. vm_compute. split; reflexivity. Qed.

(** Replacing all watchpoints when there are some is undefined. *)
Theorem C57_watchpoints_refuted : forall U r c N a l, n_wps N = [] -> n_link N = stopped r c -> length (c_dbg c) = 5%nat -> Forall word64 (c_dbg c) -> word64 a ->
  exists N', set_watchpoint U a N = Done tt N' /\ set_all_watchpoints U l N' = Dead.
Proof.
  intros U r c N a l E L L5 W A.
  assert (H : winv [] N) by (constructor; [exists r, c; rewrite E; split; [exact L|split; [exact L5|split; [exact W|constructor; [constructor|constructor|intros ? ? []]]]]|constructor|rewrite E; reflexivity]).
  destruct (wp_op U (WpSet a) [] N A H) as (N' & E1 & H1 & _). exists N'. split; [exact E1|]. unfold set_all_watchpoints, get, then_ at 1.
  destruct H1 as [(r1 & c1 & L1 & L51 & W1 & S1) _ K]. destruct (n_wps N') as [|[b i] m] eqn:Ew; [now destruct (proj1 (K a) (or_introl eq_refl))|].
  destruct (C58_still_enabled_refuted U r1 c1 N' b i L1 L51 W1) as (N2 & E2 & _); [now rewrite Ew|rewrite Ew; cbn [mget]; now rewrite Z.eqb_refl|]. unfold then_. now rewrite E2.
Qed.

(** ---- the hypotheses are met ---- *)

(** Five watchpoints are asked for, one twice; one is removed to make room. *)
Example C31_case : let os := [WpSet 5; WpSet 6; WpRun (fun c => (RSwBkpt, c)); WpSet 5; WpSet 9; WpSet 11; WpSet 12; WpRemove 6; WpSet 12; WpRemove 6] in
  Forall wpop_ok os /\ wps_spec os [] = ([true; true; true; false; true; true; false; true; true; false], [12; 11; 9; 5]).
Proof. cbv zeta. split; [repeat constructor; unfold word64; try lia; intros c; now left|reflexivity]. Qed.
Example C31_case_state : length (c_dbg cpu1) = 5%nat /\ Forall word64 (c_dbg cpu1).
Proof. split; [apply C33_case_readable|apply C33_case_readable]. Qed.
(** In C17_case register 2 watches cell 5 and is hit. *)
Example C32_case : recorded [0; 0; 5; 0; 4] (c_dbg cpu1) 5.
Proof.
  assert (D : c_dbg cpu1 = [0; 0; 5; 0; 1028]) by (vm_compute; reflexivity). rewrite D. exists 2%nat. split; [repeat split; cbn; lia|]. split; [|split; [reflexivity|]].
  - intros j Hj. assert (J : j = 0%nat \/ j = 1%nat \/ j = 2%nat \/ j = 3%nat) by lia. now destruct J as [->|[->|[->| ->]]].
  - intros k K. cbn [nth]. destruct (Z_lt_le_dec k 16) as [L|L].
    + assert (J : In k (map Z.of_nat (seq 0 16))) by (apply in_map_iff; exists (Z.to_nat k); split; [lia|apply in_seq; lia]).
      revert k J K L. assert (F : forallb (fun k => Bool.eqb (Z.testbit 1028 k) (if (8 <=? k) && (k <? 16) then k - 8 =? Z.of_nat 2 else Z.testbit 4 k)) (map Z.of_nat (seq 0 16)) = true) by (vm_compute; reflexivity).
      rewrite forallb_forall in F. intros k J _ _. specialize (F k J). now apply eqb_prop.
    + destruct (Z.ltb_spec k 16); [lia|]. rewrite andb_false_r. rewrite !Z.bits_above_log2; [reflexivity|lia| |lia|]; cbn; lia.
Qed.

Print Assumptions C31_slots.
Print Assumptions C31_nothing_else.
Print Assumptions C31_hit_reported.
Print Assumptions C32_activate.
Print Assumptions C32_deactivate.
Print Assumptions C32_responsible.
Print Assumptions C57_watchpoints_refuted.
Print Assumptions C58_still_enabled_refuted.
Print Assumptions C58_removed_watchpoint_refuted.
