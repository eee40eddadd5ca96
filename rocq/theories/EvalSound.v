(** What evaluation gives is the specified value (for C72). *)
From Coq Require Import Ascii String ZArith NArith List Bool Lia.
From Verif Require Import Base Text StdMap Alu AluSpec AluProofs Exec Lexer Isa IsaSpec Cpu Os DbgText Client PropProto Native Src SrcFacts PropLoc Expr Eval ValSpec EvalFacts.
Import ListNotations.
Open Scope Z_scope.

(** What the debugging information must keep to: location expressions without
    DEREFERENCE (C67), and numbers that int64_t can hold. *)
Definition plain (src : source) : Prop := forall ip n d ops, variable_die src ip n = Some d -> at_loc d = Some ops ->
  ~ In LDeref ops /\ forall v, In (LPush (LMem v)) ops -> fits v.

Definition fit_loc (l : loc) : Prop := match l with LMem a => fits a | LReg _ => True end.

Scheme object_mut := Induction for object Sort Prop
with elements_mut := Induction for elements Sort Prop
with members_mut := Induction for members Sort Prop.
Combined Scheme object_all from object_mut, elements_mut, members_mut.

Section U.
Variable U : setup.
Variable D : dops.
Variable N : native.
Variable c : cpu.
Hypothesis Sn : seen U N c.
Variable src : source.
Notation reg := (reg_named c).
Notation mem := (cell U c).
Notation obj := (object src reg mem).

Lemma with_loc_same : forall v l, value_loc v = Some l -> with_loc v l = v.
Proof. intros [] l' H; cbn [value_loc] in H; subst; reflexivity. Qed.
Lemma object_loc : forall t l v, obj t l v -> value_loc v = Some l.
Proof. intros t l v H. destruct H; reflexivity. Qed.

(** The successful part of a sequence. *)
Lemma then_done : forall A B (m : act native A) (f : A -> act native B) b N', quiet N m -> then_ m f N = Done b N' ->
  exists a, m N = Done a N /\ f a N = Done b N'.
Proof. unfold quiet, then_. intros A B m f b N' Q H. destruct (m N) as [a N1|N1| |]; try discriminate. subst N1. eauto. Qed.
Lemma done_then : forall A B (m : act native A) (f : A -> act native B) a b, m N = Done a N -> f a N = Done b N -> then_ m f N = Done b N.
Proof. unfold then_. intros A B m f a b H G. now rewrite H. Qed.
Lemma opt_done : forall A (o : option A) (e : act native A) a N', (forall N, e N <> Done a N') -> opt_or e o N = Done a N' -> o = Some a /\ N' = N.
Proof. intros A [x|] e a N' H E; cbn [opt_or] in E; [unfold ret in E; split; congruence|now elim (H N)]. Qed.

Lemma raw_done : forall l x, fit_loc l -> (raw_value U l N = Done x N <-> word_at reg mem l x).
Proof.
  intros [n|a] x F; cbn [raw_value].
  - rewrite (get_register_ok U N c n Sn). split.
    + destruct (reg n) eqn:E; [|discriminate]. intros H. injection H as <-. now constructor.
    + intros H. inversion H as [? ? E|]; subst. now rewrite E.
  - cbn in F. destruct (Z.eq_dec a (-1)) as [->|E].
    + split.
      * intros H. destruct (read_cell_last U N c Sn) as [X|[X|X]]; rewrite X in H; discriminate.
      * intros H. inversion H as [|? ? X]; subst. discriminate X.
    + rewrite (read_cell_ok U N c a Sn F E). split.
      * destruct (mem a) eqn:X; [|discriminate]. intros H. injection H as <-. now constructor.
      * intros H. inversion H as [|? ? X]; subst. now rewrite X.
Qed.
Lemma raw_quiet : forall l, quiet N (raw_value U l).
Proof. intros [n|a]; [apply (quiet_register U N c Sn)|apply (quiet_cell U N c Sn)]. Qed.

Lemma size_done : forall k id n N', type_size k src id N = Done n N' -> size_of src id n.
Proof.
  induction k as [|k IH]; intros id n N' H; cbn [type_size] in H; destruct (get_type src id) as [[p m|i m|i m|nm m ms]|] eqn:G; try discriminate;
    try (injection H as <- <-; solve [eapply size_prim; eassumption|eapply size_ptr; eassumption|eapply size_struct; eassumption]).
  unfold then_ in H. destruct (type_size k src i N) as [s N1|N1| |] eqn:E; try discriminate. injection H as <- <-.
  eapply (size_arr src id i m s); eauto.
Qed.
Lemma size_enough : forall id n, size_of src id n -> exists k0, forall k, (k0 <= k)%nat -> type_size k src id N = Done n N.
Proof.
  intros id n H. induction H as [id p n G|id t n G|id nm n ms G|id sub cnt n G S IH].
  1-3: exists O; intros k _; destruct k; cbn [type_size]; rewrite G; reflexivity.
  destruct IH as [k0 IH]. exists (Datatypes.S k0). intros [|k] Hk; [lia|]. cbn [type_size]. rewrite G. unfold then_. rewrite IH by lia. reflexivity.
Qed.

Lemma member_loc : forall l off x, interpret U [LPush l; LPush (LMem off); LAdd] N = Done x N <-> exists b, means reg l b /\ fits (b + off) /\ x = LMem (b + off).
Proof.
  intros l off x. unfold interpret. cbn [loc_run loc_step]. unfold then_, ret, add_operands, then_. cbn [operand_value]. unfold ret.
  split.
  - intros H. destruct (operand_value U l N) as [b N1|N1| |] eqn:E; try discriminate.
    assert (N1 = N) by (pose proof (quiet_operand U N c Sn l) as Q; unfold quiet in Q; now rewrite E in Q). subst N1.
    rewrite checked_ok in H. destruct (fits64 (off + b)) eqn:Fi; [|discriminate]. injection H as <-. exists b. split; [now apply (means_operand U N c Sn)|].
    apply fits64_spec in Fi. rewrite Z.add_comm in Fi. split; [exact Fi|]. f_equal. lia.
  - intros (b & M & Fi & ->). apply (means_operand U N c Sn) in M. rewrite M. rewrite checked_ok.
    replace (off + b) with (b + off) by lia. apply fits64_spec in Fi. now rewrite Fi.
Qed.

(** ---- objects ---- *)

Lemma type_sound : forall k l t v, fit_loc l -> eval_type U src k l t N = Done v N -> obj t l v.
Proof.
  induction k as [|k IH]; intros l t v F H; [discriminate|].
  assert (IM : forall ms acc out, eval_members U src k l ms acc N = Done out N -> exists vs, members src reg mem l ms vs /\ out = by_name acc ms vs).
  { induction ms as [|m ms IHm]; intros acc out E.
    - injection E as <-. exists []. split; [constructor|reflexivity].
    - cbn [eval_members] in E. fold (eval_members U src k l) in E.
      apply then_done in E; [|apply (quiet_interpret U N c Sn)]. destruct E as (ml & E1 & E).
      apply then_done in E; [|apply quiet_opt, quiet_fail]. destruct E as (mt & E2 & E).
      apply then_done in E; [|apply (quiet_eval_type U N c Sn)]. destruct E as (x & E3 & E).
      apply member_loc in E1. destruct E1 as (b & M & Fi & ->). apply opt_done in E2; [|discriminate]. destruct E2 as [E2 _].
      apply IH in E3; [|exact Fi]. rewrite (with_loc_same x) in E by (now apply object_loc in E3). apply IHm in E. destruct E as (vs & V & ->).
      exists (x :: vs). split; [econstructor; eauto|reflexivity]. }
  assert (IE : forall id mt a n i out, eval_elements U src k id mt a n i N = Done out N -> length out = n /\ elements src reg mem id mt a i out).
  { intros id mt a. induction n as [|n IHn]; intros i out E.
    - injection E as <-. split; [reflexivity|constructor].
    - cbn [eval_elements] in E. fold (eval_elements U src k id mt a) in E.
      apply then_done in E; [|apply quiet_size]. destruct E as (sz & E1 & E).
      apply then_done in E; [|apply (quiet_eval_type U N c Sn)]. destruct E as (x & E2 & E).
      apply then_done in E; [|apply (quiet_elements U N c Sn)]. destruct E as (xs & E3 & E).
      injection E as <-. apply size_done in E1. apply IH in E2; [|apply s64_fits]. rewrite (with_loc_same x) by (now apply object_loc in E2).
      apply IHn in E3. destruct E3 as [L V]. split; [cbn; lia|]. econstructor; eauto. }
  destruct t as [p n|id n|id cnt|name n ms].
  - cbn [eval_type] in H. apply then_done in H; [|apply raw_quiet]. destruct H as (x & X & H). apply raw_done in X; [|exact F].
    destruct p; try discriminate; injection H as <-; now constructor.
  - cbn [eval_type] in H. apply then_done in H; [|apply raw_quiet]. destruct H as (x & X & H). apply raw_done in X; [|exact F]. injection H as <-. now constructor.
  - destruct l as [r|a]; [discriminate|]. rewrite eval_array in H. apply then_done in H; [|apply quiet_opt, quiet_fail]. destruct H as (mt & E1 & H).
    apply then_done in H; [|apply (quiet_elements U N c Sn)]. destruct H as (xs & E2 & H). injection H as <-. apply opt_done in E1; [|discriminate]. destruct E1 as [E1 _].
    apply IE in E2. destruct E2 as [L V]. econstructor; eauto.
  - rewrite eval_struct in H. apply then_done in H; [|apply (quiet_members U N c Sn)]. destruct H as (m & E & H). injection H as <-.
    apply IM in E. destruct E as (vs & V & ->). now constructor.
Qed.

Lemma type_complete :
  (forall t l v, obj t l v -> fit_loc l -> exists k0, forall k, (k0 <= k)%nat -> eval_type U src k l t N = Done v N) /\
  (forall id t a i xs, elements src reg mem id t a i xs -> exists k0, forall k, (k0 <= k)%nat -> eval_elements U src k id t a (length xs) i N = Done xs N) /\
  (forall l ms vs, members src reg mem l ms vs -> exists k0, forall k acc, (k0 <= k)%nat -> eval_members U src k l ms acc N = Done (by_name acc ms vs) N).
Proof.
  apply object_all.
  1-4: intros; exists 1%nat; intros [|k] Hk; [lia|]; cbn [eval_type]; eapply done_then; [apply raw_done; eauto|reflexivity].
  - intros id cnt t a xs G L V [k0 IH] F. exists (S k0). intros [|k] Hk; [lia|]. rewrite eval_array. eapply done_then; [now rewrite G|]. rewrite <- L.
    eapply done_then; [apply IH; lia|]. reflexivity.
  - intros name n ms l vs V [k0 IH] F. exists (S k0). intros [|k] Hk; [lia|]. rewrite eval_struct. eapply done_then; [apply IH; lia|]. reflexivity.
  - intros. exists O. reflexivity.
  - intros id t a i n x xs Hs Ho IH1 He [k2 IH2]. destruct (size_enough _ _ Hs) as [k3 IH3]. destruct (IH1 (s64_fits _)) as [k4 IH4].
    exists (k2 + k3 + k4)%nat. intros k Hk. cbn [length eval_elements]. fold (eval_elements U src k id t a).
    eapply done_then; [apply IH3; lia|]. eapply done_then; [apply IH4; lia|]. eapply done_then; [apply IH2; lia|].
    rewrite with_loc_same; [reflexivity|now apply object_loc in Ho].
  - intros. exists O. reflexivity.
  - intros l m ms b t v vs M Fi G Ho IH1 Hm [k2 IH2]. destruct (IH1 Fi) as [k1 IH1']. exists (k1 + k2)%nat. intros k acc Hk. cbn [eval_members]. fold (eval_members U src k l).
    eapply done_then; [apply member_loc; eauto|]. eapply done_then; [now rewrite G|]. eapply done_then; [apply IH1'; lia|].
    rewrite with_loc_same by (now apply object_loc in Ho). cbn [by_name]. apply IH2. lia.
Qed.

(** ---- variables ---- *)

Lemma fit_mem : forall a, fits a -> fit_loc (LMem a).
Proof. auto. Qed.
Lemma run_fit : forall ops s t, doc_run reg mem ops s t -> (forall v, In (LPush (LMem v)) ops -> fits v) -> ~ In LDeref ops ->
  Forall fit_loc s -> Forall fit_loc t.
Proof.
  induction 1 as [s|o l s s' t St R IH]; intros P ND Fo; [exact Fo|]. apply IH; [intros v I; apply P; now right|intros I; apply ND; now right|].
  destruct St as [x s|a b x y s A B Fi|off b s B Fi|]; [constructor; [|exact Fo]; destruct x; [exact I|apply P; now left]| | |elim ND; now left].
  - inversion Fo as [|? ? _ F1]; subst. inversion F1; subst. now constructor.
  - now constructor.
Qed.
Lemma locates_fit : forall ops l, locates reg mem ops l -> (forall v, In (LPush (LMem v)) ops -> fits v) -> ~ In LDeref ops -> fit_loc l.
Proof. intros ops l (s & H) P ND. apply run_fit in H; auto. now inversion H. Qed.

Variable ip : Z.
Hypothesis Hip : get_lreg c (LR PC) = Some ip.
Notation var_ := (variable src (u64 ip) reg mem).

Lemma get_ip_done : get_ip U N = Done (u64 ip) N.
Proof. destruct (get_ip_ok U N c Sn) as (v & V & E). congruence. Qed.

Hypothesis P : plain src.
Variable fuel : nat.

Lemma id_sound : forall n v values, eval U D fuel src values (EId n) N = Done v N -> var_ n v.
Proof.
  intros n v values H. cbn [eval] in H. apply then_done in H; [|apply (quiet_type U N c Sn)]. destruct H as (t & T & H).
  apply then_done in H; [|apply (quiet_location U N c Sn)]. destruct H as (l & L & H).
  destruct l as [l|]; [|discriminate]. destruct t as [t|]; [|discriminate].
  unfold variable_type in T. unfold variable_location in L. destruct (so_die src) as [dd|] eqn:SD; [|discriminate].
  unfold then_ in T, L. rewrite get_ip_done in T, L. destruct (variable_die src (u64 ip) n) as [d|] eqn:V; [|discriminate].
  injection T as T. destruct (at_type d) as [id|] eqn:AT; [|discriminate].
  destruct (at_loc d) as [ops|] eqn:AL; [|discriminate]. destruct (P _ _ _ _ V AL) as [ND Pu].
  destruct ops as [|o ops]; [discriminate|]. destruct (interpret U (o :: ops) N) as [x N1|N1| |] eqn:E; try discriminate.
  injection L as -> ->. apply (C36_locates U N c Sn) in E; [|exact ND].
  eapply var; eauto. eapply type_sound; eauto. eapply locates_fit; eauto.
Qed.
Lemma id_complete : forall n v values, var_ n v -> exists k0, forall k, (k0 <= k)%nat -> eval U D k src values (EId n) N = Done v N.
Proof.
  intros n v values H. destruct H as [n d id t ops l v V AT GT AL L O]. destruct (P _ _ _ _ V AL) as [ND Pu].
  destruct (proj1 type_complete t l v O) as [k0 K]; [eapply locates_fit; eauto|]. exists k0. intros k Hk. cbn [eval].
  assert (SD : exists dd, so_die src = Some dd) by (unfold variable_die, active_variables in V; destruct (so_die src); [eauto|discriminate]). destruct SD as [dd SD].
  apply (C36_locates U N c Sn) in L; [|exact ND]. 
  eapply done_then. { unfold variable_type. rewrite SD. eapply done_then; [exact get_ip_done|]. rewrite V, AT, GT. reflexivity. }
  eapply done_then. { unfold variable_location. rewrite SD. eapply done_then; [exact get_ip_done|]. rewrite V, AL.
    destruct ops as [|o ops]; [discriminate|]. eapply done_then; [exact L|]. reflexivity. }
  now apply K.
Qed.
End U.
