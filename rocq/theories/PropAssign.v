(** C73, C74: assignment. *)
From Coq Require Import Ascii String ZArith NArith List Bool Lia.
From Verif Require Import Base Text PropText PropNet StdMap Alu AluSpec AluProofs Exec Lexer LexProofs Show Isa IsaSpec State Ram Rat Cpu Os DbgText PipeBasics PropDbg Client PropProto Native Src SrcFacts SetReg
  PropLoc Expr ExprSpec PropExpr Eval ValSpec EvalFacts EvalSound EvalOps PropEval.
Import ListNotations.
Open Scope Z_scope.

(** ---- specification ---- *)

(** [stores a b ws v]: assigning the value [b] to the object [a] writes the words [ws] in
    this order; [v] is the object after it. Both have the same type, [a] has a location.
    Objects are stored member by member. Doubles are left out: see C74. *)
Inductive stores : tvalue -> tvalue -> list (loc * Z) -> tvalue -> Prop :=
| st_int : forall x l y l', stores (VInt x (Some l)) (VInt y l') [(l, s64 y)] (VInt y (Some l))
| st_char : forall x l y l', stores (VChar x (Some l)) (VChar y l') [(l, s64 y)] (VChar y (Some l))
| st_ptr : forall id s x l s' y l', stores (VPtr id s x (Some l)) (VPtr id s' y l') [(l, s64 y)] (VPtr id s y (Some l))
| st_arr : forall id n first xs l n' first' ys l' ws zs, stores_all xs ys ws zs ->
    stores (VArr id n first xs (Some l)) (VArr id n' first' ys l') ws (VArr id n first zs (Some l))
| st_struct : forall name n ms l n' ms' l' ws zs, stores_members ms ms' ws zs ->
    stores (VStruct name n ms (Some l)) (VStruct name n' ms' l') ws (VStruct name n zs (Some l))
with stores_all : list tvalue -> list tvalue -> list (loc * Z) -> list tvalue -> Prop :=
| sa_nil : stores_all [] [] [] []
| sa_cons : forall x xs y ys ws wss z zs, stores x y ws z -> stores_all xs ys wss zs -> stores_all (x :: xs) (y :: ys) (ws ++ wss) (z :: zs)
with stores_members : list (text * tvalue) -> list (text * tvalue) -> list (loc * Z) -> list (text * tvalue) -> Prop :=
| sm_nil : forall ms', stores_members [] ms' [] []
| sm_cons : forall m x ms ms' y ws wss z zs, tget ms' m = Some y -> stores x y ws z -> stores_members ms ms' wss zs ->
    stores_members ((m, x) :: ms) ms' (ws ++ wss) ((m, z) :: zs).
Scheme stores_mut := Induction for stores Sort Prop
with stores_all_mut := Induction for stores_all Sort Prop
with stores_members_mut := Induction for stores_members Sort Prop.
Combined Scheme stores_ind3 from stores_mut, stores_all_mut, stores_members_mut.

(** Registers and memory after words have been written, one after the other. *)
Definition reg_after (ws : list (loc * Z)) (f : lreg -> option Z) : lreg -> option Z :=
  fold_left (fun g w => match fst w with LReg n => fun l => if teqb (lreg_name l) n then Some (snd w) else g l | LMem _ => g end) ws f.
Definition mem_after (ws : list (loc * Z)) (f : Z -> option Z) : Z -> option Z :=
  fold_left (fun g w => match fst w with LMem a => fun b => if b =? a then Some (snd w) else g b | LReg _ => g end) ws f.

Lemma reg_after_app : forall ws ws' f, reg_after (ws ++ ws') f = reg_after ws' (reg_after ws f).
Proof. intros. apply fold_left_app. Qed.
Lemma mem_after_app : forall ws ws' f, mem_after (ws ++ ws') f = mem_after ws' (mem_after ws f).
Proof. intros. apply fold_left_app. Qed.
Lemma reg_after_ext : forall ws f g, (forall l, f l = g l) -> forall l, reg_after ws f l = reg_after ws g l.
Proof.
  induction ws as [|[[n|a] v] ws IH]; intros f g H l; [apply H| |]; unfold reg_after; cbn [fold_left fst snd]; apply IH; [|exact H].
  intros k. destruct (teqb (lreg_name k) n); auto.
Qed.
Lemma mem_after_ext : forall ws f g, (forall l, f l = g l) -> forall l, mem_after ws f l = mem_after ws g l.
Proof.
  induction ws as [|[[n|a] v] ws IH]; intros f g H l; [apply H| |]; unfold mem_after; cbn [fold_left fst snd]; apply IH; [exact H|].
  intros k. destruct (k =? a); auto.
Qed.

Section U.
Variable U : setup.
Variable D : dops.

(** What can be written: the registers shown by the debugger, and the cells. *)
Definition writable (c : cpu) (l : loc) : Prop :=
  match l with LReg n => exists rg, n = show_reg rg /\ In (LR rg) (reg_list (c_cfg c)) | LMem a => 0 <= a < u_data U end.

(** [N'] is [N] with the debuggee as [c'], which is [c] but for the words written. *)
Definition written (N : native) (c : cpu) (ws : list (loc * Z)) (N' : native) : Prop :=
  exists r c', n_link N = stopped r c /\ N' = set_link N (stopped r c') /\ seen U N' c' /\ c_cfg c' = c_cfg c /\
    sees c' (reg_after ws (get_lreg c)) (mem_after ws (ram_get (c_ram c))) (c_prog c) (c_dbg c).

Lemma raw_written : forall l y N c, seen U N c -> all_known U c -> writable c l -> exists N', set_raw U l y N = Done tt N' /\ written N c [(l, s64 y)] N'.
Proof.
  intros [n|a] y N c Sn K W; cbn [set_raw].
  - destruct W as (rg & -> & I). destruct (C33_set_register U N c rg (s64 y) Sn K I (s64_fits y)) as (r & c' & L & E & Rd & C & S).
    exists (set_link N (stopped r c')). split; [exact E|]. exists r, c'. split; [exact L|]. split; [reflexivity|]. destruct S as [S1 S2 S3 S4]. split; [|split; [exact C|]].
    + constructor; [now exists r|exact Rd| |exact (sn_data U N c Sn)]. intros b B. rewrite S2. now apply (sn_cells U N c Sn).
    + constructor; auto. intros l. rewrite S1. cbn [reg_after fold_left fst snd]. change (show_reg rg) with (lreg_name (LR rg)).
      destruct (lreg_eqb_spec l (LR rg)) as [->|Q]; [now rewrite teqb_refl|]. destruct (teqb (lreg_name l) (lreg_name (LR rg))) eqn:T; [|reflexivity].
      apply teqb_eq, lreg_name_inj in T. contradiction.
  - cbn [writable] in W. pose proof (sn_data U N c Sn) as Du. destruct (sn_link U N c Sn) as [r L].
    assert (A : u64 a = a) by (unfold u64, two64; rewrite Z.mod_small; lia). rewrite A.
    destruct (C33_write_memory U r [s64 y] a c (sn_read U N c Sn)) as (c' & E & Rd & C & S); cbn [length]; try lia.
    { intros k Hk. apply (sn_cells U N c Sn). lia. }
    { repeat constructor; apply s64_fits. }
    exists (set_link N (stopped r c')). split; [unfold set_memory, proc; now rewrite L, E|]. exists r, c'. split; [exact L|]. split; [reflexivity|]. destruct S as [S1 S2 S3 S4].
    assert (M : forall b, ram_get (c_ram c') b = if b =? a then Some (s64 y) else ram_get (c_ram c) b).
    { intros b. rewrite S2. unfold cells. cbn [length seq map combine assign fold_left fst snd]. now replace (a + Z.of_nat 0) with a by lia. }
    split; [|split; [exact C|]].
    + constructor; [now exists r|exact Rd| |exact Du]. intros b B. rewrite M. destruct (b =? a); [discriminate|]. now apply (sn_cells U N c Sn).
    + constructor; auto.
Qed.
Lemma written_nil : forall N c, seen U N c -> written N c [] N.
Proof.
  intros N c Sn. destruct (sn_link U N c Sn) as [r L]. exists r, c. split; [exact L|]. rewrite <- L, set_link_same. split; [reflexivity|]. split; [exact Sn|]. split; [reflexivity|].
  constructor; reflexivity.
Qed.
Lemma written_app : forall N c ws N' ws' N'' r c', N' = set_link N (stopped r c') -> n_link N = stopped r c -> c_cfg c' = c_cfg c ->
  sees c' (reg_after ws (get_lreg c)) (mem_after ws (ram_get (c_ram c))) (c_prog c) (c_dbg c) -> written N' c' ws' N'' -> written N c (ws ++ ws') N''.
Proof.
  intros N c ws N' ws' N'' r c' -> L C [S1 S2 S3 S4] (r2 & c2 & L2 & -> & Sn2 & C2 & [T1 T2 T3 T4]). cbn [n_link set_link] in L2. 
  assert (r2 = r) by (unfold stopped in L2; congruence). subst r2. exists r, c2. split; [exact L|]. split; [reflexivity|]. split; [exact Sn2|]. split; [congruence|].
  constructor; try congruence.
  - intros l. rewrite T1, reg_after_app. now apply reg_after_ext.
  - intros a. rewrite T2, mem_after_app. now apply mem_after_ext.
Qed.
Lemma writable_cfg : forall c c' l, c_cfg c' = c_cfg c -> writable c l -> writable c' l.
Proof. intros c c' [n|a] E W; cbn [writable] in *; [now rewrite E|exact W]. Qed.
Lemma known_cfg : forall c c', c_cfg c' = c_cfg c -> all_known U c -> all_known U c'.
Proof. intros c c' E K rg I. rewrite E in I. specialize (K rg I). unfold known_reg in *. now rewrite E. Qed.

Definition assign_all : list tvalue -> list tvalue -> act native (list tvalue) :=
  fix all (xs ys : list tvalue) : act native (list tvalue) :=
    match xs, ys with
    | x :: xs', y :: ys' => let* z := assign U D x y in let* zs := all xs' ys' in ret (z :: zs)
    | _, _ => ret []
    end.
Definition assign_members (m' : list (text * tvalue)) : list (text * tvalue) -> act native (list (text * tvalue)) :=
  fix all (xs : list (text * tvalue)) : act native (list (text * tvalue)) :=
    match xs with
    | [] => ret []
    | (x, v) :: xs' =>
        let* y := opt_or fail (tget m' x) in
        let* z := assign U D v y in
        let* zs := all xs' in ret ((x, z) :: zs)
    end.

Lemma stores_length : forall xs ys ws zs, stores_all xs ys ws zs -> length xs = length ys.
Proof. induction 1; cbn [length]; congruence. Qed.

(** Assignment writes the words of the specification and nothing else. *)
Lemma assign_stores :
  (forall a b ws v, stores a b ws v -> forall N c, seen U N c -> all_known U c -> Forall (fun w => writable c (fst w)) ws ->
    exists N', assign U D a b N = Done v N' /\ written N c ws N') /\
  (forall xs ys ws zs, stores_all xs ys ws zs -> forall N c, seen U N c -> all_known U c -> Forall (fun w => writable c (fst w)) ws ->
    exists N', assign_all xs ys N = Done zs N' /\ written N c ws N') /\
  (forall ms ms' ws zs, stores_members ms ms' ws zs -> forall N c, seen U N c -> all_known U c -> Forall (fun w => writable c (fst w)) ws ->
    exists N', assign_members ms' ms N = Done zs N' /\ written N c ws N').
Proof.
  apply stores_ind3.
  - intros x l y l' N c Sn K W. inversion W as [|? ? W1 _]; subst. destruct (raw_written l y N c Sn K W1) as (N' & E & H). exists N'. split; [|exact H].
    cbn [assign value_loc]. unfold then_, ret. now rewrite E.
  - intros x l y l' N c Sn K W. inversion W as [|? ? W1 _]; subst. destruct (raw_written l y N c Sn K W1) as (N' & E & H). exists N'. split; [|exact H].
    cbn [assign value_loc]. unfold then_, ret. now rewrite E.
  - intros id s x l s' y l' N c Sn K W. inversion W as [|? ? W1 _]; subst. destruct (raw_written l y N c Sn K W1) as (N' & E & H). exists N'. split; [|exact H].
    cbn [assign value_loc]. rewrite Z.eqb_refl. unfold then_, ret. now rewrite E.
  - intros id n first xs l n' first' ys l' ws zs H IH N c Sn K W. destruct (IH N c Sn K W) as (N' & E & G). exists N'. split; [|exact G].
    cbn [assign value_loc]. rewrite Z.eqb_refl, (stores_length _ _ _ _ H), Nat.eqb_refl. fold assign_all. unfold then_, ret. now rewrite E.
  - intros name n ms l n' ms' l' ws zs H IH N c Sn K W. destruct (IH N c Sn K W) as (N' & E & G). exists N'. split; [|exact G].
    cbn [assign value_loc]. rewrite teqb_refl. change (then_ (assign_members ms' ms) (fun m2 => ret (VStruct name n m2 (Some l))) N = Done (VStruct name n zs (Some l)) N').
    unfold then_, ret. now rewrite E.
  - intros N c Sn K W. exists N. split; [reflexivity|now apply written_nil].
  - intros x xs y ys ws wss z zs H1 IH1 H2 IH2 N c Sn K W. apply Forall_app in W. destruct W as [W1 W2].
    destruct (IH1 N c Sn K W1) as (N1 & E1 & G1). destruct G1 as (r & c1 & L & E & Sn1 & C1 & S1).
    destruct (IH2 N1 c1 Sn1 (known_cfg _ _ C1 K)) as (N2 & E2 & G2). { eapply Forall_impl; [|exact W2]. intros w. now apply writable_cfg. }
    exists N2. split; [cbn [assign_all]; unfold then_, ret; now rewrite E1, E2|]. now apply (written_app N c ws N1 wss N2 r c1).
  - intros ms' N c Sn K W. exists N. split; [reflexivity|now apply written_nil].
  - intros m x ms ms' y ws wss z zs T H1 IH1 H2 IH2 N c Sn K W. apply Forall_app in W. destruct W as [W1 W2].
    destruct (IH1 N c Sn K W1) as (N1 & E1 & G1). destruct G1 as (r & c1 & L & E & Sn1 & C1 & S1).
    destruct (IH2 N1 c1 Sn1 (known_cfg _ _ C1 K)) as (N2 & E2 & G2). { eapply Forall_impl; [|exact W2]. intros w. now apply writable_cfg. }
    exists N2. split; [cbn [assign_members]; unfold then_, ret; rewrite T; cbn [opt_or]; unfold ret; now rewrite E1, E2|]. now apply (written_app N c ws N1 wss N2 r c1).
Qed.

Variable N : native.
Variable c : cpu.
Hypothesis Sn : seen U N c.
Variable src : source.
Variable ip : Z.
Hypothesis Hip : get_lreg c (LR PC) = Some ip.
Hypothesis P : plain src.
Variable values : list tvalue.
Notation val := (value src (u64 ip) (reg_named c) (cell U c) (e_fops (u_env U)) D values).

Lemma assign_eval : forall a b x y v N', val a x -> val b y -> assign U D x y N = Done v N' ->
  exists k0, forall k, (k0 <= k)%nat -> eval U D k src values (EBin a BAssign b) N = Done v N'.
Proof.
  intros a b x y v N' A B E. destruct (eval_complete U D N c Sn src ip Hip P values _ _ A) as [k1 K1]. destruct (eval_complete U D N c Sn src ip Hip P values _ _ B) as [k2 K2].
  exists (Nat.max k1 k2). intros k Hk. cbn [eval]. unfold then_. rewrite (K1 k), (K2 k) by lia. exact E.
Qed.
(** [a = b] writes the value of [b] to where the object [a] is, and nothing else. *)
Theorem C73_assigns : forall a b x y ws v, val a x -> val b y -> stores x y ws v -> all_known U c -> Forall (fun w => writable c (fst w)) ws ->
  exists N', written N c ws N' /\ exists k0, forall k, (k0 <= k)%nat -> eval U D k src values (EBin a BAssign b) N = Done v N'.
Proof.
  intros a b x y ws v A B S K W. destruct (proj1 assign_stores _ _ _ _ S N c Sn K W) as (N' & E & G). exists N'. split; [exact G|]. now apply (assign_eval a b x y).
Qed.
Theorem C73_text : forall t ts a b x y ws v, tokens (u_stod U) t ts -> derives false 0 ts (EBin a BAssign b) ->
  val a x -> val b y -> stores x y ws v -> all_known U c -> Forall (fun w => writable c (fst w)) ws ->
  exists N', written N c ws N' /\ exists k0, forall k, (k0 <= k)%nat -> evaluate U D k src values t N = Done v N'.
Proof.
  intros t ts a b x y ws v T Dv A B S K W. destruct (C73_assigns a b x y ws v A B S K W) as (N' & G & k0 & E). exists N'. split; [exact G|]. exists k0. intros k Hk.
  pose proof (C37_whole _ _ _ _ T Dv) as Q. rewrite evaluate_parse, Q. unfold parse in Q. destruct (new_parser (u_stod U) t); [|discriminate].
  unfold then_. rewrite (get_ip_done U N c Sn ip Hip). now apply E.
Qed.

(** A variable in memory has the value that was assigned to it. *)
Definition in_range (v : tvalue) : Prop :=
  match v with VInt y _ => fits y | VChar y _ => -128 <= y < 128 | VPtr _ _ y _ => 0 <= y < 2 ^ 64 | _ => False end.
Lemma run_reg : forall reg reg' mem mem' ops s t, (forall n, reg n = reg' n) -> ~ In LDeref ops -> doc_run reg mem ops s t -> doc_run reg' mem' ops s t.
Proof.
  intros reg reg' mem mem' ops s t R ND H. induction H as [s|o ops s s1 t St _ IH]; [constructor|]. econstructor; [|apply IH; intros I; apply ND; now right].
  assert (Me : forall l v, means reg l v -> means reg' l v) by (intros l v [w|n w E]; constructor; now rewrite <- R).
  destruct St; [constructor|apply doc_add; auto|apply doc_base; [now rewrite <- R|auto]|elim ND; now left].
Qed.
Theorem C73_reads_back : forall n b x y p w v, val (EId n) x -> val b y -> value_loc x = Some (LMem p) -> stores x y [(LMem p, w)] v -> in_range v -> 0 <= p < u_data U ->
  all_known U c -> exists N' c', written N c [(LMem p, w)] N' /\ seen U N' c' /\
    (exists k0, forall k, (k0 <= k)%nat -> eval U D k src values (EBin (EId n) BAssign b) N = Done v N') /\
    (exists k0, forall k, (k0 <= k)%nat -> eval U D k src values (EId n) N' = Done v N').
Proof.
  intros n b x y p w v A B L S R Hp K. destruct (C73_assigns _ _ _ _ _ _ A B S K) as (N' & G & E). { constructor; [exact Hp|constructor]. }
  pose proof G as G'. destruct G' as (r & c' & L0 & EN & Sn' & C' & Se). exists N', c'. split; [exact G|]. split; [exact Sn'|]. split; [exact E|].
  assert (Re : forall l, get_lreg c' l = get_lreg c l) by (intros l; exact (se_reg _ _ _ _ _ Se l)).
  assert (Rn : forall n, reg_named c n = reg_named c' n) by (intros m; unfold reg_named; rewrite C'; destruct (find _ _); [now rewrite Re|reflexivity]).
  assert (Ce : cell U c' p = Some w).
  { unfold cell. destruct (Z.leb_spec 0 p), (Z.ltb_spec p (u_data U)); try lia. cbn [andb]. rewrite (se_mem _ _ _ _ _ Se). cbn [mem_after fold_left fst snd]. now rewrite Z.eqb_refl. }
  apply (eval_complete U D N' c' Sn' src ip); [now rewrite Re|exact P|].
  inversion A as [| | | |? ? V| | | | | |]; subst. inversion V as [? d id t ops l ? Vd At GT AL Lo Ob]; subst.
  assert (Lx : l = LMem p). { apply object_loc in Ob. congruence. } subst l.
  constructor. eapply var; eauto.
  - destruct Lo as [s Lo]. exists s. eapply run_reg; [exact Rn| |exact Lo]. now apply (P _ _ _ _ Vd AL).
  - inversion S; subst; cbn [value_loc in_range] in *; try contradiction; inversion Ob; subst.
    + replace (VInt y0 (Some (LMem p))) with (VInt (s64 y0) (Some (LMem p))); [constructor; now constructor|]. f_equal. unfold fits in R. rewrite s64_spec, Z.mod_small; lia.
    + replace (VChar y0 (Some (LMem p))) with (VChar ((s64 y0 + 128) mod 256 - 128) (Some (LMem p))); [constructor; now constructor|]. f_equal.
      replace (s64 y0) with y0 by (rewrite s64_spec, Z.mod_small; lia). rewrite Z.mod_small; lia.
    + replace (VPtr id0 s y0 (Some (LMem p))) with (VPtr id0 s (s64 y0 mod 2 ^ 64) (Some (LMem p))); [constructor; now constructor|]. f_equal.
      change (s64 y0 mod 2 ^ 64) with (u64 (s64 y0)). rewrite u64_s64. unfold u64, two64. rewrite Z.mod_small; lia.
Qed.

(** ---- C74: doubles (refuted) ---- *)

(** The double is shown, but the integer it is converted to is stored, *)
Theorem C74_double_refuted : forall a b x l y l' w, val a (VFloat x (Some l)) -> val b (VFloat y l') -> d_word D y = Some w -> all_known U c -> writable c l ->
  exists N', written N c [(l, s64 w)] N' /\ exists k0, forall k, (k0 <= k)%nat -> eval U D k src values (EBin a BAssign b) N = Done (VFloat y (Some l)) N'.
Proof.
  intros a b x l y l' w A B W K Wr. destruct (raw_written l w N c Sn K Wr) as (N' & E & G). exists N'. split; [exact G|]. apply (assign_eval _ _ _ _ _ _ A B).
  cbn [assign value_loc]. unfold then_. rewrite W. cbn [opt_or]. unfold ret. now rewrite E.
Qed.
(** and there is none for negative or big ones: undefined behaviour. *)
Theorem C74_no_integer_refuted : forall a b x l y l', val a (VFloat x (Some l)) -> val b (VFloat y l') -> d_word D y = None ->
  exists k0, forall k, (k0 <= k)%nat -> eval U D k src values (EBin a BAssign b) N = Dead.
Proof.
  intros a b x l y l' A B W. destruct (eval_complete U D N c Sn src ip Hip P values _ _ A) as [k1 K1]. destruct (eval_complete U D N c Sn src ip Hip P values _ _ B) as [k2 K2].
  exists (Nat.max k1 k2). intros k Hk. cbn [eval]. unfold then_. rewrite (K1 k), (K2 k) by lia. cbn [binary assign value_loc]. unfold then_. now rewrite W.
Qed.
End U.

(** ---- cases ---- *)
Lemma known_case : all_known U1 cpu1.
Proof.
  intros rg I. split; [now apply listed_ok; left|]. assert (F : Forall (fun l => match l with LR (R n) => (n < 4)%N | _ => True end) (reg_list (c_cfg cpu1))).
  { vm_compute. repeat constructor. }
  rewrite Forall_forall in F. specialize (F _ I). cbn beta iota in F. destruct rg; auto. change (u_regs U1) with 4. lia.
Qed.
(** ps[1] = ps[0] writes two cells, x = 3 a register. *)
Example C73_case : exists x y v, val1 (EIndex (EId (str "ps")) (EInt 1)) x /\ val1 (EIndex (EId (str "ps")) (EInt 0)) y /\
  stores x y [(LMem 2, 7); (LMem 3, 8)] v /\ Forall (fun w => writable U1 cpu1 (fst w)) [(LMem 2, 7); (LMem 3, 8)].
Proof.
  do 3 eexists. split; [shows 9%nat|]. split; [shows 9%nat|]. split.
  - apply st_struct. change [(LMem 2, 7); (LMem 3, 8)] with ([(LMem 2, 7)] ++ [(LMem 3, 8)] ++ []).
    eapply sm_cons; [reflexivity|apply st_int|]. eapply sm_cons; [reflexivity|apply st_char|apply sm_nil].
  - repeat (apply Forall_cons; [split; vm_compute; congruence|]). apply Forall_nil.
Qed.
Example C73_case_register : exists x v, val1 (EId (str "x")) x /\ stores x (VInt 3 None) [(LReg (str "R1"), 3)] v /\ writable U1 cpu1 (LReg (str "R1")).
Proof.
  do 2 eexists. split; [shows 9%nat|]. split; [apply st_int|]. exists (R 1%N). split; [reflexivity|]. vm_compute. tauto.
Qed.
Example C73_case_back : exists x v, val1 (EDot (EIndex (EId (str "ps")) (EInt 0)) (str "a")) x /\ val1 (EId (str "p")) v /\ value_loc v = Some (LMem 5) /\
  stores v (VPtr 5 1 2 None) [(LMem 5, 2)] (VPtr 5 1 2 (Some (LMem 5))) /\ in_range (VPtr 5 1 2 (Some (LMem 5))).
Proof. do 2 eexists. split; [shows 9%nat|]. split; [shows 9%nat|]. split; [reflexivity|]. split; [apply st_ptr|]. cbn [in_range]. lia. Qed.
(** f = 1.5 stores 1. *)
Example C74_case : val1 (EId (str "f")) (VFloat 0 (Some (LMem 9))) /\ val1 (EFloat 4609434218613702656) (VFloat 4609434218613702656 None) /\ d_word D1 4609434218613702656 = Some 1.
Proof. split; [shows 9%nat|]. split; [apply va_float|reflexivity]. Qed.

Print Assumptions C73_assigns.
Print Assumptions C73_text.
Print Assumptions C73_reads_back.
Print Assumptions C74_double_refuted.
Print Assumptions C74_no_integer_refuted.
