(** Both parsers read an executable file as it is written. *)
From Coq Require Import Ascii String ZArith NArith List Bool Lia.
From Verif Require Import Base Text PropText PropNet StdMap Isa Lexer LexProofs DbgText Asm Show AsmSpec AsmSweep AsmRead AsmPrint AsmProg Src Info InfoSpec.
Import ListNotations.
Open Scope Z_scope.

Section Read.
Variable stod : text -> option Z.
Notation run := (run stod).
Notation next := (Info.next stod).
Notation expect := (Info.expect stod).
Notation is := Info.is.

(** The parser stands on the token [t], [r] is behind it. Whether unknown characters are
    skipped does not matter where there are none. *)
Definition on (s : istate) (t : tok) (r : text) : Prop := fst s = kind_of t /\ l_in (snd s) = r /\ val_of t (snd s) /\ proper t.

Lemma next_on : forall s t r t1 r1, on s t r -> token_at stod false r = POk (t1, r1) -> exists s1, next s = POk s1 /\ on s1 t1 r1.
Proof.
  intros [k l] t r t1 r1 (H1 & H2 & H3 & H4) T. unfold Info.next. cbn [snd] in *. rewrite get_next_token, H2.
  assert (T' : token_at stod (l_ignore l) r = POk (t1, r1)) by (destruct (l_ignore l); [now apply token_at_false|exact T]). rewrite T'. cbn [pbind].
  eexists. split; [reflexivity|]. assert (P : proper t1) by (eapply token_proper; eassumption). unfold on, load. cbn [fst snd l_in]. repeat split; auto.
  unfold val_of. destruct t1; reflexivity || exact I.
Qed.
Lemma on_is : forall s t r k, on s t r -> is k s = kind_eqb (kind_of t) k.
Proof. intros s t r k H. unfold Info.is. now rewrite (proj1 H). Qed.
Lemma on_num : forall s n r, on s (TNum n) r -> number_of s = n.
Proof. intros s n r (_ & _ & H & _). exact H. Qed.
Lemma on_id : forall s n r, on s (TId n) r -> id_of s = n.
Proof. intros s n r (_ & _ & H & _). exact H. Qed.
Lemma on_str : forall s n r, on s (TStr n) r -> l_str (snd s) = n.
Proof. intros s n r (_ & _ & H & _). exact H. Qed.

Lemma step_on : forall s a t r ts t' r', on s t r -> run t r (a :: ts) t' r' -> t = a /\ exists s1 t1 r1, next s = POk s1 /\ on s1 t1 r1 /\ run t1 r1 ts t' r'.
Proof. intros s a t r ts t' r' H R. apply run_inv in R. destruct R as (-> & t1 & r1 & T & R). destruct (next_on _ _ _ _ _ H T) as (s1 & N & S). eauto 9. Qed.

Ltac go :=
  match goal with
  | H : on ?s ?t ?r, R : run ?t ?r (_ :: _) _ _ |- _ =>
      let s1 := fresh "s" in let t1 := fresh "t" in let r1 := fresh "r" in let N := fresh "N" in let S := fresh "O" in let R' := fresh "R" in
      destruct (step_on _ _ _ _ _ _ _ H R) as (-> & s1 & t1 & r1 & N & S & R'); clear R; cbn [app] in R'
  | R : run _ _ [] _ _ |- _ => apply run_end in R; destruct R; subst
  end.
Ltac ev :=
  repeat (match goal with
  | H : on ?p ?t _ |- context [is _ ?p] => rewrite !(fun k => on_is p t _ k H)
  | H : on ?p (TId ?a) _ |- context [id_of ?p] => rewrite !(on_id p a _ H)
  | H : on ?p (TNum ?a) _ |- context [number_of ?p] => rewrite !(on_num p a _ H)
  | H : on ?p (TStr ?a) _ |- context [l_str (snd ?p)] => rewrite !(on_str p a _ H)
  | N : next ?p = POk _ |- context [next ?p] => rewrite N
  | |- context [expect _ _] => unfold Info.expect
  | H : on ?p ?t _ |- context [fst ?p] => rewrite !(proj1 H)
  end; cbn [kind_of kind_eqb orb andb pbind]).

Ltac tq := repeat match goal with |- context [teqb ?a ?b] => let v := eval vm_compute in (teqb a b) in replace (teqb a b) with v by (vm_compute; reflexivity) end; cbv iota; cbn [pbind].

(** ---- .debug_info ---- *)

Lemma r_offset : forall ts v s t r t' r', int_written ts v -> on s t r -> run t r ts t' r' ->
  exists s', parse_offset stod s = POk (v, s') /\ on s' t' r' /\ is KNum s || is KMinus s = true.
Proof.
  intros ts v s t r t' r' W O R. destruct W; repeat go; unfold parse_offset; ev; eexists; (split; [reflexivity|split; [eassumption|reflexivity]]).
Qed.
Lemma r_locop : forall ts o s t r t' r', locop_written ts o -> on s t r -> run t r ts t' r' -> exists s', parse_one stod s = POk (o, s') /\ on s' t' r'.
Proof.
  intros ts o s t r t' r' W O R. destruct W as [i v W|i v W|a| |]; go; unfold parse_one; ev.
  - destruct (r_offset _ _ _ _ _ _ _ W O0 R0) as (s' & E & O' & _). exists s'. split; [|exact O']. tq. rewrite E. reflexivity.
  - destruct (r_offset _ _ _ _ _ _ _ W O0 R0) as (s' & E & O' & K). exists s'. split; [|exact O']. tq. unfold parse_operand. rewrite K, E. reflexivity.
  - go. go. exists s1. split; [|assumption]. tq. unfold parse_operand. ev. reflexivity.
  - go. exists s0. split; [tq; reflexivity|assumption].
  - go. exists s0. split; [tq; reflexivity|assumption].
Qed.

Lemma r_members : forall ts l, listed COMMA member_written ts l -> forall n acc s t r t' r', (length ts <= n)%nat -> on s t r -> run t r (ts ++ [RBRACE]) t' r' ->
  exists s', members_loop stod n acc s = POk (acc ++ l, s') /\ on s' t' r'.
Proof.
  intros ts l H. induction H as [|ts m W|ts m rest l W H IH]; intros n acc s t r t' r' L O R.
  - cbn [app] in R. repeat go. exists s0. rewrite app_nil_r. split; [|assumption]. destruct n; cbn [members_loop]; ev; reflexivity.
  - unfold member_written in W. subst ts. cbn [app] in R. cbn [length] in L. destruct n as [|n]; [lia|].
    do 8 go. go. exists s7. split; [|assumption]. cbn [members_loop]. ev. destruct n; cbn [members_loop]; ev; destruct m as [ma mb mc]; reflexivity.
  - unfold member_written in W. subst ts. cbn [app] in R. cbn [length app] in L. destruct n as [|n]; [lia|].
    do 8 go. destruct (IH n (acc ++ [m]) _ _ _ _ _ ltac:(lia) O7 ltac:(eassumption)) as (s' & E & O'). exists s'. split; [|exact O'].
    cbn [members_loop]. ev. destruct m as [ma mb mc]. cbn [mb_name mb_type mb_off] in *. rewrite E, <- app_assoc. reflexivity.
Qed.
Lemma r_locs : forall ts l, listed SEMI locop_written ts l -> forall n acc s t r t' r', (length ts <= n)%nat -> on s t r -> run t r (ts ++ [CLOSE]) t' r' ->
  exists s', loc_loop stod n acc s = POk (acc ++ l, s') /\ on s' t' r'.
Proof.
  assert (HD : forall ts o, locop_written ts o -> exists a ts', ts = TId a :: ts') by (intros ts o []; eauto).
  intros ts l H. induction H as [|ts o W|ts o rest l W H IH]; intros n acc s t r t' r' L O R.
  - cbn [app] in R. repeat go. exists s0. rewrite app_nil_r. split; [|assumption]. destruct n; cbn [loc_loop]; ev; reflexivity.
  - apply run_split in R. destruct R as (t1 & r1 & R1 & R2). destruct (r_locop _ _ _ _ _ _ _ W O R1) as (s1 & E & O1). repeat go.
    destruct (HD _ _ W) as (a & ts' & ->). apply run_inv in R1. destruct R1 as [-> _]. cbn [length] in L. destruct n as [|n]; [lia|].
    exists s0. split; [|assumption]. cbn [loc_loop]. ev. rewrite E. cbn [pbind]. ev. destruct n; cbn [loc_loop]; ev; reflexivity.
  - rewrite <- app_assoc in R. apply run_split in R. destruct R as (t1 & r1 & R1 & R2). destruct (r_locop _ _ _ _ _ _ _ W O R1) as (s1 & E & O1). cbn [app] in R2. go.
    destruct (HD _ _ W) as (a & ts' & ->). apply run_inv in R1. destruct R1 as [-> _]. cbn [length app] in L. rewrite app_length in L. cbn [length] in L. destruct n as [|n]; [lia|].
    destruct (IH n (acc ++ [o]) _ _ _ _ _ ltac:(lia) O0 ltac:(eassumption)) as (s' & E' & O'). exists s'. split; [|exact O'].
    cbn [loc_loop]. ev. rewrite E. cbn [pbind]. ev. rewrite E', <- app_assoc. reflexivity.
Qed.
Lemma r_loc : forall ts l, loc_written ts l -> forall n s t r t' r', (length ts <= n)%nat -> on s t r -> run t r ts t' r' ->
  exists s', parse_loc stod n s = POk (l, s') /\ on s' t' r'.
Proof.
  intros ts l H n s t r t' r' L O R. destruct H as [|ts o W|ts l W].
  - repeat go. exists s1. split; [|assumption]. unfold parse_loc. ev. reflexivity.
  - go. apply run_split in R0. destruct R0 as (t2 & r2 & R1 & R2). destruct (r_locop _ _ _ _ _ _ _ W O0 R1) as (s1 & E & O1). repeat go.
    assert (T : kind_eqb (kind_of t0) KBacktick = false) by (destruct W; apply run_inv in R1; destruct R1 as [-> _]; reflexivity).
    exists s2. split; [|assumption]. unfold parse_loc. ev. rewrite T, E. cbn [pbind]. ev. reflexivity.
  - go. cbn [length] in L. rewrite app_length in L. destruct (r_locs _ _ W n [] _ _ _ _ _ ltac:(lia) O0 ltac:(eassumption)) as (s' & E & O'). exists s'. split; [|exact O'].
    unfold parse_loc. ev. rewrite E. reflexivity.
Qed.
Lemma r_attr : forall ts a, attr_written ts a -> forall n s t r t' r', (length ts <= n)%nat -> on s t r -> run t r ts t' r' ->
  exists id ts' s1 t1 r1, ts = TId id :: ts' /\ t = TId id /\ is_prefix_of (str "ATTR") id = true /\ next s = POk s1 /\ on s1 t1 r1 /\
  exists s', parse_attr stod n id s1 = POk (a, s') /\ on s' t' r'.
Proof.
  intros ts a H n s t r t' r' L O R. destruct H as [b|b|z|z|z|z|z|ts l W|ts l W]; cbn [length] in L.
  1-7: go; (do 5 eexists); (split; [reflexivity|]); (split; [reflexivity|]); (split; [vm_compute; reflexivity|]); (split; [eassumption|]); (split; [eassumption|]);
    repeat go; eexists; (split; [|eassumption]); unfold parse_attr, number_attr; ev; tq; ev; tq; reflexivity.
  all: go; (do 5 eexists); (split; [reflexivity|]); (split; [reflexivity|]); (split; [vm_compute; reflexivity|]); (split; [eassumption|]); (split; [eassumption|]).
  - go. go. rewrite app_length in L. destruct (r_members _ _ W n [] _ _ _ _ _ ltac:(lia) O2 ltac:(eassumption)) as (s' & E & O'). exists s'. split; [|exact O'].
    unfold parse_attr. ev. tq. ev. rewrite E. reflexivity.
  - go. destruct (r_loc _ _ W n _ _ _ _ _ ltac:(lia) O1 ltac:(eassumption)) as (s' & E & O'). exists s'. split; [|exact O'].
    unfold parse_attr. ev. tq. rewrite E. reflexivity.
Qed.

Scheme die_w := Induction for die_written Sort Prop with body_w := Induction for body_written Sort Prop.
Lemma tag_of_named : forall n t, tag_named n t -> tag_of n = Some t /\ is_prefix_of (str "ATTR") n = false /\ is_prefix_of (str "DIE") n = true.
Proof. intros n t []; repeat split; vm_compute; reflexivity. Qed.

Definition die_reads (ts : list tok) (d : die) : Prop := forall n dep s t r t' r', (length ts <= n)%nat -> (length ts <= dep)%nat -> on s t r -> run t r ts t' r' ->
  exists id ts' s1 t1 r1, ts = TId id :: ts' /\ t = TId id /\ is_prefix_of (str "ATTR") id = false /\ is_prefix_of (str "DIE") id = true /\ next s = POk s1 /\ on s1 t1 r1 /\
  exists s', parse_die stod n dep id s1 = POk (d, s') /\ on s' t' r'.
Definition body_reads (ts : list tok) (attrs : list attr) (children : list die) : Prop := forall m n dep a0 c0 s t r t' r',
  (length ts <= m)%nat -> (length ts <= n)%nat -> (length ts <= dep)%nat -> on s t r -> run t r (ts ++ [RBRACE]) t' r' ->
  exists s', die_loop stod m (parse_die stod n dep) a0 c0 s = POk (a0 ++ attrs, c0 ++ children, s') /\ on s' t' r'.
Lemma die_reads_all : forall ts d, die_written ts d -> die_reads ts d.
Proof.
  apply (die_w (fun ts d _ => die_reads ts d) (fun ts attrs children _ => body_reads ts attrs children)).
  - intros name tg body attrs children T W IH n dep s t r t' r' L D O R. destruct (tag_of_named _ _ T) as (T1 & T2 & T3).
    cbn [length] in L, D. rewrite app_length in L, D. destruct dep as [|dep]; [lia|]. go.
    exists name. do 4 eexists. do 5 (split; [eassumption || reflexivity|]). split; [eassumption|]. go. go.
    destruct (IH n n dep [] [] _ _ _ _ _ ltac:(lia) ltac:(lia) ltac:(lia) O2 ltac:(eassumption)) as (s' & E & O'). exists s'. split; [|exact O'].
    cbn [parse_die]. ev. rewrite T1, E. reflexivity.
  - intros m n dep a0 c0 s t r t' r' L0 L D O R. cbn [app] in R. repeat go. exists s0. rewrite !app_nil_r. split; [|assumption]. destruct m; cbn [die_loop]; ev; reflexivity.
  - intros ts a W m n dep a0 c0 s t r t' r' L0 L D O R. apply run_split in R. destruct R as (t1 & r1 & R1 & R2).
    assert (M : exists m', m = S m') by (destruct W; cbn [length] in L0; destruct m; eauto; lia). destruct M as [m' ->].
    destruct (r_attr _ _ W (S m') _ _ _ _ _ L0 O R1) as (id & ts' & s1 & t2 & r2 & -> & -> & P & N & O1 & s2 & E & O2). repeat go.
    exists s0. rewrite app_nil_r. split; [|assumption]. cbn [die_loop]. ev. rewrite P, E. cbn [pbind]. ev. destruct m'; cbn [die_loop]; ev; reflexivity.
  - intros ts a body attrs children W B IH m n dep a0 c0 s t r t' r' L0 L D O R. rewrite <- app_assoc in R. apply run_split in R. destruct R as (t1 & r1 & R1 & R2). cbn [app] in R2.
    rewrite app_length in L0, L, D. cbn [length] in L0, L, D. destruct m as [|m]; [lia|].
    destruct (r_attr _ _ W (S m) _ _ _ _ _ ltac:(lia) O R1) as (id & ts' & s1 & t2 & r2 & -> & -> & P & N & O1 & s2 & E & O2). go.
    destruct (IH m n dep (a0 ++ [a]) c0 _ _ _ _ _ ltac:(lia) ltac:(lia) ltac:(lia) O0 ltac:(eassumption)) as (s' & E' & O'). exists s'. split; [|exact O'].
    cbn [die_loop]. ev. rewrite P, E. cbn [pbind]. ev. rewrite E', <- app_assoc. reflexivity.
  - intros ts d W IH m n dep a0 c0 s t r t' r' L0 L D O R. apply run_split in R. destruct R as (t1 & r1 & R1 & R2).
    assert (M : exists m', m = S m') by (destruct W; cbn [length] in L0; destruct m; eauto; lia). destruct M as [m' ->].
    destruct (IH n dep _ _ _ _ _ L D O R1) as (id & ts' & s1 & t2 & r2 & -> & -> & P & P' & N & O1 & s2 & E & O2). repeat go.
    exists s0. rewrite app_nil_r. split; [|assumption]. cbn [die_loop]. ev. rewrite P, P', E. cbn [pbind]. ev. destruct m'; cbn [die_loop]; ev; reflexivity.
  - intros ts d body attrs children W IHd B IH m n dep a0 c0 s t r t' r' L0 L D O R. rewrite <- app_assoc in R. apply run_split in R. destruct R as (t1 & r1 & R1 & R2). cbn [app] in R2.
    rewrite app_length in L0, L, D. cbn [length] in L0, L, D. destruct m as [|m]; [lia|].
    destruct (IHd n dep _ _ _ _ _ ltac:(lia) ltac:(lia) O R1) as (id & ts' & s1 & t2 & r2 & -> & -> & P & P' & N & O1 & s2 & E & O2). go.
    destruct (IH m n dep a0 (c0 ++ [d]) _ _ _ _ _ ltac:(lia) ltac:(lia) ltac:(lia) O0 ltac:(eassumption)) as (s' & E' & O'). exists s'. split; [|exact O'].
    cbn [die_loop]. ev. rewrite P, P', E. cbn [pbind]. ev. rewrite E', <- app_assoc. reflexivity.
Qed.
Lemma r_debug_info : forall ts d, die_written ts d -> forall n s t r t' r', (length ts <= n)%nat -> on s t r -> run t r ts t' r' ->
  exists s', debug_info stod n s = POk (d, s') /\ on s' t' r'.
Proof.
  intros ts d W n s t r t' r' L O R. destruct (die_reads_all _ _ W n n _ _ _ _ _ L L O R) as (id & ts' & s1 & t2 & r2 & -> & -> & P & P' & N & O1 & s2 & E & O2).
  exists s2. split; [|exact O2]. unfold debug_info. ev. exact E.
Qed.

(** ---- .debug_line ---- *)

Definition table (l : list (Z * Z)) (m : line_map) : line_map := fold_left (fun m e => zput m (fst e) (snd e)) l m.
Lemma r_lines : forall ls es, Forall2 line_written ls es -> forall n m s t r t' r', (length ls <= n)%nat -> on s t r -> run t r (concat ls) t' r' -> after_section t' ->
  exists s', line_loop stod n m s = POk (table es m, s') /\ on s' t' r'.
Proof.
  intros ls es H. induction H as [|ts e ls es W H IH]; intros n m s t r t' r' L O R E.
  - cbn [concat] in R. repeat go. exists s. split; [|exact O]. destruct E as [->| ->]; destruct n; cbn [line_loop]; ev; reflexivity.
  - unfold line_written in W. subst ts. destruct e as [k a]. cbn [fst snd concat app] in R. cbn [length] in L. destruct n as [|n]; [lia|]. do 3 go.
    destruct (IH n (zput m k a) _ _ _ _ _ ltac:(lia) O2 ltac:(eassumption) E) as (s' & E' & O'). exists s'. split; [|exact O']. cbn [line_loop]. ev. exact E'.
Qed.
Lemma table_get : forall es m k, get_address (table es m) k = match last_entry es k with Some a => Some a | None => get_address m k end.
Proof.
  unfold get_address. induction es as [|[l a] es IH]; intros m k; [reflexivity|]. cbn [table fold_left last_entry fst snd]. fold (table es (zput m l a)). rewrite IH.
  destruct (last_entry es k) as [x|]; [reflexivity|]. destruct (Z.eqb_spec l k) as [->|N]; [apply (mget_put_same Z.eqb Z.ltb Z.eqb_eq)|].
  apply (mget_put_other Z.eqb Z.ltb Z.eqb_eq). congruence.
Qed.

(** ---- sections of another kind ---- *)

Definition dull (t : tok) : Prop := t <> DOT /\ t <> TOp KEnd.
Lemma r_skip : forall ts, Forall dull ts -> forall n s t r t' r', (length ts <= n)%nat -> on s t r -> run t r ts t' r' -> after_section t' ->
  exists s', skip_section stod n s = POk s' /\ on s' t' r'.
Proof.
  intros ts H. induction H as [|a ts [D1 D2] H IH]; intros n s t r t' r' L O R E.
  - go. exists s. split; [|exact O]. destruct E as [->| ->]; destruct n; cbn [skip_section]; ev; reflexivity.
  - pose proof O as O'. go. cbn [length] in L. destruct n as [|n]; [lia|]. destruct (IH n _ _ _ _ _ ltac:(lia) O0 ltac:(eassumption) E) as (s' & E' & O''). exists s'. split; [|exact O''].
    cbn [skip_section]. assert (K : is KDot s || is KEnd s = false).
    { rewrite !(on_is _ _ _ _ O). destruct O as (_ & _ & _ & P). destruct a as [x|x|x|x|k]; try reflexivity. destruct k; try reflexivity; congruence. }
    rewrite K, N. exact E'.
Qed.

Lemma int_dull : forall ts v, int_written ts v -> Forall dull ts.
Proof. intros ts v H. destruct H; repeat constructor; discriminate. Qed.
Lemma added_dull : forall ts v, added ts v -> Forall dull ts.
Proof. intros ts v H. destruct H; (constructor; [split; discriminate|]); eapply int_dull; eassumption. Qed.
Lemma op_dull : forall ts o, op_written ts o -> Forall dull ts.
Proof.
  intros ts o H. destruct H;
    repeat match goal with H : int_written _ _ |- _ => apply int_dull in H end;
    repeat match goal with H : added _ _ |- _ => apply added_dull in H end;
    repeat first [assumption | constructor; [split; discriminate|] | apply Forall_app; split | constructor].
Qed.
Lemma instr_dull : forall ts i, instr_written ts i -> Forall dull ts.
Proof.
  intros ts i [addr ops i' Ha Ho]. apply Forall_app. split; [destruct Ha as [->|[n ->]]; repeat constructor; discriminate|]. constructor; [split; discriminate|].
  destruct Ho as [|a o ops os Wa H]; [constructor|]. cbn [commas]. apply Forall_app. split; [eapply op_dull; eassumption|].
  induction H as [|b o' ops os Hb H IH]; [constructor|]. cbn [map concat app]. constructor; [split; discriminate|]. apply Forall_app. split; [eapply op_dull; eassumption|exact IH].
Qed.
Lemma data_dull : forall ts l, data_written ts l -> Forall dull ts.
Proof. intros ts l [i v H|a]; [eapply int_dull; eassumption|repeat constructor; discriminate]. Qed.
Lemma locop_dull : forall ts o, locop_written ts o -> Forall dull ts.
Proof. intros ts o H. destruct H; try (constructor; [split; discriminate|]; eapply int_dull; eassumption); repeat constructor; discriminate. Qed.
Lemma listed_dull : forall A sep (W : list tok -> A -> Prop), dull sep -> (forall ts a, W ts a -> Forall dull ts) -> forall ts l, listed sep W ts l -> Forall dull ts.
Proof.
  intros A sep W D H ts l L. induction L; [constructor|eapply H; eassumption|]. apply Forall_app. split; [eapply H; eassumption|]. constructor; assumption.
Qed.
Lemma loc_dull : forall ts l, loc_written ts l -> Forall dull ts.
Proof.
  intros ts l [|ts' o W|ts' l' W]; [repeat constructor; discriminate| |]; (constructor; [split; discriminate|]); (apply Forall_app; split; [|repeat constructor; discriminate]).
  - eapply locop_dull; eassumption.
  - eapply listed_dull; [| |exact W]; [split; discriminate|exact locop_dull].
Qed.
Lemma attr_dull : forall ts a, attr_written ts a -> Forall dull ts.
Proof.
  intros ts a H. destruct H as [b|b|z|z|z|z|z|ts l W|ts l W]; try (repeat constructor; discriminate).
  - do 3 (constructor; [split; discriminate|]). apply Forall_app. split; [|repeat constructor; discriminate]. eapply listed_dull; [| |exact W]; [split; discriminate|].
    intros ts' m ->. repeat constructor; discriminate.
  - do 2 (constructor; [split; discriminate|]). eapply loc_dull; eassumption.
Qed.
Lemma die_dull : forall ts d, die_written ts d -> Forall dull ts.
Proof.
  apply (die_w (fun ts d _ => Forall dull ts) (fun ts attrs children _ => Forall dull ts)); intros.
  - do 3 (constructor; [split; discriminate|]). apply Forall_app. split; [assumption|repeat constructor; discriminate].
  - constructor.
  - eapply attr_dull; eassumption.
  - apply Forall_app. split; [eapply attr_dull; eassumption|]. constructor; [split; discriminate|assumption].
  - assumption.
  - apply Forall_app. split; [assumption|]. constructor; [split; discriminate|assumption].
Qed.
Lemma dull_concat : forall A (W : list tok -> A -> Prop) ls es, (forall ts a, W ts a -> Forall dull ts) -> Forall2 W ls es -> Forall dull (concat ls).
Proof. intros A W ls es H F. induction F; [constructor|]. cbn [concat]. apply Forall_app. split; [eapply H; eassumption|assumption]. Qed.

(** Every section is a name between dots. *)
Lemma part_shape : forall ts p, part_written ts p -> exists n rest, ts = DOT :: TId n :: rest /\ Forall dull rest /\ teqb n (str "debug_source") = false.
Proof.
  intros ts p [ts' prog data W|ls es W|ts' d W].
  - inversion W as [lines prog' F E1 E2|items cells F E1 E2]; subst; (do 2 eexists; split; [reflexivity|]); (split; [|vm_compute; reflexivity]).
    + eapply dull_concat; [|exact F]. exact instr_dull.
    + eapply dull_concat; [|exact F]. exact data_dull.
  - do 2 eexists. split; [reflexivity|]. split; [|vm_compute; reflexivity]. eapply dull_concat; [|exact W]. intros ts0 e ->. repeat constructor; discriminate.
  - do 2 eexists. split; [reflexivity|]. split; [|vm_compute; reflexivity]. eapply die_dull; eassumption.
Qed.
Lemma parts_after : forall l parts t r t' r', Forall2 part_written l parts -> run t r (concat l) t' r' -> after_section t' -> after_section t.
Proof.
  intros l parts t r t' r' H R E. destruct H as [|ts p l parts W H]; cbn [concat] in R; [apply run_end in R; destruct R as [-> _]; exact E|].
  destruct (part_shape _ _ W) as (n & rest & -> & _). apply run_inv in R. destruct R as [-> _]. now left.
Qed.

(** ---- the parser of debugging information ---- *)

Definition absorb (l : list part) (i : info) : info :=
  mkInfo (match last_lines l with Some es => Some (table es []) | None => i_lines i end)
         (match last_die l with Some d => Some d | None => i_die i end) (i_code i).
Lemma absorb_cons : forall p l i, absorb (p :: l) i = absorb l (absorb [p] i).
Proof. intros p l i. unfold absorb. cbn [last_lines last_die i_lines i_die i_code]. destruct (last_lines l), (last_die l), p; reflexivity. Qed.
Lemma absorb_nil : forall i, absorb [] i = i.
Proof. intros [a b c]. reflexivity. Qed.

Lemma r_section : forall ts p, part_written ts p -> forall n k i s t r t' r', (length ts <= n)%nat -> on s t r -> run t r ts t' r' -> after_section t' ->
  exists s', sections stod n (S k) i s = sections stod n k (absorb [p] i) s' /\ on s' t' r'.
Proof.
  intros ts p W n k i s t r t' r' L O R E. destruct W as [ts' prog data W|ls es W|ts' d W].
  - assert (SK : exists nm rest, ts' = DOT :: TId nm :: rest /\ Forall dull rest /\ teqb nm (str "debug_source") = false /\ teqb nm (str "debug_line") = false /\ teqb nm (str "debug_info") = false).
    { destruct (part_shape _ _ (pw_code _ _ _ W)) as (nm & rest & -> & D & Q). exists nm, rest. split; [reflexivity|]. split; [exact D|]. split; [exact Q|].
      inversion W; subst; (split; vm_compute; reflexivity). }
    destruct SK as (nm & rest & -> & D & Q1 & Q2 & Q3). cbn [length] in L. go. go.
    destruct (r_skip _ D n (fst s1, set_ignore (snd s1) true) _ _ t' r' ltac:(lia) O1) as (s' & E' & O'); [eassumption|exact E|].
    exists (fst s', set_ignore (snd s') false). split; [|exact O']. cbn [sections]. ev. rewrite Q1. ev. rewrite Q2, Q3. rewrite <- ?(proj1 O1). rewrite E'. cbn [pbind]. rewrite <- ?(proj1 O'). f_equal. destruct i; reflexivity.
  - cbn [length] in L. assert (G : (length ls <= n)%nat).
    { clear -L W. assert (G : (length ls <= length (concat ls))%nat); [|lia]. clear L. induction W as [|ts e ls es Hw F IH]; [cbn; lia|]. rewrite Hw. cbn [concat length app]. rewrite ?app_length. lia. }
    go. go. destruct (r_lines _ _ W n [] _ _ _ _ _ G O1 ltac:(eassumption) E) as (s' & E' & O').
    exists s'. split; [|exact O']. cbn [sections]. ev. tq. ev. tq. rewrite E'. reflexivity.
  - cbn [length] in L. go. go. destruct (r_debug_info _ _ W n _ _ _ _ _ ltac:(lia) O1 ltac:(eassumption)) as (s' & E' & O').
    exists s'. split; [|exact O']. cbn [sections]. ev. tq. ev. tq. rewrite E'. reflexivity.
Qed.
Lemma r_sections : forall l parts, Forall2 part_written l parts -> forall n k i s t r t' r', (length (concat l) <= n)%nat -> on s t r -> run t r (concat l) t' r' -> after_section t' ->
  exists s', sections stod n (length l + k) i s = sections stod n k (absorb parts i) s' /\ on s' t' r'.
Proof.
  intros l parts H. induction H as [|ts p l parts W H IH]; intros n k i s t r t' r' L O R E.
  - cbn [concat] in R. go. exists s. rewrite absorb_nil. split; [reflexivity|exact O].
  - cbn [concat] in R, L. rewrite app_length in L. apply run_split in R. destruct R as (t1 & r1 & R1 & R2). pose proof (parts_after _ _ _ _ _ _ H R2 E) as E1.
    destruct (r_section _ _ W n (length l + k) i _ _ _ _ _ ltac:(lia) O R1 E1) as (s1 & E2 & O1).
    destruct (IH n k (absorb [p] i) _ _ _ _ _ ltac:(lia) O1 R2 E) as (s2 & E3 & O2). exists s2. split; [|exact O2].
    cbn [length Nat.add]. rewrite E2, E3, (absorb_cons p parts i). reflexivity.
Qed.

Lemma file_lines_app : forall l cur s, ~ In NL l -> file_lines cur (l ++ s) = file_lines (rev l ++ cur) s.
Proof.
  induction l as [|c l IH]; intros cur s H; [reflexivity|]. cbn [app file_lines]. destruct (Ascii.eqb_spec c NL) as [->|N]; [elim H; now left|].
  rewrite IH by (intros I; apply H; now right). cbn [rev]. now rewrite <- app_assoc.
Qed.
Lemma r_source : forall s ls, text_lines s ls -> file_lines [] s = ls.
Proof.
  intros s ls H. induction H as [|l N H|l s ls N H IH]; [reflexivity| |].
  - rewrite <- (app_nil_r l) at 1. rewrite file_lines_app by exact H. cbn [file_lines]. rewrite app_nil_r, rev_involutive. destruct (rev l) eqn:R; [|reflexivity].
    apply (f_equal (@rev ascii)) in R. rewrite rev_involutive in R. cbn in R. congruence.
  - rewrite file_lines_app by exact N. cbn [file_lines]. rewrite Ascii.eqb_refl, app_nil_r, rev_involutive, IH. reflexivity.
Qed.
Lemma parts_dull : forall l parts, Forall2 part_written l parts -> Forall not_end (concat l) /\ (length l <= length (concat l))%nat.
Proof.
  intros l parts H. induction H as [|ts p l parts W H [I1 I2]]; [split; [constructor|cbn; lia]|]. destruct (part_shape _ _ W) as (n & rest & -> & D & _). cbn [concat length app]. split.
  - do 2 (constructor; [discriminate|]). apply Forall_app. split; [|exact I1]. eapply Forall_impl; [|exact D]. intros a [_ A]. exact A.
  - rewrite app_length. lia.
Qed.
Lemma lexes_start : forall s ts r t' r', lexes stod s ts r -> token_at stod false r = POk (t', r') -> Forall not_end ts -> (length ts <= length s)%nat.
Proof.
  intros s ts r t' r' L T F. destruct (lexes_run _ _ _ _ _ _ L T) as (t & s1 & T1 & R). destruct (token_at_is_here _ _ _ _ _ T1) as (s0 & L0 & E). pose proof (run_length _ _ _ _ _ _ R F).
  destruct ts as [|a ts]; [cbn; lia|]. apply run_inv in R. destruct R as [-> _]. inversion F; subst. destruct (here_left _ _ _ _ E) as [[-> ->]|[Q _]]; [congruence|]. lia.
Qed.

Theorem info_read : forall s ts parts code, file_written stod s ts parts code ->
  parse_info stod s = POk (absorb parts (mkInfo None None code)).
Proof.
  intros sx ts parts code [s0 l parts0 r code0 F L E]. destruct (parts_dull _ _ F) as [G1 G2].
  assert (T : exists t' r', token_at stod false r = POk (t', r') /\ after_section t').
  { destruct E as [r r' T|r src ls X Y]; [exists (TOp KEnd), r'; split; [exact T|now right]|]. inversion X; subst. eexists _, _. split; [eassumption|now left]. }
  destruct T as (t' & r' & T & A). destruct (lexes_run _ _ _ _ _ _ L T) as (t & s1 & T1 & R). pose proof (lexes_start _ _ _ _ _ L T G1) as Len.
  unfold parse_info. assert (O : exists s, get_next stod (new_lexer s0) = POk s /\ on s t s1).
  { rewrite get_next_token. cbn [new_lexer l_in l_ignore]. rewrite T1. eexists. split; [reflexivity|]. repeat split; [|eapply token_proper; eassumption]. cbn [snd]. unfold val_of. destruct t; reflexivity || exact I. }
  destruct O as (s & -> & O). set (K := S (length s0)) in *.
  assert (KK : exists k, K = (length l + S k)%nat) by (exists (length s0 - length l)%nat; unfold K; lia). destruct KK as [k KK]. rewrite KK at 2.
  destruct (r_sections _ _ F K (S k) (mkInfo None None None) _ _ _ _ _ ltac:(unfold K; lia) O R A) as (s2 & -> & O2).
  destruct E as [r r'' T'|r src ls X Y].
  - rewrite T in T'. injection T' as -> ->. cbn [sections]. ev. reflexivity.
  - inversion X as [|? ? r1 ? ? T2 X1]; subst. rewrite T in T2. injection T2 as -> ->. inversion X1 as [|? ? r2 ? ? T3 X2]; subst. inversion X2; subst.
    destruct (next_on _ _ _ _ _ O2 T3) as (s3 & N & O3). cbn [sections]. ev. tq. unfold raw_mode. destruct O3 as (_ & -> & _). cbn [tl]. rewrite (r_source _ _ Y). reflexivity.
Qed.

(** ---- the assembler ---- *)

Notation st p := (p_cur p, p_lex p).
Lemma stands_on : forall p t r, stands p t r <-> on (st p) t r /\ l_ignore (p_lex p) = false.
Proof. intros p t r. unfold stands, on. cbn [fst snd]. tauto. Qed.
Lemma asm_next : forall p t r t1 r1, on (st p) t r -> token_at stod false r = POk (t1, r1) -> exists p1, Asm.next stod p = POk p1 /\ on (st p1) t1 r1 /\ l_ignore (p_lex p1) = l_ignore (p_lex p).
Proof.
  intros p t r t1 r1 O T. pose proof O as (H1 & H2 & H3 & H4). cbn [snd] in H2. destruct (next_on _ _ _ _ _ O T) as ([k l] & N & O1). unfold Info.next in N. cbn [snd] in N.
  unfold Asm.next, advance. rewrite N. cbn [pbind]. eexists. split; [reflexivity|]. split; [exact O1|]. cbn [p_lex]. rewrite get_next_token in N. 
  destruct (token_at stod (l_ignore (p_lex p)) (l_in (p_lex p))) as [[t2 r2]|]; [|discriminate]. injection N as _ <-. reflexivity.
Qed.
Lemma a_skip : forall ts, Forall dull ts -> forall n p t r t' r', (length ts < n)%nat -> on (st p) t r -> run t r ts t' r' -> after_section t' ->
  exists p', p_skip stod n p = POk p' /\ on (st p') t' r'.
Proof.
  intros ts H. induction H as [|a ts [D1 D2] H IH]; intros n p t r t' r' L O R E; (destruct n as [|n]; [cbn in L; lia|]); cbn [p_skip].
  - apply run_end in R. destruct R as [-> ->]. exists p. split; [|exact O]. unfold Asm.is. rewrite (proj1 O : p_cur p = _). destruct E as [->| ->]; reflexivity.
  - apply run_inv in R. destruct R as (-> & t1 & r1 & T & R). destruct (asm_next _ _ _ _ _ O T) as (p1 & N & O1 & _). cbn [length] in L.
    destruct (IH n _ _ _ _ _ ltac:(lia) O1 R E) as (p' & E' & O'). exists p'. split; [|exact O'].
    assert (K : Asm.is p KDot || Asm.is p KEnd = false).
    { unfold Asm.is. rewrite (proj1 O : p_cur p = _). destruct O as (_ & _ & _ & P). destruct a as [x|x|x|x|k]; try reflexivity. destruct k; try reflexivity; congruence. }
    rewrite K, N. exact E'.
Qed.

(** Code as the assembler takes it; nothing is asked of the other sections. *)
Definition part_fine (ts : list tok) (p : part) : Prop := match p with PCode prog data => part_readable ts (prog, data) | _ => True end.
Definition prog1 (p : part) : list instr := match p with PCode i _ => i | _ => [] end.
Definition data1 (p : part) : list Z := match p with PCode _ d => d | _ => [] end.
Lemma a_section : forall ts p, part_written ts p -> part_fine ts p -> forall n q t r t' r', stands q t r -> run t r ts t' r' -> after_section t' ->
  exists q', p_sections stod (S n) q = (let? (l, d) := p_sections stod n q' in POk (prog1 p ++ l, data1 p ++ d)) /\ stands q' t' r'.
Proof.
  intros ts p W F n q t r t' r' S R E. destruct (part_shape _ _ W) as (nm & rest & -> & D & Q).
  destruct (step _ _ _ _ _ _ _ _ S R) as (-> & q1 & t1 & r1 & N & S1 & R1). cbn [p_sections]. rewrite (stands_is _ _ _ _ S), N. cbn [kind_of kind_eqb pbind].
  assert (O1 : t1 = TId nm) by (apply run_inv in R1; apply R1). subst t1. rewrite (stands_is _ _ _ _ S1), (stands_id _ _ _ S1), Q. cbn [kind_of kind_eqb andb].
  assert (SK : forall ni, nm = ni -> teqb ni (str "text") = false -> teqb ni (str "data") = false ->
    exists q', p_section stod q1 = POk ([], [], q') /\ stands q' t' r').
  { intros ni <- T1 T2. destruct (step _ _ _ _ _ _ _ _ S1 R1) as (_ & q2 & t2 & r2 & N2 & S2 & R2). pose proof S2 as S2'. apply stands_on in S2'. destruct S2' as [O2 _].
    assert (G : Forall not_end rest) by (eapply Forall_impl; [|exact D]; intros a [_ A]; exact A). pose proof (run_length _ _ _ _ _ _ R2 G) as Len.
    assert (Fu : (length rest < fuel_of q2)%nat) by (unfold fuel_of; destruct S2 as (_ & -> & _); lia).
    destruct (a_skip _ D (fuel_of q2) (with_ignore true q2) t2 r2 t' r' Fu O2 R2 E) as (q3 & E3 & O3). exists (with_ignore false q3). split.
    - unfold p_section. rewrite (stands_is _ _ _ _ S1), (stands_id _ _ _ S1), N2. cbn [kind_of kind_eqb pbind]. rewrite T1, T2, E3. reflexivity.
    - apply stands_on. split; [exact O3|reflexivity]. }
  remember (DOT :: TId nm :: rest) as ts0 eqn:TS. destruct W as [ts' prog data W|ls es W|ts' d W].
  - cbn [part_fine prog1 data1] in *. subst ts'. destruct (c_section _ _ _ _ _ _ _ _ F S1 R1 E) as (_ & _ & q3 & E3 & S3). rewrite E3. cbn [pbind]. exists q3. split; [reflexivity|exact S3].
  - injection TS as TS _. destruct (SK _ (eq_sym TS)) as (q3 & E3 & S3); [vm_compute; reflexivity|vm_compute; reflexivity|]. rewrite E3. cbn [pbind app prog1 data1]. exists q3. split; [|exact S3].
    destruct (p_sections stod n q3) as [[]|]; reflexivity.
  - injection TS as TS _. destruct (SK _ (eq_sym TS)) as (q3 & E3 & S3); [vm_compute; reflexivity|vm_compute; reflexivity|]. rewrite E3. cbn [pbind app prog1 data1]. exists q3. split; [|exact S3].
    destruct (p_sections stod n q3) as [[]|]; reflexivity.
Qed.
Lemma a_sections : forall l parts, Forall2 part_written l parts -> Forall2 part_fine l parts -> forall n q t r t' r', stands q t r -> run t r (concat l) t' r' -> after_section t' ->
  exists q', p_sections stod (length l + n) q = (let? (l, d) := p_sections stod n q' in POk (prog_of parts ++ l, data_of parts ++ d)) /\ stands q' t' r'.
Proof.
  intros l parts H. induction H as [|ts p l parts W H IH]; intros F n q t r t' r' S R E; inversion F as [|? ? ? ? F1 F2]; subst.
  - cbn [concat] in R. apply run_end in R. destruct R as [-> ->]. exists q. split; [|exact S]. cbn [length Nat.add]. unfold prog_of, data_of. cbn [map concat app]. destruct (p_sections stod n q) as [[]|]; reflexivity.
  - cbn [concat] in R. apply run_split in R. destruct R as (t1 & r1 & R1 & R2). pose proof (parts_after _ _ _ _ _ _ H R2 E) as E1.
    destruct (a_section _ _ W F1 (length l + n) _ _ _ _ _ S R1 E1) as (q1 & E2 & S1). destruct (IH F2 n _ _ _ _ _ S1 R2 E) as (q2 & E3 & S2).
    exists q2. split; [|exact S2]. cbn [length Nat.add]. rewrite E2, E3. unfold prog_of, data_of. cbn [map concat]. destruct (p_sections stod n q2) as [[a b]|]; [|reflexivity]. cbn [pbind]. rewrite <- !app_assoc. reflexivity.
Qed.

Lemma fine_if : forall l parts, Forall2 part_written l parts -> Forall (fun i => accepted i = true) (prog_of parts) -> no_negative_address (concat l) -> Forall2 part_fine l parts.
Proof.
  intros l parts H. induction H as [|ts p l parts W H IH]; intros A P; constructor.
  - destruct W as [ts' prog data W|ls es W|ts' d W]; cbn [part_fine]; try exact I. unfold prog_of in A. cbn [map concat] in A. apply Forall_app in A. destruct A as [A _].
    cbn [concat] in P. assert (P' : no_negative_address ts') by (intros a b ->; apply (P a (b ++ concat l)); rewrite <- app_assoc; reflexivity). clear P IH H.
    inversion W as [lines prog' F E1 E2|items cells F E1 E2]; subst; [|now constructor]. constructor.
    assert (K : exists a b, DOT :: TId (str "text") :: concat lines = a ++ concat lines ++ b) by (exists [DOT; TId (str "text")], []; now rewrite app_nil_r).
    revert K. generalize dependent (DOT :: TId (str "text") :: concat lines). intros full _ P' K. induction F as [|ts i lines prog Wi F IH]; constructor.
    + inversion A; subst. apply readable_if; auto. destruct K as (a & b & K). cbn [concat] in K. intros u v Q. subst ts.
      apply (P' (a ++ u) (v ++ concat lines ++ b)). rewrite K, <- !app_assoc. reflexivity.
    + inversion A; subst. apply IH; auto. destruct K as (a & b & K). exists (a ++ ts), b. rewrite K. cbn [concat]. now rewrite <- !app_assoc.
  - apply IH.
    + unfold prog_of in A. cbn [map concat] in A. apply Forall_app in A. apply A.
    + cbn [concat] in P. intros a b Q. apply (P (ts ++ a) b). rewrite Q, <- app_assoc. reflexivity.
Qed.

Theorem program_read : forall s ts parts code, file_written stod s ts parts code -> parts <> [] \/ code <> None ->
  Forall (fun i => accepted i = true) (prog_of parts) -> no_negative_address ts -> assemble stod s = POk (prog_of parts, data_of parts).
Proof.
  intros sx tsx partsx code [s0 l parts0 r code0 F L E] Ne A P. destruct (parts_dull _ _ F) as [G1 G2]. pose proof (fine_if _ _ F A P) as Fi.
  assert (T : exists t' r', token_at stod false r = POk (t', r') /\ after_section t').
  { destruct E as [r r' T|r src ls X Y]; [exists (TOp KEnd), r'; split; [exact T|now right]|]. inversion X; subst. eexists _, _. split; [eassumption|now left]. }
  destruct T as (t' & r' & T & Af). destruct (lexes_run _ _ _ _ _ _ L T) as (t & s1 & T1 & R). destruct (open_stands _ _ _ _ T1) as (q & Eq & S).
  unfold assemble. rewrite Eq. cbn [pbind]. unfold p_program.
  assert (D : Asm.is q KDot = true).
  { rewrite (stands_is _ _ _ _ S). assert (t = DOT); [|subst; reflexivity]. destruct F as [|ts p l parts W F].
    - cbn [concat] in R. apply run_end in R. destruct R as [-> ->]. destruct E as [r r'' T'|r src ls X Y]; [destruct Ne as [Ne|Ne]; now elim Ne|]. inversion X; subst. congruence.
    - destruct (part_shape _ _ W) as (nm & rest & -> & _). cbn [concat app] in R. apply run_inv in R. apply R. }
  rewrite D. pose proof (run_length _ _ _ _ _ _ R G1) as Len.
  assert (KK : exists k, fuel_of q = (length l + Datatypes.S k)%nat) by (exists (Datatypes.S (length s1) - length l)%nat; unfold fuel_of; destruct S as (_ & -> & _); lia).
  destruct KK as [k ->]. destruct (a_sections _ _ F Fi (Datatypes.S k) _ _ _ _ _ S R Af) as (q2 & -> & S2).
  assert (X : p_sections stod (Datatypes.S k) q2 = POk ([], [])); [|rewrite X; cbn [pbind]; now rewrite !app_nil_r].
  cbn [p_sections]. destruct E as [r r'' T'|r src ls X Y].
  - rewrite T in T'. injection T' as -> ->. unfold check_end. rewrite !(stands_is _ _ _ _ S2). reflexivity.
  - inversion X as [|? ? r1 ? ? T2 X1]; subst. rewrite T in T2. injection T2 as -> ->. inversion X1 as [|? ? r2 ? ? T3 X2]; subst. inversion X2; subst.
    rewrite (stands_is _ _ _ _ S2). cbn [kind_of kind_eqb]. destruct (next_to _ _ _ _ _ _ S2 T3) as (q3 & N & S3). rewrite N. cbn [pbind].
    rewrite (stands_is _ _ _ _ S3), (stands_id _ _ _ S3). reflexivity.
Qed.
End Read.
