(** Whole programs are read as they are written. *)
From Coq Require Import Ascii String ZArith NArith List Bool Lia.
From Verif Require Import Base Text PropText PropNet Isa Lexer LexProofs Asm Show AsmSpec AsmSweep AsmRead AsmPrint.
Import ListNotations.
Open Scope Z_scope.

Section Prog.
Variable stod : text -> option Z.
Notation run := (run stod).

Definition not_end (t : tok) : Prop := t <> TOp KEnd.

Lemma int_not_end : forall ts v, int_written ts v -> Forall not_end ts /\ ts <> [].
Proof. intros ts v H. destruct H; (split; [repeat constructor; discriminate|discriminate]). Qed.
Lemma added_not_end : forall ts v, added ts v -> Forall not_end ts.
Proof. intros ts v H. destruct H; (constructor; [discriminate|]); eapply int_not_end; eassumption. Qed.
Lemma op_not_end : forall ts o, op_written ts o -> Forall not_end ts.
Proof.
  intros ts o H. destruct H;
    repeat match goal with H : int_written _ _ |- _ => apply int_not_end in H; destruct H end;
    repeat match goal with H : added _ _ |- _ => apply added_not_end in H end;
    repeat first [assumption | constructor; [discriminate|] | apply Forall_app; split | constructor].
Qed.
Lemma commas_not_end : forall ops os, Forall2 op_written ops os -> Forall not_end (commas ops).
Proof.
  intros ops os H. destruct H as [|a o ops os Ha H]; [constructor|]. cbn [commas]. apply Forall_app. split; [eapply op_not_end; eassumption|].
  induction H as [|b o' ops os Hb H IH]; [constructor|]. cbn [map concat app]. constructor; [discriminate|]. apply Forall_app. split; [eapply op_not_end; eassumption|exact IH].
Qed.
Lemma instr_not_end : forall ts i, instr_written ts i -> Forall not_end ts /\ ts <> [].
Proof.
  intros ts i [addr ops i' Ha Ho]. split.
  - apply Forall_app. split; [|constructor; [discriminate|eapply commas_not_end; eassumption]].
    destruct Ha as [->|[n ->]]; repeat constructor; discriminate.
  - destruct addr; discriminate.
Qed.
Lemma data_not_end : forall ts l, data_written ts l -> Forall not_end ts /\ ts <> [].
Proof. intros ts l [i v H|a]; [eapply int_not_end; eassumption|]. split; [repeat constructor; discriminate|discriminate]. Qed.

(** Every token but the first takes a character of the text. *)
Lemma run_length : forall t s ts t' s', run t s ts t' s' -> Forall not_end ts -> (length ts + length s' <= S (length s))%nat.
Proof.
  intros t s ts t' s' H. induction H; intros F; [cbn; lia|]. inversion F as [|? ? F1 F2]; subst. specialize (IHrun F2). cbn [length] in *.
  destruct (token_at_is_here _ _ _ _ _ H) as (s0 & L & E). destruct (here_left _ _ _ _ E) as [[-> ->]|[Q _]]; [|lia].
  assert (ts = []) as -> by (inversion H0; subst; [reflexivity|inversion F2 as [|? ? Q1 Q2]; subst; now elim Q1]).
  inversion H0; subst. cbn [length]. lia.
Qed.
Lemma concat_length : forall (l : list (list tok)), Forall (fun a => a <> []) l -> (length l <= length (concat l))%nat.
Proof.
  induction l as [|a l IH]; intros H; [cbn; lia|]. inversion H as [|? ? H1 H2]; subst. specialize (IH H2). cbn [concat length]. rewrite app_length.
  destruct a; [congruence|]. cbn [length]. lia.
Qed.

(** What can stand behind a section. *)
Definition after_section (t : tok) : Prop := t = TOp KDot \/ t = TOp KEnd.
Lemma after_stop : forall t, after_section t -> stop t /\ kind_eqb (kind_of t) KNum = false /\ kind_eqb (kind_of t) KMinus = false /\ kind_eqb (kind_of t) KId = false /\ kind_eqb (kind_of t) KString = false.
Proof. intros t [->| ->]; (split; [split; discriminate|repeat split]). Qed.

Definition readable (ts : list tok) (i : instr) : Prop := instr_written ts i /\ accepted i = true /\
  exists addr ops, ts = addr ++ TId (name_of i) :: commas ops /\ (addr = [] \/ exists n, addr = [TNum n]) /\ Forall2 op_written ops (signature i) /\ Forall plain ops.
Lemma readable_if : forall ts i, instr_written ts i -> accepted i = true -> no_negative_address ts -> readable ts i.
Proof.
  intros ts i W A P. split; [exact W|split; [exact A|]]. destruct W as [addr ops i Ha Ho]. exists addr, ops. repeat split; auto. eapply plain_ops. eassumption.
Qed.

Lemma instr_head : forall ts i t s t' s', instr_written ts i -> run t s ts t' s' ->
  stop t /\ kind_eqb (kind_of t) KNum || kind_eqb (kind_of t) KMinus || kind_eqb (kind_of t) KId = true.
Proof.
  intros ts i t s t' s' [addr ops i' Ha Ho] R. destruct Ha as [->|[n ->]]; cbn [app] in R; apply run_inv in R; destruct R as [-> _];
    (split; [split; discriminate|reflexivity]).
Qed.

Lemma c_text : forall lines prog n p t s t' s', Forall2 readable lines prog -> (length lines < n)%nat -> stands p t s -> run t s (concat lines) t' s' ->
  after_section t' -> exists p', p_text stod n p = POk (prog, p') /\ stands p' t' s'.
Proof.
  intros lines prog n p t s t' s' H. revert n p t s. induction H as [|ts i lines prog (W & A & addr & ops & Ets & Ha & Ho & P) H IH]; intros n p t s L S R E; (destruct n as [|n]; [lia|]); cbn [p_text].
  - cbn [concat] in R. apply run_end in R. destruct R as [-> ->]. rewrite (stands_number _ _ _ S), (stands_is _ _ _ _ S).
    destruct (after_stop _ E) as (_ & -> & -> & -> & _). exists p. split; [reflexivity|exact S].
  - cbn [concat] in R. apply run_split in R. destruct R as (t1 & s1 & R1 & R2).
    destruct (instr_head _ _ _ _ _ _ W R1) as [_ Hd]. rewrite (stands_number _ _ _ S), (stands_is _ _ _ _ S), Hd.
    assert (St : stop t1).
    { destruct H as [|ts' i' lines prog (W' & _) H].
      - cbn [concat] in R2. apply run_end in R2. destruct R2 as [-> _]. now apply after_stop.
      - cbn [concat] in R2. apply run_split in R2. destruct R2 as (t2 & s2 & R2 & _). apply (instr_head _ _ _ _ _ _ W' R2). }
    subst ts. destruct (c_instruction_ops _ _ _ _ _ _ _ _ _ A Ha Ho P S R1 St) as (p1 & -> & S1). cbn [pbind].
    cbn [length] in L. destruct (IH n p1 t1 s1 ltac:(lia) S1 R2 E) as (p2 & -> & S2). cbn [pbind]. eauto.
Qed.

Lemma c_data : forall items cells n p t s t' s', Forall2 data_written items cells -> (length items < n)%nat -> stands p t s -> run t s (concat items) t' s' ->
  after_section t' -> exists p', p_data stod n p = POk (concat cells, p') /\ stands p' t' s'.
Proof.
  intros items cells n p t s t' s' H. revert n p t s. induction H as [|ts l items cells W H IH]; intros n p t s L S R E; (destruct n as [|n]; [lia|]); cbn [p_data].
  - cbn [concat] in *. apply run_end in R. destruct R as [-> ->]. rewrite (stands_number _ _ _ S), !(stands_is _ _ _ _ S).
    destruct (after_stop _ E) as (_ & -> & -> & _ & ->). exists p. split; [reflexivity|exact S].
  - cbn [concat length] in *. apply run_split in R. destruct R as (t1 & s1 & R1 & R2). destruct W as [i v W|a].
    + destruct (int_head _ _ _ _ _ _ _ W R1) as [->|[m ->]];
        rewrite (stands_is _ _ _ _ S); cbn [kind_of kind_eqb]; destruct (c_imm' _ _ _ _ _ _ _ _ W S R1) as (p1 & -> & S1 & ->); cbn [pbind];
        destruct (IH n p1 t1 s1 ltac:(lia) S1 R2 E) as (p2 & -> & S2); cbn [pbind]; eauto.
    + destruct (step _ _ _ _ _ _ _ _ S R1) as (-> & p1 & t2 & s2 & N & S1 & R3). apply run_end in R3. destruct R3 as [-> ->].
      rewrite (stands_is _ _ _ _ S). cbn [kind_of kind_eqb]. rewrite N. cbn [pbind].
      destruct (IH n p1 _ _ ltac:(lia) S1 R2 E) as (p2 & -> & S2). cbn [pbind].
      assert (Q : l_str (p_lex p) = a) by (destruct S as (_ & _ & _ & Q & _); exact Q). rewrite Q, <- app_assoc. eauto.
Qed.

Inductive part_readable : list tok -> list instr * list Z -> Prop :=
| pr_text : forall lines prog, Forall2 readable lines prog -> part_readable (TOp KDot :: TId (str "text") :: concat lines) (prog, [])
| pr_data : forall items cells, Forall2 data_written items cells -> part_readable (TOp KDot :: TId (str "data") :: concat items) ([], concat cells).

Lemma concat_forall : forall (P : tok -> Prop) l, Forall (Forall P) l -> Forall P (concat l).
Proof. induction l as [|a l IH]; intros H; [constructor|]. inversion H; subst. cbn [concat]. apply Forall_app. auto. Qed.
Lemma lines_facts : forall lines prog, Forall2 readable lines prog -> Forall not_end (concat lines) /\ (length lines <= length (concat lines))%nat.
Proof.
  intros lines prog H. assert (G : Forall (fun a => Forall not_end a /\ a <> []) lines).
  { induction H as [|? ? ? ? (W & _)]; constructor; auto. eapply instr_not_end. eassumption. }
  split; [apply concat_forall|apply concat_length]; (eapply Forall_impl; [|exact G]); cbv beta; tauto.
Qed.
Lemma items_facts : forall items cells, Forall2 data_written items cells -> Forall not_end (concat items) /\ (length items <= length (concat items))%nat.
Proof.
  intros items cells H. assert (G : Forall (fun a => Forall not_end a /\ a <> []) items).
  { induction H; constructor; auto. eapply data_not_end. eassumption. }
  split; [apply concat_forall|apply concat_length]; (eapply Forall_impl; [|exact G]); cbv beta; tauto.
Qed.

Lemma c_section : forall lx part p t s t' s', part_readable (TOp KDot :: lx) part -> stands p t s -> run t s lx t' s' -> after_section t' ->
  is p KId = true /\ teqb (id p) (str "debug_source") = false /\
  exists p', p_section stod p = POk (part, p') /\ stands p' t' s'.
Proof.
  intros lx part p t s t' s' W S R E. inversion W as [lines prog F Q1 Q2|items cells F Q1 Q2]; subst; clear W;
    destruct (step _ _ _ _ _ _ _ _ S R) as (-> & p1 & t1 & s1 & N & S1 & R1);
    rewrite (stands_is _ _ _ _ S), (stands_id _ _ _ S); (split; [reflexivity|split; [reflexivity|]]); unfold p_section;
    rewrite (stands_is _ _ _ _ S), (stands_id _ _ _ S), N; cbn [kind_of kind_eqb pbind].
  - change (teqb (str "text") (str "text")) with true. cbv iota. destruct (lines_facts _ _ F) as [G1 G2].
    pose proof (run_length _ _ _ _ _ R1 G1).
    assert (Fu : (length lines < fuel_of p1)%nat) by (unfold fuel_of; destruct S1 as (_ & -> & _); lia).
    destruct (c_text lines prog (fuel_of p1) p1 t1 s1 t' s' F Fu S1 R1 E) as (p2 & -> & S2). cbn [pbind]. exists p2. split; [reflexivity|exact S2].
  - change (teqb (str "data") (str "text")) with false. change (teqb (str "data") (str "data")) with true. cbv iota. destruct (items_facts _ _ F) as [G1 G2].
    pose proof (run_length _ _ _ _ _ R1 G1).
    assert (Fu : (length items < fuel_of p1)%nat) by (unfold fuel_of; destruct S1 as (_ & -> & _); lia).
    destruct (c_data items cells (fuel_of p1) p1 t1 s1 t' s' F Fu S1 R1 E) as (p2 & -> & S2). cbn [pbind]. exists p2. split; [reflexivity|exact S2].
Qed.

Lemma part_head : forall ts part, part_readable ts part -> exists lx, ts = TOp KDot :: lx /\ Forall not_end ts.
Proof.
  intros ts part H. destruct H as [lines prog H|items cells H]; (eexists; split; [reflexivity|]); repeat (constructor; [discriminate|]);
    [eapply lines_facts|eapply items_facts]; eassumption.
Qed.

Lemma c_sections : forall l parts n p t s s', Forall2 part_readable l parts -> (length l < n)%nat -> stands p t s -> run t s (concat l) (TOp KEnd) s' ->
  p_sections stod n p = POk (concat (map fst parts), concat (map snd parts)).
Proof.
  intros l parts n p t s s' H. revert n p t s. induction H as [|ts part l parts W H IH]; intros n p t s L S R; (destruct n as [|n]; [lia|]); cbn [p_sections].
  - cbn [concat] in R. apply run_end in R. destruct R as [<- ->]. unfold check_end. rewrite !(stands_is _ _ _ _ S). reflexivity.
  - cbn [concat length map] in *. apply run_split in R. destruct R as (t1 & s1 & R1 & R2).
    assert (E : after_section t1).
    { destruct H as [|ts' part' l parts W' H]; cbn [concat] in R2.
      - apply run_end in R2. destruct R2 as [<- _]. now right.
      - destruct (part_head _ _ W') as (lx & -> & _). apply run_inv in R2. destruct R2 as [-> _]. now left. }
    destruct (part_head _ _ W) as (lx & -> & _). destruct (step _ _ _ _ _ _ _ _ S R1) as (-> & p1 & t2 & s2 & N & S1 & R3).
    destruct (c_section _ _ _ _ _ _ _ W S1 R3 E) as (E1 & E2 & p3 & E3 & S3).
    rewrite (stands_is _ _ _ _ S), N. cbn [kind_of kind_eqb pbind]. rewrite E1, E2, E3. cbn [andb pbind]. destruct part as [i d]. cbn [fst snd].
    rewrite (IH n p3 t1 s1 ltac:(lia) S3 R2). reflexivity.
Qed.

Lemma c_program : forall l parts s r r', Forall2 part_readable l parts -> l <> [] -> lexes stod s (concat l) r -> token_at stod false r = POk (TOp KEnd, r') ->
  assemble stod s = POk (concat (map fst parts), concat (map snd parts)).
Proof.
  intros l parts s r r' H Ne Lx T. destruct (lexes_run _ _ _ _ _ _ Lx T) as (t & s1 & T1 & R). destruct (open_stands _ _ _ _ T1) as (p & E & S).
  unfold assemble. rewrite E. cbn [pbind]. unfold p_program.
  assert (D : is p KDot = true).
  { destruct H as [|ts part l parts W H]; [congruence|]. destruct (part_head _ _ W) as (lx & -> & _). cbn [concat app] in R. apply run_inv in R. destruct R as [-> _].
    now rewrite (stands_is _ _ _ _ S). }
  rewrite D. eapply c_sections; [exact H| |exact S|exact R].
  assert (G : Forall (fun a => Forall not_end a /\ a <> []) l).
  { clear -H. induction H as [|ts part l parts W H IH]; constructor; auto. destruct (part_head _ _ W) as (lx & -> & F). split; [exact F|discriminate]. }
  assert (L1 : (length l <= length (concat l))%nat) by (apply concat_length; eapply Forall_impl; [|exact G]; cbv beta; tauto).
  assert (L2 : Forall not_end (concat l)) by (apply concat_forall; eapply Forall_impl; [|exact G]; cbv beta; tauto).
  pose proof (run_length _ _ _ _ _ R L2). unfold fuel_of. destruct S as (_ & -> & _). lia.
Qed.

End Prog.
