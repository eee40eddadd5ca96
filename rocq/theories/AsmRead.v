(** The assembler reads what is written (AsmSpec.v), as long as every minus stands in
    front of a number and every name is that of a register. *)
From Coq Require Import Ascii String ZArith NArith List Bool Lia.
From Verif Require Import Base Text PropText Isa Lexer LexProofs Asm Show AsmSpec AsmSweep.
Import ListNotations.
Open Scope Z_scope.

(** A name that is that of a register. *)
Definition is_name (a : text) : Prop := (exists r, reg_name a r) \/ (exists f, freg_name a f).
Fixpoint careful (ts : list tok) : Prop :=
  match ts with
  | [] => True
  | t :: ts' =>
      match t with
      | TId a => is_name a
      | TOp KMinus => match ts' with TNum _ :: _ => True | _ => False end
      | _ => True
      end /\ careful ts'
  end.

Lemma careful_app : forall a b, careful (a ++ b) -> careful b.
Proof. induction a as [|t a IH]; intros b H; [exact H|]. cbn [app careful] in H. apply IH, H. Qed.
Lemma careful_comma : forall a b, careful (a ++ COMMA :: b) -> careful a /\ careful b.
Proof.
  intros a b H. split; [|apply careful_app in H; apply H].
  induction a as [|t a IH]; [exact I|]. cbn [app careful] in H. destruct H as [H1 H2]. split; [|now apply IH].
  destruct t; try exact H1. destruct k; try exact I. destruct a; [contradiction|exact H1].
Qed.

Lemma digits_denotes : forall w n, denotes w n -> fst (digits 0 w) = n.
Proof.
  intros w n H. destruct (digits_go w 0) as (w' & r & E & S & _ & G). pose proof (G [] 0 dn_nil eq_refl) as D. cbn [app] in D.
  assert (E' : w ++ [] = w' ++ r) by (rewrite app_nil_r; exact E).
  destruct (split_digits w [] w' r n _ H D I S E') as [-> _]. exact (denotes_fun _ _ _ D H).
Qed.
Lemma atoi_denotes : forall w n, denotes w n -> n < 2 ^ 31 -> atoi w = POk n.
Proof. intros w n H L. unfold atoi. rewrite (digits_denotes _ _ H). destruct (Z.ltb_spec n (2 ^ 31)); [reflexivity|lia]. Qed.
Lemma get_register_name : forall a r, reg_name a r -> get_register a = POk r.
Proof.
  intros a r H. destruct H; try reflexivity. change (str "R" ++ w) with (ch 82 :: w). unfold get_register.
  change (teqb (ch 82 :: w) (str "BP")) with false. change (teqb (ch 82 :: w) (str "SP")) with false. change (teqb (ch 82 :: w) (str "IP")) with false.
  rewrite Ascii.eqb_refl, (atoi_denotes _ _ H0 H1). reflexivity.
Qed.
Lemma get_fregister_name : forall a f, freg_name a f -> get_fregister a = POk f.
Proof.
  intros a f H. destruct H. change (str "F" ++ w) with (ch 70 :: w). unfold get_fregister. rewrite Ascii.eqb_refl, (atoi_denotes _ _ H0 H1). reflexivity.
Qed.
Lemma get_register_sound : forall a r, is_name a -> get_register a = POk r -> reg_name a r.
Proof.
  intros a r [[r' H]|[f H]] G.
  - rewrite (get_register_name _ _ H) in G. now injection G as <-.
  - destruct H. discriminate G.
Qed.
Lemma get_fregister_sound : forall a f, is_name a -> get_fregister a = POk f -> freg_name a f.
Proof.
  intros a f [[r' H]|[f' H]] G.
  - destruct H; discriminate G.
  - rewrite (get_fregister_name _ _ H) in G. now injection G as <-.
Qed.

Section Read.
Variable stod : text -> option Z.

(** ---- a parser that stands on a token ---- *)

Definition proper (t : tok) : Prop := match t with TOp (KId | KNum | KFloat | KString) => False | _ => True end.
Definition val_of (t : tok) (l : lexer) : Prop :=
  match t with TId i => l_id l = i | TNum n => l_num l = n | TFloat v => l_float l = v | TStr i => l_str l = i | TOp _ => True end.
Definition stands (p : parser) (t : tok) (s : text) : Prop :=
  p_cur p = kind_of t /\ l_in (p_lex p) = s /\ l_ignore (p_lex p) = false /\ val_of t (p_lex p) /\ proper t.

Inductive run : tok -> text -> list tok -> tok -> text -> Prop :=
| run_nil : forall t s, run t s [] t s
| run_cons : forall t s t1 s1 ts t' s', token_at stod false s = POk (t1, s1) -> run t1 s1 ts t' s' -> run t s (t :: ts) t' s'.

Lemma run_inv : forall t s a ts t' s', run t s (a :: ts) t' s' -> t = a /\ exists t1 s1, token_at stod false s = POk (t1, s1) /\ run t1 s1 ts t' s'.
Proof. intros t s a ts t' s' H. inversion H; subst. eauto 6. Qed.
Lemma run_end : forall t s t' s', run t s [] t' s' -> t' = t /\ s' = s.
Proof. intros t s t' s' H. inversion H; subst. auto. Qed.
Lemma run_app : forall a t s b t1 s1 t2 s2, run t s a t1 s1 -> run t1 s1 b t2 s2 -> run t s (a ++ b) t2 s2.
Proof.
  intros a t s b t1 s1 t2 s2 H. induction H; intros K; [exact K|]. cbn [app]. econstructor; eauto.
Qed.
Lemma run_split : forall a t s b t2 s2, run t s (a ++ b) t2 s2 -> exists t1 s1, run t s a t1 s1 /\ run t1 s1 b t2 s2.
Proof.
  induction a as [|x a IH]; intros t s b t2 s2 H; cbn [app] in H.
  - exists t, s. split; [constructor|exact H].
  - apply run_inv in H. destruct H as (-> & t1 & s1 & T & H). destruct (IH _ _ _ _ _ H) as (t3 & s3 & A & B). exists t3, s3. split; [econstructor; eauto|exact B].
Qed.
Lemma run_lexes : forall t s ts t' s' s0, token_at stod false s0 = POk (t, s) -> run t s ts t' s' ->
  exists r, lexes stod s0 ts r /\ token_at stod false r = POk (t', s').
Proof.
  intros t s ts t' s' s0 T H. revert s0 T. induction H; intros s0 T; [exists s0; split; [constructor|exact T]|].
  destruct (IHrun _ H) as (r & L & R). exists r. split; [econstructor; eauto|exact R].
Qed.
Lemma lexes_run : forall s ts r t' s', lexes stod s ts r -> token_at stod false r = POk (t', s') ->
  exists t s1, token_at stod false s = POk (t, s1) /\ run t s1 ts t' s'.
Proof.
  intros s ts r t' s' H. induction H; intros T; [exists t', s'; split; [exact T|constructor]|].
  destruct (IHlexes T) as (t1 & s2 & T1 & R). exists t, s1. split; [exact H|]. econstructor; eauto.
Qed.

Lemma here_proper : forall s t r, here stod s = POk (t, r) -> proper t.
Proof.
  intros s t r H. unfold here in H. destruct (lead_of (hd EOF s)) as [|k|k m| | | |] eqn:L; try discriminate.
  - injection H as <- _. exact I.
  - injection H as <- _. clear -L. destruct (hd EOF s) as [[] [] [] [] [] [] [] []]; try discriminate L; injection L as <-; exact I.
  - clear -L H. destruct (hd EOF s) as [[] [] [] [] [] [] [] []]; try discriminate L; injection L as <- <-; cbn [second] in H;
      repeat match goal with H : context [if ?b then _ else _] |- _ => destruct b end; injection H as <- _; exact I.
  - destruct (lex_string _ _) as [[]|]; [|discriminate]. injection H as <- _. exact I.
  - destruct (span _ _) as [w x]. destruct (existsb _ w); [destruct (stod _)|destruct (stoi _)]; try discriminate; injection H as <- _; exact I.
  - destruct (span _ _) as [w x]. injection H as <- _. exact I.
Qed.
Lemma token_proper : forall ign s t r, token_at stod ign s = POk (t, r) -> proper t.
Proof. intros ign s t r H. destruct (token_at_is_here _ _ _ _ _ H) as (s' & _ & H'). eapply here_proper. eassumption. Qed.

Lemma load_stands : forall p t r, proper t -> l_ignore (p_lex p) = false -> stands (mkParser (load t r (p_lex p)) (kind_of t)) t r.
Proof. intros [l c] t r P I. unfold stands, load. cbn [p_cur p_lex l_in l_ignore] in *. repeat split; auto. destruct t; reflexivity || exact Logic.I. Qed.

Lemma next_to : forall p t s t1 s1, stands p t s -> token_at stod false s = POk (t1, s1) -> exists p1, next stod p = POk p1 /\ stands p1 t1 s1.
Proof.
  intros p t s t1 s1 (H1 & H2 & H3 & H4 & H5) T. unfold next, advance. rewrite get_next_token, H2, H3, T. cbn [pbind].
  eexists. split; [reflexivity|]. apply load_stands; [eapply token_proper; eassumption|exact H3].
Qed.
Lemma next_from : forall p t s p1, stands p t s -> next stod p = POk p1 -> exists t1 s1, token_at stod false s = POk (t1, s1) /\ stands p1 t1 s1.
Proof.
  intros p t s p1 (H1 & H2 & H3 & H4 & H5) N. unfold next, advance in N. rewrite get_next_token, H2, H3 in N.
  destruct (token_at stod false s) as [[t1 s1]|e] eqn:T; [|discriminate]. cbn [pbind] in N. injection N as <-.
  exists t1, s1. split; [reflexivity|]. apply load_stands; [eapply token_proper; eassumption|exact H3].
Qed.

Lemma stands_is : forall p t s k, stands p t s -> is p k = kind_eqb (kind_of t) k.
Proof. intros p t s k H. unfold is. now rewrite (proj1 H). Qed.
Lemma stands_number : forall p t s, stands p t s -> is_number p = kind_eqb (kind_of t) KNum || kind_eqb (kind_of t) KMinus.
Proof. intros p t s H. unfold is_number. now rewrite !(stands_is _ _ _ _ H). Qed.
Lemma stands_id : forall p a s, stands p (TId a) s -> id p = a.
Proof. intros p a s (_ & _ & _ & H & _). exact H. Qed.
Lemma stands_num : forall p n s, stands p (TNum n) s -> num p = n.
Proof. intros p n s (_ & _ & _ & H & _). exact H. Qed.
Lemma stands_float : forall p v s, stands p (TFloat v) s -> l_float (p_lex p) = v.
Proof. intros p n s (_ & _ & _ & H & _). exact H. Qed.

Lemma kind_id : forall t, proper t -> kind_eqb (kind_of t) KId = true -> exists a, t = TId a.
Proof. intros [] P H; try discriminate; [eauto|]. destruct k; discriminate || contradiction. Qed.
Lemma kind_num : forall t, proper t -> kind_eqb (kind_of t) KNum = true -> exists n, t = TNum n.
Proof. intros [] P H; try discriminate; [eauto|]. destruct k; discriminate || contradiction. Qed.
Lemma kind_float : forall t, proper t -> kind_eqb (kind_of t) KFloat = true -> exists n, t = TFloat n.
Proof. intros [] P H; try discriminate; [eauto|]. destruct k; discriminate || contradiction. Qed.
Lemma kind_op : forall t k, proper t -> kind_eqb (kind_of t) k = true -> proper (TOp k) -> t = TOp k.
Proof. intros [] k' P H Q; destruct k'; try discriminate; try contradiction; destruct k; discriminate || contradiction || reflexivity. Qed.

Definition stop (t : tok) : Prop := t <> PLUS /\ t <> MINUS.

(** ---- what is written is read ---- *)

Definition complete {A} (W : list tok -> A -> Prop) (f : parser -> pres (A * parser)) : Prop :=
  forall ts a p t s t' s', W ts a -> stands p t s -> run t s ts t' s' -> stop t' -> exists p', f p = POk (a, p') /\ stands p' t' s'.

Lemma step : forall p a s t ts t' s', stands p t s -> run t s (a :: ts) t' s' -> t = a /\ exists p1 t1 s1, next stod p = POk p1 /\ stands p1 t1 s1 /\ run t1 s1 ts t' s'.
Proof.
  intros p a s t ts t' s' H R. apply run_inv in R. destruct R as (-> & t1 & s1 & T & R). destruct (next_to _ _ _ _ _ H T) as (p1 & N & S). split; eauto 8.
Qed.

Ltac go :=
  match goal with
  | H : stands ?p ?t ?s, R : run ?t ?s (_ :: _) _ _ |- _ =>
      let p1 := fresh "p" in let t1 := fresh "t" in let s1 := fresh "s" in let N := fresh "N" in let S := fresh "S" in let R' := fresh "R" in
      destruct (step _ _ _ _ _ _ _ H R) as (-> & p1 & t1 & s1 & N & S & R'); clear R; cbn [app] in R'
  | R : run _ _ [] _ _ |- _ => apply run_end in R; destruct R; subst
  end.
Ltac eval_is :=
  repeat (match goal with
  | H : stands ?p ?t _ |- context [is ?p _] => rewrite !(fun k => stands_is p t _ k H)
  | H : stands ?p ?t _ |- context [is_number ?p] => rewrite !(stands_number p t _ H)
  | H : stands ?p (TId ?a) _ |- context [id ?p] => rewrite !(stands_id p a _ H)
  | H : stands ?p (TNum ?a) _ |- context [num ?p] => rewrite !(stands_num p a _ H)
  | H : stands ?p (TFloat ?a) _ |- context [l_float (p_lex ?p)] => rewrite !(stands_float p a _ H)
  | N : next _ ?p = POk _ |- context [next _ ?p] => rewrite N
  | H : reg_name ?a ?r |- context [get_register ?a] => rewrite !(get_register_name a r H)
  | H : freg_name ?a ?r |- context [get_fregister ?a] => rewrite !(get_fregister_name a r H)
  end; cbn [kind_of kind_eqb orb andb pbind]).
Ltac fin := eexists; split; [reflexivity|eassumption].

Lemma stop_plus : forall t, proper t -> stop t -> kind_eqb (kind_of t) KPlus = false /\ kind_eqb (kind_of t) KMinus = false.
Proof. intros [] P [H1 H2]; try (split; reflexivity). destruct k; try (split; reflexivity); congruence. Qed.

Definition Wreg (ts : list tok) (r : reg) : Prop := op_written ts (OReg r).
Definition Wfreg (ts : list tok) (f : N) : Prop := op_written ts (OFReg f).
Definition Wop (f : operand -> bool) (ts : list tok) (o : operand) : Prop := op_written ts o /\ f o = true.
(** no negative number right behind an opening bracket *)
Definition plain (ts : list tok) : Prop := match ts with OPEN :: MINUS :: _ => False | _ => True end.
Definition Wplain (f : operand -> bool) (ts : list tok) (o : operand) : Prop := op_written ts o /\ f o = true /\ plain ts.

Lemma c_register : complete Wreg (p_register stod).
Proof. intros ts r p t s t' s' W S R _. inversion W; subst. repeat go. unfold p_register. eval_is. fin. Qed.
Lemma c_fregister : complete Wfreg (p_fregister stod).
Proof. intros ts r p t s t' s' W S R _. inversion W; subst. repeat go. unfold p_fregister. eval_is. fin. Qed.
Lemma c_imm' : forall ts v p t s t' s', int_written ts v -> stands p t s -> run t s ts t' s' -> exists p', p_imm stod p = POk (v, p') /\ stands p' t' s' /\ is_number p = true.
Proof.
  intros ts v p t s t' s' W S R. destruct W; repeat go; unfold p_imm; eval_is.
  - eexists. split; [reflexivity|]. split; [eassumption|reflexivity].
  - eexists. split; [reflexivity|]. split; [eassumption|reflexivity].
Qed.
Lemma c_imm : complete int_written (p_imm stod).
Proof. intros ts v p t s t' s' W S R _. destruct (c_imm' _ _ _ _ _ _ _ W S R) as (p' & E & S' & _). eauto. Qed.
Lemma c_fimm_or_reg : complete (Wop float_src) (p_fimm_or_reg stod).
Proof.
  intros ts o p t s t' s' [W F] S R _. destruct W; try discriminate F; unfold p_fimm_or_reg.
  - repeat go. eval_is. unfold p_fimm. eval_is. fin.
  - repeat go. eval_is. unfold p_fregister. eval_is. fin.
Qed.
Lemma int_head : forall i v t s t' s', int_written i v -> run t s i t' s' -> t = MINUS \/ exists n, t = TNum n.
Proof. intros i v t s t' s' W R. destruct W; apply run_inv in R; destruct R as (-> & _); eauto. Qed.
Ltac use_imm W S R :=
  let p1 := fresh "p" in let E := fresh "E" in let S' := fresh "S" in let I := fresh "I" in
  destruct (c_imm' _ _ _ _ _ _ _ W S R) as (p1 & E & S' & I); try rewrite I; try rewrite <- (stands_number _ _ _ S), I; try rewrite E; cbn [pbind orb andb].

Lemma c_imm_or_reg : complete (Wop int_src) (p_imm_or_reg stod).
Proof.
  intros ts o p t s t' s' [W F] S R _. destruct W; try discriminate F; unfold p_imm_or_reg.
  - destruct (int_head _ _ _ _ _ _ H R) as [->|[n ->]]; rewrite !(stands_is _ _ _ _ S); cbn [kind_of kind_eqb]; use_imm H S R; fin.
  - repeat go. eval_is. unfold p_register. eval_is. fin.
Qed.
Lemma c_imm_or_reg_off : complete (Wop with_off) (p_imm_or_reg_off stod).
Proof.
  intros ts o p t s t' s' [W F] S R St. destruct W; try discriminate F; unfold p_imm_or_reg_off.
  - use_imm H S R; fin.
  - repeat go. eval_is. unfold p_register. eval_is.
    match goal with H : stands ?q ?u _ |- context [kind_of ?u] => destruct (stop_plus u (proj2 (proj2 (proj2 (proj2 H)))) St) as [-> ->] end. fin.
  - destruct H0 as [i v W|i v W]; go; go; eval_is; unfold p_register; eval_is; match goal with H : stands ?q ?u ?x, R : run ?u ?x i _ _ |- _ => use_imm W H R end; fin.
Qed.

Ltac open_int W :=
  match goal with H : stands ?q ?u ?x, R : run ?u ?x (?i ++ _) _ _ |- _ =>
    let t1 := fresh "t" in let s1 := fresh "s" in let R1 := fresh "R" in let R2 := fresh "R" in
    apply run_split in R; destruct R as (t1 & s1 & R1 & R2); use_imm W H R1 end.
Ltac head_int W :=
  match goal with H : stands ?q ?u ?x, R : run ?u ?x (?i ++ _) _ _ |- _ =>
    let t1 := fresh "t" in let s1 := fresh "s" in let R1 := fresh "R" in let R2 := fresh "R" in
    apply run_split in R; destruct R as (t1 & s1 & R1 & R2); destruct (int_head _ _ _ _ _ _ W R1) as [->|[? ->]];
    eval_is; use_imm W H R1 end.

Lemma c_simple_memory : complete (Wop simple_mem) (p_simple_memory stod).
Proof.
  intros ts o p t s t' s' [W F] S R _. destruct W; try discriminate F; unfold p_simple_memory.
  - go. eval_is. head_int H; repeat go; unfold expect; eval_is; fin.
  - repeat go. eval_is. unfold p_register. eval_is. unfold expect. eval_is. fin.
  - destruct H0 as [i v W|i v W]; go; go; cbn [app] in *; go; eval_is; unfold p_register; eval_is; open_int W; repeat go; unfold expect; eval_is; fin.
Qed.
Lemma op_head : forall ts o t s t' s', op_written ts o -> run t s ts t' s' ->
  match o with
  | OImm _ => t = MINUS \/ exists n, t = TNum n
  | OFImm v => t = TFloat v
  | OReg r | ORegOff r _ => exists a, t = TId a /\ reg_name a r
  | OFReg f => exists a, t = TId a /\ freg_name a f
  | _ => t = OPEN
  end.
Proof.
  intros ts o t s t' s' W R. destruct W; try (apply run_inv in R; destruct R as (-> & _); eauto; fail).
  exact (int_head _ _ _ _ _ _ H R).
Qed.
Lemma c_imm_or_reg_or_mem : complete (Wop (fun o => int_src o || simple_mem o)) (p_imm_or_reg_or_mem stod).
Proof.
  intros ts o p t s t' s' [W F] S R St. pose proof (op_head _ _ _ _ _ _ W R) as H. unfold p_imm_or_reg_or_mem.
  destruct o; try discriminate F.
  - destruct H as [->|[n ->]]; eval_is; eapply c_imm_or_reg; (split; [eassumption|reflexivity]) || eassumption.
  - destruct H as [a [-> _]]; eval_is; eapply c_imm_or_reg; (split; [eassumption|reflexivity]) || eassumption.
  - subst t. eval_is. eapply c_simple_memory; (split; [eassumption|reflexivity]) || eassumption.
  - subst t. eval_is. eapply c_simple_memory; (split; [eassumption|reflexivity]) || eassumption.
  - subst t. eval_is. eapply c_simple_memory; (split; [eassumption|reflexivity]) || eassumption.
Qed.
Lemma c_value : complete (Wop (fun o => with_off o || simple_mem o)) (p_value stod).
Proof.
  intros ts o p t s t' s' [W F] S R St. pose proof (op_head _ _ _ _ _ _ W R) as H. unfold p_value.
  destruct o; try discriminate F.
  - destruct H as [->|[n ->]]; eval_is; eapply c_imm_or_reg_off; (split; [eassumption|reflexivity]) || eassumption.
  - destruct H as [a [-> _]]; eval_is; eapply c_imm_or_reg_off; (split; [eassumption|reflexivity]) || eassumption.
  - destruct H as [a [-> _]]; eval_is; eapply c_imm_or_reg_off; (split; [eassumption|reflexivity]) || eassumption.
  - subst t. eval_is. eapply c_simple_memory; (split; [eassumption|reflexivity]) || eassumption.
  - subst t. eval_is. eapply c_simple_memory; (split; [eassumption|reflexivity]) || eassumption.
  - subst t. eval_is. eapply c_simple_memory; (split; [eassumption|reflexivity]) || eassumption.
Qed.

Lemma c_memory : complete (Wplain any_mem) (p_memory stod).
Proof.
  intros ts o p t s t' s' (W & F & Pl) S R _. destruct W; try discriminate F; unfold p_memory, p_memory_inner.
  - destruct H; [|contradiction Pl]. cbn [app] in R. repeat go. eval_is. unfold expect. eval_is. fin.
  - repeat go. eval_is. unfold expect. eval_is. fin.
  - destruct H0 as [i v W|i v W]; go; go; cbn [app] in *; go; eval_is; open_int W; repeat go; eval_is; unfold expect; eval_is; fin.
  - go; go; go; eval_is; open_int H0; repeat go; unfold expect; eval_is; fin.
  - repeat go. eval_is. unfold expect. eval_is. fin.
  - go; go; go; go; go. eval_is. open_int H1. repeat go. unfold expect. eval_is. fin.
  - destruct H0 as [i v W|i v W]; go; go; cbn [app] in *; go; eval_is; open_int W; repeat go; eval_is; unfold expect; eval_is; fin.
  - destruct H0 as [i v W|i v W]; go; go; cbn [app] in *; go; eval_is; open_int W; go; go; go; eval_is; open_int H2; repeat go; unfold expect; eval_is; fin.
Qed.

Lemma reg_not_f : forall a r, reg_name a r -> Ascii.eqb (hd EOF a) (ch 70) = false.
Proof. intros a r H. destruct H; reflexivity. Qed.
Lemma freg_f : forall a r, freg_name a r -> Ascii.eqb (hd EOF a) (ch 70) = true.
Proof. intros a r H. destruct H; reflexivity. Qed.

Lemma c_operand : complete (Wplain any_op) (p_operand stod).
Proof.
  intros ts o p t s t' s' (W & F & Pl) S R St. pose proof (op_head _ _ _ _ _ _ W R) as H. unfold p_operand.
  destruct o; try discriminate F.
  all: try (subst t; eval_is; eapply c_memory; [split; [exact W|split; [reflexivity|exact Pl]]|eassumption|eassumption|eassumption]).
  - inversion W; subst. destruct H as [->|[n ->]]; eval_is; match goal with I : int_written _ _ |- _ => use_imm I S R end; fin.
  - clear H. inversion W; subst. repeat go. eval_is. unfold p_fimm. eval_is. fin.
  - inversion W; subst. repeat go. eval_is. match goal with I : reg_name _ _ |- _ => rewrite (reg_not_f _ _ I) end. unfold p_register. eval_is. fin.
  - inversion W; subst. repeat go. eval_is. match goal with I : freg_name _ _ |- _ => rewrite (freg_f _ _ I) end. unfold p_fregister. eval_is. fin.
Qed.

Definition Wi (i : instr) (ts : list tok) (j : instr) : Prop :=
  j = i /\ exists ops, ts = commas ops /\ Forall2 op_written ops (signature i) /\ Forall plain ops.

Lemma c_weaken : forall A (W W' : list tok -> A -> Prop) f, (forall ts a, W' ts a -> W ts a) -> complete W f -> complete W' f.
Proof. intros A W W' f H C ts a p t s t' s' Hw. exact (C ts a p t s t' s' (H _ _ Hw)). Qed.

Lemma comma_stop : stop COMMA.
Proof. split; discriminate. Qed.
Lemma c_binary : forall A B (Wa : list tok -> A -> Prop) (Wb : list tok -> B -> Prop) f g mk, complete Wa f -> complete Wb g ->
  complete (fun ts j => exists a b ta tb, j = mk a b /\ ts = ta ++ COMMA :: tb /\ Wa ta a /\ Wb tb b) (p_binary stod f g mk).
Proof.
  intros A B Wa Wb f g mk F G ts j p t s t' s' (a & b & ta & tb & -> & -> & HA & HB) S R St. unfold p_binary.
  apply run_split in R. destruct R as (t1 & s1 & R1 & R2). assert (t1 = COMMA) as -> by (apply run_inv in R2; apply R2).
  destruct (F _ _ _ _ _ _ _ HA S R1 comma_stop) as (p1 & E1 & S1). rewrite E1. cbn [pbind].
  destruct (step _ _ _ _ _ _ _ S1 R2) as (_ & p2 & t2 & s2 & N & S2 & R3). unfold expect. rewrite (stands_is _ _ _ _ S1). cbn [kind_of kind_eqb]. rewrite N. cbn [pbind].
  destruct (G _ _ _ _ _ _ _ HB S2 R3 St) as (p3 & E3 & S3). rewrite E3. cbn [pbind]. eauto.
Qed.
Lemma c_unary : forall A (Wa : list tok -> A -> Prop) f mk, complete Wa f -> complete (fun ts j => exists a, j = mk a /\ Wa ts a) (p_unary f mk).
Proof.
  intros A Wa f mk F ts j p t s t' s' (a & -> & HA) S R St. unfold p_unary.
  destruct (F _ _ _ _ _ _ _ HA S R St) as (p1 & E1 & S1). rewrite E1. cbn [pbind]. eauto.
Qed.
Lemma c_nullary : forall i, complete (fun ts j => j = i /\ ts = []) (p_nullary i).
Proof. intros i ts j p t s t' s' [-> ->] S R St. apply run_end in R. destruct R as [-> ->]. unfold p_nullary. eauto. Qed.
Lemma c_mov : complete (fun ts j => exists d v td tv, j = IMov d v /\ ts = td ++ COMMA :: tv /\ Wplain any_op td d /\ Wplain any_op tv v /\ mov_ok d v = true) (p_mov stod).
Proof.
  intros ts j p t s t' s' (a & b & ta & tb & -> & -> & HA & HB & M) S R St. unfold p_mov.
  apply run_split in R. destruct R as (t1 & s1 & R1 & R2). assert (t1 = COMMA) as -> by (apply run_inv in R2; apply R2).
  destruct (c_operand _ _ _ _ _ _ _ HA S R1 comma_stop) as (p1 & E1 & S1). rewrite E1. cbn [pbind].
  destruct (step _ _ _ _ _ _ _ S1 R2) as (_ & p2 & t2 & s2 & N & S2 & R3). unfold expect. rewrite (stands_is _ _ _ _ S1). cbn [kind_of kind_eqb]. rewrite N. cbn [pbind].
  destruct (c_operand _ _ _ _ _ _ _ HB S2 R3 St) as (p3 & E3 & S3). rewrite E3. cbn [pbind]. rewrite M. eauto.
Qed.
Lemma c_lea : complete (fun ts j => exists d v td tv, j = ILea d v /\ ts = td ++ COMMA :: tv /\ Wreg td d /\ Wplain any_mem tv v /\ is_mem_reg v || is_mem_imm v = false) (p_lea stod).
Proof.
  intros ts j p t s t' s' (a & b & ta & tb & -> & -> & HA & HB & M) S R St. unfold p_lea.
  apply run_split in R. destruct R as (t1 & s1 & R1 & R2). assert (t1 = COMMA) as -> by (apply run_inv in R2; apply R2).
  destruct (c_register _ _ _ _ _ _ _ HA S R1 comma_stop) as (p1 & E1 & S1). rewrite E1. cbn [pbind].
  destruct (step _ _ _ _ _ _ _ S1 R2) as (_ & p2 & t2 & s2 & N & S2 & R3). unfold expect. rewrite (stands_is _ _ _ _ S1). cbn [kind_of kind_eqb]. rewrite N. cbn [pbind].
  destruct (c_memory _ _ _ _ _ _ _ HB S2 R3 St) as (p3 & E3 & S3). rewrite E3. cbn [pbind]. rewrite M. eauto.
Qed.

Lemma ops_two : forall ops a b, Forall2 op_written ops [a; b] -> exists ta tb, ops = [ta; tb] /\ op_written ta a /\ op_written tb b.
Proof. intros ops a b H. inversion H as [|x ? l ? Hx Hl]; subst. inversion Hl as [|y ? l' ? Hy Hl']; subst. inversion Hl'; subst. eauto 6. Qed.
Lemma ops_one : forall ops a, Forall2 op_written ops [a] -> exists ta, ops = [ta] /\ op_written ta a.
Proof. intros ops a H. inversion H as [|x ? l ? Hx Hl]; subst. inversion Hl; subst. eauto. Qed.
Lemma ops_none : forall ops, Forall2 op_written ops [] -> ops = [].
Proof. intros ops H. now inversion H. Qed.

Lemma commas_two : forall a b, commas [a; b] = a ++ COMMA :: b.
Proof. intros. unfold commas. cbn [map concat]. now rewrite app_nil_r. Qed.
Lemma commas_one : forall a, commas [a] = a.
Proof. intros. unfold commas. cbn [map concat]. now rewrite app_nil_r. Qed.

Ltac two := let ops := fresh in let H := fresh in intros ? ? (-> & ops & -> & H & ?);
  apply ops_two in H; destruct H as (?ta & ?tb & -> & ? & ?); rewrite commas_two.
Ltac one := let ops := fresh in let H := fresh in intros ? ? (-> & ops & -> & H & ?);
  apply ops_one in H; destruct H as (?ta & -> & ?); rewrite commas_one.
Ltac none := let ops := fresh in let H := fresh in intros ? ? (-> & ops & -> & H & _); apply ops_none in H; subst ops.
Ltac src_side := repeat match goal with H : Forall plain (_ :: _) |- _ => inversion H; clear H; subst end;
  unfold Wreg, Wfreg, Wop, Wplain; repeat split; assumption || reflexivity.
Ltac bin_case c1 c2 := eexists; split; [reflexivity|]; eapply c_weaken; [|eapply c_binary; [exact c1|exact c2]];
  two; do 4 eexists; split; [reflexivity|]; split; [reflexivity|]; split; src_side.
Ltac un_case c1 := eexists; split; [reflexivity|]; eapply c_weaken; [|eapply c_unary; exact c1]; one; eexists; split; [reflexivity|]; src_side.

Lemma accepted_split : forall i, accepted i = true -> match i with
  | IBin op d r v risc => d = r /\ risc = false /\ op <> BMOD /\ with_off v || simple_mem v = true
  | ICmp _ v | IJcc _ v => int_src v || simple_mem v = true
  | ILoop _ v | IJmp v | ICall v | IPush v => int_src v = true
  | IFBin _ _ v | IFcmp _ v | IFpush v => float_src v = true
  | IMov d v => mov_ok d v = true /\ any_op d = true /\ any_op v = true
  | ILea _ m => any_mem m = true /\ is_mem_reg m || is_mem_imm m = false
  | IClf => False
  | _ => True
  end.
Proof.
  intros [] H; unfold accepted in H; cbn [documented] in H; rewrite ?orb_false_r in H; try exact I; try exact H; try discriminate H.
  - apply andb_prop in H as [H H3]. apply andb_prop in H as [H H2]. apply andb_prop in H as [H H1].
    assert (E : dest = r) by (destruct dest, r; cbn in H1; try discriminate H1; [apply N.eqb_eq in H1; now subst|reflexivity|reflexivity|reflexivity|reflexivity]).
    split; [exact E|]. split; [destruct risc; [discriminate H2|reflexivity]|]. split; [intros ->; discriminate H3|]. destruct v; try exact H; reflexivity.
  - destruct d, v; first [discriminate H|repeat split; reflexivity].
  - destruct m; first [discriminate H|repeat split; reflexivity].
Qed.

Lemma c_by_name : forall i, accepted i = true -> exists f, assoc (name_of i) (by_name stod) = Some f /\ complete (Wi i) f.
Proof.
  intros i H. apply accepted_split in H. destruct i; try contradiction.
  - destruct H as (-> & -> & N & H). destruct op; try (now elim N); bin_case c_register c_value.
  - destruct op; un_case c_register.
  - destruct op; bin_case c_fregister c_fimm_or_reg.
  - destruct H as (M & H1 & H2). eexists. split; [reflexivity|]. eapply c_weaken; [|exact c_mov].
    two; do 4 eexists; split; [reflexivity|]; split; [reflexivity|]; split; [|split]; [| |assumption]; src_side.
  - destruct H as (M & H1). eexists. split; [reflexivity|]. eapply c_weaken; [|exact c_lea].
    two; do 4 eexists; split; [reflexivity|]; split; [reflexivity|]; split; [|split]; [| |assumption]; src_side.
  - eexists; split; [reflexivity|]; eapply c_weaken; [|apply c_nullary]; none; auto.
  - eexists; split; [reflexivity|]; eapply c_weaken; [|apply c_nullary]; none; auto.
  - eexists; split; [reflexivity|]; eapply c_weaken; [|apply c_nullary]; none; auto.
  - eexists; split; [reflexivity|]; eapply c_weaken; [|apply c_nullary]; none; auto.
  - bin_case c_register c_imm_or_reg_or_mem.
  - bin_case c_fregister c_fimm_or_reg.
  - un_case c_imm_or_reg.
  - bin_case c_register c_imm_or_reg.
  - destruct c; un_case c_imm_or_reg_or_mem.
  - un_case c_imm_or_reg.
  - eexists; split; [reflexivity|]; eapply c_weaken; [|apply c_nullary]; none; auto.
  - un_case c_imm_or_reg.
  - un_case c_fimm_or_reg.
  - un_case c_register.
  - un_case c_fregister.
  - un_case c_register.
  - un_case c_register.
  - un_case c_register.
  - bin_case c_fregister c_register.
  - bin_case c_register c_fregister.
Qed.

Lemma c_instruction_ops : forall i addr ops p t s t' s', accepted i = true -> addr = [] \/ (exists n, addr = [TNum n]) ->
  Forall2 op_written ops (signature i) -> Forall plain ops ->
  stands p t s -> run t s (addr ++ TId (name_of i) :: commas ops) t' s' -> stop t' -> exists p', p_instruction stod p = POk (i, p') /\ stands p' t' s'.
Proof.
  intros i addr ops p t s t' s' A Ha Ho Po S R St.
  destruct (c_by_name i A) as (f & Hf & C). unfold p_instruction.
  assert (G : exists p0 s0, (if is_number p then next stod p else POk p) = POk p0 /\ stands p0 (TId (name_of i)) s0 /\ run (TId (name_of i)) s0 (TId (name_of i) :: commas ops) t' s').
  { destruct Ha as [->|[n ->]]; cbn [app] in R.
    - assert (t = TId (name_of i)) as -> by (apply run_inv in R; apply R). exists p, s. rewrite (stands_number _ _ _ S). cbn. auto.
    - destruct (step _ _ _ _ _ _ _ S R) as (-> & p1 & t1 & s1 & N & S1 & R1). assert (t1 = TId (name_of i)) as -> by (apply run_inv in R1; apply R1).
      exists p1, s1. rewrite (stands_number _ _ _ S). cbn [kind_of kind_eqb orb]. auto. }
  destruct G as (p0 & s0 & -> & S0 & R0). cbn [pbind]. rewrite (stands_is _ _ _ _ S0), (stands_id _ _ _ S0). cbn [kind_of kind_eqb].
  destruct (step _ _ _ _ _ _ _ S0 R0) as (_ & p1 & t1 & s1 & N & S1 & R1). rewrite N. cbn [pbind]. rewrite Hf.
  eapply C; [|exact S1|exact R1|exact St]. split; [reflexivity|]. eauto.
Qed.

(** No number with a minus right behind an opening bracket. *)
Definition no_negative_address (ts : list tok) : Prop := forall a b, ts <> a ++ OPEN :: MINUS :: b.

Lemma plain_ops : forall addr n ops, no_negative_address (addr ++ TId n :: commas ops) -> Forall plain ops.
Proof.
  intros addr n ops Pl. apply Forall_forall. intros x Hx. unfold plain. destruct x as [|[| | | |[]] [|[| | | |[]] x]]; try exact I. exfalso.
  apply in_split in Hx. destruct Hx as (l1 & l2 & ->).
  assert (Q : exists a b, commas (l1 ++ (OPEN :: MINUS :: x) :: l2) = a ++ OPEN :: MINUS :: b).
  { destruct l1 as [|y l1]; cbn [app commas].
    - exists [], (x ++ concat (map (cons COMMA) l2)). reflexivity.
    - rewrite map_app, concat_app. cbn [map concat]. exists (y ++ concat (map (cons COMMA) l1) ++ [COMMA]), (x ++ concat (map (cons COMMA) l2)).
      now rewrite <- !app_assoc. }
  destruct Q as (a & b & Q). rewrite Q in Pl. apply (Pl (addr ++ TId n :: a) b). rewrite <- app_assoc. reflexivity.
Qed.
Lemma c_instruction : forall i ts p t s t' s', accepted i = true -> instr_written ts i -> no_negative_address ts ->
  stands p t s -> run t s ts t' s' -> stop t' -> exists p', p_instruction stod p = POk (i, p') /\ stands p' t' s'.
Proof.
  intros i ts p t s t' s' A W Pl S R St. destruct W as [addr ops i Ha Ho].
  eapply c_instruction_ops; eauto. eapply plain_ops. eassumption.
Qed.

(** ---- what is read was written ---- *)

Definition sound {A} (W : list tok -> A -> Prop) (f : parser -> pres (A * parser)) : Prop :=
  forall p t s a p', stands p t s -> f p = POk (a, p') -> exists ts t' s', run t s ts t' s' /\ stands p' t' s' /\ (careful ts -> W ts a).

Lemma careful_pre : forall a t b, careful (a ++ t :: b) -> (forall n, t <> TNum n) -> careful a.
Proof.
  intros a t b H N. induction a as [|x a IH]; [exact I|]. cbn [app careful] in H. destruct H as [H1 H2]. split; [|now apply IH].
  destruct x; try exact H1. destruct k; try exact I. destruct a; [cbn [app] in H1; destruct t; try contradiction; now elim (N n)|exact H1].
Qed.

Lemma next_some : forall A p t s (f : parser -> pres A) a, stands p t s -> pbind (next stod p) f = POk a ->
  exists p1 t1 s1, token_at stod false s = POk (t1, s1) /\ stands p1 t1 s1 /\ f p1 = POk a.
Proof.
  intros A p t s f a S H. destruct (next stod p) as [p1|e] eqn:N; [|discriminate]. cbn [pbind] in H.
  destruct (next_from _ _ _ _ S N) as (t1 & s1 & T & S1). eauto 8.
Qed.
Lemma expect_some : forall A p t s k (f : parser -> pres A) a, proper (TOp k) -> stands p t s -> pbind (expect stod p k) f = POk a ->
  t = TOp k /\ exists p1 t1 s1, token_at stod false s = POk (t1, s1) /\ stands p1 t1 s1 /\ f p1 = POk a.
Proof.
  intros A p t s k f a P S H. unfold expect in H. rewrite (stands_is _ _ _ _ S) in H. destruct (kind_eqb (kind_of t) k) eqn:K; [|discriminate].
  split; [apply kind_op; auto; apply S|]. eapply next_some; eauto.
Qed.
Lemma sound_some : forall A B (W : list tok -> A -> Prop) g p t s (f : A * parser -> pres B) b, sound W g -> stands p t s -> pbind (g p) f = POk b ->
  exists ts t' s' a p', run t s ts t' s' /\ stands p' t' s' /\ (careful ts -> W ts a) /\ f (a, p') = POk b.
Proof.
  intros A B W g p t s f b G S H. destruct (g p) as [[a p']|e] eqn:E; [|discriminate]. cbn [pbind] in H.
  destruct (G _ _ _ _ _ S E) as (ts & t' & s' & R & S' & C). exists ts, t', s', a, p'. auto.
Qed.
Lemma reg_some : forall B a (f : reg -> pres B) b, pbind (get_register a) f = POk b -> exists r, get_register a = POk r /\ f r = POk b.
Proof. intros B a f b H. destruct (get_register a); [eauto|discriminate]. Qed.
Lemma freg_some : forall B a (f : N -> pres B) b, pbind (get_fregister a) f = POk b -> exists r, get_fregister a = POk r /\ f r = POk b.
Proof. intros B a f b H. destruct (get_fregister a); [eauto|discriminate]. Qed.

(** one step backwards through a parser function *)
Ltac ask t k :=
  let K := fresh "K" in
  destruct (kind_eqb (kind_of t) k) eqn:K;
  [ match goal with S : stands _ t _ |- _ =>
      let P := constr:(proj2 (proj2 (proj2 (proj2 S)))) in
      lazymatch k with
      | KId => destruct (kind_id t P K) as [? ->]
      | KNum => destruct (kind_num t P K) as [? ->]
      | KFloat => destruct (kind_float t P K) as [? ->]
      | _ => pose proof (kind_op t k P K I); subst t
      end end; clear K
  | ]; cbn [kind_of kind_eqb orb andb] in *.
Ltac back :=
  match goal with
  | H : PFail _ = POk _ |- _ => discriminate H
  | H : POk _ = POk _ |- _ => injection H as; subst
  | S : stands ?p ?t _, H : context [is ?p _] |- _ => rewrite !(fun k => stands_is p t _ k S) in H; cbn [kind_of kind_eqb orb andb] in H
  | S : stands ?p ?t _, H : context [is_number ?p] |- _ => rewrite !(stands_number p t _ S) in H; cbn [kind_of kind_eqb orb andb] in H
  | S : stands ?p (TId ?t) _, H : context [id ?p] |- _ => rewrite !(stands_id p t _ S) in H
  | S : stands ?p (TNum ?t) _, H : context [num ?p] |- _ => rewrite !(stands_num p t _ S) in H
  | S : stands ?p (TFloat ?t) _, H : context [l_float (p_lex ?p)] |- _ => rewrite !(stands_float p t _ S) in H
  | S : stands ?p _ _, H : pbind (next _ ?p) _ = POk _ |- _ => apply (next_some _ _ _ _ _ _ S) in H; destruct H as (?p & ?t & ?s & ?T & ?S & H)
  | S : stands ?p _ _, H : pbind (expect _ ?p ?k) ?f = POk ?b |- _ =>
      apply (expect_some _ p _ _ k f b I S) in H; destruct H as (-> & ?p & ?t & ?s & ?T & ?S & H)
  | H : pbind (get_register _) _ = POk _ |- _ => apply reg_some in H; destruct H as (?r & ?G & H)
  | H : pbind (get_fregister _) _ = POk _ |- _ => apply freg_some in H; destruct H as (?r & ?G & H)
  | G : sound _ ?g, S : stands ?p _ _, H : pbind (?g ?p) _ = POk _ |- _ =>
      apply (sound_some _ _ _ _ _ _ _ _ _ G S) in H; destruct H as (?ts & ?t & ?s & ?a & ?p & ?R & ?S & ?C & H)
  | H : ?x = POk _ |- _ => match x with context [kind_eqb (kind_of ?t) ?k] => is_var t; ask t k end
  end.
Ltac runs :=
  solve [ apply run_nil | eassumption | eapply run_cons; [eassumption|runs] | eapply run_app; [eassumption|runs] ].
Ltac fin_s :=
  match goal with S : stands ?p' ?t' ?s' |- exists ts t s, _ /\ stands ?p' t s /\ _ =>
    eexists; exists t', s'; split; [runs|split; [exact S|]]; cbn [app]; let C := fresh "Ca" in intros C end.

Ltac care :=
  repeat (cbn [app] in *; match goal with
  | C : careful (?a ++ ?t :: ?b) |- _ =>
      let D := fresh "D" in pose proof (careful_pre a t b C ltac:(discriminate)) as D; apply careful_app in C
  | C : careful (_ :: _) |- _ => cbn [careful] in C
  | C : _ /\ careful _ |- _ => destruct C
  | C : _ /\ _ /\ _ |- _ => destruct C
  | C : _ /\ True |- _ => destruct C
  end);
  repeat match goal with C : careful ?ts -> _, H : careful ?ts |- _ => specialize (C H) end.
Ltac names :=
  repeat match goal with
  | N : is_name ?a, G : get_register ?a = POk ?r |- _ => lazymatch goal with H : reg_name a r |- _ => fail | _ => pose proof (get_register_sound a r N G) end
  | N : is_name ?a, G : get_fregister ?a = POk ?r |- _ => lazymatch goal with H : freg_name a r |- _ => fail | _ => pose proof (get_fregister_sound a r N G) end
  end.

Lemma s_register : sound Wreg (p_register stod).
Proof. intros p t s r p' S H. unfold p_register in H. repeat back. fin_s. care. names. now constructor. Qed.
Lemma s_fregister : sound Wfreg (p_fregister stod).
Proof. intros p t s r p' S H. unfold p_fregister in H. repeat back. fin_s. care. names. now constructor. Qed.
Lemma s_imm : sound int_written (p_imm stod).
Proof.
  intros p t s r p' S H. unfold p_imm in H. repeat back.
  - fin_s. constructor.
  - fin_s. cbn [careful] in *. destruct Ca as [Ca _].
    match type of Ca with match ?x with _ => _ end => destruct x; try contradiction end. rewrite (stands_num _ _ _ S0). constructor.
Qed.
Lemma s_fimm : sound op_written (p_fimm stod).
Proof. intros p t s r p' S H. unfold p_fimm in H. repeat back. fin_s. constructor. Qed.
Lemma s_fimm_or_reg : sound op_written (p_fimm_or_reg stod).
Proof.
  pose proof s_fregister. intros p t s r p' S H'. unfold p_fimm_or_reg in H'. repeat back.
  - fin_s. now apply C.
  - exact (s_fimm _ _ _ _ _ S H').
Qed.
Lemma s_imm_or_reg : sound op_written (p_imm_or_reg stod).
Proof.
  pose proof s_register. pose proof s_imm. intros p t s r p' S H'. unfold p_imm_or_reg in H'. repeat back; fin_s; [now apply C|constructor; now apply C..].
Qed.
Lemma Wreg_inv : forall ts r, Wreg ts r -> exists n, ts = [TId n] /\ reg_name n r.
Proof. intros ts r C. inversion C; subst. eauto. Qed.
Lemma Wfreg_inv : forall ts r, Wfreg ts r -> exists n, ts = [TId n] /\ freg_name n r.
Proof. intros ts r C. inversion C; subst. eauto. Qed.

Ltac wregs :=
  repeat match goal with
  | C : Wreg _ _ |- _ => apply Wreg_inv in C; destruct C as (? & -> & ?)
  | C : Wfreg _ _ |- _ => apply Wfreg_inv in C; destruct C as (? & -> & ?)
  end; cbn [app] in *.

Lemma s_imm_or_reg_off : sound op_written (p_imm_or_reg_off stod).
Proof.
  pose proof s_register. pose proof s_imm. intros p t s r p' S H'. unfold p_imm_or_reg_off in H'. repeat back; fin_s; care; wregs.
  - now constructor.
  - now constructor.
  - apply ow_reg_off; [assumption|now constructor].
  - apply ow_reg_off; [assumption|now constructor].
  - now constructor.
Qed.
Lemma s_simple_memory : sound op_written (p_simple_memory stod).
Proof.
  pose proof s_register. pose proof s_imm. intros p t s r p' S H'. unfold p_simple_memory in H'. repeat back; fin_s; care; wregs.
  - exact (ow_mem_off _ _ (PLUS :: _) _ H5 (ad_plus _ _ C0)).
  - exact (ow_mem_off _ _ (MINUS :: _) _ H5 (ad_minus _ _ C0)).
  - now constructor.
  - now constructor.
Qed.
Lemma s_imm_or_reg_or_mem : sound op_written (p_imm_or_reg_or_mem stod).
Proof.
  intros p t s r p' S H'. unfold p_imm_or_reg_or_mem in H'. repeat back;
    first [exact (s_imm_or_reg _ _ _ _ _ S H')|exact (s_simple_memory _ _ _ _ _ S H')].
Qed.
Lemma s_value : sound op_written (p_value stod).
Proof.
  intros p t s r p' S H'. unfold p_value in H'. repeat back;
    first [exact (s_imm_or_reg_off _ _ _ _ _ S H')|exact (s_simple_memory _ _ _ _ _ S H')].
Qed.

Definition Winner (ts : list tok) (m : option operand) : Prop :=
  match m with Some o => op_written (OPEN :: ts ++ [CLOSE]) o | None => True end.
Lemma s_memory_inner : sound Winner (p_memory_inner stod).
Proof.
  pose proof s_imm. intros p t s r p' S H'. unfold p_memory_inner in H'. repeat back; fin_s; care; names; wregs; cbn [Winner]; try contradiction;
    cbn [app]; repeat (rewrite <- app_assoc; cbn [app]);
    first
    [ exact I
    | contradiction
    | exact (ow_mem_imm [TNum _] _ (iw_pos _))
    | eapply (ow_mem_off_scaled _ _ (PLUS :: _)); [eassumption|constructor; eassumption|eassumption|eassumption]
    | eapply (ow_mem_off_scaled _ _ (MINUS :: _)); [eassumption|constructor; eassumption|eassumption|eassumption]
    | eapply (ow_mem_off_reg _ _ (PLUS :: _)); [eassumption|constructor; eassumption|eassumption]
    | eapply (ow_mem_off_reg _ _ (MINUS :: _)); [eassumption|constructor; eassumption|eassumption]
    | eapply (ow_mem_off _ _ (PLUS :: _)); [eassumption|constructor; eassumption]
    | eapply (ow_mem_off _ _ (MINUS :: _)); [eassumption|constructor; eassumption]
    | constructor; eassumption ].
Qed.

Lemma s_memory : sound op_written (p_memory stod).
Proof.
  pose proof s_memory_inner. intros p t s r p' S H'. unfold p_memory in H'. repeat back.
  match type of H' with match ?m with _ => _ end = _ => destruct m as [o|]; [|discriminate H'] end. repeat back.
  fin_s. care. exact C.
Qed.
Lemma is_name_f : forall a, is_name a -> Ascii.eqb (hd EOF a) (ch 70) = true -> exists f, freg_name a f.
Proof. intros a [[r H]|H] E; [|exact H]. rewrite (reg_not_f _ _ H) in E. discriminate. Qed.
Lemma s_operand : sound op_written (p_operand stod).
Proof.
  pose proof s_fregister. pose proof s_register. pose proof s_imm. intros p t s r p' S H'. unfold p_operand in H'. repeat back.
  - exact (s_memory _ _ _ _ _ S H').
  - destruct (Ascii.eqb (hd EOF x) (ch 70)); repeat back; fin_s; care; [exact C|exact C].
  - fin_s. care. now constructor.
  - fin_s. care. now constructor.
  - exact (s_fimm _ _ _ _ _ S H').
Qed.

(** ---- instructions ---- *)

Definition Wops (ts : list tok) (i : instr) : Prop := exists ops, ts = commas ops /\ Forall2 op_written ops (signature i).

Lemma s_binary : forall A B (Wa : list tok -> A -> Prop) (Wb : list tok -> B -> Prop) (ja : A -> operand) (jb : B -> operand) f g mk,
  sound Wa f -> sound Wb g -> (forall ts a, Wa ts a -> op_written ts (ja a)) -> (forall ts b, Wb ts b -> op_written ts (jb b)) ->
  (forall a b, signature (mk a b) = [ja a; jb b]) -> sound Wops (p_binary stod f g mk).
Proof.
  intros A B Wa Wb ja jb f g mk F G KA KB Sg p t s r p' S H'. unfold p_binary in H'. repeat back. fin_s. apply careful_comma in Ca. destruct Ca as [C1 C2].
  exists [ts; ts0]. rewrite commas_two, Sg. split; [reflexivity|]. auto.
Qed.
Lemma s_unary : forall A (Wa : list tok -> A -> Prop) (ja : A -> operand) f mk,
  sound Wa f -> (forall ts a, Wa ts a -> op_written ts (ja a)) -> (forall a, signature (mk a) = [ja a]) -> sound Wops (p_unary f mk).
Proof.
  intros A Wa ja f mk F KA Sg p t s r p' S H'. unfold p_unary in H'. repeat back. fin_s. exists [ts]. rewrite commas_one, Sg. auto.
Qed.
Lemma s_nullary : forall i, signature i = [] -> sound Wops (p_nullary i).
Proof. intros i Sg p t s r p' S H'. unfold p_nullary in H'. repeat back. fin_s. exists []. rewrite Sg. auto. Qed.
Lemma s_mov : sound Wops (p_mov stod).
Proof.
  pose proof s_operand. intros p t s r p' S H'. unfold p_mov in H'. repeat back.
  match type of H' with (if ?b then _ else _) = _ => destruct b; [|discriminate H'] end. repeat back.
  fin_s. apply careful_comma in Ca. destruct Ca as [C1 C2]. exists [ts; ts0]. rewrite commas_two. split; [reflexivity|]. cbn [signature]. auto.
Qed.
Lemma s_lea : sound Wops (p_lea stod).
Proof.
  pose proof s_register. pose proof s_memory. intros p t s r p' S H'. unfold p_lea in H'. repeat back.
  match type of H' with (if ?b then _ else _) = _ => destruct b; [discriminate H'|] end. repeat back.
  fin_s. apply careful_comma in Ca. destruct Ca as [C1 C2]. exists [ts; ts0]. rewrite commas_two. split; [reflexivity|]. cbn [signature].
  apply Forall2_cons; [exact (C C1)|apply Forall2_cons; [exact (C0 C2)|apply Forall2_nil]].
Qed.

Definition self (o : operand) : operand := o.
Ltac sound_op ja :=
  lazymatch ja with
  | OReg => first [exact s_register]
  | OFReg => first [exact s_fregister]
  | self => first [exact s_value | exact s_imm_or_reg_or_mem | exact s_imm_or_reg | exact s_fimm_or_reg]
  end.
Ltac s_bin ja jb := eapply (s_binary _ _ _ _ ja jb); [sound_op ja|sound_op jb|intros ? ? HH; exact HH|intros ? ? HH; exact HH|reflexivity].
Ltac s_un ja := eapply (s_unary _ _ ja); [sound_op ja|intros ? ? HH; exact HH|reflexivity].

Lemma s_by_name : Forall (fun x => sound Wops (snd x)) (by_name stod).
Proof.
  unfold by_name, bin, fbin, jcc.
  repeat (apply Forall_cons; [cbn [snd]; first
    [ exact s_mov | exact s_lea | now apply s_nullary
    | s_bin OReg self | s_bin OFReg self | s_bin OFReg OReg | s_bin OReg OFReg
    | s_un OReg | s_un OFReg | s_un self ]|]).
  apply Forall_nil.
Qed.

(** The name under which a function stands is that of the instructions it makes. *)
Definition makes (n : text) (f : parser -> pres (instr * parser)) : Prop := forall p i p', f p = POk (i, p') -> name_of i = n.
Lemma m_binary : forall A B (f : parser -> pres (A * parser)) (g : parser -> pres (B * parser)) mk n, (forall a b, name_of (mk a b) = n) -> makes n (p_binary stod f g mk).
Proof.
  intros A B f g mk n K p i p' H. unfold p_binary in H. destruct (f p) as [[a p1]|]; [|discriminate]. cbn [pbind] in H. destruct (expect stod p1 KComma) as [p2|]; [|discriminate].
  cbn [pbind] in H. destruct (g p2) as [[b p3]|]; [|discriminate]. injection H as <- _. apply K.
Qed.
Lemma m_unary : forall A (f : parser -> pres (A * parser)) mk n, (forall a, name_of (mk a) = n) -> makes n (p_unary f mk).
Proof. intros A f mk n K p i p' H. unfold p_unary in H. destruct (f p) as [[a p1]|]; [|discriminate]. injection H as <- _. apply K. Qed.
Lemma m_nullary : forall i n, name_of i = n -> makes n (p_nullary i).
Proof. intros i n K p j p' H. now injection H as <- _. Qed.
Lemma m_mov : makes (str "MOV") (p_mov stod).
Proof.
  intros p i p' H. unfold p_mov in H. destruct (p_operand stod p) as [[a p1]|]; [|discriminate]. cbn [pbind] in H. destruct (expect stod p1 KComma) as [p2|]; [|discriminate].
  cbn [pbind] in H. destruct (p_operand stod p2) as [[b p3]|]; [|discriminate]. cbn [pbind] in H. destruct (mov_ok a b); [|discriminate]. now injection H as <- _.
Qed.
Lemma m_lea : makes (str "LEA") (p_lea stod).
Proof.
  intros p i p' H. unfold p_lea in H. destruct (p_register stod p) as [[a p1]|]; [|discriminate]. cbn [pbind] in H. destruct (expect stod p1 KComma) as [p2|]; [|discriminate].
  cbn [pbind] in H. destruct (p_memory stod p2) as [[b p3]|]; [|discriminate]. cbn [pbind] in H. destruct (is_mem_reg b || is_mem_imm b); [discriminate|]. now injection H as <- _.
Qed.
Lemma m_by_name : Forall (fun x => makes (fst x) (snd x)) (by_name stod).
Proof.
  unfold by_name, bin, fbin, jcc.
  repeat (apply Forall_cons; [cbn [fst snd]; first [exact m_mov | exact m_lea | now apply m_nullary | now apply m_binary | now apply m_unary]|]).
  apply Forall_nil.
Qed.

Lemma assoc_in : forall A (P : text * A -> Prop) (l : list (text * A)) n a, Forall P l -> assoc n l = Some a -> exists k, teqb n k = true /\ P (k, a).
Proof.
  induction l as [|[k b] l IH]; intros n a F H; [discriminate|]. inversion F as [|? ? Fb Fl]; subst. cbn [assoc] in H.
  destruct (teqb n k) eqn:E; [injection H as <-; eauto|eapply IH; eassumption].
Qed.
Lemma teqb_true : forall a b, teqb a b = true -> a = b.
Proof. induction a as [|x a IH]; intros [|y b] H; try discriminate; [reflexivity|]. cbn in H. apply andb_prop in H as [H1 H2]. apply Ascii.eqb_eq in H1. subst. now rewrite (IH b). Qed.

Lemma s_instruction : forall p t s i p', stands p t s -> p_instruction stod p = POk (i, p') ->
  exists pre ts t' s', run t s (pre ++ TId (name_of i) :: ts) t' s' /\ stands p' t' s' /\
    (pre = [] \/ pre = [MINUS] \/ exists n, pre = [TNum n]) /\ (careful ts -> Wops ts i).
Proof.
  intros p t s i p' S H. unfold p_instruction in H.
  assert (G : exists p0 s0 a pre, run t s pre (TId a) s0 /\ stands p0 (TId a) s0 /\ (pre = [] \/ pre = [MINUS] \/ exists n, pre = [TNum n]) /\
     (let? p1 := next stod p0 in match assoc a (by_name stod) with Some f => f p1 | None => PFail PSyntax end) = POk (i, p')).
  { rewrite (stands_number _ _ _ S) in H. destruct (kind_eqb (kind_of t) KNum || kind_eqb (kind_of t) KMinus) eqn:E.
    - apply (next_some _ _ _ _ _ _ S) in H. destruct H as (p0 & t0 & s0 & T & S0 & H). rewrite (stands_is _ _ _ _ S0) in H.
      destruct (kind_eqb (kind_of t0) KId) eqn:K; [|discriminate]. destruct (kind_id _ (proj2 (proj2 (proj2 (proj2 S0)))) K) as [a ->].
      rewrite (stands_id _ _ _ S0) in H. exists p0, s0, a, [t]. split; [econstructor; [exact T|constructor]|]. split; [exact S0|]. split; [|exact H].
      apply orb_prop in E. destruct E as [E|E]; [destruct (kind_num _ (proj2 (proj2 (proj2 (proj2 S)))) E) as [n ->]; eauto|].
      pose proof (kind_op _ _ (proj2 (proj2 (proj2 (proj2 S)))) E I). subst t. auto.
    - cbn [pbind] in H. rewrite (stands_is _ _ _ _ S) in H. destruct (kind_eqb (kind_of t) KId) eqn:K; [|discriminate].
      destruct (kind_id _ (proj2 (proj2 (proj2 (proj2 S)))) K) as [a ->]. rewrite (stands_id _ _ _ S) in H.
      exists p, s, a, []. split; [constructor|]. auto. }
  destruct G as (p0 & s0 & a & pre & R & S0 & Pre & G). apply (next_some _ _ _ _ _ _ S0) in G. destruct G as (p1 & t1 & s1 & T & S1 & G).
  destruct (assoc a (by_name stod)) as [f|] eqn:A; [|discriminate].
  destruct (assoc_in _ _ _ _ _ m_by_name A) as (k & E & M). apply teqb_true in E. subst k. cbn [fst snd] in M. pose proof (M _ _ _ G) as N. subst a.
  pose proof (assoc_forall _ (sound Wops) _ _ _ s_by_name A) as So. destruct (So _ _ _ _ _ S1 G) as (ts & t' & s' & R' & S' & C).
  exists pre, ts, t', s'. split; [eapply run_app; [exact R|]; econstructor; eauto|]. auto.
Qed.

End Read.
