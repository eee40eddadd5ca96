(** Two facts about every function of the assembler: what it reads does not depend
    on layout, and it terminates with numbers in range. *)
From Coq Require Import Ascii String ZArith NArith List Bool Lia.
From Verif Require Import Base Text PropText Isa Lexer LexProofs Asm Show AsmSpec.
Import ListNotations.
Open Scope Z_scope.

Section Sweep.
Variable stod : text -> option Z.

(** ---- layout ---- *)

(** [a] ends between two tokens, or in layout, when [b] follows. *)
Inductive boundary : text -> text -> Prop :=
| bd_start : forall s, boundary [] s
| bd_layout : forall w a b, layout w -> boundary a b -> boundary (w ++ a) b
| bd_token : forall x a b t, token_at stod true (x ++ a ++ b) = POk (t, a ++ b) -> t <> TOp KEnd -> boundary a b -> boundary (x ++ a) b.

Definition same_in (s s' : text) : Prop :=
  s = s' \/ exists a b w, boundary a b /\ layout w /\ s = a ++ b /\ s' = a ++ w ++ b.

Lemma layout_head : forall c w, layout (c :: w) -> stopper c = true.
Proof. intros c w H. inversion H; subst; unfold stopper; [now rewrite H2|reflexivity]. Qed.

Lemma token_same : forall ign s s', same_in s s' ->
  match token_at stod ign s, token_at stod ign s' with
  | POk (t, r), POk (t', r') => t = t' /\ same_in r r'
  | PFail e, PFail e' => e = e'
  | _, _ => False
  end.
Proof.
  intros ign s s' [->|(a & b & w & B & W & -> & ->)].
  { destruct (token_at stod ign s') as [[t r]|e]; [split; [reflexivity|left; reflexivity]|reflexivity]. }
  induction B as [b|w0 a b W0 B IH|x a b t T Ht B IH].
  - cbn [app]. rewrite token_at_layout by exact W. destruct (token_at stod ign b) as [[t r]|e]; [split; [reflexivity|left; reflexivity]|reflexivity].
  - rewrite <- !app_assoc, (token_at_layout stod ign w0 (a ++ b) W0), (token_at_layout stod ign w0 (a ++ w ++ b) W0). exact IH.
  - clear IH. destruct (token_at_app _ _ _ _ T Ht) as (x' & X & _ & K). apply app_inv_tail in X. subst x'.
    assert (F : follows (a ++ b) (a ++ w ++ b)).
    { destruct a as [|c a]; [|right; reflexivity]. destruct w as [|c w]; [apply follows_refl|]. left. exact (layout_head _ _ W). }
    destruct (K _ F) as [K1 K2]. rewrite <- !app_assoc. destruct ign; [|rewrite K2; destruct (K _ (follows_refl _)) as [_ K3]; rewrite K3].
    + rewrite T, K1. split; [reflexivity|]. right. exists a, b, w. auto.
    + destruct (token_at stod false (x ++ a ++ b)); [|reflexivity]. split; [reflexivity|]. right. exists a, b, w. auto.
Qed.

(** Any relation between texts that the lexer respects is respected by the assembler. *)
Variable like : text -> text -> Prop.
Hypothesis token_R : forall ign s s', like s s' ->
  match token_at stod ign s, token_at stod ign s' with
  | POk (t, r), POk (t', r') => t = t' /\ like r r'
  | PFail e, PFail e' => e = e'
  | _, _ => False
  end.

Definition psim (p q : parser) : Prop :=
  p_cur p = p_cur q /\ l_num (p_lex p) = l_num (p_lex q) /\ l_float (p_lex p) = l_float (p_lex q) /\ l_id (p_lex p) = l_id (p_lex q) /\
  l_str (p_lex p) = l_str (p_lex q) /\ l_ignore (p_lex p) = l_ignore (p_lex q) /\ like (l_in (p_lex p)) (l_in (p_lex q)).

Definition rsim {A} (E : A -> A -> Prop) (x y : pres A) : Prop :=
  match x, y with POk a, POk b => E a b | PFail e, PFail e' => e = e' | _, _ => False end.
Definition psnd {A} (x y : A * parser) : Prop := fst x = fst y /\ psim (snd x) (snd y).

Lemma bind_sim : forall A B (E : A -> A -> Prop) (F : B -> B -> Prop) x y f g,
  rsim E x y -> (forall a b, E a b -> rsim F (f a) (g b)) -> rsim F (pbind x f) (pbind y g).
Proof. intros A B E F [a|e] [b|e'] f g H G; cbn in *; try contradiction; auto. Qed.

Lemma next_sim : forall p q, psim p q -> rsim psim (next stod p) (next stod q).
Proof.
  intros [[i n f d s g] c] [[i' n' f' d' s' g'] c'] (H1 & H2 & H3 & H4 & H5 & H6 & H7). cbn [p_cur p_lex l_in l_num l_float l_id l_str l_ignore] in *. subst.
  unfold next, advance. cbn [p_lex]. rewrite !get_next_token. cbn [l_in l_ignore]. pose proof (token_R g' _ _ H7) as T.
  destruct (token_at stod g' i) as [[t r]|e], (token_at stod g' i') as [[t' r']|e']; try contradiction; cbn [pbind rsim]; [|exact T].
  destruct T as [<- T]. unfold psim, load. cbn [p_cur p_lex l_in l_num l_float l_id l_str l_ignore]. auto 10.
Qed.

Lemma sim_is : forall p q k, psim p q -> is q k = is p k.
Proof. intros p q k H. unfold is. now rewrite (proj1 H). Qed.
Lemma sim_id : forall p q, psim p q -> id q = id p.
Proof. intros p q (_ & _ & _ & H & _). exact (eq_sym H). Qed.
Lemma sim_num : forall p q, psim p q -> num q = num p.
Proof. intros p q (_ & H & _). exact (eq_sym H). Qed.
Lemma sim_number : forall p q, psim p q -> is_number q = is_number p.
Proof. intros p q H. unfold is_number. now rewrite !(sim_is p q). Qed.
Lemma sim_float : forall p q, psim p q -> l_float (p_lex q) = l_float (p_lex p).
Proof. intros p q (_ & _ & H & _). exact (eq_sym H). Qed.
Lemma sim_str : forall p q, psim p q -> l_str (p_lex q) = l_str (p_lex p).
Proof. intros p q (_ & _ & _ & _ & H & _). exact (eq_sym H). Qed.

Lemma rsim_refl : forall A (x : pres A), rsim eq x x.
Proof. intros A [a|e]; reflexivity. Qed.

Lemma expect_sim : forall p q k, psim p q -> rsim psim (expect stod p k) (expect stod q k).
Proof. intros p q k H. unfold expect. rewrite (sim_is _ _ _ H). destruct (is p k); [now apply next_sim|reflexivity]. Qed.

Definition fsim {A} (f : parser -> pres (A * parser)) : Prop := forall p q, psim p q -> rsim psnd (f p) (f q).

Ltac sim_step :=
  match goal with
  | |- rsim _ (PFail _) (PFail _) => reflexivity
  | |- rsim psnd (POk _) (POk _) => split; [cbn [fst]; congruence|cbn [snd]; assumption]
  | |- rsim psim (POk _) (POk _) => assumption
  | H : psim ?p ?q |- context [is ?q _] => rewrite !(fun k => sim_is p q k H)
  | H : psim ?p ?q |- context [is_number ?q] => rewrite !(sim_number p q H)
  | H : psim ?p ?q |- context [id ?q] => rewrite !(sim_id p q H)
  | H : psim ?p ?q |- context [num ?q] => rewrite !(sim_num p q H)
  | H : psim ?p ?q |- context [l_float (p_lex ?q)] => rewrite !(sim_float p q H)
  | H : psim ?p ?q |- context [l_str (p_lex ?q)] => rewrite !(sim_str p q H)
  | |- rsim _ (pbind (next _ _) _) (pbind (next _ _) _) => eapply bind_sim; [apply next_sim; eassumption|intros ? ? ?]
  | |- rsim _ (pbind (expect _ _ _) _) (pbind (expect _ _ _) _) => eapply bind_sim; [apply expect_sim; eassumption|intros ? ? ?]
  | |- rsim _ (pbind (get_register ?x) _) (pbind (get_register ?x) _) => eapply bind_sim; [apply rsim_refl|intros ? ? <-]
  | |- rsim _ (pbind (get_fregister ?x) _) (pbind (get_fregister ?x) _) => eapply bind_sim; [apply rsim_refl|intros ? ? <-]
  | F : fsim ?f |- rsim _ (pbind (?f _) _) (pbind (?f _) _) =>
      eapply bind_sim; [apply F; eassumption|intros [? ?] [? ?] [? ?]; cbn [fst snd] in *; subst]
  | F : fsim ?f |- rsim _ (?f _) (?f _) => apply F; assumption
  | |- rsim _ (if ?b then _ else _) _ => destruct b eqn:?
  | |- rsim _ (match ?x with Some _ => _ | None => _ end) _ => destruct x
  end.
Ltac sim := repeat sim_step.
Ltac sim1 f := intros ?p ?q ?H; unfold f; sim.

Lemma sim_p_register : fsim (p_register stod). Proof. sim1 p_register. Qed.
Lemma sim_p_fregister : fsim (p_fregister stod). Proof. sim1 p_fregister. Qed.
Lemma sim_p_imm : fsim (p_imm stod). Proof. sim1 p_imm. Qed.
Lemma sim_p_fimm : fsim (p_fimm stod). Proof. sim1 p_fimm. Qed.
Lemma sim_p_fimm_or_reg : fsim (p_fimm_or_reg stod).
Proof. pose proof sim_p_fregister. pose proof sim_p_fimm. sim1 p_fimm_or_reg. Qed.
Lemma sim_p_imm_or_reg : fsim (p_imm_or_reg stod).
Proof. pose proof sim_p_register. pose proof sim_p_imm. sim1 p_imm_or_reg. Qed.
Lemma sim_p_imm_or_reg_off : fsim (p_imm_or_reg_off stod).
Proof. pose proof sim_p_register. pose proof sim_p_imm. sim1 p_imm_or_reg_off. Qed.
Lemma sim_p_simple_memory : fsim (p_simple_memory stod).
Proof. pose proof sim_p_register. pose proof sim_p_imm. sim1 p_simple_memory. Qed.
Lemma sim_p_imm_or_reg_or_mem : fsim (p_imm_or_reg_or_mem stod).
Proof. pose proof sim_p_imm_or_reg. pose proof sim_p_simple_memory. sim1 p_imm_or_reg_or_mem. Qed.
Lemma sim_p_value : fsim (p_value stod).
Proof. pose proof sim_p_imm_or_reg_off. pose proof sim_p_simple_memory. sim1 p_value. Qed.
Lemma sim_p_memory_inner : fsim (p_memory_inner stod).
Proof. pose proof sim_p_imm. sim1 p_memory_inner. Qed.
Lemma sim_p_memory : fsim (p_memory stod).
Proof. pose proof sim_p_memory_inner. sim1 p_memory. Qed.
Lemma sim_p_operand : fsim (p_operand stod).
Proof. pose proof sim_p_memory. pose proof sim_p_fregister. pose proof sim_p_register. pose proof sim_p_imm. pose proof sim_p_fimm. sim1 p_operand. Qed.
Lemma sim_p_mov : fsim (p_mov stod).
Proof. pose proof sim_p_operand. sim1 p_mov. Qed.
Lemma sim_p_lea : fsim (p_lea stod).
Proof. pose proof sim_p_register. pose proof sim_p_memory. sim1 p_lea. Qed.
Lemma sim_p_binary : forall A B (f : parser -> pres (A * parser)) (g : parser -> pres (B * parser)) mk, fsim f -> fsim g -> fsim (p_binary stod f g mk).
Proof. intros A B f g mk F G. intros p q H. unfold p_binary. sim. Qed.
Lemma sim_p_unary : forall A (f : parser -> pres (A * parser)) mk, fsim f -> fsim (p_unary f mk).
Proof. intros A f mk F p q H. unfold p_unary. sim. Qed.
Lemma sim_p_nullary : forall i, fsim (p_nullary i).
Proof. intros i p q H. unfold p_nullary. sim. Qed.

Lemma sim_by_name : Forall (fun x => fsim (snd x)) (by_name stod).
Proof.
  unfold by_name, bin, fbin, jcc.
  repeat (apply Forall_cons; [cbn [snd]; first
    [ apply sim_p_mov | apply sim_p_lea | apply sim_p_nullary
    | apply sim_p_binary; first [apply sim_p_register | apply sim_p_fregister | apply sim_p_value | apply sim_p_imm_or_reg_or_mem | apply sim_p_imm_or_reg | apply sim_p_fimm_or_reg]
    | apply sim_p_unary; first [apply sim_p_register | apply sim_p_fregister | apply sim_p_value | apply sim_p_imm_or_reg_or_mem | apply sim_p_imm_or_reg | apply sim_p_fimm_or_reg]]|]).
  apply Forall_nil.
Qed.
Lemma assoc_forall : forall A (P : A -> Prop) (l : list (text * A)) n a, Forall (fun x => P (snd x)) l -> assoc n l = Some a -> P a.
Proof.
  induction l as [|[k b] l IH]; intros n a F H; [discriminate|]. inversion F as [|? ? Fb Fl]; subst. cbn [assoc] in H.
  destruct (teqb n k); [injection H as <-; exact Fb|eapply IH; eassumption].
Qed.

Lemma sim_p_instruction : fsim (p_instruction stod).
Proof.
  intros p q H. unfold p_instruction.
  apply (bind_sim _ _ psim); [rewrite (sim_number _ _ H); destruct (is_number p); [now apply next_sim|exact H]|].
  intros p0 q0 H0. rewrite (sim_is _ _ _ H0), (sim_id _ _ H0). destruct (is p0 KId); [|reflexivity].
  apply (bind_sim _ _ psim); [now apply next_sim|]. intros p1 q1 H1.
  destruct (assoc (id p0) (by_name stod)) as [f|] eqn:A; [|reflexivity].
  apply (assoc_forall _ fsim _ _ _ sim_by_name A). exact H1.
Qed.

(** ---- termination and ranges ---- *)

(** What is left to read. *)
Definition left (p : parser) : nat := (length (l_in (p_lex p)) + if is p KEnd then 0 else 1)%nat.
Definition num_ok (p : parser) : Prop := -1 <= num p < 2 ^ 31.

Definition good {A} (Q : A -> Prop) (p : parser) (x : pres (A * parser)) : Prop :=
  match x with POk (a, p') => (left p' <= left p)%nat /\ num_ok p' /\ Q a | PFail e => e <> PFuel end.
Definition well {A} (Q : A -> Prop) (f : parser -> pres (A * parser)) : Prop := forall p, num_ok p -> good Q p (f p).

Lemma span_length : forall p s a b, span p s = (a, b) -> (length b <= length s)%nat.
Proof. intros p s a b H. destruct (span_app _ _ _ _ H) as [-> _]. rewrite app_length. lia. Qed.

Lemma stoi_range : forall s n, stoi s = Some n -> 0 <= n < 2 ^ 31.
Proof.
  intros s n H. unfold stoi in H. destruct (Z.ltb_spec (fst (digits 0 s)) (2 ^ 31)) as [L|L]; [|discriminate]. injection H as <-.
  destruct (digits_go s 0) as (w & r & _ & _ & _ & G). pose proof (denotes_nonneg _ _ (G [] 0 dn_nil eq_refl)). lia.
Qed.

Lemma here_left : forall s t r, here stod s = POk (t, r) -> t = TOp KEnd /\ r = s \/ (length r < length s)%nat /\ t <> TOp KEnd.
Proof.
  intros s t r H. unfold here in H. destruct s as [|c s].
  { cbn [hd] in H. rewrite lead_eof in H. injection H as <- <-. left; auto. }
  cbn [hd tl] in H. destruct (lead_of c) as [|k|k m| | | |] eqn:L; try discriminate.
  - injection H as <- <-. left; auto.
  - injection H as <- <-. right. split; [cbn; lia|]. intros [= ->]. clear -L. destruct c as [[] [] [] [] [] [] [] []]; discriminate L.
  - right. destruct (second (hd EOF s) m) as [k'|] eqn:S2; injection H as <- <-.
    + split; [destruct s; cbn; lia|]. intros [= ->]. clear -L S2. destruct c as [[] [] [] [] [] [] [] []]; try discriminate L; injection L as <- <-; cbn in S2;
        repeat match goal with H : context [if ?b then _ else _] |- _ => destruct b end; discriminate.
    + split; [cbn; lia|]. intros [= ->]. clear -L. destruct c as [[] [] [] [] [] [] [] []]; discriminate L.
  - right. destruct (lex_string s []) as [[v x]|e] eqn:LS; [|discriminate]. injection H as <- <-.
    destruct (lex_string_app _ _ _ _ LS) as (a & -> & G). split; [cbn [length]; rewrite app_length; lia|discriminate].
  - right. destruct (span _ s) as [w x] eqn:Sp. pose proof (span_length _ _ _ _ Sp).
    destruct (existsb _ w); [destruct (stod _)|destruct (stoi _)]; try discriminate; injection H as <- <-; (split; [cbn [length]; lia|discriminate]).
  - right. destruct (span _ s) as [w x] eqn:Sp. pose proof (span_length _ _ _ _ Sp). injection H as <- <-. split; [cbn [length]; lia|discriminate].
Qed.

Lemma here_num : forall s n r, here stod s = POk (TNum n, r) -> 0 <= n < 2 ^ 31.
Proof.
  intros s n r H. unfold here in H. destruct (lead_of (hd EOF s)); try discriminate.
  - destruct (second _ _); discriminate.
  - destruct (lex_string _ _) as [[]|]; discriminate.
  - destruct (span _ _) as [w x]. destruct (existsb _ w); [destruct (stod _); discriminate|]. destruct (stoi _) eqn:E; [|discriminate].
    injection H as <- <-. eapply stoi_range. eassumption.
  - destruct (span _ _) as [w x]. discriminate.
Qed.

(** A token is read by [here] somewhere in the text. *)
Lemma token_at_is_here : forall ign s t r, token_at stod ign s = POk (t, r) -> exists s', (length s' <= length s)%nat /\ here stod s' = POk (t, r).
Proof.
  intros ign s. remember (length s) as n eqn:Hn. assert (Hl : (length s <= n)%nat) by lia. clear Hn. revert s Hl.
  induction n as [|n IH]; intros s Hl t r H.
  { exists s. split; [lia|]. destruct s; [|cbn in Hl; lia]. exact H. }
  destruct (Ascii.eqb (hd EOF s) (ch 35)) eqn:E1; [|destruct (is_space (hd EOF s)) eqn:E2].
  - destruct s as [|c s]; [discriminate|]. cbn [hd] in E1. apply Ascii.eqb_eq in E1. subst c. rewrite token_at_comment in H.
    cbn [length] in Hl. pose proof (skip_line_length s). destruct (IH (skip_line s) ltac:(lia) t r H) as (s' & ? & ?). exists s'. split; [lia|assumption].
  - destruct s as [|c s]; [discriminate|]. cbn [hd] in E2. rewrite token_at_space in H by exact E2. cbn [length] in Hl.
    destruct (IH s ltac:(lia) t r H) as (s' & ? & ?). exists s'. split; [lia|assumption].
  - destruct (lead_of (hd EOF s)) eqn:L.
    7: { destruct s as [|c s]; [discriminate L|]. cbn [hd length] in *. unfold token_at in H. cbn [token_loop hd tl] in H. rewrite E1, E2, L in H.
      destruct ign; [|discriminate]. destruct (IH s ltac:(lia) t r H) as (s' & ? & ?). exists s'. split; [lia|assumption]. }
    all: rewrite token_at_here in H by (rewrite L; discriminate); exists s; split; [lia|exact H].
Qed.

Lemma next_left : forall p, num_ok p -> match next stod p with
  | POk p' => (left p' <= length (l_in (p_lex p)))%nat /\ num_ok p'
  | PFail e => e <> PFuel
  end.
Proof.
  intros p Hn. unfold next, advance. rewrite get_next_token.
  destruct (token_at stod (l_ignore (p_lex p)) (l_in (p_lex p))) as [[t r]|e] eqn:T; cbn [pbind].
  - destruct (token_at_is_here _ _ _ _ T) as (s' & L & H). split.
    + unfold left, is. cbn [p_lex p_cur load l_in]. destruct (here_left _ _ _ H) as [[-> ->]|[Q1 Q2]]; [cbn; lia|]. destruct (kind_eqb (kind_of t) KEnd); lia.
    + unfold num_ok, num in *. cbn [p_lex load l_num]. destruct t; try exact Hn. pose proof (here_num _ _ _ H). lia.
  - intros ->. exact (token_at_fuel _ _ _ T).
Qed.

Lemma next_le : forall p, num_ok p -> match next stod p with
  | POk p' => (left p' <= left p)%nat /\ num_ok p' | PFail e => e <> PFuel end.
Proof. intros p H. pose proof (next_left p H) as G. destruct (next stod p); [|exact G]. destruct G. split; [unfold left at 2; lia|assumption]. Qed.
Lemma next_lt : forall p, num_ok p -> is p KEnd = false -> match next stod p with
  | POk p' => (left p' < left p)%nat /\ num_ok p' | PFail e => e <> PFuel end.
Proof. intros p H N. pose proof (next_left p H) as G. destruct (next stod p); [|exact G]. destruct G. split; [unfold left at 2; rewrite N; lia|assumption]. Qed.
Lemma expect_le : forall p k, num_ok p -> match expect stod p k with
  | POk p' => (left p' <= left p)%nat /\ num_ok p' | PFail e => e <> PFuel end.
Proof. intros p k H. unfold expect. destruct (is p k); [now apply next_le|discriminate]. Qed.

Lemma bind_next : forall A (Q : A -> Prop) p0 p (f : parser -> pres (A * parser)), num_ok p -> (left p <= left p0)%nat ->
  (forall p', num_ok p' -> (left p' <= left p0)%nat -> next stod p = POk p' -> good Q p0 (f p')) -> good Q p0 (pbind (next stod p) f).
Proof. intros A Q p0 p f H L G. pose proof (next_le p H) as N. destruct (next stod p); [|exact N]. destruct N. cbn [pbind]. apply G; [assumption|lia|reflexivity]. Qed.
Lemma bind_expect : forall A (Q : A -> Prop) p0 p k (f : parser -> pres (A * parser)), num_ok p -> (left p <= left p0)%nat ->
  (forall p', num_ok p' -> (left p' <= left p0)%nat -> good Q p0 (f p')) -> good Q p0 (pbind (expect stod p k) f).
Proof. intros A Q p0 p k f H L G. pose proof (expect_le p k H) as N. destruct (expect stod p k); [|exact N]. destruct N. cbn [pbind]. apply G; [assumption|lia]. Qed.
Lemma bind_well : forall A B (Q : A -> Prop) (Q' : B -> Prop) p0 p (g : parser -> pres (A * parser)) (f : A * parser -> pres (B * parser)),
  well Q g -> num_ok p -> (left p <= left p0)%nat ->
  (forall a p', Q a -> num_ok p' -> (left p' <= left p0)%nat -> good Q' p0 (f (a, p'))) -> good Q' p0 (pbind (g p) f).
Proof.
  intros A B Q Q' p0 p g f W H L G. pose proof (W p H) as N. destruct (g p) as [[a p']|e]; [|exact N]. destruct N as (N1 & N2 & N3). cbn [pbind].
  apply G; [assumption|assumption|lia].
Qed.
Lemma good_ok : forall A (Q : A -> Prop) p0 p a, num_ok p -> (left p <= left p0)%nat -> Q a -> good Q p0 (POk (a, p)).
Proof. intros. repeat split; assumption || apply H. Qed.
Lemma good_le : forall A (Q : A -> Prop) p0 p (x : pres (A * parser)), (left p <= left p0)%nat -> good Q p x -> good Q p0 x.
Proof. intros A Q p0 p [[a p']|e] L H; [|exact H]. destruct H as (H1 & H2 & H3). repeat split; [lia|apply H2|apply H2|exact H3]. Qed.

Lemma good_imp : forall A (Q Q' : A -> Prop) p0 p (x : pres (A * parser)), (forall a, Q a -> Q' a) -> (left p <= left p0)%nat -> good Q p x -> good Q' p0 x.
Proof. intros A Q Q' p0 p [[a p']|e] G L H; [|exact H]. destruct H as (H1 & H2 & H3). repeat split; [lia|apply H2|apply H2|now apply G]. Qed.

(** The shape of what the assembler produces. *)
Definition reg_ok (r : reg) : Prop := match r with R n => (n < 2 ^ 31)%N | Flags => False | _ => True end.
Definition freg_ok (f : N) : Prop := (f < 2 ^ 31)%N.
Definition int_ok (v : Z) : Prop := - 2 ^ 31 < v < 2 ^ 31.
Definition addr_ok (a : Z) : Prop := 0 <= a < 2 ^ 31 \/ 2 ^ 64 - 2 ^ 31 < a < 2 ^ 64.
Definition op_ok (o : operand) : Prop :=
  match o with
  | OImm v => int_ok v
  | OFImm _ => True
  | OReg r => reg_ok r
  | OFReg f => freg_ok f
  | ORegOff r v | OMemRegOff r v | OMemRegScaled r v => reg_ok r /\ int_ok v
  | OMemImm a => addr_ok a
  | OMemReg r => reg_ok r
  | OMemRegReg a b => reg_ok a /\ reg_ok b
  | OMemRegOffReg a v b | OMemRegRegScaled a b v => reg_ok a /\ int_ok v /\ reg_ok b
  | OMemRegOffRegScaled a v b x => reg_ok a /\ int_ok v /\ reg_ok b /\ int_ok x
  | _ => False
  end.

Lemma atoi_range : forall s n, atoi s = POk n -> 0 <= n < 2 ^ 31.
Proof.
  intros s n H. unfold atoi in H. destruct (Z.ltb_spec (fst (digits 0 s)) (2 ^ 31)) as [L|L]; [|discriminate]. injection H as <-.
  destruct (digits_go s 0) as (w & r & _ & _ & _ & G). pose proof (denotes_nonneg _ _ (G [] 0 dn_nil eq_refl)). lia.
Qed.
Lemma get_register_ok : forall s, match get_register s with POk r => reg_ok r | PFail e => e <> PFuel end.
Proof.
  intros s. unfold get_register. destruct (teqb s (str "BP")); [exact I|]. destruct (teqb s (str "SP")); [exact I|]. destruct (teqb s (str "IP")); [exact I|].
  destruct s as [|c s]; [discriminate|]. destruct (Ascii.eqb c (ch 82)); [|discriminate]. destruct (atoi s) as [n|e] eqn:E; cbn [pbind].
  - pose proof (atoi_range _ _ E). cbn [reg_ok]. change (2 ^ 31)%N with 2147483648%N. change (2 ^ 31) with 2147483648 in *. lia.
  - unfold atoi in E. destruct (_ <? _); [discriminate|]. injection E as <-. discriminate.
Qed.
Lemma get_fregister_ok : forall s, match get_fregister s with POk f => freg_ok f | PFail e => e <> PFuel end.
Proof.
  intros s. unfold get_fregister. destruct s as [|c s]; [discriminate|]. destruct (Ascii.eqb c (ch 70)); [|discriminate]. destruct (atoi s) as [n|e] eqn:E; cbn [pbind].
  - pose proof (atoi_range _ _ E). unfold freg_ok. change (2 ^ 31)%N with 2147483648%N. change (2 ^ 31) with 2147483648 in *. lia.
  - unfold atoi in E. destruct (_ <? _); [discriminate|]. injection E as <-. discriminate.
Qed.
Lemma bind_register : forall A (Q : A -> Prop) p0 s (f : reg -> pres (A * parser)),
  (forall r, reg_ok r -> good Q p0 (f r)) -> good Q p0 (pbind (get_register s) f).
Proof. intros A Q p0 s f G. pose proof (get_register_ok s) as N. destruct (get_register s); [now apply G|exact N]. Qed.
Lemma bind_fregister : forall A (Q : A -> Prop) p0 s (f : N -> pres (A * parser)),
  (forall r, freg_ok r -> good Q p0 (f r)) -> good Q p0 (pbind (get_fregister s) f).
Proof. intros A Q p0 s f G. pose proof (get_fregister_ok s) as N. destruct (get_fregister s); [now apply G|exact N]. Qed.

Lemma num_int : forall p, num_ok p -> int_ok (num p) /\ int_ok (- num p) /\ addr_ok (u64 (num p)).
Proof.
  intros p [H1 H2]. unfold int_ok, addr_ok, u64, two64. repeat split; try lia.
  destruct (Z.ltb_spec (num p) 0); [right|left].
  - replace (num p mod 18446744073709551616) with (num p + 18446744073709551616); [lia|]. apply Z.mod_unique_pos with (q := -1); lia.
  - rewrite Z.mod_small; lia.
Qed.
Lemma int_opp : forall v, int_ok v -> int_ok (- v).
Proof. unfold int_ok. lia. Qed.
Lemma int_addr : forall v, int_ok v -> addr_ok (u64 v).
Proof.
  intros v H. unfold int_ok, addr_ok, u64, two64 in *. destruct (Z.ltb_spec v 0); [right|left].
  - replace (v mod 18446744073709551616) with (v + 18446744073709551616); [lia|]. apply Z.mod_unique_pos with (q := -1); lia.
  - rewrite Z.mod_small; lia.
Qed.

Definition both (f : operand -> bool) (o : operand) : Prop := op_ok o /\ f o = true.
Definition opt_mem (o : option operand) : Prop := match o with Some o => op_ok o /\ any_mem o = true | None => True end.
Definition with_off (o : operand) : bool := match o with ORegOff _ _ => true | _ => int_src o end.
Definition any_op (o : operand) : bool := float_src o || int_src o || any_mem o.

Ltac ok_side := unfold both; cbn [op_ok opt_mem]; repeat match goal with |- _ /\ _ => split end;
  first [assumption | apply num_int; assumption | apply int_opp; assumption | apply int_addr; assumption | exact I | reflexivity | idtac].
Ltac well_step :=
  match goal with
  | |- good _ _ (PFail _) => discriminate
  | |- good _ _ (POk _) => apply good_ok; [assumption|assumption|ok_side]
  | |- good _ _ (pbind (next _ _) _) => apply bind_next; [assumption|assumption|intros ?p' ? ? ?]
  | |- good _ _ (pbind (expect _ _ _) _) => apply bind_expect; [assumption|assumption|intros ?p' ? ?]
  | |- good _ _ (pbind (get_register _) _) => apply bind_register; intros ? ?
  | |- good _ _ (pbind (get_fregister _) _) => apply bind_fregister; intros ? ?
  | W : well _ ?f |- good _ _ (pbind (?f _) _) => eapply bind_well; [exact W|assumption|assumption|intros ? ?p' ? ? ?]
  | W : well _ ?f |- good _ _ (?f _) => eapply good_imp; [|eassumption|apply W; assumption];
      let E := fresh in intros ? [? E]; split; [assumption|]; rewrite ?E, ?orb_true_r; reflexivity
  | |- good _ _ (if ?b then _ else _) => destruct b eqn:?
  | |- int_ok (- _) => apply int_opp; assumption
  | |- int_ok _ => assumption
  | |- context [if ?b then _ else _] => destruct b eqn:?
  end.
Ltac well1 f := intros ?p ?H; pose proof (le_n (left p)); unfold f; repeat well_step.

Lemma well_register : well reg_ok (p_register stod). Proof. well1 p_register. Qed.
Lemma well_fregister : well freg_ok (p_fregister stod). Proof. well1 p_fregister. Qed.
Lemma well_imm : well int_ok (p_imm stod). Proof. well1 p_imm. Qed.
Lemma well_fimm : well (both float_src) (p_fimm stod). Proof. well1 p_fimm. Qed.
Lemma well_fimm_or_reg : well (both float_src) (p_fimm_or_reg stod).
Proof. pose proof well_fregister. pose proof well_fimm. well1 p_fimm_or_reg. Qed.
Lemma well_imm_or_reg : well (both int_src) (p_imm_or_reg stod).
Proof. pose proof well_register. pose proof well_imm. well1 p_imm_or_reg. Qed.
Lemma well_imm_or_reg_off : well (both with_off) (p_imm_or_reg_off stod).
Proof. pose proof well_register. pose proof well_imm. well1 p_imm_or_reg_off. Qed.
Lemma well_simple_memory : well (both simple_mem) (p_simple_memory stod).
Proof. pose proof well_register. pose proof well_imm. well1 p_simple_memory. Qed.
Lemma well_imm_or_reg_or_mem : well (both (fun o => int_src o || simple_mem o)) (p_imm_or_reg_or_mem stod).
Proof. pose proof well_imm_or_reg. pose proof well_simple_memory. well1 p_imm_or_reg_or_mem. Qed.
Lemma well_value : well (both (fun o => with_off o || simple_mem o)) (p_value stod).
Proof. pose proof well_imm_or_reg_off. pose proof well_simple_memory. well1 p_value. Qed.
Lemma well_memory_inner : well opt_mem (p_memory_inner stod).
Proof. pose proof well_imm. well1 p_memory_inner. Qed.
Lemma well_memory : well (both any_mem) (p_memory stod).
Proof. pose proof well_memory_inner. well1 p_memory. destruct a; [|discriminate]. now apply good_ok. Qed.
Lemma well_operand : well (both any_op) (p_operand stod).
Proof. unfold any_op. pose proof well_memory. pose proof well_fregister. pose proof well_register. pose proof well_imm. pose proof well_fimm. well1 p_operand. Qed.

Definition instr_ok (i : instr) : Prop := accepted i = true /\ Forall op_ok (signature i).

Lemma well_mov : well instr_ok (p_mov stod).
Proof.
  pose proof well_operand. well1 p_mov. repeat match goal with H : both _ _ |- _ => destruct H end. split; [|repeat constructor; assumption].
  destruct a, a0; first [reflexivity|discriminate].
Qed.
Lemma well_lea : well instr_ok (p_lea stod).
Proof.
  pose proof well_register. pose proof well_memory. well1 p_lea. repeat match goal with H : both _ _ |- _ => destruct H end. split; [|repeat constructor; assumption].
  destruct a0; first [reflexivity|discriminate].
Qed.
Lemma well_binary : forall A B (Q : A -> Prop) (Q' : B -> Prop) (f : parser -> pres (A * parser)) (g : parser -> pres (B * parser)) mk,
  well Q f -> well Q' g -> (forall a b, Q a -> Q' b -> instr_ok (mk a b)) -> well instr_ok (p_binary stod f g mk).
Proof. intros A B Q Q' f g mk F G K. well1 @p_binary. now apply K. Qed.
Lemma well_unary : forall A (Q : A -> Prop) (f : parser -> pres (A * parser)) mk,
  well Q f -> (forall a, Q a -> instr_ok (mk a)) -> well instr_ok (p_unary f mk).
Proof. intros A Q f mk F K. well1 @p_unary. now apply K. Qed.
Lemma well_nullary : forall i, instr_ok i -> well instr_ok (p_nullary i).
Proof. intros i K. well1 p_nullary. Qed.

Lemma reg_eqb_refl : forall r, reg_eqb r r = true.
Proof. destruct r; try reflexivity. apply N.eqb_refl. Qed.

Ltac op_parser :=
  first [ apply well_register | apply well_fregister | apply well_value | apply well_imm_or_reg_or_mem | apply well_imm_or_reg | apply well_fimm_or_reg ].
Ltac instr_shape :=
  let a := fresh in let b := fresh in
  intros; repeat match goal with H : both _ _ |- _ => destruct H end;
  split; [|repeat constructor; cbn [op_ok]; assumption];
  unfold accepted; apply orb_true_intro; left; cbn [documented]; rewrite ?reg_eqb_refl; cbn [negb andb];
  try reflexivity; rewrite ?andb_true_r; try assumption;
  match goal with |- context [int_src ?v] => destruct v; first [reflexivity|assumption] end.

Lemma well_by_name : Forall (fun x => well instr_ok (snd x)) (by_name stod).
Proof.
  unfold by_name, bin, fbin, jcc.
  repeat (apply Forall_cons; [cbn [snd]; first
    [ apply well_mov | apply well_lea
    | apply well_nullary; split; [reflexivity|constructor]
    | eapply well_binary; [op_parser|op_parser|instr_shape]
    | eapply well_unary; [op_parser|instr_shape] ]|]).
  apply Forall_nil.
Qed.

(** An instruction takes at least one token. *)
Lemma good_instruction : forall p, num_ok p -> is p KEnd = false ->
  match p_instruction stod p with POk (i, p') => (left p' < left p)%nat /\ num_ok p' /\ instr_ok i | PFail e => e <> PFuel end.
Proof.
  intros p H N. unfold p_instruction.
  assert (G : match (if is_number p then next stod p else POk p) with POk p0 => (left p0 <= left p)%nat /\ num_ok p0 | PFail e => e <> PFuel end).
  { destruct (is_number p); [now apply next_le|]. auto. }
  destruct (if is_number p then next stod p else POk p) as [p0|e]; [|exact G]. cbn [pbind]. destruct G as [G1 G2].
  destruct (is p0 KId) eqn:E; [|discriminate].
  assert (N0 : is p0 KEnd = false) by (unfold is in *; destruct (p_cur p0); discriminate || reflexivity).
  pose proof (next_lt p0 G2 N0) as L. destruct (next stod p0) as [p1|e]; [|exact L]. destruct L as [L1 L2]. cbn [pbind].
  destruct (assoc (id p0) (by_name stod)) as [f|] eqn:A; [|discriminate].
  pose proof (assoc_forall _ (well instr_ok) _ _ _ well_by_name A p1 L2) as W. unfold good in W.
  destruct (f p1) as [[i p']|e]; [|exact W]. destruct W as (W1 & W2 & W3). repeat split; [lia|apply W2|apply W2|apply W3|apply W3].
Qed.

(** ---- the loops ---- *)

Lemma good_text : forall n p, num_ok p -> (left p < n)%nat -> good (Forall instr_ok) p (p_text stod n p).
Proof.
  induction n as [|n IH]; intros p H L; [lia|]. cbn [p_text].
  destruct (is_number p || is p KId) eqn:E; [|apply good_ok; auto].
  assert (N : is p KEnd = false) by (unfold is_number, is in *; destruct (p_cur p); discriminate || reflexivity).
  pose proof (good_instruction p H N) as G. destruct (p_instruction stod p) as [[i p1]|e]; [|exact G]. cbn [pbind]. destruct G as (G1 & G2 & G3).
  pose proof (IH p1 G2 ltac:(lia)) as K. unfold good in K. destruct (p_text stod n p1) as [[l p2]|e]; [|exact K]. cbn [pbind]. destruct K as (K1 & K2 & K3).
  apply good_ok; [exact K2|lia|]. constructor; assumption.
Qed.

Lemma good_data : forall n p, num_ok p -> (left p < n)%nat -> good (fun _ => True) p (p_data stod n p).
Proof.
  induction n as [|n IH]; intros p H L; [lia|]. cbn [p_data].
  destruct (is p KString) eqn:E.
  - assert (N : is p KEnd = false) by (unfold is in *; destruct (p_cur p); discriminate || reflexivity).
    pose proof (next_lt p H N) as G. destruct (next stod p) as [p1|e]; [|exact G]. cbn [pbind]. destruct G as (G1 & G2).
    pose proof (IH p1 G2 ltac:(lia)) as K. unfold good in K. destruct (p_data stod n p1) as [[l p2]|e]; [|exact K]. cbn [pbind]. destruct K as (K1 & K2 & K3).
    apply good_ok; [exact K2|lia|exact I].
  - destruct (is_number p) eqn:F; [|apply good_ok; auto].
    assert (N : is p KEnd = false) by (unfold is_number, is in *; destruct (p_cur p); discriminate || reflexivity).
    assert (G : match p_imm stod p with POk (_, p') => (left p' < left p)%nat /\ num_ok p' | PFail e => e <> PFuel end).
    { unfold p_imm. rewrite F. destruct (is p KMinus).
      - pose proof (next_lt p H N) as G. destruct (next stod p) as [p1|e]; [|exact G]. cbn [pbind]. destruct G as (G1 & G2).
        pose proof (next_le p1 G2) as G'. destruct (next stod p1) as [p2|e]; [|exact G']. cbn [pbind]. destruct G' as (G3 & G4). split; [lia|assumption].
      - pose proof (next_lt p H N) as G. destruct (next stod p) as [p1|e]; [|exact G]. exact G. }
    destruct (p_imm stod p) as [[v p1]|e]; [|exact G]. cbn [pbind]. destruct G as (G1 & G2).
    pose proof (IH p1 G2 ltac:(lia)) as K. unfold good in K. destruct (p_data stod n p1) as [[l p2]|e]; [|exact K]. cbn [pbind]. destruct K as (K1 & K2 & K3).
    apply good_ok; [exact K2|lia|exact I].
Qed.

Lemma good_skip : forall n p, num_ok p -> (left p < n)%nat ->
  match p_skip stod n p with POk p' => (left p' <= left p)%nat /\ num_ok p' | PFail e => e <> PFuel end.
Proof.
  induction n as [|n IH]; intros p H L; [lia|]. cbn [p_skip].
  destruct (is p KDot || is p KEnd) eqn:E; [auto|]. apply orb_false_elim in E. destruct E as [_ N].
  pose proof (next_lt p H N) as G. destruct (next stod p) as [p1|e]; [|exact G]. cbn [pbind]. destruct G as (G1 & G2).
  pose proof (IH p1 G2 ltac:(lia)) as K. destruct (p_skip stod n p1) as [p2|e]; [|exact K]. destruct K. split; [lia|assumption].
Qed.

Lemma fuel_enough : forall p, (left p < fuel_of p)%nat.
Proof. intros p. unfold left, fuel_of. destruct (is p KEnd); lia. Qed.

Lemma good_section : forall p, num_ok p -> good (fun x => Forall instr_ok (fst x)) p (p_section stod p).
Proof.
  intros p H. unfold p_section. destruct (is p KId) eqn:E; [|discriminate].
  pose proof (next_le p H) as G. destruct (next stod p) as [p1|e]; [|exact G]. cbn [pbind]. destruct G as (G1 & G2).
  destruct (teqb (id p) (str "text")); [|destruct (teqb (id p) (str "data"))].
  - pose proof (good_text _ p1 G2 (fuel_enough p1)) as K. unfold good in K. destruct (p_text stod (fuel_of p1) p1) as [[l p2]|e]; [|exact K].
    destruct K as (K1 & K2 & K3). apply good_ok; [exact K2|lia|exact K3].
  - pose proof (good_data _ p1 G2 (fuel_enough p1)) as K. unfold good in K. destruct (p_data stod (fuel_of p1) p1) as [[l p2]|e]; [|exact K].
    destruct K as (K1 & K2 & K3). apply good_ok; [exact K2|lia|constructor].
  - pose proof (good_skip (fuel_of p1) (with_ignore true p1) G2 (fuel_enough p1)) as K.
    destruct (p_skip stod (fuel_of p1) (with_ignore true p1)) as [p2|e]; [|exact K].
    destruct K as (K1 & K2). change (left (with_ignore true p1)) with (left p1) in K1.
    apply good_ok; [exact K2|change (left (with_ignore false p2)) with (left p2); lia|constructor].
Qed.

Lemma good_sections : forall n p, num_ok p -> (left p < n)%nat ->
  match p_sections stod n p with POk (l, _) => Forall instr_ok l | PFail e => e <> PFuel end.
Proof.
  induction n as [|n IH]; intros p H L; [lia|]. cbn [p_sections].
  destruct (is p KDot) eqn:E.
  - assert (N : is p KEnd = false) by (unfold is in *; destruct (p_cur p); discriminate || reflexivity).
    pose proof (next_lt p H N) as G. destruct (next stod p) as [p1|e]; [|exact G]. cbn [pbind]. destruct G as (G1 & G2).
    destruct (is p1 KId && teqb (id p1) (str "debug_source")); [constructor|].
    pose proof (good_section p1 G2) as K. unfold good in K. destruct (p_section stod p1) as [[[l d] p2]|e]; [|exact K]. cbn [pbind]. destruct K as (K1 & K2 & K3).
    pose proof (IH p2 K2 ltac:(lia)) as J. destruct (p_sections stod n p2) as [[l' d']|e]; [|exact J]. cbn [pbind]. apply Forall_app. auto.
  - unfold check_end. destruct (is p KEnd); [constructor|discriminate].
Qed.

Lemma open_num : forall s, match open stod s with POk p => num_ok p | PFail e => e <> PFuel end.
Proof.
  intros s. change (open stod s) with (next stod (mkParser (new_lexer s) KEnd)).
  assert (H : num_ok (mkParser (new_lexer s) KEnd)) by (unfold num_ok, num; cbn; lia).
  pose proof (next_le _ H) as G. destruct (next stod _); [apply G|exact G].
Qed.

(** Assembling ends, and what it produces has a documented form. *)
Lemma assemble_good : forall s, match assemble stod s with POk (l, _) => Forall instr_ok l | PFail e => e <> PFuel end.
Proof.
  intros s. unfold assemble. pose proof (open_num s) as G. destruct (open stod s) as [p|e]; [|exact G]. cbn [pbind]. unfold p_program.
  destruct (is p KDot); [|discriminate]. apply good_sections; [exact G|apply fuel_enough].
Qed.
Lemma assemble_instr_good : forall s, match assemble_instr stod s with POk i => instr_ok i | PFail e => e <> PFuel end.
Proof.
  intros s. unfold assemble_instr. pose proof (open_num s) as G. destruct (open stod s) as [p|e]; [|exact G]. cbn [pbind].
  destruct (is p KEnd) eqn:N.
  - unfold p_instruction, is_number, is in *. destruct (p_cur p) eqn:E; try discriminate N. cbn [kind_eqb orb pbind]. rewrite ?E. cbn [kind_eqb pbind]. discriminate.
  - pose proof (good_instruction p G N) as K. destruct (p_instruction stod p) as [[i p']|e]; [|exact K]. apply K.
Qed.

(** The loops do not depend on layout either; the amount of fuel may differ. *)
Lemma sim_text : forall n m p q, psim p q -> num_ok p -> num_ok q -> (left p < n)%nat -> (left q < m)%nat ->
  rsim psnd (p_text stod n p) (p_text stod m q).
Proof.
  induction n as [|n IH]; intros m p q S H H' L L'; [lia|]. destruct m as [|m]; [lia|]. cbn [p_text].
  rewrite (sim_number _ _ S), (sim_is _ _ _ S). destruct (is_number p || is p KId) eqn:E; [|split; [reflexivity|exact S]].
  assert (N : is p KEnd = false) by (unfold is_number, is in *; destruct (p_cur p); discriminate || reflexivity).
  assert (N' : is q KEnd = false) by now rewrite (sim_is _ _ _ S).
  pose proof (good_instruction p H N) as G. pose proof (good_instruction q H' N') as G'. pose proof (sim_p_instruction p q S) as K.
  destruct (p_instruction stod p) as [[i p1]|e], (p_instruction stod q) as [[i' p1']|e']; try contradiction; [|exact K]. cbn [pbind].
  destruct K as [K1 K2], G as (G1 & G2 & _), G' as (G1' & G2' & _). cbn [fst snd] in *. subst i'.
  apply (bind_sim _ _ psnd); [apply IH; auto; lia|]. intros [l p2] [l' p2'] [J1 J2]. cbn [fst snd] in *. subst l'. split; [reflexivity|exact J2].
Qed.
Lemma sim_data : forall n m p q, psim p q -> num_ok p -> num_ok q -> (left p < n)%nat -> (left q < m)%nat ->
  rsim psnd (p_data stod n p) (p_data stod m q).
Proof.
  induction n as [|n IH]; intros m p q S H H' L L'; [lia|]. destruct m as [|m]; [lia|]. cbn [p_data].
  rewrite (sim_is _ _ _ S), (sim_number _ _ S), (sim_str _ _ S). destruct (is p KString) eqn:E.
  - assert (N : is p KEnd = false) by (unfold is in *; destruct (p_cur p); discriminate || reflexivity).
    assert (N' : is q KEnd = false) by now rewrite (sim_is _ _ _ S).
    pose proof (next_lt p H N) as G. pose proof (next_lt q H' N') as G'. pose proof (next_sim _ _ S) as K.
    destruct (next stod p) as [p1|e], (next stod q) as [q1|e']; try contradiction; [|exact K]. cbn [pbind]. destruct G, G'.
    apply (bind_sim _ _ psnd); [apply IH; auto; lia|]. intros [l p2] [l' p2'] [J1 J2]. cbn [fst snd] in *. subst l'. split; [reflexivity|exact J2].
  - destruct (is_number p) eqn:F; [|split; [reflexivity|exact S]].
    assert (N : is p KEnd = false) by (unfold is_number, is in *; destruct (p_cur p); discriminate || reflexivity).
    assert (N' : is q KEnd = false) by now rewrite (sim_is _ _ _ S).
    assert (Im : forall p, num_ok p -> is_number p = true -> is p KEnd = false ->
       match p_imm stod p with POk (_, p') => (left p' < left p)%nat /\ num_ok p' | PFail e => e <> PFuel end).
    { clear. intros p H F N. unfold p_imm. rewrite F. destruct (is p KMinus).
      - pose proof (next_lt p H N) as G. destruct (next stod p) as [p1|e]; [|exact G]. cbn [pbind]. destruct G as (G1 & G2).
        pose proof (next_le p1 G2) as G'. destruct (next stod p1) as [p2|e]; [|exact G']. cbn [pbind]. destruct G' as (G3 & G4). split; [lia|assumption].
      - pose proof (next_lt p H N) as G. destruct (next stod p) as [p1|e]; [|exact G]. exact G. }
    pose proof (Im p H F N) as G. assert (F' : is_number q = true) by (rewrite (sim_number _ _ S); exact F). pose proof (Im q H' F' N') as G'.
    pose proof (sim_p_imm p q S) as K. destruct (p_imm stod p) as [[i p1]|e], (p_imm stod q) as [[i' p1']|e']; try contradiction; [|exact K]. cbn [pbind].
    destruct K as [K1 K2], G as (G1 & G2), G' as (G1' & G2'). cbn [fst snd] in *. subst i'.
    apply (bind_sim _ _ psnd); [apply IH; auto; lia|]. intros [l p2] [l' p2'] [J1 J2]. cbn [fst snd] in *. subst l'. split; [reflexivity|exact J2].
Qed.
Lemma sim_skip : forall n m p q, psim p q -> num_ok p -> num_ok q -> (left p < n)%nat -> (left q < m)%nat ->
  rsim psim (p_skip stod n p) (p_skip stod m q).
Proof.
  induction n as [|n IH]; intros m p q S H H' L L'; [lia|]. destruct m as [|m]; [lia|]. cbn [p_skip].
  rewrite !(sim_is _ _ _ S). destruct (is p KDot || is p KEnd) eqn:E; [exact S|]. apply orb_false_elim in E. destruct E as [_ N].
  assert (N' : is q KEnd = false) by now rewrite (sim_is _ _ _ S).
  pose proof (next_lt p H N) as G. pose proof (next_lt q H' N') as G'. pose proof (next_sim _ _ S) as K.
  destruct (next stod p) as [p1|e], (next stod q) as [q1|e']; try contradiction; [|exact K]. cbn [pbind]. destruct G, G'. apply IH; auto; lia.
Qed.
Lemma sim_ignore : forall b p q, psim p q -> psim (with_ignore b p) (with_ignore b q).
Proof. intros b p q (H1 & H2 & H3 & H4 & H5 & H6 & H7). unfold psim, with_ignore, set_ignore. cbn [p_cur p_lex l_in l_num l_float l_id l_str l_ignore]. auto 10. Qed.

Lemma sim_section : forall p q, psim p q -> num_ok p -> num_ok q -> rsim psnd (p_section stod p) (p_section stod q).
Proof.
  intros p q S H H'. unfold p_section. rewrite (sim_is _ _ _ S), (sim_id _ _ S). destruct (is p KId); [|reflexivity].
  pose proof (next_le p H) as G. pose proof (next_le q H') as G'. pose proof (next_sim _ _ S) as K.
  destruct (next stod p) as [p1|e], (next stod q) as [q1|e']; try contradiction; [|exact K]. cbn [pbind]. destruct G, G'. cbn [rsim] in K.
  destruct (teqb (id p) (str "text")); [|destruct (teqb (id p) (str "data"))].
  - apply (bind_sim _ _ psnd); [apply sim_text; auto using fuel_enough|]. intros [l p2] [l' p2'] [J1 J2]. cbn [fst snd] in *. subst l'. split; [reflexivity|exact J2].
  - apply (bind_sim _ _ psnd); [apply sim_data; auto using fuel_enough|]. intros [l p2] [l' p2'] [J1 J2]. cbn [fst snd] in *. subst l'. split; [reflexivity|exact J2].
  - apply (bind_sim _ _ psim); [apply sim_skip; auto using (sim_ignore true); [exact (fuel_enough p1)|exact (fuel_enough q1)]|].
    intros p2 p2' J. split; [reflexivity|]. now apply sim_ignore.
Qed.

Lemma sim_sections : forall n m p q, psim p q -> num_ok p -> num_ok q -> (left p < n)%nat -> (left q < m)%nat ->
  rsim eq (p_sections stod n p) (p_sections stod m q).
Proof.
  induction n as [|n IH]; intros m p q S H H' L L'; [lia|]. destruct m as [|m]; [lia|]. cbn [p_sections].
  rewrite !(sim_is _ _ _ S). destruct (is p KDot) eqn:E.
  - assert (N : is p KEnd = false) by (unfold is in *; destruct (p_cur p); discriminate || reflexivity).
    assert (N' : is q KEnd = false) by now rewrite (sim_is _ _ _ S).
    pose proof (next_lt p H N) as G. pose proof (next_lt q H' N') as G'. pose proof (next_sim _ _ S) as K.
    destruct (next stod p) as [p1|e], (next stod q) as [q1|e']; try contradiction; [|exact K]. cbn [pbind]. destruct G, G'. cbn [rsim] in K.
    rewrite !(sim_is _ _ _ K), (sim_id _ _ K). destruct (is p1 KId && teqb (id p1) (str "debug_source")); [reflexivity|].
    pose proof (good_section p1 H1) as X. pose proof (good_section q1 H3) as X'. pose proof (sim_section p1 q1 K H1 H3) as Y. unfold good in X, X'.
    destruct (p_section stod p1) as [[[l d] p2]|e], (p_section stod q1) as [[[l' d'] q2]|e']; try contradiction; [|exact Y]. cbn [pbind].
    destruct Y as [Y1 Y2]. cbn [fst snd] in *. injection Y1 as <- <-. destruct X as (X1 & X2 & _), X' as (X1' & X2' & _).
    apply (bind_sim _ _ eq); [apply IH; auto; lia|]. intros [a b] c <-. reflexivity.
  - unfold check_end. rewrite !(sim_is _ _ _ S). destruct (is p KEnd); reflexivity.
Qed.

Lemma open_sim : forall s s', like s s' -> rsim psim (open stod s) (open stod s').
Proof.
  intros s s' H. change (open stod s) with (next stod (mkParser (new_lexer s) KEnd)). change (open stod s') with (next stod (mkParser (new_lexer s') KEnd)).
  apply next_sim. unfold psim, new_lexer. cbn [p_cur p_lex l_in l_num l_float l_id l_str l_ignore]. auto 10.
Qed.

Lemma rsim_eq : forall A (x y : pres A), rsim eq x y -> x = y.
Proof. intros A [a|e] [b|e'] H; cbn in H; congruence || contradiction. Qed.

Lemma assemble_sim : forall s s', like s s' -> assemble stod s = assemble stod s'.
Proof.
  intros s s' H. apply rsim_eq. unfold assemble. pose proof (open_sim _ _ H) as K. pose proof (open_num s) as N. pose proof (open_num s') as N'.
  destruct (open stod s) as [p|e], (open stod s') as [q|e']; try contradiction; [|exact K]. cbn [pbind rsim] in *. unfold p_program.
  rewrite (sim_is _ _ _ K). destruct (is p KDot); [|reflexivity]. apply sim_sections; auto using fuel_enough.
Qed.
Lemma assemble_instr_sim : forall s s', like s s' -> assemble_instr stod s = assemble_instr stod s' /\ check_instr stod s = check_instr stod s'.
Proof.
  intros s s' H. split; apply rsim_eq; unfold assemble_instr, check_instr; (eapply bind_sim; [apply (open_sim _ _ H)|]); intros p q S;
    (eapply bind_sim; [apply (sim_p_instruction p q S)|]); intros [i p'] [i' q'] [J1 J2]; cbn [fst snd] in *; subst i'; [reflexivity|].
  unfold check_end. rewrite (sim_is _ _ _ J2). destruct (is p' KEnd); reflexivity.
Qed.

End Sweep.

Lemma assemble_same : forall stod s s', same_in stod s s' -> assemble stod s = assemble stod s'.
Proof. intros stod s s' H. eapply assemble_sim; [apply token_same|exact H]. Qed.
Lemma assemble_instr_same : forall stod s s', same_in stod s s' ->
  assemble_instr stod s = assemble_instr stod s' /\ check_instr stod s = check_instr stod s'.
Proof. intros stod s s' H. eapply assemble_instr_sim; [apply token_same|exact H]. Qed.
