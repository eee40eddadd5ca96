(** C36, C67: programs that locate a variable (docs/source-info.md, "ATTR_location"). *)
From Coq Require Import Ascii String ZArith NArith List Bool Lia.
From Verif Require Import Base Text PropText PropNet StdMap Isa AluSpec State IsaSpec Lexer Asm Show AsmSpec PropAsm Exec Ram Writes Rat Cpu Os DbgText Spaces
  PipeInv PipeBasics PipeRun PipePoke Session IsaRefine DbgSpec PropPipe PropDbg Client Proto PropProto Native Src SrcFacts Info.
Import ListNotations.
Open Scope Z_scope.

(** ---- the machine of the documentation ---- *)

Section Doc.
(** The values of the registers and the cells of the memory. *)
Variable reg : text -> option Z.
Variable mem : Z -> option Z.
(** "The register is considered a register until some other operation happens." *)
Inductive means : loc -> Z -> Prop :=
| means_int : forall v, means (LMem v) v
| means_reg : forall n v, reg n = Some v -> means (LReg n) v.
(** One instruction; the results are numbers of 64 bits. *)
Inductive doc_step : locop -> list loc -> list loc -> Prop :=
| doc_push : forall l s, doc_step (LPush l) s (l :: s)
| doc_add : forall a b x y s, means a x -> means b y -> fits (x + y) -> doc_step LAdd (a :: b :: s) (LMem (x + y) :: s)
| doc_base : forall off b s, reg (str "BP") = Some b -> fits (b + off) -> doc_step (LBase off) s (LMem (b + off) :: s)
| doc_deref : forall a x v s, means a x -> mem x = Some v -> doc_step LDeref (a :: s) (LMem v :: s).
Inductive doc_run : list locop -> list loc -> list loc -> Prop :=
| doc_end : forall s, doc_run [] s s
| doc_next : forall o l s s' t, doc_step o s s' -> doc_run l s' t -> doc_run (o :: l) s t.
(** The location: what is on the top of the stack at the end. *)
Definition locates (l : list locop) (x : loc) : Prop := exists s, doc_run l [] (x :: s).
End Doc.

(** ---- PUSH, ADD and BASE_REG_OFFSET ---- *)

Lemma fits64_spec : forall z, fits64 z = true <-> fits z.
Proof. intros z. unfold fits64, fits. rewrite andb_true_iff, Z.leb_le, Z.ltb_lt. reflexivity. Qed.
Lemma checked_ok : forall z N, checked z N = if fits64 z then Done z N else Dead.
Proof. intros. unfold checked, ret, dead. now destruct (fits64 z). Qed.

Section U.
Variable U : setup.
Variable N : native.
Variable c : cpu.
Hypothesis Sn : seen U N c.

Lemma operand_ok : forall l, operand_value U l N = match l with LMem v => Done v N | LReg n => match reg_named c n with Some v => Done v N | None => Failed N end end.
Proof. intros [n|v]; cbn [operand_value]; [now apply get_register_ok|reflexivity]. Qed.
Lemma means_operand : forall l v, means (reg_named c) l v <-> operand_value U l N = Done v N.
Proof.
  intros l v. rewrite operand_ok. split.
  - intros H. destruct H as [v|n v E]; [reflexivity|now rewrite E].
  - destruct l as [n|w]; intros H; [destruct (reg_named c n) eqn:E; [|discriminate]; injection H as ->; now constructor|injection H as ->; constructor].
Qed.
Lemma operand_kinds : forall l, operand_value U l N = Failed N \/ exists v, operand_value U l N = Done v N.
Proof. intros l. rewrite operand_ok. destruct l as [n|v]; [destruct (reg_named c n)|]; eauto. Qed.

Lemma step_doc : forall o s s', o <> LDeref -> (doc_step (reg_named c) (cell U c) o s s' <-> loc_step U o s N = Done s' N).
Proof.
  intros o s s' ND. split.
  - intros H. destruct H as [l s|a b x y s A B F|off b s B F|]; [reflexivity| | |congruence].
    + cbn [loc_step]. unfold add_operands, then_. apply means_operand in A, B. rewrite A, B, checked_ok. apply fits64_spec in F. now rewrite F.
    + cbn [loc_step]. unfold then_. rewrite (get_register_ok U N c _ Sn), B, checked_ok. apply fits64_spec in F. now rewrite F.
  - intros H. destruct o as [l| |off|]; [injection H as <-; constructor| | |congruence]; cbn [loc_step] in H.
    + destruct s as [|a [|b s]]; [discriminate|discriminate|]. unfold add_operands, then_ in H.
      destruct (operand_kinds a) as [E|[x E]]; rewrite E in H; [discriminate|]. destruct (operand_kinds b) as [E'|[y E']]; rewrite E' in H; [discriminate|].
      rewrite checked_ok in H. destruct (fits64 (x + y)) eqn:F; [|discriminate]. injection H as <-. apply fits64_spec in F. apply means_operand in E, E'. now constructor.
    + unfold then_ in H. rewrite (get_register_ok U N c _ Sn) in H. destruct (reg_named c (str "BP")) as [b|] eqn:B; [|discriminate].
      rewrite checked_ok in H. destruct (fits64 (b + off)) eqn:F; [|discriminate]. injection H as <-. apply fits64_spec in F. now constructor.
Qed.
(** Nothing but an error or undefined behaviour otherwise; the debuggee is as it was. *)
Lemma step_quiet : forall o s, o <> LDeref -> match loc_step U o s N with Done _ N' | Failed N' => N' = N | Dead => True | Blocked => False end.
Proof.
  intros o s ND. destruct o as [l| |off|]; [reflexivity| | |congruence]; cbn [loc_step].
  - destruct s as [|a [|b s]]; [exact I|exact I|]. unfold add_operands, then_.
    destruct (operand_kinds a) as [E|[x E]]; rewrite E; [reflexivity|]. destruct (operand_kinds b) as [E'|[y E']]; rewrite E'; [reflexivity|].
    rewrite checked_ok. now destruct (fits64 (x + y)).
  - unfold then_. rewrite (get_register_ok U N c _ Sn). destruct (reg_named c (str "BP")); [|reflexivity]. rewrite checked_ok. now destruct (fits64 _).
Qed.
Lemma run_doc : forall l s t, ~ In LDeref l -> (doc_run (reg_named c) (cell U c) l s t <-> loc_run U l s N = Done t N).
Proof.
  induction l as [|o l IH]; intros s t ND.
  - cbn [loc_run]. split; intros H; [now inversion H|injection H as <-; constructor].
  - assert (N1 : o <> LDeref) by (intros ->; apply ND; now left). assert (N2 : ~ In LDeref l) by (intros I; apply ND; now right).
    cbn [loc_run]. unfold then_. split.
    + intros H. inversion H as [|? ? ? s' ? S1 S2]; subst. apply step_doc in S1; [|exact N1]. rewrite S1. now apply IH.
    + intros H. pose proof (step_quiet o s N1) as Q. destruct (loc_step U o s N) as [s' N'|N'| |] eqn:E; try discriminate. subst N'.
      apply doc_next with s'; [now apply step_doc|]. now apply IH.
Qed.

(** A program of PUSH, ADD and BASE_REG_OFFSET gives the location of the documentation's
    machine, and changes nothing. *)
Theorem C36_locates : forall l x, ~ In LDeref l -> (locates (reg_named c) (cell U c) l x <-> interpret U l N = Done x N).
Proof.
  intros l x ND. unfold interpret, then_. split.
  - intros (s & H). apply run_doc in H; [|exact ND]. now rewrite H.
  - intros H. destruct (loc_run U l [] N) as [s N'|N'| |] eqn:E; try discriminate. destruct s as [|y s]; [discriminate|]. injection H as -> ->.
    exists s. now apply run_doc.
Qed.

(** ---- DEREFERENCE (refuted) ---- *)

(** Of a number it gives what is in the cell whose address is in the cell, instead of
    what is in the cell; *)
Theorem C67_twice_refuted : forall x y z, fits x -> cell U c x = Some y -> cell U c y = Some z ->
  interpret U [LPush (LMem x); LDeref] N = Done (LMem z) N /\ locates (reg_named c) (cell U c) [LPush (LMem x); LDeref] (LMem y).
Proof.
  intros x y z F X Y. split.
  - unfold interpret, then_. cbn [loc_run loc_step]. unfold then_, ret. assert (x <> -1) by (intros ->; discriminate). assert (y <> -1) by (intros ->; discriminate).
    rewrite (read_cell_ok U N c x Sn) by auto. rewrite X. rewrite (read_cell_ok U N c y Sn) by (auto; now apply (cell_fits U N c x)). rewrite Y. reflexivity.
  - exists []. eapply doc_next; [constructor|]. eapply doc_next; [eapply doc_deref; [constructor|exact X]|]. constructor.
Qed.
(** of a register it gives the documented value, if it is the last instruction, *)
Theorem C67_register_partial : forall n x v, reg_named c n = Some x -> cell U c x = Some v ->
  interpret U [LPush (LReg n); LDeref] N = Done (LMem v) N /\ locates (reg_named c) (cell U c) [LPush (LReg n); LDeref] (LMem v).
Proof.
  intros n x v X V. assert (x <> -1) by (intros ->; discriminate). split.
  - unfold interpret, then_. cbn [loc_run loc_step]. unfold then_, ret. rewrite (get_register_ok U N c _ Sn), X.
    rewrite (read_cell_ok U N c x Sn) by (auto; now apply (reg_named_fits U N c n)). now rewrite V.
  - exists []. eapply doc_next; [constructor|]. eapply doc_next; [eapply doc_deref; [constructor; exact X|exact V]|]. constructor.
Qed.
(** and it leaves its operand on the stack: to the value [v] of the cell a register
    points to, ADD then adds the register instead of the number that was pushed before. *)
Theorem C67_keeps_refuted : forall n x v k, reg_named c n = Some x -> cell U c x = Some v -> fits (v + x) -> fits (v + k) ->
  interpret U [LPush (LMem k); LPush (LReg n); LDeref; LAdd] N = Done (LMem (v + x)) N /\
  locates (reg_named c) (cell U c) [LPush (LMem k); LPush (LReg n); LDeref; LAdd] (LMem (v + k)).
Proof.
  intros n x v k X V F1 F2. assert (x <> -1) by (intros ->; discriminate). split.
  - unfold interpret, then_. cbn [loc_run loc_step]. unfold then_, ret. rewrite (get_register_ok U N c _ Sn), X.
    rewrite (read_cell_ok U N c x Sn) by (auto; now apply (reg_named_fits U N c n)). rewrite V. unfold add_operands, then_, ret. cbn [operand_value]. unfold ret.
    rewrite (get_register_ok U N c _ Sn), X, checked_ok. apply fits64_spec in F1. now rewrite F1.
  - exists []. eapply doc_next; [constructor|]. eapply doc_next; [constructor|]. eapply doc_next; [eapply doc_deref; [constructor; exact X|exact V]|].
    eapply doc_next; [apply doc_add; [constructor|constructor|exact F2]|]. constructor.
Qed.
(** ADD with fewer than two values on the stack is undefined behaviour. *)
Theorem C67_underflow_refuted : forall x, interpret U [LAdd] N = Dead /\ interpret U [LPush x; LAdd] N = Dead /\ interpret U [LDeref] N = Dead.
Proof. auto. Qed.
End U.

(** ---- cases ---- *)

(** `[PUSH 2; PUSH R1; ADD; BASE_REG_OFFSET -1; ADD]`, read from a file *)
Definition loc_text (l : string) : text :=
  str (".debug_info" ++ String (ch 10) "" ++ "DIE_compilation_unit: { DIE_variable: { ATTR_name: x, ATTR_location: " ++ l ++ " } }" ++ String (ch 10) "").
Definition loc_read (stod : text -> option Z) (l : string) (p : list locop) : Prop :=
  exists i s d, parse_info stod (loc_text l) = POk i /\ source_of i = Some s /\ variable_die s 0 (str "x") = Some d /\ at_loc d = Some p.
Example C36_case_read : forall stod,
  loc_read stod "[PUSH 2; PUSH R1; ADD; BASE_REG_OFFSET -1; ADD]" [LPush (LMem 2); LPush (LReg (str "R1")); LAdd; LBase (-1); LAdd] /\
  loc_read stod "[PUSH 5; DEREFERENCE]" [LPush (LMem 5); LDeref] /\ loc_read stod "`ADD`" [LAdd].
Proof. intros stod. repeat split; unfold loc_read; do 3 eexists; vm_compute; repeat split; reflexivity. Qed.
Example C36_case : exists r1 bp, reg_named cpu1 (str "R1") = Some r1 /\ reg_named cpu1 (str "BP") = Some bp /\
  interpret U1 [LPush (LMem 2); LPush (LReg (str "R1")); LAdd; LBase (-1); LAdd] native1 = Done (LMem ((bp + -1) + (r1 + 2))) native1.
Proof. do 2 eexists. vm_compute. repeat split; reflexivity. Qed.
Example C36_case_dereference : seen U1 native1 cpu1 /\ cell U1 cpu1 5 = Some 6 /\ cell U1 cpu1 6 = Some 0.
Proof. split; [apply seen_case|]. vm_compute. auto. Qed.

Print Assumptions C36_locates.
Print Assumptions C67_twice_refuted.
Print Assumptions C67_register_partial.
Print Assumptions C67_keeps_refuted.
Print Assumptions C67_underflow_refuted.
