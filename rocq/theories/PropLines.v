(** C34: lines of the source and addresses. *)
From Coq Require Import Ascii String ZArith NArith List Bool Lia Sorting.
From Verif Require Import Base Text StdMap Lexer Src Info.
Import ListNotations.
Open Scope Z_scope.

(** std::map keeps its keys in order. *)
Definition rising {V} (m : list (Z * V)) : Prop := StronglySorted Z.lt (map fst m).

Lemma zput_rising : forall V (m : list (Z * V)) k v, rising m -> rising (zput m k v).
Proof.
  unfold rising. induction m as [|[k' v'] m IH]; intros k v D; cbn [mput map fst]; [repeat constructor|].
  cbn [map fst] in D. inversion D as [|? ? D1 D2]; subst. destruct (Z.eqb_spec k k') as [->|N]; [cbn [map fst]; now constructor|].
  destruct (Z.ltb_spec k k').
  - cbn [map fst]. constructor; [exact D|]. constructor; [lia|]. eapply Forall_impl; [|exact D2]. intros; lia.
  - cbn [map fst]. constructor; [now apply IH|]. apply Forall_forall. intros x I. apply (mput_keys Z.eqb Z.ltb Z.eqb_eq) in I.
    destruct I as [->|I]; [lia|]. rewrite Forall_forall in D2. now apply D2.
Qed.
Lemma rising_distinct : forall V (m : list (Z * V)), rising m -> distinct m.
Proof.
  unfold rising, distinct. induction m as [|[k v] m IH]; intros D; cbn [map fst] in *; [constructor|].
  inversion D as [|? ? D1 D2]; subst. constructor; [|now apply IH]. intros I. rewrite Forall_forall in D2. specialize (D2 _ I). lia.
Qed.

(** A source whose line table is a map; so is every one read from a file. *)
Definition mapped (s : source) : Prop := forall m, so_lines s = Some m -> rising m.

Lemma line_loop_rising : forall stod n m s m' s', line_loop stod n m s = POk (m', s') -> rising m -> rising m'.
Proof.
  intros stod. induction n as [|n IH]; intros m s m' s' H R; cbn [line_loop] in H.
  - destruct (is KDot s || is KEnd s); [injection H as <- _; exact R|discriminate].
  - destruct (is KDot s || is KEnd s); [injection H as <- _; exact R|]. destruct (is KNum s); [|discriminate].
    destruct (expect stod KDoubledot s) as [s1|]; [|discriminate]. cbn [pbind] in H. destruct (expect stod KNum s1) as [s2|]; [|discriminate]. cbn [pbind] in H.
    destruct (next stod s2) as [s3|]; [|discriminate]. cbn [pbind] in H. apply IH in H; [exact H|]. now apply zput_rising.
Qed.
Lemma sections_rising : forall stod n k i s i', sections stod n k i s = POk i' -> (forall m, i_lines i = Some m -> rising m) -> forall m, i_lines i' = Some m -> rising m.
Proof.
  intros stod n. induction k as [|k IH]; intros i s i' H R; cbn [sections] in H.
  - destruct (is KEnd s); [injection H as <-; exact R|discriminate].
  - destruct (is KEnd s); [injection H as <-; exact R|]. destruct (is KDot s); [|discriminate].
    destruct (expect stod KId s) as [s1|]; [|discriminate]. cbn [pbind] in H. destruct (teqb (id_of s1) (str "debug_source")); [injection H as <-; exact R|].
    destruct (next stod s1) as [s2|]; [|discriminate]. cbn [pbind] in H. destruct (teqb (id_of s1) (str "debug_line")).
    + destruct (line_loop stod n [] s2) as [[m s3]|] eqn:L; [|discriminate]. cbn [pbind] in H. refine (IH _ _ _ H _). cbn [i_lines].
      intros m' E. injection E as <-. eapply line_loop_rising; [exact L|constructor].
    + destruct (teqb (id_of s1) (str "debug_info")).
      * destruct (debug_info stod n s2) as [[d s3]|]; [|discriminate]. cbn [pbind] in H. exact (IH _ _ _ H R).
      * match type of H with context [skip_section ?a ?b ?c] => destruct (skip_section a b c) as [s3|] end; [|discriminate]. cbn [pbind] in H. exact (IH _ _ _ H R).
Qed.
Theorem C34_mapped : forall stod t i s, parse_info stod t = POk i -> source_of i = Some s -> mapped s.
Proof.
  intros stod t i s H E m M. unfold parse_info in H. destruct (get_next stod (new_lexer t)) as [s0|]; [|discriminate].
  assert (R : forall m, i_lines i = Some m -> rising m) by (eapply sections_rising; [exact H|discriminate]).
  apply R. unfold source_of in E. destruct (i_die i) as [d|].
  - unfold register_die in E. match type of E with context [add_types ?a ?b] => destruct (add_types a b) end; [|discriminate]. injection E as <-.
    destruct (i_code i), (i_lines i); cbn in *; congruence.
  - injection E as <-. destruct (i_code i), (i_lines i); cbn in *; congruence.
Qed.

Lemma max_line_spec : forall l, match max_line l with Some x => In x l /\ forall y, In y l -> y <= x | None => l = [] end.
Proof.
  induction l as [|x l IH]; cbn [max_line]; [reflexivity|]. destruct (max_line l) as [y|].
  - destruct IH as [I1 I2]. destruct (Z.ltb_spec x y); cbn [In]; (split; [auto|]); intros z [<-|I]; try lia; specialize (I2 _ I); lia.
  - subst. cbn [In]. split; [auto|]. intros z [<-|[]]. lia.
Qed.
Lemma in_get_lines : forall m a l, rising m -> (In l (get_lines m a) <-> zget m l = Some a).
Proof.
  intros m a l R. unfold get_lines. rewrite in_map_iff. split.
  - intros ([k v] & E & I). cbn in E. subst k. apply filter_In in I. destruct I as [I E]. cbn in E. apply Z.eqb_eq in E. subst v.
    apply (mget_distinct Z.eqb Z.eqb_eq); [now apply rising_distinct|exact I].
  - intros H. apply (mget_in Z.eqb Z.eqb_eq) in H. exists (l, a). split; [reflexivity|]. apply filter_In. split; [exact H|]. cbn. apply Z.eqb_refl.
Qed.

(** The line reported for an address is the largest one with that address, and there is
    none only if no line has it. *)
Theorem C34_addr_to_line : forall s a, mapped s ->
  match addr_to_line s a with
  | Some l => line_to_addr s l = Some a /\ forall l', line_to_addr s l' = Some a -> l' <= l
  | None => forall l, line_to_addr s l <> Some a
  end.
Proof.
  intros s a M. unfold addr_to_line, line_to_addr, get_address. destruct (so_lines s) as [m|] eqn:E; [|discriminate]. specialize (M m E).
  pose proof (max_line_spec (get_lines m a)) as S. destruct (max_line (get_lines m a)) as [l|].
  - destruct S as [S1 S2]. split; [now apply in_get_lines|]. intros l' H. apply S2. now apply in_get_lines.
  - intros l H. apply in_get_lines in H; [|exact M]. now rewrite S in H.
Qed.
(** The address of a line maps back to that line or a later one with the same address. *)
Theorem C34_line_back : forall s l a, mapped s -> line_to_addr s l = Some a ->
  exists l', addr_to_line s a = Some l' /\ l <= l' /\ line_to_addr s l' = Some a.
Proof.
  intros s l a M H. pose proof (C34_addr_to_line s a M) as S. destruct (addr_to_line s a) as [l'|]; [|now elim (S l)].
  destruct S as [S1 S2]. exists l'. auto.
Qed.

(** ---- a case: two lines share an address ---- *)
Definition nl : string := String (ch 10) "".
Definition file1 : text := str (".text" ++ nl ++ "NOP" ++ nl ++ ".debug_line" ++ nl ++ "2: 0" ++ nl ++ "5: 1" ++ nl ++ "3: 0" ++ nl).
Definition source1 : source := mkSource (Some [(2, 0); (3, 0); (5, 1)]) None None [].
Example C34_case : forall stod, exists i, parse_info stod file1 = POk i /\ source_of i = Some source1 /\
  mapped source1 /\ addr_to_line source1 0 = Some 3 /\ line_to_addr source1 2 = Some 0 /\ addr_to_line source1 7 = None.
Proof.
  intros stod. eexists. split; [vm_compute; reflexivity|]. split; [reflexivity|]. split; [|vm_compute; auto].
  intros m E. injection E as <-. unfold rising. cbn [map fst]. repeat (constructor; [|repeat (constructor; [lia|]); constructor]). constructor.
Qed.

Print Assumptions C34_mapped.
Print Assumptions C34_addr_to_line.
Print Assumptions C34_line_back.
