(** C100, C101: what `expression` and `frame` display. *)
From Coq Require Import Ascii String ZArith NArith List Bool Lia Sorted.
From Verif Require Import Base Text PropText PropNet StdMap Alu AluSpec AluProofs Exec Lexer LexProofs Show Isa IsaSpec State Ram Rat Cpu Os DbgText PipeBasics PropDbg Client PropProto Native Src SrcFacts SetReg
  PropLoc Info PropInfo Expr ExprSpec PropExpr Eval ValSpec EvalFacts EvalSound EvalOps PropEval PropAssign PropVars Cli CliFacts PropCli PropStore.
Import ListNotations.
Open Scope Z_scope.

(** ---- specification ---- *)

(** A string in memory, up to the first cell whose low byte is zero. Ends of lines and tabs
    are shown as in C. *)
Definition letter (z : Z) : ascii := ascii_of_N (Z.to_N (z mod 256)).
Definition escaped (z : Z) : text := if z mod 256 =? 10 then str "\n" else if z mod 256 =? 9 then str "\t" else [letter z].
Inductive string_at (mem : Z -> option Z) : Z -> text -> Prop :=
| sa_end : forall a z, mem a = Some z -> z mod 256 = 0 -> string_at mem a []
| sa_char : forall a z t, mem a = Some z -> z mod 256 <> 0 -> string_at mem (a + 1) t -> string_at mem a (escaped z ++ t).
Definition in_quotes (t : text) : text := str """" ++ t ++ str """".
Fixpoint listing (l : list text) : text := match l with [] => [] | [x] => x | x :: l' => x ++ str ", " ++ listing l' end.

Section Spec.
Variable src : source.
Variable mem : Z -> option Z.
Variable D : dops.

(** A type, as in C; an array is its elements' type and "[]". *)
Inductive type_shown : ty -> text -> Prop :=
| ts_float : forall n, type_shown (TyPrim PrFloat n) (str "float")
| ts_int : forall n, type_shown (TyPrim PrSigned n) (str "int")
| ts_unsigned : forall n, type_shown (TyPrim PrUnsigned n) (str "unsigned")
| ts_char : forall n, type_shown (TyPrim PrChar n) (str "char")
| ts_struct : forall name n ms, type_shown (TyStruct name n ms) name
| ts_ptr : forall id n t x, get_type src id = Some t -> type_shown t x -> type_shown (TyPtr id n) (x ++ str "*")
| ts_arr : forall id n t x, get_type src id = Some t -> type_shown t x -> type_shown (TyArr id n) (x ++ str "[]")
| ts_unknown_ptr : forall id n, get_type src id = None -> type_shown (TyPtr id n) (str "<unknown>*")
| ts_unknown_arr : forall id n, get_type src id = None -> type_shown (TyArr id n) (str "<unknown>*").

(** The type of a value. *)
Inductive kind_shown : tvalue -> text -> Prop :=
| ks_int : forall z l, kind_shown (VInt z l) (str "int")
| ks_float : forall z l, kind_shown (VFloat z l) (str "float")
| ks_char : forall z l, kind_shown (VChar z l) (str "char")
| ks_struct : forall name n ms l, kind_shown (VStruct name n ms l) name
| ks_ptr : forall id n a l x, type_shown (TyPtr id n) x -> kind_shown (VPtr id n a l) x
| ks_arr : forall id n a vs l x, type_shown (TyArr id n) x -> kind_shown (VArr id n a vs l) x.

(** A value: numbers in decimal, chars in quotes, a pointer as the address; a pointer to
    char and an array of chars with the string that is there. *)
Definition ends_in_char (vs : list tvalue) : Prop := exists us z l, vs = us ++ [VChar z l].
Inductive shown_as : tvalue -> text -> Prop :=
| sh_int : forall z l, shown_as (VInt z l) (show_Z z)
| sh_float : forall z l, shown_as (VFloat z l) (d_show D z)
| sh_char : forall z l, shown_as (VChar z l) (str "'" ++ [letter z] ++ str "'")
| sh_ptr : forall id n a l, (forall k, get_type src id <> Some (TyPrim PrChar k)) -> shown_as (VPtr id n a l) (show_Z a)
| sh_string : forall id n a l k t, get_type src id = Some (TyPrim PrChar k) -> string_at mem a t -> shown_as (VPtr id n a l) (show_Z a ++ str " " ++ in_quotes t)
| sh_chars : forall id n a vs l t, ends_in_char vs -> string_at mem a t -> shown_as (VArr id n a vs l) (show_Z a ++ str " " ++ in_quotes t)
| sh_array : forall id n a vs l ts, ~ ends_in_char vs -> all_shown vs ts -> shown_as (VArr id n a vs l) (str "[" ++ listing ts ++ str "]")
| sh_struct : forall name n ms l ts, members_shown ms ts -> shown_as (VStruct name n ms l) (str "{ " ++ listing ts ++ str " }")
with all_shown : list tvalue -> list text -> Prop :=
| al_nil : all_shown [] []
| al_cons : forall v vs t ts, shown_as v t -> all_shown vs ts -> all_shown (v :: vs) (t :: ts)
with members_shown : list (text * tvalue) -> list text -> Prop :=
| ms_nil : members_shown [] []
| ms_cons : forall m v ms t ts, shown_as v t -> members_shown ms ts -> members_shown ((m, v) :: ms) ((m ++ str " = " ++ t) :: ts).
Scheme shown_mut := Induction for shown_as Sort Prop
with all_mut := Induction for all_shown Sort Prop
with members_mut := Induction for members_shown Sort Prop.
Combined Scheme shown_ind3 from shown_mut, all_mut, members_mut.
End Spec.

(** The whole line for value number [i]. *)
Definition value_line (T : text) (i : nat) (t : text) : shown := Say Plain (str "(" ++ T ++ str ") $" ++ show_Z (Z.of_nat i) ++ str " = " ++ t ++ [NL]).
Definition variable_line (T n t : text) : shown := Say Plain (str "(" ++ T ++ str ") " ++ n ++ str " = " ++ t ++ [NL]).

(** ---- proofs ---- *)

(** Types *)

Lemma type_name_more : forall src k k' t x, (k <= k')%nat -> type_name k src t = Some x -> type_name k' src t = Some x.
Proof.
  induction k as [|k IH]; intros k' t x L E.
  - destruct t as [p n|id n|id n|name n ms]; destruct k'; cbn [type_name] in *; try exact E; destruct (get_type src id); try discriminate; exact E.
  - destruct k' as [|k']; [lia|]. destruct t as [p n|id n|id n|name n ms]; cbn [type_name] in *; try exact E; destruct (get_type src id) as [t'|]; try exact E;
      (destruct (type_name k src t') as [y|] eqn:Y; [|discriminate]; rewrite (IH k' t' y ltac:(lia) Y); exact E).
Qed.

(** The types a type is made of *)
Fixpoint chain (k : nat) (src : source) (t : ty) : list Z :=
  match t with
  | TyPtr id _ | TyArr id _ => match get_type src id with None => [] | Some t' => match k with O => [id] | S k' => id :: chain k' src t' end end
  | _ => []
  end.
Lemma chain_known : forall src k t id, In id (chain k src t) -> In id (map fst (so_types src)).
Proof.
  assert (G : forall src id t', get_type src id = Some t' -> In id (map fst (so_types src))).
  { intros src id t' E. apply (mget_in _ Z.eqb_eq) in E. change id with (fst (id, t')). now apply in_map. }
  induction k as [|k IH]; intros t id I; destruct t as [p n|i n|i n|name n ms]; cbn [chain] in I; try contradiction; destruct (get_type src i) as [t'|] eqn:E; try contradiction.
  - destruct I as [<-|[]]. eapply G. exact E.
  - destruct I as [<-|[]]. eapply G. exact E.
  - destruct I as [<-|I]; [eapply G; exact E|now apply (IH t')].
  - destruct I as [<-|I]; [eapply G; exact E|now apply (IH t')].
Qed.
Lemma chain_length : forall src k t x, type_name k src t = Some x -> type_name (length (chain k src t)) src t = Some x.
Proof.
  induction k as [|k IH]; intros t x E.
  - destruct t as [p n|id n|id n|name n ms]; cbn [chain type_name] in *; try exact E; destruct (get_type src id) as [t'|] eqn:G; try discriminate; cbn [length type_name]; now rewrite G.
  - destruct t as [p n|id n|id n|name n ms]; cbn [chain type_name] in *; try exact E; (destruct (get_type src id) as [t'|] eqn:G; [|cbn [length type_name]; now rewrite G]);
    (destruct (type_name k src t') as [y|] eqn:Y; [|discriminate]; cbn [length type_name]; rewrite G, (IH t' y Y); exact E).
Qed.
Lemma chain_same : forall src k k' t x x', type_name k src t = Some x -> type_name k' src t = Some x' -> chain k src t = chain k' src t.
Proof.
  induction k as [|k IH]; intros k' t x x' E E'.
  - destruct t as [p n|id n|id n|name n ms]; destruct k' as [|k']; cbn [chain type_name] in *; try reflexivity; destruct (get_type src id) as [t'|] eqn:G; try discriminate; reflexivity.
  - destruct t as [p n|id n|id n|name n ms]; destruct k' as [|k']; cbn [chain type_name] in *; try reflexivity; destruct (get_type src id) as [t'|] eqn:G; try discriminate; try reflexivity;
    (destruct (type_name k src t') as [y|] eqn:Y; [|discriminate]; destruct (type_name k' src t') as [y'|] eqn:Y'; [|discriminate]; f_equal; now apply (IH k' t' y y')).
Qed.
Lemma chain_in : forall src k t x id t', type_name k src t = Some x -> In id (chain k src t) -> get_type src id = Some t' ->
  exists k' y, type_name k' src t' = Some y /\ (length (chain k' src t') < length (chain k src t))%nat.
Proof.
  induction k as [|k IH]; intros t x id t' E I G; destruct t as [p n|i n|i n|name n ms]; cbn [chain type_name] in *; try contradiction;
    destruct (get_type src i) as [t1|] eqn:G1; try contradiction; try discriminate E.
  - destruct (type_name k src t1) as [y|] eqn:Y; [|discriminate]. destruct I as [<-|I].
    + assert (t1 = t') as -> by congruence. exists k, y. split; [exact Y|cbn [length]; lia].
    + destruct (IH t1 y id t' Y I G) as (k' & y' & E' & L). exists k', y'. split; [exact E'|cbn [length]; lia].
  - destruct (type_name k src t1) as [y|] eqn:Y; [|discriminate]. destruct I as [<-|I].
    + assert (t1 = t') as -> by congruence. exists k, y. split; [exact Y|cbn [length]; lia].
    + destruct (IH t1 y id t' Y I G) as (k' & y' & E' & L). exists k', y'. split; [exact E'|cbn [length]; lia].
Qed.
Lemma chain_once : forall src k t x, type_name k src t = Some x -> NoDup (chain k src t).
Proof.
  induction k as [|k IH]; intros t x E.
  - destruct t as [p n|i n|i n|name n ms]; cbn [chain type_name] in *; try constructor; destruct (get_type src i) as [t1|] eqn:G1; try discriminate; constructor.
  - assert (G : forall i t1 y, get_type src i = Some t1 -> type_name k src t1 = Some y -> NoDup (i :: chain k src t1)).
    { intros i t1 y G Y. constructor; [|eapply IH; exact Y]. intros I. destruct (chain_in src k t1 y i t1 Y I G) as (k' & y' & E' & L). rewrite (chain_same src k' k t1 y' y E' Y) in L. lia. }
    destruct t as [p n|i n|i n|name n ms]; cbn [chain type_name] in *; try apply NoDup_nil; (destruct (get_type src i) as [t1|] eqn:G1; [|apply NoDup_nil]).
    + destruct (type_name k src t1) as [y|] eqn:Y; [|discriminate]. now apply (G i t1 y).
    + destruct (type_name k src t1) as [y|] eqn:Y; [|discriminate]. now apply (G i t1 y).
Qed.
(** The number of types is enough. *)
Lemma type_name_all : forall src k t x, type_name k src t = Some x -> type_name (length (so_types src)) src t = Some x.
Proof.
  intros src k t x E. eapply type_name_more; [|apply (chain_length src k t x E)]. rewrite <- (map_length fst (so_types src)).
  apply NoDup_incl_length; [eapply chain_once; exact E|]. intros id I. eapply chain_known. exact I.
Qed.
Lemma type_shown_ok : forall src t x, type_shown src t x <-> type_name (length (so_types src)) src t = Some x.
Proof.
  intros src t x. split.
  - intros H. assert (K : exists k, type_name k src t = Some x).
    { induction H as [n|n|n|n|name n ms|id n t x G H (k & IH)|id n t x G H (k & IH)|id n G|id n G]; try (exists O; reflexivity).
      - exists (S k). cbn [type_name]. now rewrite G, IH.
      - exists (S k). cbn [type_name]. now rewrite G, IH.
      - exists O. cbn [type_name]. now rewrite G.
      - exists O. cbn [type_name]. now rewrite G. }
    destruct K as [k K]. eapply type_name_all. exact K.
  - generalize (length (so_types src)). intros k. revert t x. induction k as [|k IH]; intros t x E; destruct t as [p n|id n|id n|name n ms]; cbn [type_name] in E.
    all: try (injection E as <-; destruct p; constructor).
    all: try (injection E as <-; constructor).
    all: destruct (get_type src id) as [t'|] eqn:G; try discriminate; try (injection E as <-; now constructor).
    all: destruct (type_name k src t') as [y|] eqn:Y; [|discriminate]; injection E as <-; econstructor; [exact G|now apply IH].
Qed.
Lemma kind_text : forall src v s, (exists x, value_type_text src v s = Done x s) \/ value_type_text src v s = Dead.
Proof.
  intros src v s. destruct v; cbn [value_type_text]; unfold type_text, ret; try (left; eexists; reflexivity);
    match goal with |- context [opt_or dead ?o] => destruct o end; [left; eexists; reflexivity|now right|left; eexists; reflexivity|now right].
Qed.
Lemma kind_shown_ok : forall src v x s, kind_shown src v x <-> value_type_text src v s = Done x s.
Proof.
  intros src v x s. split.
  - intros [z l|z l|z l|name n ms l|id n a l y H|id n a vs l y H]; try reflexivity; cbn [value_type_text]; unfold type_text; apply type_shown_ok in H; now rewrite H.
  - destruct v; cbn [value_type_text]; unfold type_text, ret; intros E; try (injection E as <-; constructor);
      (destruct (type_name _ src _) as [y|] eqn:Y; [|discriminate]; injection E as <-; constructor; now apply type_shown_ok).
Qed.

(** Strings *)

Lemma same_native : forall s, cset_native s (cl_native s) = s.
Proof. now intros []. Qed.
(** The state is as it was, unless the VM is lost. *)
Definition kept (s s' : cli) : Prop := s' = s \/ s' = cset_native s (lost (cl_native s)).
Definition looking {A} (s : cli) (r : out cli A) : Prop := match r with Done _ s' => s' = s | Failed s' => kept s s' | _ => True end.

Lemma head_read : forall U N c a v, seen U N c -> cell U c a = Some v -> exists r, get_memory U a 1 N = Done (v :: r) N.
Proof.
  intros U N c a v Sn E. assert (R : 0 <= a < u_data U) by (unfold cell in E; destruct (Z.leb_spec 0 a), (Z.ltb_spec a (u_data U)); try discriminate; lia). pose proof (sn_data _ _ _ Sn).
  pose proof (read_cell_ok U N c a Sn ltac:(unfold fits; lia) ltac:(lia)) as Q. rewrite E in Q. unfold read_cell, then_ in Q. replace (u64 a) with a in Q by (unfold u64, two64; rewrite Z.mod_small; lia).
  destruct (get_memory U a 1 N) as [[|x l] N1|N1| |]; try discriminate. unfold ret in Q. injection Q as -> ->. now exists l.
Qed.
Lemma head_only : forall U N c a, seen U N c -> 0 <= a < 2 ^ 64 ->
  match get_memory U a 1 N with Done (v :: _) N' => N' = N /\ cell U c a = Some v | Failed N' => N' = N \/ N' = lost N | _ => True end.
Proof.
  intros U N c a Sn R. pose proof (sn_data _ _ _ Sn) as Du. assert (E : read_cell U (s64 a) = let* l := get_memory U a 1 in match l with x :: _ => ret x | [] => dead end).
  { unfold read_cell. rewrite u64_s64. now replace (u64 a) with a by (unfold u64, two64; rewrite Z.mod_small; lia). }
  destruct (Z.eq_dec (s64 a) (-1)) as [Q|Q].
  - pose proof (read_cell_last U N c Sn) as L. rewrite <- Q, E in L. unfold then_ in L. destruct (get_memory U a 1 N) as [[|x l] N1|N1| |]; auto; destruct L as [L|[L|L]]; try discriminate; injection L as ->; auto.
  - pose proof (read_cell_ok U N c (s64 a) Sn (s64_fits a) Q) as L. rewrite E in L. unfold then_ in L.
    assert (C : cell U c (s64 a) <> None -> s64 a = a).
    { intros X. assert (Y : 0 <= s64 a) by (unfold cell in X; destruct (Z.leb_spec 0 (s64 a)); [lia|now elim X]). pose proof (u64_s64 a) as G. unfold u64, two64 in G. pose proof (s64_fits a) as F. unfold fits in F. rewrite !Z.mod_small in G by lia. exact G. }
    destruct (get_memory U a 1 N) as [[|x l] N1|N1| |]; auto.
    + unfold ret in L. destruct (cell U c (s64 a)) as [y|] eqn:Y; [|discriminate]. injection L as -> ->. rewrite <- C, Y by congruence. now split.
    + destruct (cell U c (s64 a)); [discriminate|]. injection L as ->. now left.
Qed.

Lemma zero_char : forall z, Ascii.eqb (as_char z) (ch 0) = (z mod 256 =? 0).
Proof.
  intros z. unfold as_char. pose proof (Z.mod_pos_bound z 256 ltac:(lia)) as B. destruct (Z.eqb_spec (z mod 256) 0) as [->|Q]; [reflexivity|].
  apply Ascii.eqb_neq. intros E. apply (f_equal N_of_ascii) in E. rewrite N_ascii_embedding in E by lia. change (N_of_ascii (ch 0)) with 0%N in E. lia.
Qed.
Lemma same_char : forall z n, (n < 256)%N -> Ascii.eqb (as_char z) (ascii_of_N n) = (z mod 256 =? Z.of_N n).
Proof.
  intros z n H. unfold as_char. pose proof (Z.mod_pos_bound z 256 ltac:(lia)) as B. destruct (Z.eqb_spec (z mod 256) (Z.of_N n)) as [->|Q].
  - rewrite N2Z.id. apply Ascii.eqb_refl.
  - apply Ascii.eqb_neq. intros E. apply (f_equal N_of_ascii) in E. rewrite !N_ascii_embedding in E by lia. lia.
Qed.
Lemma escaped_ok : forall z, (if Ascii.eqb (as_char z) NL then str "\n" else if Ascii.eqb (as_char z) (ch 9) then str "\t" else [as_char z]) = escaped z.
Proof.
  intros z. unfold escaped. change NL with (ascii_of_N 10). change (ch 9) with (ascii_of_N 9). rewrite !same_char by lia. reflexivity.
Qed.

Lemma string_shown : forall U N c a t, seen U N c -> string_at (cell U c) a t -> exists k0, forall k s, (k0 <= k)%nat -> cl_setup s = U -> cl_native s = N -> memory_string k a s = Done t s.
Proof.
  intros U N c a t Sn H. induction H as [a z E Z0|a z t E Z0 H (k0 & IH)]; destruct (head_read _ _ _ _ _ Sn E) as (r & R).
  - exists 1%nat. intros [|k] s Hk S1 S2; [lia|]. cbn [memory_string]. unfold then_, lib. rewrite S1, S2, R, <- S2, same_native, zero_char. destruct (Z.eqb_spec (z mod 256) 0); [reflexivity|lia].
  - exists (S k0). intros [|k] s Hk S1 S2; [lia|]. cbn [memory_string]. unfold then_ at 1, lib. rewrite S1, S2, R, <- S2, same_native, zero_char. destruct (Z.eqb_spec (z mod 256) 0); [lia|].
    assert (A : u64 (a + 1) = a + 1).
    { unfold cell in E. pose proof (sn_data _ _ _ Sn). unfold u64, two64. destruct (Z.leb_spec 0 a), (Z.ltb_spec a (u_data U)); try discriminate. apply Z.mod_small. lia. }
    unfold then_. rewrite A, IH by (auto; lia). unfold ret. now rewrite escaped_ok.
Qed.
Lemma string_only : forall c s k a, seen (cl_setup s) (cl_native s) c -> 0 <= a < 2 ^ 64 -> match memory_string k a s with Done t s' => s' = s /\ string_at (cell (cl_setup s) c) a t | Failed s' => kept s s' | _ => True end.
Proof.
  intros c s k a Sn. revert a. induction k as [|k IH]; intros a R; [exact I|]. cbn [memory_string]. unfold then_ at 1, lib. pose proof (head_only _ _ _ a Sn R) as Q.
  destruct (get_memory (cl_setup s) a 1 (cl_native s)) as [[|v l] N1|N1| |]; try exact I.
  - destruct Q as [-> E]. rewrite same_native, zero_char. destruct (Z.eqb_spec (v mod 256) 0) as [Z0|Z0].
    + unfold ret. split; [reflexivity|]. now apply (sa_end _ a v).
    + assert (A : u64 (a + 1) = a + 1).
      { unfold cell in E. pose proof (sn_data _ _ _ Sn). unfold u64, two64. destruct (Z.leb_spec 0 a), (Z.ltb_spec a (u_data (cl_setup s))); try discriminate. apply Z.mod_small. lia. }
      assert (B : 0 <= a + 1 < 2 ^ 64) by (rewrite <- A; unfold u64, two64; apply Z.mod_pos_bound; lia). specialize (IH _ B). unfold then_. rewrite A.
      destruct (memory_string k (a + 1) s) as [t s'|s'| |]; try exact I; [|exact IH]. destruct IH as [-> IH]. unfold ret. split; [reflexivity|]. rewrite escaped_ok. now apply (sa_char _ a v).
  - destruct Q as [-> | ->]; [left; apply same_native|right; reflexivity].
Qed.

(** Values *)

Lemma listing_ok : forall l, listing l = join l comma.
Proof. induction l as [|x [|y l] IH]; [reflexivity|cbn [listing join]; now rewrite app_nil_r|]. change (listing (x :: y :: l)) with (x ++ str ", " ++ listing (y :: l)). rewrite IH. reflexivity. Qed.
Lemma ends_dec : forall vs, match last vs (VInt 0 None) with VChar _ _ => ends_in_char vs | _ => ~ ends_in_char vs end.
Proof.
  intros vs. destruct vs as [|v vs] using rev_ind; [intros (us & z & l & E); destruct us; discriminate|]. rewrite last_last.
  destruct v; try (intros (us & z' & l' & E); apply app_inj_tail in E; destruct E as [_ E]; discriminate). now exists vs, v, l.
Qed.

Section Values.
Variable P : front.
Variable src : source.
Fixpoint all_texts (l : list tvalue) : act cli (list text) :=
  match l with [] => ret [] | x :: l' => let* t := value_text P src x in let* ts := all_texts l' in ret (t :: ts) end.
Fixpoint member_texts (l : list (text * tvalue)) : act cli (list text) :=
  match l with [] => ret [] | (n, x) :: l' => let* t := value_text P src x in let* ts := member_texts l' in ret ((n ++ str " = " ++ t) :: ts) end.
Lemma array_text : forall id n a vs l, value_text P src (VArr id n a vs l) =
  match last vs (VInt 0 None) with
  | VChar _ _ => let* s := memory_string (fr_fuel P) a in ret (num a ++ [SPACE] ++ quoted s)
  | _ => let* l := all_texts vs in ret (str "[" ++ join l comma ++ str "]")
  end.
Proof. reflexivity. Qed.
Lemma struct_text : forall name n ms l, value_text P src (VStruct name n ms l) = let* l := member_texts ms in ret (str "{ " ++ join l comma ++ str " }").
Proof. reflexivity. Qed.
End Values.

Lemma value_shown : forall src U N c D, seen U N c ->
  (forall v t, shown_as src (cell U c) D v t -> exists k0, forall P s, fr_ops P = D -> (k0 <= fr_fuel P)%nat -> cl_setup s = U -> cl_native s = N -> value_text P src v s = Done t s) /\
  (forall l ts, all_shown src (cell U c) D l ts -> exists k0, forall P s, fr_ops P = D -> (k0 <= fr_fuel P)%nat -> cl_setup s = U -> cl_native s = N -> all_texts P src l s = Done ts s) /\
  (forall l ts, members_shown src (cell U c) D l ts -> exists k0, forall P s, fr_ops P = D -> (k0 <= fr_fuel P)%nat -> cl_setup s = U -> cl_native s = N -> member_texts P src l s = Done ts s).
Proof.
  intros src U N c D Sn. apply shown_ind3.
  - intros z l. exists O. reflexivity.
  - intros z l. exists O. intros P s <- _ _ _. reflexivity.
  - intros z l. exists O. reflexivity.
  - intros id n a l H. exists O. intros P s _ _ _ _. cbn [value_text]. destruct (get_type src id) as [[[] k| | |]|] eqn:G; try reflexivity. now elim (H k).
  - intros id n a l k t G H. destruct (string_shown _ _ _ _ _ Sn H) as (k0 & K). exists k0. intros P s _ L S1 S2. cbn [value_text]. rewrite G. unfold then_. rewrite K by auto. reflexivity.
  - intros id n a vs l t G H. destruct (string_shown _ _ _ _ _ Sn H) as (k0 & K). exists k0. intros P s _ L S1 S2. rewrite array_text. pose proof (ends_dec vs) as X. destruct (last vs (VInt 0 None)); try contradiction.
    unfold then_. rewrite K by auto. reflexivity.
  - intros id n a vs l ts G H (k0 & K). exists k0. intros P s Q L S1 S2. rewrite array_text. pose proof (ends_dec vs) as X. destruct (last vs (VInt 0 None)); try contradiction; unfold then_; rewrite K by auto; now rewrite listing_ok.
  - intros name n ms l ts H (k0 & K). exists k0. intros P s Q L S1 S2. rewrite struct_text. unfold then_. rewrite K by auto. now rewrite listing_ok.
  - exists O. reflexivity.
  - intros v vs t ts H1 (k1 & K1) H2 (k2 & K2). exists (Nat.max k1 k2). intros P s Q L S1 S2. cbn [all_texts]. unfold then_. rewrite K1, K2 by (auto; lia). reflexivity.
  - exists O. reflexivity.
  - intros m v ms t ts H1 (k1 & K1) H2 (k2 & K2). exists (Nat.max k1 k2). intros P s Q L S1 S2. cbn [member_texts]. unfold then_. rewrite K1, K2 by (auto; lia). reflexivity.
Qed.

(** Addresses are numbers of 64 bits. *)
Fixpoint addressed (v : tvalue) : Prop :=
  match v with
  | VPtr _ _ a _ => 0 <= a < 2 ^ 64
  | VArr _ _ a vs _ => 0 <= a < 2 ^ 64 /\ (fix all l := match l with [] => True | x :: l' => addressed x /\ all l' end) vs
  | VStruct _ _ ms _ => (fix all l := match l with [] => True | (_, x) :: l' => addressed x /\ all l' end) ms
  | _ => True
  end.
Lemma addressed_arr : forall id n a vs l, addressed (VArr id n a vs l) <-> 0 <= a < 2 ^ 64 /\ Forall addressed vs.
Proof.
  intros. change (addressed (VArr id n a vs l)) with (0 <= a < 2 ^ 64 /\ (fix all l := match l with [] => True | x :: l' => addressed x /\ all l' end) vs).
  enough (H : (fix all l := match l with [] => True | x :: l' => addressed x /\ all l' end) vs <-> Forall addressed vs) by (now rewrite H).
  induction vs as [|v vs IH]; [split; constructor|]. rewrite Forall_cons_iff, <- IH. reflexivity.
Qed.
Lemma addressed_struct : forall name n ms l, addressed (VStruct name n ms l) <-> Forall (fun m => addressed (snd m)) ms.
Proof.
  intros. change (addressed (VStruct name n ms l)) with ((fix all l := match l with [] => True | (_, x) :: l' => addressed x /\ all l' end) ms).
  induction ms as [|[m v] ms IH]; [split; constructor|]. rewrite Forall_cons_iff, <- IH. reflexivity.
Qed.

Fixpoint tvalue_rect' (Q : tvalue -> Prop) (H1 : forall id n a l, Q (VPtr id n a l)) (H2 : forall z l, Q (VInt z l)) (H3 : forall z l, Q (VFloat z l)) (H4 : forall z l, Q (VChar z l))
  (H5 : forall name n ms l, Forall (fun m => Q (snd m)) ms -> Q (VStruct name n ms l)) (H6 : forall id n a vs l, Forall Q vs -> Q (VArr id n a vs l)) (v : tvalue) : Q v :=
  match v with
  | VPtr id n a l => H1 id n a l | VInt z l => H2 z l | VFloat z l => H3 z l | VChar z l => H4 z l
  | VStruct name n ms l => H5 name n ms l ((fix all l := match l return Forall (fun m => Q (snd m)) l with [] => Forall_nil _ | m :: l' => Forall_cons m (tvalue_rect' Q H1 H2 H3 H4 H5 H6 (snd m)) (all l') end) ms)
  | VArr id n a vs l => H6 id n a vs l ((fix all l := match l return Forall Q l with [] => Forall_nil _ | m :: l' => Forall_cons m (tvalue_rect' Q H1 H2 H3 H4 H5 H6 m) (all l') end) vs)
  end.

Lemma value_only : forall P src c s, seen (cl_setup s) (cl_native s) c -> forall v, addressed v ->
  match value_text P src v s with Done t s' => s' = s /\ shown_as src (cell (cl_setup s) c) (fr_ops P) v t | Failed s' => kept s s' | _ => True end.
Proof.
  intros P src c s Sn. induction v as [id n a l|z l|z l|z l|name n ms l IH|id n a vs l IH] using tvalue_rect'; intros Ad.
  - cbn [value_text]. pose proof (string_only c s (fr_fuel P) a Sn Ad) as Q.
    destruct (get_type src id) as [[[] k| | |]|] eqn:G; try (split; [reflexivity|apply sh_ptr; intros k'; rewrite G; discriminate]).
    unfold then_. destruct (memory_string (fr_fuel P) a s) as [t s'|s'| |]; auto. destruct Q as [-> Q]. split; [reflexivity|]. now apply (sh_string _ _ _ id n a l k).
  - split; [reflexivity|constructor].
  - split; [reflexivity|constructor].
  - split; [reflexivity|constructor].
  - apply addressed_struct in Ad. rewrite struct_text. assert (X : match member_texts P src ms s with Done ts s' => s' = s /\ members_shown src (cell (cl_setup s) c) (fr_ops P) ms ts | Failed s' => kept s s' | _ => True end).
    { induction ms as [|[m v] ms IHm]; [split; [reflexivity|constructor]|]. inversion IH as [|? ? I1 I2]; subst. inversion Ad as [|? ? A1 A2]; subst. cbn [member_texts snd] in *. unfold then_ at 1.
      specialize (I1 A1). specialize (IHm I2 A2). destruct (value_text P src v s) as [t s1|s1| |]; auto. destruct I1 as [-> I1]. unfold then_. destruct (member_texts P src ms s) as [ts s2|s2| |]; auto.
      destruct IHm as [-> IHm]. split; [reflexivity|now constructor]. }
    unfold then_. destruct (member_texts P src ms s) as [ts s2|s2| |]; auto. destruct X as [-> X]. split; [reflexivity|]. rewrite <- listing_ok. now constructor.
  - apply addressed_arr in Ad. destruct Ad as [Aa Ad]. rewrite array_text. pose proof (string_only c s (fr_fuel P) a Sn Aa) as Q.
    assert (X : match all_texts P src vs s with Done ts s' => s' = s /\ all_shown src (cell (cl_setup s) c) (fr_ops P) vs ts | Failed s' => kept s s' | _ => True end).
    { clear Q. induction vs as [|v vs IHm]; [split; [reflexivity|constructor]|]. inversion IH as [|? ? I1 I2]; subst. inversion Ad as [|? ? A1 A2]; subst. cbn [all_texts]. unfold then_ at 1.
      specialize (I1 A1). specialize (IHm I2 A2). destruct (value_text P src v s) as [t s1|s1| |]; auto. destruct I1 as [-> I1]. unfold then_. destruct (all_texts P src vs s) as [ts s2|s2| |]; auto.
      destruct IHm as [-> IHm]. split; [reflexivity|now constructor]. }
    pose proof (ends_dec vs) as En.
    assert (Y : ~ ends_in_char vs -> match (let* l := all_texts P src vs in ret (str "[" ++ join l comma ++ str "]")) s with
      Done t s' => s' = s /\ shown_as src (cell (cl_setup s) c) (fr_ops P) (VArr id n a vs l) t | Failed s' => kept s s' | _ => True end).
    { intros Ne. unfold then_. destruct (all_texts P src vs s) as [ts s2|s2| |]; auto. destruct X as [-> X]. split; [reflexivity|]. rewrite <- listing_ok. now constructor. }
    destruct (last vs (VInt 0 None)); try (now apply Y). unfold then_. destruct (memory_string (fr_fuel P) a s) as [t s'|s'| |]; auto. destruct Q as [-> Q]. split; [reflexivity|]. now apply sh_chars.
Qed.

Lemma mput_from : forall A (m : list (text * A)) k v p, In p (tput m k v) -> p = (k, v) \/ In p m.
Proof.
  intros A m k v p. unfold tput. induction m as [|[k1 v1] m IH]; cbn [mput In]; [intros [<-|[]]; now left|].
  destruct (teqb k k1); [cbn [In]; intros [<-|I]; auto|]. match goal with |- context [if ?b then _ else _] => destruct b end; cbn [In]; [intros [<-|[<-|I]]; auto|]. intros [<-|I]; [auto|]. destruct (IH I); auto.
Qed.
Lemma mod_addr : forall x, 0 <= x mod 2 ^ 64 < 2 ^ 64.
Proof. intros. apply Z.mod_pos_bound. lia. Qed.
Lemma object_addressed : forall src reg mem,
  (forall t l v, object src reg mem t l v -> addressed v) /\ (forall id t a i xs, elements src reg mem id t a i xs -> Forall addressed xs) /\ (forall l ms vs, members src reg mem l ms vs -> Forall addressed vs).
Proof.
  intros src reg mem. apply (object_all src reg mem (fun t l v _ => addressed v) (fun id t a i xs _ => Forall addressed xs) (fun l ms vs _ => Forall addressed vs)); intros; auto; try exact I; try (now constructor).
  - apply mod_addr.
  - apply addressed_arr. split; [apply mod_addr|assumption].
  - apply addressed_struct. match goal with H : Forall addressed vs |- _ => revert H end. generalize (@Forall_nil (text * tvalue) (fun m => addressed (snd m))). generalize (@nil (text * tvalue)). clear. revert vs.
    induction ms as [|m ms IH]; intros vs acc Ha Hv; [destruct vs; exact Ha|]. destruct vs as [|v vs]; [exact Ha|]. cbn [by_name]. inversion Hv; subst. apply IH; [|assumption].
    destruct (tget acc (mb_name m)); [exact Ha|]. apply Forall_forall. intros [k x] I. apply mput_from in I. destruct I as [E|I]; [injection E as -> ->; assumption|]. rewrite Forall_forall in Ha. exact (Ha _ I).
Qed.
Lemma value_addressed : forall src ip reg mem F D values e v, Forall addressed values -> value src ip reg mem F D values e v -> addressed v.
Proof.
  intros src ip reg mem F D values e v Hv H. induction H as [z|z|z|i v E|n v H|op e x v H IH H1|op a b x y v A IA B IB H|a i id cnt first xs l x l' v A IA B IB H E|a i id s p l x l' n t v A IA B IB H1 H2 H3|e m name n ms l v H IH E|e m id s p l t name n ms l' v H IH H1 H2 E]; try exact I.
  - rewrite Forall_forall in Hv. eapply Hv, nth_error_In. exact E.
  - destruct H. eapply object_addressed; eassumption.
  - inversion H1; subst; try exact I. eapply object_addressed; eassumption.
  - inversion H; subst; try exact I; apply mod_addr.
  - apply addressed_arr in IA. destruct IA as [_ IA]. rewrite Forall_forall in IA. eapply IA, nth_error_In. exact E.
  - eapply object_addressed; eassumption.
  - apply addressed_struct in IH. apply (mget_in _ teqb_eq) in E. rewrite Forall_forall in IH. exact (IH _ E).
  - apply object_addressed in H2. apply addressed_struct in H2. apply (mget_in _ teqb_eq) in E. rewrite Forall_forall in H2. exact (H2 _ E).
Qed.

(** ---- C100 ---- *)

Definition expression_line (l : text) (ws : list text) : Prop :=
  ws <> [] /\ exists w, typed l (w :: ws) /\ (stands_for command_names w "expression" \/ stands_for command_names w "print").

Lemma expression_dispatch : forall l ws s, expression_line l ws -> cl_active s = true ->
  exists x y, join ws [SPACE] = x :: y /\ forall P, command_line P l s = catching (handle_expression P (x :: y)) (put Err) s.
Proof.
  intros l ws s (Hn & w & Ht & H) A. destruct (typed_squash _ _ Ht) as [Es Hws]. inversion Hws as [|? ? Hw Hm]; subst.
  destruct (join ws [SPACE]) as [|x y] eqn:J; [exfalso; destruct ws as [|v ws]; [congruence|]; inversion Hm as [|? ? Hv _]; subst; pose proof (word_nil _ Hv) as X; destruct v; [contradiction|]; discriminate J|].
  exists x, y. split; [reflexivity|]. intros P'. unfold command_line. rewrite Es. destruct (join (w :: ws) [SPACE]) as [|x' y'] eqn:J'.
  { exfalso. pose proof (word_nil _ Hw) as X. destruct w; [contradiction|]. destruct ws; discriminate J'. }
  rewrite <- J', <- J. unfold catching. destruct H as [H|H]; handled P' H w ws Hw; now rewrite E by exact A.
Qed.

Section Expression.
Variable s : cli.
Variable c : cpu.
Variable ip : Z.
Hypothesis A : cl_active s = true.
Hypothesis Sn : seen (cl_setup s) (cl_native s) c.
Hypothesis Hip : get_lreg c (LR PC) = Some ip.
Hypothesis Pl : plain (cl_source s).
Variable D : dops.
Notation val := (value (cl_source s) (u64 ip) (reg_named c) (cell (cl_setup s) c) (e_fops (u_env (cl_setup s))) D (cl_values s)).
Notation appears := (shown_as (cl_source s) (cell (cl_setup s) c) D).

(** C100. An expression that has a value (C72) which can be shown: one line is printed, with
    the type of the value, the number by which it can be used later and the value. The value
    is kept under that number, and nothing else changes. *)
Theorem C100_displayed : forall l ws ts e v T t, expression_line l ws -> tokens (u_stod (cl_setup s)) (join ws [SPACE]) ts -> derives false 0 ts e -> ~ In (TOp KAssign) ts ->
  val e v -> kind_shown (cl_source s) v T -> appears v t ->
  exists k0, forall P, fr_ops P = D -> (k0 <= fr_fuel P)%nat ->
    command_line P l s = Done tt (cset_out (cset_values s (cl_values s ++ [v])) (cl_out s ++ [value_line T (length (cl_values s)) t])).
Proof.
  intros l ws ts e v T t Hl Tk Dv Na V K S. destruct (proj1 (C72_text (cl_setup s) D (cl_native s) c Sn (cl_source s) ip Hip Pl (cl_values s) _ ts e v Tk Dv Na) V) as (k1 & E1).
  set (s1 := cset_values s (cl_values s ++ [v])). assert (Sn1 : seen (cl_setup s1) (cl_native s1) c) by exact Sn.
  destruct (proj1 (value_shown (cl_source s) _ _ c D Sn1) v t S) as (k2 & E2). exists (Nat.max k1 k2). intros P Q L.
  destruct (expression_dispatch l ws s Hl A) as (x & y & J & ->). unfold catching, handle_expression. rewrite <- J. unfold then_ at 1, here. unfold then_ at 1, lib, evaluate_keep. unfold then_ at 1. rewrite Q, E1 by lia.
  unfold ret. unfold then_ at 1, Cli.change. rewrite same_native. fold s1. unfold then_ at 1. rewrite (proj1 (kind_shown_ok (cl_source s) v T s1) K). unfold then_ at 1. rewrite E2 by (auto; lia). reflexivity.
Qed.

(** Whatever is printed for an expression is its value; or there is an error message. *)
Theorem C100_only : forall P l ws ts e s1, fr_ops P = D -> expression_line l ws -> tokens (u_stod (cl_setup s)) (join ws [SPACE]) ts -> derives false 0 ts e -> ~ In (TOp KAssign) ts ->
  Forall addressed (cl_values s) -> command_line P l s = Done tt s1 ->
  (exists v T t, val e v /\ kind_shown (cl_source s) v T /\ appears v t /\ s1 = cset_out (cset_values s (cl_values s ++ [v])) (cl_out s ++ [value_line T (length (cl_values s)) t])) \/
  (exists vs, (vs = cl_values s \/ exists v, val e v /\ vs = cl_values s ++ [v]) /\ cl_values s1 = vs /\ cl_out s1 = cl_out s ++ [Err] /\ (cl_native s1 = cl_native s \/ cl_native s1 = lost (cl_native s))).
Proof.
  intros P l ws ts e s1 Q Hl Tk Dv Na Av E. destruct (expression_dispatch l ws s Hl A) as (x & y & J & G). rewrite G in E. clear G. unfold catching, handle_expression in E. rewrite <- J in E.
  unfold then_ at 1, here in E. unfold then_ at 1, lib, evaluate_keep in E. unfold then_ at 1 in E.
  pose proof (C37_whole _ _ _ _ Tk Dv) as W. pose proof (derives_assign _ _ _ _ Dv Na) as NA.
  assert (Ev : evaluate (cl_setup s) (fr_ops P) (fr_fuel P) (cl_source s) (cl_values s) (join ws [SPACE]) (cl_native s) = eval (cl_setup s) D (fr_fuel P) (cl_source s) (cl_values s) e (cl_native s)).
  { rewrite Q, evaluate_parse, W. unfold parse in W. destruct (new_parser (u_stod (cl_setup s)) (join ws [SPACE])); [|discriminate]. unfold then_. now rewrite (get_ip_done (cl_setup s) (cl_native s) c Sn ip Hip). }
  rewrite Ev in E. clear Ev. pose proof (quiet_eval (cl_setup s) D (cl_native s) c Sn (cl_source s) (fr_fuel P) (cl_values s) e NA) as Qu. unfold quiet in Qu.
  destruct (eval (cl_setup s) D (fr_fuel P) (cl_source s) (cl_values s) e (cl_native s)) as [v N1|N1| |] eqn:Ee; try discriminate.
  - subst N1. destruct (C72_shown_is_value (cl_setup s) D (cl_native s) c Sn (cl_source s) ip Hip Pl (cl_values s) _ e v _ NA Ee) as [V _].
    unfold ret in E. unfold then_ at 1, Cli.change in E. rewrite same_native in E. set (s2 := cset_values s (cl_values s ++ [v])) in *. unfold then_ at 1 in E.
    destruct (kind_text (cl_source s) v s2) as [[T Et]|Et]; rewrite Et in E; [|discriminate].
      apply kind_shown_ok in Et. unfold then_ at 1 in E. pose proof (value_only P (cl_source s) c s2 Sn v (value_addressed _ _ _ _ _ _ _ _ _ Av V)) as O.
      destruct (value_text P (cl_source s) v s2) as [t s4|s4| |] eqn:Ex; try discriminate.
      * left. destruct O as [-> O]. exists v, T, t. split; [exact V|]. split; [exact Et|]. split; [rewrite <- Q; exact O|]. unfold say, put, Cli.change in E. injection E as <-. reflexivity.
      * right. unfold put, Cli.change in E. injection E as <-. exists (cl_values s ++ [v]). split; [right; now exists v|]. destruct O as [-> | ->]; (split; [reflexivity|split; [reflexivity|]]); [now left|now right].
  - right. unfold put, Cli.change in E. injection E as <-. exists (cl_values s). split; [now left|]. destruct Qu as [-> | ->]; (split; [reflexivity|split; [reflexivity|]]); [now left|now right].
Qed.
End Expression.

(** C100, for an assignment (C73): what is displayed is the object after it. *)
Lemma shown_ext : forall src D m1 m2, (forall a, m1 a = m2 a) -> (forall v t, shown_as src m1 D v t -> shown_as src m2 D v t) /\
  (forall l ts, all_shown src m1 D l ts -> all_shown src m2 D l ts) /\ (forall l ts, members_shown src m1 D l ts -> members_shown src m2 D l ts).
Proof.
  intros src D m1 m2 E. assert (G : forall a t, string_at m1 a t -> string_at m2 a t).
  { induction 1 as [a z H Z0|a z t H Z0 H1 IH]; [apply (sa_end m2 a z)|apply (sa_char m2 a z)]; auto; now rewrite <- E. }
  apply shown_ind3; intros; try (constructor; auto; fail). eapply sh_string; eauto.
Qed.
Lemma cells_after : forall U N c ws N' c' r, Forall (fun w => writable U c (fst w)) ws -> N' = set_link N (stopped r c') -> seen U N' c' ->
  sees c' (reg_after ws (get_lreg c)) (mem_after ws (ram_get (c_ram c))) (c_prog c) (c_dbg c) -> forall a, mem_after ws (cell U c) a = cell U c' a.
Proof.
  intros U N c ws N' c' r W -> Sn S a. destruct S as [_ S _ _]. unfold cell at 2. rewrite S. clear S Sn.
  assert (G : forall f g, (forall b, f b = if (0 <=? b) && (b <? u_data U) then g b else None) -> mem_after ws f a = if (0 <=? a) && (a <? u_data U) then mem_after ws g a else None).
  { induction W as [|[[n|b] v] ws Hw W IH]; intros f g E; [apply E| |].
    - unfold mem_after in *. cbn [fold_left fst snd]. now apply IH.
    - unfold mem_after in *. cbn [fold_left fst snd]. apply IH. intros d. cbn [fst writable] in Hw. destruct (Z.eqb_spec d b) as [->|]; [|apply E].
      destruct (Z.leb_spec 0 b), (Z.ltb_spec b (u_data U)); try lia. reflexivity. }
  apply G. reflexivity.
Qed.

Theorem C100_assigned : forall s c ip D l ws ts a b x y wr v T t, cl_active s = true -> seen (cl_setup s) (cl_native s) c -> get_lreg c (LR PC) = Some ip -> plain (cl_source s) ->
  expression_line l ws -> tokens (u_stod (cl_setup s)) (join ws [SPACE]) ts -> derives false 0 ts (EBin a BAssign b) ->
  value (cl_source s) (u64 ip) (reg_named c) (cell (cl_setup s) c) (e_fops (u_env (cl_setup s))) D (cl_values s) a x ->
  value (cl_source s) (u64 ip) (reg_named c) (cell (cl_setup s) c) (e_fops (u_env (cl_setup s))) D (cl_values s) b y ->
  stores x y wr v -> all_known (cl_setup s) c -> Forall (fun w => writable (cl_setup s) c (fst w)) wr ->
  kind_shown (cl_source s) v T -> shown_as (cl_source s) (mem_after wr (cell (cl_setup s) c)) D v t ->
  exists N', written (cl_setup s) (cl_native s) c wr N' /\ exists k0, forall P, fr_ops P = D -> (k0 <= fr_fuel P)%nat ->
    command_line P l s = Done tt (cset_out (cset_values (cset_native s N') (cl_values s ++ [v])) (cl_out s ++ [value_line T (length (cl_values s)) t])).
Proof.
  intros s c ip D l ws ts a b x y wr v T t A Sn Hip Pl Hl Tk Dv Va Vb St Kn W K S.
  destruct (C73_text (cl_setup s) D (cl_native s) c Sn (cl_source s) ip Hip Pl (cl_values s) _ ts a b x y wr v Tk Dv Va Vb St Kn W) as (N' & Wr & k1 & E1).
  exists N'. split; [exact Wr|]. destruct Wr as (r & c' & _ & EN & Sn' & _ & Se). pose proof (cells_after _ _ _ _ _ _ _ W EN Sn' Se) as Ce.
  set (s1 := cset_values (cset_native s N') (cl_values s ++ [v])). assert (Sn1 : seen (cl_setup s1) (cl_native s1) c') by exact Sn'.
  apply (proj1 (shown_ext _ _ _ _ Ce)) in S. destruct (proj1 (value_shown (cl_source s) _ _ c' D Sn1) v t S) as (k2 & E2). exists (Nat.max k1 k2). intros P Q L.
  destruct (expression_dispatch l ws s Hl A) as (h & y' & J & ->). unfold catching, handle_expression. rewrite <- J. unfold then_ at 1, here. unfold then_ at 1, lib, evaluate_keep. unfold then_ at 1. rewrite Q, E1 by lia.
  unfold ret. unfold then_ at 1, Cli.change. change (cset_values (cset_native s N') (cl_values s ++ [v])) with s1. unfold then_ at 1. rewrite (proj1 (kind_shown_ok (cl_source s) v T s1) K).
  unfold then_ at 1. rewrite E2 by (auto; lia). reflexivity.
Qed.

(** ---- C101 ---- *)

Lemma tltb_trans : forall a b c, tltb a b = true -> tltb b c = true -> tltb a c = true.
Proof.
  induction a as [|x a IH]; intros [|y b] [|z c] H1 H2; try discriminate; try reflexivity. cbn [tltb] in *.
  destruct (Ascii.eqb x y) eqn:E1, (Ascii.eqb y z) eqn:E2; rewrite ?Ascii.eqb_eq, ?Ascii.eqb_neq in *.
  - subst. rewrite Ascii.eqb_refl. now apply (IH b).
  - subst. apply Ascii.eqb_neq in E2. now rewrite E2.
  - subst. apply Ascii.eqb_neq in E1. now rewrite E1.
  - apply N.ltb_lt in H1, H2. destruct (Ascii.eqb_spec x z) as [->|]; [lia|]. apply N.ltb_lt. lia.
Qed.
Lemma tltb_total : forall a b, teqb a b = false -> tltb a b = false -> tltb b a = true.
Proof.
  induction a as [|x a IH]; intros [|y b] H1 H2; try discriminate; try reflexivity. cbn [tltb teqb] in *.
  rewrite (Ascii.eqb_sym y x). destruct (Ascii.eqb_spec x y) as [->|N1]; [now apply IH|]. apply N.ltb_lt. apply N.ltb_ge in H2.
  assert (N_of_ascii x <> N_of_ascii y) by (intros E; apply (f_equal ascii_of_N) in E; rewrite !ascii_N_embedding in E; contradiction). lia.
Qed.
Lemma tltb_irrefl : forall a, tltb a a = false.
Proof. induction a as [|x a IH]; [reflexivity|]. cbn [tltb]. now rewrite Ascii.eqb_refl. Qed.
(** Names in the order of their characters. *)
Definition in_order (l : list text) : Prop := StronglySorted (fun a b => tltb a b = true) l.
Lemma order_put : forall A (m : list (text * A)) k v, in_order (map fst m) -> in_order (map fst (tput m k v)).
Proof.
  unfold in_order. induction m as [|[k' v'] m IH]; intros k v H; cbn [mput map fst]; [repeat constructor|]. cbn [map fst] in H. apply StronglySorted_inv in H. destruct H as [H1 H2].
  destruct (teqb k k') eqn:E; [apply teqb_eq in E; subst; cbn [map fst]; now constructor|]. destruct (tltb k k') eqn:T; cbn [map fst].
  - constructor; [now constructor|]. constructor; [exact T|]. eapply Forall_impl; [|exact H2]. intros b. now apply tltb_trans.
  - constructor; [now apply IH|]. apply Forall_forall. intros x I. apply (mput_keys _ _ teqb_eq) in I. destruct I as [->|I]; [now apply tltb_total|]. rewrite Forall_forall in H2. now apply H2.
Qed.
Lemma order_puts : forall l m, in_order (map fst m) -> in_order (map fst (puts l m)).
Proof. induction l as [|x l IH]; intros m H; [exact H|]. unfold puts. cbn [fold_left]. apply IH. now apply order_put. Qed.
Lemma puts_from : forall l n v, In (n, v) (puts l []) -> In (n, v) l.
Proof.
  assert (G : forall l m n v, In (n, v) (puts l m) -> In (n, v) l \/ In (n, v) m).
  { induction l as [|[k x] l IH]; intros m n v I; [now right|]. unfold puts in I. cbn [fold_left] in I. apply IH in I. destruct I as [I|I]; [left; now right|].
    apply mput_from in I. destruct I as [I|I]; [|now right]. left. left. now symmetry. }
  intros l n v I. destruct (G _ _ _ _ I) as [H|[]]; exact H.
Qed.
Lemma in_order_same : forall l l', in_order l -> in_order l' -> (forall x, In x l <-> In x l') -> l = l'.
Proof.
  unfold in_order. induction l as [|x l IH]; intros l' H H' E; [destruct l' as [|y l']; [reflexivity|exfalso; apply (E y); now left]|].
  destruct l' as [|y l']; [exfalso; apply (E x); now left|]. apply StronglySorted_inv in H, H'. destruct H as [H1 H2], H' as [H1' H2']. rewrite Forall_forall in H2, H2'.
  assert (x = y).
  { destruct (proj1 (E x) (or_introl eq_refl)) as [Q|Q]; [now symmetry|]. destruct (proj2 (E y) (or_introl eq_refl)) as [Q'|Q']; [exact Q'|].
    pose proof (tltb_trans _ _ _ (H2' _ Q) (H2 _ Q')) as X. rewrite tltb_irrefl in X. discriminate. }
  subst y. f_equal. apply IH; auto. intros z. specialize (E z). cbn [In] in E. split; intros Hz.
  - destruct (proj1 E (or_intror Hz)) as [->|]; [|assumption]. pose proof (H2 _ Hz) as X. rewrite tltb_irrefl in X. discriminate.
  - destruct (proj2 E (or_intror Hz)) as [->|]; [|assumption]. pose proof (H2' _ Hz) as X. rewrite tltb_irrefl in X. discriminate.
Qed.

Lemma each_app : forall S A (f : A -> act S unit) a b s, each f (a ++ b) s = (each f a;; each f b) s.
Proof.
  intros S A f. induction a as [|x a IH]; intros b s; [reflexivity|]. cbn [each app]. unfold then_. destruct (f x s) as [[] s1|s1| |]; try reflexivity. rewrite IH. reflexivity.
Qed.

Section Frame.
Variable s : cli.
Variable c : cpu.
Variable ip : Z.
Hypothesis A : cl_active s = true.
Hypothesis R : cl_running s = true.
Hypothesis Sn : seen (cl_setup s) (cl_native s) c.
Hypothesis Hip : get_lreg c (LR PC) = Some ip.
Hypothesis Pl : plain (cl_source s).
Variable D : dops.
Notation src := (cl_source s).
Notation val := (value src (u64 ip) (reg_named c) (cell (cl_setup s) c) (e_fops (u_env (cl_setup s))) D (cl_values s)).
Notation appears := (shown_as src (cell (cl_setup s) c) D).

(** What is printed for a variable: its declared type, its name and its value, or nothing
    if the name cannot be evaluated as an expression. *)
Inductive variable_shown (n : text) : list shown -> Prop :=
| vs_shown : forall d id y T v t, variable_die src (u64 ip) n = Some d -> at_type d = Some id -> get_type src id = Some y -> type_shown src y T ->
    val (EId n) v -> appears v t -> variable_shown n [variable_line T n t]
| vs_nothing : forall k0, (forall k, (k0 <= k)%nat -> evaluate (cl_setup s) D k src (cl_values s) n (cl_native s) = Failed (cl_native s)) -> variable_shown n [].

Lemma print_variable_ok : forall n o, tokens (u_stod (cl_setup s)) n [TId n] -> variable_shown n o -> exists k0, forall P t, fr_ops P = D -> (k0 <= fr_fuel P)%nat ->
  print_variable P src n (cset_out s (cl_out s ++ t)) = Done tt (cset_out s (cl_out s ++ t ++ o)).
Proof.
  intros n o Tk H. destruct H as [d id y T v x H1 H2 H3 H4 V S|k0 H].
  - assert (Dv : derives false 0 [TId n] (EId n)) by (do 10 (apply d_up; [lia|]); constructor).
    destruct (proj1 (C72_text (cl_setup s) D (cl_native s) c Sn src ip Hip Pl (cl_values s) n [TId n] (EId n) v Tk Dv ltac:(cbn; intuition discriminate)) V) as (k1 & E1).
    pose proof (proj1 (value_shown src _ _ c D Sn) v x S) as E2.
    destruct E2 as (k2 & E2). exists (Nat.max k1 k2). intros P t Q L. unfold print_variable, catching. unfold then_ at 1, here. unfold then_ at 1, lib. cbn [cset_out cl_setup cl_native cl_values]. rewrite Q, E1 by lia.
    change (cset_native (cset_out s (cl_out s ++ t)) (cl_native s)) with (cset_native (cset_out s (cl_out s ++ t)) (cl_native (cset_out s (cl_out s ++ t)))). rewrite same_native. unfold then_ at 1. rewrite E2 by (auto; lia).
    unfold then_ at 1. unfold variable_type at 1. cbn [cset_out cl_setup cl_native].
    assert (Sd : so_die src <> None) by (unfold variable_die, active_variables in H1; destruct (so_die src); [discriminate|discriminate H1]). destruct (so_die src) as [d0|]; [|congruence].
    unfold then_ at 1. rewrite (get_ip_done (cl_setup s) (cl_native s) c Sn ip Hip), H1, H2, H3. unfold ret at 1. unfold then_ at 1, type_text. apply type_shown_ok in H4. rewrite H4. cbn [opt_or]. unfold ret. unfold say, put, Cli.change.
    f_equal. unfold cset_out, cset_native. cbn. now rewrite <- app_assoc.
  - exists k0. intros P t Q L. unfold print_variable, catching. unfold then_ at 1, here. unfold then_ at 1, lib. cbn [cset_out cl_setup cl_native cl_values]. rewrite Q, H by exact L. cbn. unfold ret. rewrite app_nil_r. now destruct s.
Qed.

Lemma print_all_ok : forall names os, Forall (fun n => tokens (u_stod (cl_setup s)) n [TId n]) names -> Forall2 variable_shown names os ->
  exists k0, forall P t, fr_ops P = D -> (k0 <= fr_fuel P)%nat ->
  each (print_variable P src) names (cset_out s (cl_out s ++ t)) = Done tt (cset_out s (cl_out s ++ t ++ concat os)).
Proof.
  intros names os Hf H. induction H as [|n o names os H1 H2 IH].
  - exists 0%nat. intros P t _ _. cbn [each concat]. now rewrite app_nil_r.
  - inversion Hf as [|? ? Hn Hf']; subst. destruct (IH Hf') as (k1 & E1). destruct (print_variable_ok n o Hn H1) as (k2 & E2).
    exists (Nat.max k1 k2). intros P t Q L. cbn [each]. unfold then_. rewrite E2 by (auto; lia). rewrite E1 by (auto; lia). cbn [concat]. now rewrite <- !app_assoc.
Qed.

Lemma active_names : forall names, in_order names -> (forall n, In n names <-> exists d k v, so_die src = Some d /\ declares (u64 ip) k d n v) ->
  map fst (active_variables src (u64 ip)) = names.
Proof.
  intros names O H. apply in_order_same; [|exact O|].
  - unfold active_variables. destruct (so_die src); [|constructor]. rewrite find_visit. apply order_puts. constructor.
  - intros n. rewrite H. split.
    + intros I. apply in_map_iff in I. destruct I as ([n' v] & <- & I). unfold active_variables in I. destruct (so_die src) as [d|]; [|contradiction].
      rewrite find_visit in I. exists d. apply puts_from in I. apply visit_declares in I. destruct I as (k & I). exists k, v. now split.
    + intros (d & k & v & E & I). pose proof (C35_complete _ _ _ _ _ _ E I) as X. unfold variable_die in X. destruct (tget _ n) as [v'|] eqn:G; [|congruence].
      apply (mget_in teqb teqb_eq) in G. change n with (fst (n, v')). now apply in_map.
Qed.

(** C101. `frame`: the function that is executed, where it is, and a line for each variable
    that is in scope at the instruction pointer, in the order of the names. *)
Theorem C101_frame : forall l w more f b e names os, typed l (w :: more) -> stands_for command_names w "frame" ->
  function_name src (u64 ip) = Some f -> function_addr src f = Some (b, e) ->
  in_order names -> (forall n, In n names <-> exists d k v, so_die src = Some d /\ declares (u64 ip) k d n v) ->
  Forall (fun n => tokens (u_stod (cl_setup s)) n [TId n]) names -> Forall2 variable_shown names os ->
  exists k0, forall P, fr_ops P = D -> (k0 <= fr_fuel P)%nat ->
  command_line P l s = Done tt (cset_out s (cl_out s ++ [Say Plain (str "function "); Say DarkGreen f; Say Plain (str " at " ++ show_Z b ++ str "-" ++ show_Z e ++ [NL])] ++ concat os)).
Proof.
  intros l w more f b e names os Ht H F B O Hn Hk Hs. destruct (print_all_ok names os Hk Hs) as (k0 & E0). exists k0. intros P Q L.
  destruct (typed_squash _ _ Ht) as [Es Hws]. inversion Hws as [|? ? Hw Hm]; subst.
  unfold command_line. rewrite Es. destruct (join (w :: more) [SPACE]) as [|x' y'] eqn:J'.
  { exfalso. pose proof (word_nil _ Hw) as X. destruct w; [contradiction|]. destruct more; discriminate J'. }
  rewrite <- J'. unfold catching. handled P H w more Hw. rewrite E by exact A. unfold handle_frame, running. unfold then_ at 1. unfold then_ at 1, here. rewrite R. unfold when, ret. cbn [negb].
  unfold then_ at 1, lib. rewrite (get_ip_done (cl_setup s) (cl_native s) c Sn ip Hip). rewrite same_native.
  unfold print_function. unfold then_ at 1, here. rewrite F, B, (active_names names O Hn). unfold then_ at 1, say at 1, put at 1, Cli.change at 1. unfold then_ at 1, put at 1, Cli.change at 1. unfold then_ at 1, say at 1, put at 1, Cli.change at 1.
  unfold when. cbn [cset_out cl_out]. 
  match goal with |- context [each _ _ ?st] => replace st with (cset_out s (cl_out s ++ [Say Plain (str "function "); Say DarkGreen f; Say Plain (str " at " ++ show_Z b ++ str "-" ++ show_Z e ++ [NL])])) end.
  - rewrite E0 by assumption. reflexivity.
  - unfold cset_out. cbn. now rewrite <- !app_assoc.
Qed.

(** C102. What `frame` should do: show the variables it can show. A variable of the type
    unsigned ends the debugger instead, wherever it is and whatever its value; the
    variables before it in the order of the names have been printed. *)
Theorem C102_unsigned_refuted : forall l w more f b e before n after os d id m ops lc x, typed l (w :: more) -> stands_for command_names w "frame" ->
  function_name src (u64 ip) = Some f -> function_addr src f = Some (b, e) ->
  in_order (before ++ n :: after) -> (forall n', In n' (before ++ n :: after) <-> exists d k v, so_die src = Some d /\ declares (u64 ip) k d n' v) ->
  Forall (fun n => tokens (u_stod (cl_setup s)) n [TId n]) (before ++ [n]) -> Forall2 variable_shown before os ->
  variable_die src (u64 ip) n = Some d -> at_type d = Some id -> get_type src id = Some (TyPrim PrUnsigned m) ->
  at_loc d = Some ops -> locates (reg_named c) (cell (cl_setup s) c) ops lc -> word_at (reg_named c) (cell (cl_setup s) c) lc x ->
  exists k0, forall P, fr_ops P = D -> (k0 <= fr_fuel P)%nat -> command_line P l s = Dead.
Proof.
  intros l w more f b e before n after os d id m ops lc x Ht H F B O Hn Hk Hs V AT GT AL L W.
  apply Forall_app in Hk. destruct Hk as [Hk Hk']. inversion Hk' as [|? ? Tk _]; subst.
  destruct (print_all_ok before os Hk Hs) as (k0 & E0). exists (Datatypes.S k0). intros P Q Lk.
  destruct (typed_squash _ _ Ht) as [Es Hws]. inversion Hws as [|? ? Hw Hm]; subst.
  unfold command_line. rewrite Es. destruct (join (w :: more) [SPACE]) as [|x' y'] eqn:J'.
  { exfalso. pose proof (word_nil _ Hw) as X. destruct w; [contradiction|]. destruct more; discriminate J'. }
  rewrite <- J'. unfold catching. handled P H w more Hw. rewrite E by exact A. unfold handle_frame, running. unfold then_ at 1. unfold then_ at 1, here. rewrite R. unfold when, ret. cbn [negb].
  unfold then_ at 1, lib. rewrite (get_ip_done (cl_setup s) (cl_native s) c Sn ip Hip). rewrite same_native.
  unfold print_function. unfold then_ at 1, here. rewrite F, B, (active_names _ O Hn). unfold then_ at 1, say at 1, put at 1, Cli.change at 1. unfold then_ at 1, put at 1, Cli.change at 1. unfold then_ at 1, say at 1, put at 1, Cli.change at 1.
  unfold when. cbn [cset_out cl_out].
  match goal with |- context [each _ _ ?st] => replace st with (cset_out s (cl_out s ++ [Say Plain (str "function "); Say DarkGreen f; Say Plain (str " at " ++ show_Z b ++ str "-" ++ show_Z e ++ [NL])]))
    by (unfold cset_out; cbn; now rewrite <- !app_assoc) end.
  rewrite each_app. unfold then_ at 1. rewrite E0 by (auto; lia). cbn [each]. unfold then_ at 1.
  match goal with |- context [print_variable P src n ?st] => assert (Dd : print_variable P src n st = Dead) end; [|now rewrite Dd].
  assert (Dv : derives false 0 [TId n] (EId n)) by (do 10 (apply d_up; [lia|]); constructor).
  unfold print_variable, catching. unfold then_ at 1, here. unfold then_ at 1, lib. cbn [cset_out cl_setup cl_native cl_values].
  pose proof (C37_whole _ _ _ _ Tk Dv) as Ep. rewrite evaluate_parse, Ep. unfold parse in Ep. destruct (new_parser (u_stod (cl_setup s)) n); [|discriminate].
  unfold then_ at 1. rewrite (get_ip_done (cl_setup s) (cl_native s) c Sn ip Hip).
  destruct (Pl _ _ _ _ V AL) as [ND Pu]. pose proof (locates_fit _ _ _ _ L Pu ND) as Fl.
  assert (SD : exists dd, so_die src = Some dd) by (unfold variable_die, active_variables in V; destruct (so_die src); [eauto|discriminate]). destruct SD as [dd SD].
  apply (C36_locates (cl_setup s) (cl_native s) c Sn) in L; [|exact ND]. cbn [eval].
  unfold variable_type. rewrite SD. unfold then_ at 1. unfold then_ at 1. rewrite (get_ip_done (cl_setup s) (cl_native s) c Sn ip Hip), V, AT, GT. unfold ret at 1.
  unfold variable_location. rewrite SD. unfold then_ at 1. unfold then_ at 1. rewrite (get_ip_done (cl_setup s) (cl_native s) c Sn ip Hip), V, AL. destruct ops as [|o ops]; [discriminate|]. unfold then_ at 1. rewrite L. unfold ret at 1.
  destruct (fr_fuel P) as [|k]; [lia|]. cbn [eval_type]. unfold then_ at 1. apply (raw_done _ _ _ Sn _ _ Fl) in W. now rewrite W.
Qed.
End Frame.

(** C103. The characters displayed for an array of chars should be those of the array.
    They go on up to the next zero: here what lies after the array is displayed too. *)
Definition texts_of (zs : list Z) : text := concat (map escaped zs).
Lemma string_goes_on : forall mem zs a t, (forall i z, nth_error zs i = Some z -> mem (a + Z.of_nat i) = Some z /\ z mod 256 <> 0) ->
  string_at mem (a + Z.of_nat (length zs)) t -> string_at mem a (texts_of zs ++ t).
Proof.
  intros mem. induction zs as [|z zs IH]; intros a t H S.
  - cbn [length] in S. replace (a + Z.of_nat 0) with a in S by lia. exact S.
  - unfold texts_of. cbn [map concat]. rewrite <- app_assoc. destruct (H 0%nat z eq_refl) as [M Z0]. replace (a + Z.of_nat 0) with a in M by lia.
    apply sa_char; auto. apply IH.
    + intros i y E. specialize (H (Datatypes.S i) y E). replace (a + 1 + Z.of_nat i) with (a + Z.of_nat (Datatypes.S i)) by lia. exact H.
    + cbn [length] in S. replace (a + 1 + Z.of_nat (length zs)) with (a + Z.of_nat (Datatypes.S (length zs))) by lia. exact S.
Qed.
Theorem C103_past_the_end_refuted : forall s c ip D l ws ts e id n a vs lc zs t T, cl_active s = true -> seen (cl_setup s) (cl_native s) c -> get_lreg c (LR PC) = Some ip -> plain (cl_source s) ->
  expression_line l ws -> tokens (u_stod (cl_setup s)) (join ws [SPACE]) ts -> derives false 0 ts e -> ~ In (TOp KAssign) ts ->
  value (cl_source s) (u64 ip) (reg_named c) (cell (cl_setup s) c) (e_fops (u_env (cl_setup s))) D (cl_values s) e (VArr id n a vs lc) ->
  ends_in_char vs -> length zs = length vs -> (forall i z, nth_error zs i = Some z -> cell (cl_setup s) c (a + Z.of_nat i) = Some z /\ z mod 256 <> 0) ->
  string_at (cell (cl_setup s) c) (a + Z.of_nat (length vs)) t -> kind_shown (cl_source s) (VArr id n a vs lc) T ->
  exists k0, forall P, fr_ops P = D -> (k0 <= fr_fuel P)%nat ->
    command_line P l s = Done tt (cset_out (cset_values s (cl_values s ++ [VArr id n a vs lc])) (cl_out s ++ [value_line T (length (cl_values s)) (show_Z a ++ str " " ++ in_quotes (texts_of zs ++ t))])).
Proof.
  intros s c ip D l ws ts e id n a vs lc zs t T A Sn Hip Pl Hl Tk Dv Na V E L H S K. eapply C100_displayed; eauto. apply sh_chars; [exact E|]. apply string_goes_on; [exact H|now rewrite L].
Qed.

(** ---- the hypotheses are met ---- *)

Definition info100 : text := str (".debug_info
DIE_compilation_unit: {
  DIE_primitive_type: { ATTR_name: int, ATTR_id: 0, ATTR_size: 1 },
  DIE_primitive_type: { ATTR_name: char, ATTR_id: 1, ATTR_size: 1 },
  DIE_primitive_type: { ATTR_name: unsigned, ATTR_id: 3, ATTR_size: 1 },
  DIE_pointer_type: { ATTR_type: 5, ATTR_id: 4, ATTR_size: 1 },
  DIE_structured_type: { ATTR_name: pair, ATTR_id: 5, ATTR_size: 2, ATTR_members: { 0: {0: a}, 1: {1: b} } },
  DIE_array_type: { ATTR_type: 5, ATTR_size: 2, ATTR_id: 6 },
  DIE_array_type: { ATTR_type: 1, ATTR_size: 1, ATTR_id: 7 },
  DIE_function: { ATTR_name: main, ATTR_begin_addr: 0, ATTR_end_addr: 9,
    DIE_variable: { ATTR_name: x, ATTR_type: 0, ATTR_location: `PUSH R1` },
    DIE_variable: { ATTR_name: ps, ATTR_type: 6, ATTR_location: [PUSH 0] },
    DIE_variable: { ATTR_name: p, ATTR_type: 4, ATTR_location: [BASE_REG_OFFSET -11] },
    DIE_variable: { ATTR_name: nowhere, ATTR_type: 0 },
    DIE_variable: { ATTR_name: cs, ATTR_type: 7, ATTR_location: [PUSH 0] }
  },
  DIE_function: { ATTR_name: other, ATTR_begin_addr: 9, ATTR_end_addr: 20, DIE_variable: { ATTR_name: y, ATTR_type: 0, ATTR_location: `PUSH R1` } }
}
").
Definition source_read (t : text) : source := match parse_info (fun _ => None) t with POk i => match source_of i with Some s => s | None => no_source end | PFail _ => no_source end.
Definition src100 : source := Eval vm_compute in source_read info100.
Example src100_read : forall stod, exists i, parse_info stod info100 = POk i /\ source_of i = Some src100.
Proof. intros stod. eexists. split; vm_compute; reflexivity. Qed.
Definition cli100 : cli := mkCli U1 native1 true src100 [VInt 4 None] true [] [Say Plain (str "hello")].
Definition plain_dies (l : list (text * die)) : bool :=
  forallb (fun x => match at_loc (snd x) with None => true | Some ops => forallb (fun o => match o with LDeref => false | LPush (LMem v) => (- 2 ^ 63 <=? v) && (v <? 2 ^ 63) | _ => true end) ops end) l.
Lemma plain_dies_ok : forall l x ops, plain_dies l = true -> In x l -> at_loc (snd x) = Some ops -> ~ In LDeref ops /\ forall v, In (LPush (LMem v)) ops -> fits v.
Proof.
  intros l x ops H I L. unfold plain_dies in H. rewrite forallb_forall in H. specialize (H x I). rewrite L in H. rewrite forallb_forall in H. split.
  - intros J. specialize (H _ J). discriminate.
  - intros v J. specialize (H _ J). cbn beta iota in H. apply andb_true_iff in H. unfold fits. lia.
Qed.
(** The declarations of a tree, wherever *)
Fixpoint every (d : die) : list (text * die) := match named_variable d with Some n => [(n, d)] | None => match d with Die _ _ ch => (fix all l := match l with [] => [] | x :: l' => every x ++ all l' end) ch end end.
Lemma every_eq : forall d, every d = match named_variable d with Some n => [(n, d)] | None => concat (map every (die_children d)) end.
Proof.
  intros [t at_ ch]. cbn [every die_children]. destruct (named_variable (Die t at_ ch)); [reflexivity|]. induction ch as [|x l IH]; [reflexivity|]. cbn [map concat]. now rewrite IH.
Qed.
Lemma declares_every : forall a k d n v, declares a k d n v -> In (n, v) (every d).
Proof.
  intros a k d n v H. induction H as [v n H|k d x n v N A I H IH]; rewrite every_eq.
  - apply named_variable_spec in H. rewrite H. now left.
  - apply no_variable in N. rewrite N. apply in_concat. exists (every x). split; [now apply in_map|exact IH].
Qed.
Lemma plain_tree : forall src, match so_die src with Some d => plain_dies (every d) | None => true end = true -> plain src.
Proof.
  intros src H a n d ops V L. destruct (C35_sound _ _ _ _ V) as (d0 & k & E & Dc). rewrite E in H. apply declares_every in Dc. exact (plain_dies_ok _ _ _ H Dc L).
Qed.
Lemma plain100 : plain src100.
Proof. apply plain_tree. vm_compute. reflexivity. Qed.
Notation val100 := (value src100 (u64 5) (reg_named cpu1) (cell U1 cpu1) (e_fops (u_env U1)) D1 [VInt 4 None]).
Ltac shows100 := eapply (C72_shown_is_value U1 D1 native1 cpu1 seen_case src100 5 ip_case plain100 [VInt 4 None] 9); [repeat split; discriminate|vm_compute; reflexivity].
Ltac lexed := repeat (eapply tokens_cons; [vm_compute; reflexivity|discriminate|]); eapply tokens_end; vm_compute; reflexivity.

(** `expression ps[0]` displays "(pair) $1 = { a = 7, b = '?' }" with the character 8. *)
Example C100_case : cl_active cli100 = true /\ seen (cl_setup cli100) (cl_native cli100) cpu1 /\ expression_line (str "exp ps[0]") [str "ps[0]"] /\
  tokens (u_stod U1) (str "ps[0]") [TId (str "ps"); TOp KLbracket; TNum 0; TOp KRbracket] /\ derives false 0 [TId (str "ps"); TOp KLbracket; TNum 0; TOp KRbracket] (EIndex (EId (str "ps")) (EInt 0)) /\
  exists v, val100 (EIndex (EId (str "ps")) (EInt 0)) v /\ kind_shown src100 v (str "pair") /\ shown_as src100 (cell U1 cpu1) D1 v (str "{ " ++ str "a = 7" ++ str ", " ++ (str "b = '" ++ [ascii_of_N 8] ++ str "'") ++ str " }").
Proof.
  split; [reflexivity|]. split; [exact seen_case|]. split.
  { split; [discriminate|]. exists (str "exp"). split; [typing [str "exp"; str "ps[0]"]|left; standing]. }
  split; [lexed|]. split; [do 9 (apply d_up; [lia|]); apply (d_index false [TId (str "ps")] _ [TNum 0] _); [do 1 (apply d_up; [lia|]); apply d_id|do 10 (apply d_up; [lia|]); apply d_num]|].
  eexists. split; [shows100|]. split; [constructor|].
  eapply (sh_struct src100 (cell U1 cpu1) D1 (str "pair") 2 [(str "a", VInt 7 (Some (LMem 0))); (str "b", VChar 8 (Some (LMem 1)))] (Some (LMem 0)) [str "a = 7"; str "b = '" ++ [ascii_of_N 8] ++ str "'"]).
  change (str "a = 7") with (str "a" ++ str " = " ++ show_Z 7). change (str "b = '" ++ [ascii_of_N 8] ++ str "'") with (str "b" ++ str " = " ++ str "'" ++ [letter 8] ++ str "'").
  repeat constructor.
Qed.

Definition shown100 : text := str "[{ a = 7, b = '" ++ [ascii_of_N 8] ++ str "' }, { a = 0, b = '" ++ [ascii_of_N 0] ++ str "' }]".
Lemma names_are : forall src a names, match so_die src with Some d => map fst (active_variables src a) = names | None => False end ->
  forall n, In n names <-> exists d k v, so_die src = Some d /\ declares a k d n v.
Proof.
  intros src a names H n. destruct (so_die src) as [d|] eqn:E; [|contradiction]. rewrite <- H. split.
  - intros I. apply in_map_iff in I. destruct I as ([n' v] & <- & I). unfold active_variables in I. rewrite E, find_visit in I. apply puts_from in I. apply visit_declares in I. destruct I as (k & I). exists d, k, v. now split.
  - intros (d' & k & v & E' & I). rewrite <- E in E'. pose proof (C35_complete _ _ _ _ _ _ E' I) as X. unfold variable_die in X. destruct (tget _ n) as [v'|] eqn:G; [|congruence].
    apply (mget_in teqb teqb_eq) in G. change n with (fst (n, v')). now apply in_map.
Qed.
Ltac sorted := repeat (constructor; [|repeat (constructor; [vm_compute; reflexivity|]); constructor]); constructor.
(** Of main's variables one has no location, and one is an array of chars. *)
Example C101_case : cl_running cli100 = true /\ typed (str "frame") [str "frame"] /\ function_name src100 (u64 5) = Some (str "main") /\ function_addr src100 (str "main") = Some (0, 9) /\
  in_order [str "cs"; str "nowhere"; str "p"; str "ps"; str "x"] /\
  (forall n, In n [str "cs"; str "nowhere"; str "p"; str "ps"; str "x"] <-> exists d k v, so_die src100 = Some d /\ declares (u64 5) k d n v) /\
  Forall (fun n => tokens (u_stod U1) n [TId n]) [str "cs"; str "nowhere"; str "p"; str "ps"; str "x"] /\
  Forall2 (variable_shown cli100 cpu1 5 D1) [str "cs"; str "nowhere"; str "p"; str "ps"; str "x"]
    [[variable_line (str "char[]") (str "cs") (str "0 """ ++ [ascii_of_N 7; ascii_of_N 8] ++ str """")]; []; [variable_line (str "pair*") (str "p") (str "6")];
     [variable_line (str "pair[]") (str "ps") shown100]; [variable_line (str "int") (str "x") (str "6")]].
Proof.
  split; [reflexivity|]. split; [typing [str "frame"]|]. split; [vm_compute; reflexivity|]. split; [vm_compute; reflexivity|]. split; [sorted|]. split; [apply names_are; vm_compute; reflexivity|].
  split; [repeat (constructor; [lexed|]); constructor|].
  constructor; [|constructor; [|constructor; [|constructor; [|constructor; [|constructor]]]]].
  - eapply vs_shown; [vm_compute; reflexivity|vm_compute; reflexivity|vm_compute; reflexivity| | |].
    + apply (ts_arr src100 1 1 (TyPrim PrChar 1) (str "char")); [reflexivity|constructor].
    + shows100.
    + change (str "0 """ ++ [ascii_of_N 7; ascii_of_N 8] ++ str """") with (show_Z 0 ++ str " " ++ in_quotes (escaped 7 ++ escaped 8 ++ [])). apply sh_chars; [now exists [], 7, (Some (LMem 0))|].
      apply sa_char; [vm_compute; reflexivity|discriminate|]. apply sa_char; [vm_compute; reflexivity|discriminate|]. eapply sa_end; [vm_compute; reflexivity|reflexivity].
  - apply (vs_nothing _ _ _ _ _ 0%nat). intros k _. vm_compute. reflexivity.
  - eapply vs_shown; [vm_compute; reflexivity|vm_compute; reflexivity|vm_compute; reflexivity| | |].
    + eapply (ts_ptr src100 5 1 _ (str "pair")); [vm_compute; reflexivity|constructor].
    + shows100.
    + apply (sh_ptr src100 (cell U1 cpu1) D1 5 1 6). intros k. vm_compute. discriminate.
  - eapply vs_shown; [vm_compute; reflexivity|vm_compute; reflexivity|vm_compute; reflexivity| | |].
    + eapply (ts_arr src100 5 2 _ (str "pair")); [vm_compute; reflexivity|constructor].
    + shows100.
    + change shown100 with (str "[" ++ listing [str "{ " ++ listing [str "a" ++ str " = " ++ show_Z 7; str "b" ++ str " = " ++ str "'" ++ [letter 8] ++ str "'"] ++ str " }";
        str "{ " ++ listing [str "a" ++ str " = " ++ show_Z 0; str "b" ++ str " = " ++ str "'" ++ [letter 0] ++ str "'"] ++ str " }"] ++ str "]").
      apply sh_array.
      * intros (us & z & l & E). destruct us as [|? [|? [|? us]]]; discriminate E.
      * repeat constructor.
  - eapply vs_shown; [vm_compute; reflexivity|vm_compute; reflexivity|vm_compute; reflexivity| | |].
    + apply ts_int.
    + shows100.
    + apply (sh_int src100 (cell U1 cpu1) D1 6).
Qed.
(** An array of one character, after which the cell with 8 is displayed too. *)
Example C103_case : expression_line (str "print cs") [str "cs"] /\ tokens (u_stod U1) (str "cs") [TId (str "cs")] /\ val100 (EId (str "cs")) (VArr 1 1 0 [VChar 7 (Some (LMem 0))] (Some (LMem 0))) /\
  ends_in_char [VChar 7 (Some (LMem 0))] /\ (forall i z, nth_error [7] i = Some z -> cell U1 cpu1 (0 + Z.of_nat i) = Some z /\ z mod 256 <> 0) /\
  string_at (cell U1 cpu1) (0 + Z.of_nat 1) [ascii_of_N 8] /\ kind_shown src100 (VArr 1 1 0 [VChar 7 (Some (LMem 0))] (Some (LMem 0))) (str "char[]").
Proof.
  split. { split; [discriminate|]. exists (str "print"). split; [typing [str "print"; str "cs"]|right; standing]. }
  split; [lexed|]. split; [shows100|]. split; [now exists [], 7, (Some (LMem 0))|]. split.
  { intros [|[|i]] z E; [|discriminate E|discriminate E]. cbn [nth_error] in E. injection E as <-. split; [vm_compute; reflexivity|discriminate]. }
  split; [|constructor; apply (ts_arr src100 1 1 (TyPrim PrChar 1) (str "char")); [reflexivity|constructor]].
  change [ascii_of_N 8] with (escaped 8 ++ []). apply sa_char; [vm_compute; reflexivity|discriminate|]. eapply sa_end; [vm_compute; reflexivity|reflexivity].
Qed.
Definition info102 : text := str (".debug_info
DIE_compilation_unit: {
  DIE_primitive_type: { ATTR_name: int, ATTR_id: 0, ATTR_size: 1 },
  DIE_primitive_type: { ATTR_name: unsigned, ATTR_id: 3, ATTR_size: 1 },
  DIE_function: { ATTR_name: main, ATTR_begin_addr: 0, ATTR_end_addr: 9,
    DIE_variable: { ATTR_name: i, ATTR_type: 0, ATTR_location: `PUSH R1` },
    DIE_variable: { ATTR_name: u, ATTR_type: 3, ATTR_location: [PUSH 0] },
    DIE_variable: { ATTR_name: x, ATTR_type: 0, ATTR_location: [PUSH 1] }
  }
}
").
Definition src102 : source := Eval vm_compute in source_read info102.
Definition cli102 : cli := mkCli U1 native1 true src102 [] true [] [].
Lemma plain102 : plain src102.
Proof. apply plain_tree. vm_compute. reflexivity. Qed.
Example C102_case : exists d, typed (str "fr") [str "fr"] /\ stands_for command_names (str "fr") "frame" /\ function_name src102 (u64 5) = Some (str "main") /\ function_addr src102 (str "main") = Some (0, 9) /\
  in_order ([str "i"] ++ str "u" :: [str "x"]) /\ (forall n, In n ([str "i"] ++ str "u" :: [str "x"]) <-> exists d k v, so_die src102 = Some d /\ declares (u64 5) k d n v) /\
  Forall2 (variable_shown cli102 cpu1 5 D1) [str "i"] [[variable_line (str "int") (str "i") (str "6")]] /\
  variable_die src102 (u64 5) (str "u") = Some d /\ at_type d = Some 3 /\ get_type src102 3 = Some (TyPrim PrUnsigned 1) /\ at_loc d = Some [LPush (LMem 0)] /\
  locates (reg_named cpu1) (cell U1 cpu1) [LPush (LMem 0)] (LMem 0) /\ word_at (reg_named cpu1) (cell U1 cpu1) (LMem 0) 7.
Proof.
  eexists. split; [typing [str "fr"]|]. split; [standing|]. split; [vm_compute; reflexivity|]. split; [vm_compute; reflexivity|]. split; [sorted|]. split; [apply names_are; vm_compute; reflexivity|].
  split; [constructor; [|constructor]|].
  { eapply vs_shown; [vm_compute; reflexivity|vm_compute; reflexivity|vm_compute; reflexivity|apply ts_int| |apply (sh_int src102 (cell U1 cpu1) D1 6)].
    eapply (C72_shown_is_value U1 D1 native1 cpu1 seen_case src102 5 ip_case plain102 [] 9); [repeat split; discriminate|vm_compute; reflexivity]. }
  split; [vm_compute; reflexivity|]. split; [vm_compute; reflexivity|]. split; [vm_compute; reflexivity|]. split; [vm_compute; reflexivity|].
  split; [apply (C36_locates U1 native1 cpu1 seen_case); [intros [E|[]]; discriminate E|vm_compute; reflexivity]|]. constructor. vm_compute. reflexivity.
Qed.

Print Assumptions C100_displayed.
Print Assumptions C100_only.
Print Assumptions C100_assigned.
Print Assumptions C101_frame.
Print Assumptions C102_unsigned_refuted.
Print Assumptions C103_past_the_end_refuted.
