(** The program builder: theorems C38, C65 (see /verif/properties.jsonl). *)
From Coq Require Import ZArith List Bool Lia.
From Verif Require Import Base Isa Alu AluSpec State IsaSpec Builder.
Import ListNotations.
Open Scope Z_scope.

(** ---- specification ---- *)

(** The program is handed out. *)
Definition hands_out (o : bop) : Prop := o = BProgram.
Definition building (os : list bop) : Prop := Forall (fun o => ~ hands_out o) os.

(** What a later operation does to an instruction with label [l]: patching it changes the
    destination of the jump, nothing else changes it. *)
Definition retarget (l : Z) (o : bop) (i : instr) : instr :=
  match o with
  | BPatch l' d =>
      if l' =? l then match i with IJmp _ => IJmp (OImm (s64 d)) | IJcc c _ => IJcc c (OImm (s64 d)) | ILoop r _ => ILoop r (OImm (s64 d)) | ICall _ => ICall (OImm (s64 d)) | _ => i end
      else i
  | _ => i
  end.
Definition retargets (l : Z) (os : list bop) (i : instr) : instr := fold_left (fun i o => retarget l o i) os i.

(** The values an operation stores. *)
Definition stores (o : bop) : option (list Z) :=
  match o with BData v => Some [v] | BDataMany v n => Some (repeat v n) | BDataStr s => Some (s ++ [0]) | _ => None end.

(** Operations that add an instruction. *)
Definition adds (o : bop) : Prop := match o with BAdd _ | BAddDbg => True | _ => False end.

(** ---- lemmas ---- *)

Lemma bruns_app : forall os1 os2 b rs b', bruns (os1 ++ os2) b = Ok (rs, b') ->
  exists rs1 rs2 b1, bruns os1 b = Ok (rs1, b1) /\ bruns os2 b1 = Ok (rs2, b') /\ rs = rs1 ++ rs2 /\ length rs1 = length os1.
Proof.
  induction os1 as [|o os1 IH]; intros os2 b rs b' H; cbn [app bruns] in *.
  - exists [], rs, b. auto.
  - destruct (brun o b) as [[r b1]| |] eqn:E; try discriminate. cbn [bind fst snd] in *. destruct (bruns (os1 ++ os2) b1) as [[rs1 b2]| |] eqn:E1; try discriminate.
    cbn [bind fst snd] in *. destruct (IH _ _ _ _ E1) as (r1 & r2 & b3 & I1 & I2 & I3 & I4). assert (rs = r :: rs1 /\ b2 = b') as [-> ->] by (split; congruence).
    rewrite I1. cbn [bind fst snd]. exists (r :: r1), r2, b3. cbn [app length]. subst rs1. auto.
Qed.
Lemma bruns_cons : forall o os b rs b', bruns (o :: os) b = Ok (rs, b') -> exists r rs1 b1, brun o b = Ok (r, b1) /\ bruns os b1 = Ok (rs1, b') /\ rs = r :: rs1.
Proof.
  intros o os b rs b' H. cbn [bruns] in H. destruct (brun o b) as [[r b1]| |] eqn:E; try discriminate. cbn [bind fst snd] in *.
  destruct (bruns os b1) as [[rs1 b2]| |] eqn:E1; try discriminate. cbn [bind fst snd] in *. exists r, rs1, b1. repeat split; congruence.
Qed.
Lemma nth_set_nth : forall A (l : list A) n m a, (n < length l)%nat -> nth_error (set_nth l n a) m = if Nat.eqb m n then Some a else nth_error l m.
Proof.
  induction l as [|x l IH]; intros n m a H; [cbn in H; lia|]. destruct n; destruct m; cbn; auto. apply IH. cbn in H. lia.
Qed.

Definition retarget_item (l : Z) (o : bop) (it : bitem) : bitem := match it with BI i => BI (retarget l o i) | BDbg => BDbg end.

Lemma brun_item : forall o b r b' n it, brun o b = Ok (r, b') -> ~ hands_out o -> nth_error (b_items b) n = Some it ->
  nth_error (b_items b') n = Some (retarget_item (Z.of_nat n) o it).
Proof.
  intros o b r b' n it H Hn Hi. assert (Hlt : (n < length (b_items b))%nat) by (apply nth_error_Some; congruence).
  destruct o as [i| | |v|v k|s|l d|]; cbn [brun] in H; try (now elim Hn).
  - destruct (validate i); assert (b' = _) as -> by (eapply (f_equal (fun x => match x with Ok (_, y) => y | _ => b' end)) in H; symmetry; exact H); cbn [b_items]; [rewrite nth_error_app1 by exact Hlt|]; rewrite Hi; destruct it; reflexivity.
  - destruct (b_release b); assert (b' = _) as -> by (eapply (f_equal (fun x => match x with Ok (_, y) => y | _ => b' end)) in H; symmetry; exact H); cbn [b_items]; [|rewrite nth_error_app1 by exact Hlt]; rewrite Hi; destruct it; reflexivity.
  - assert (b' = b) as -> by congruence. rewrite Hi. destruct it; reflexivity.
  - assert (b_items b' = b_items b) as -> by (inversion H; reflexivity). rewrite Hi. destruct it; reflexivity.
  - assert (b_items b' = b_items b) as -> by (inversion H; reflexivity). rewrite Hi. destruct it; reflexivity.
  - assert (b_items b' = b_items b) as -> by (inversion H; reflexivity). rewrite Hi. destruct it; reflexivity.
  - destruct ((0 <=? l) && (l <? size (b_items b))) eqn:El.
    + unfold size in El. apply andb_true_iff in El. destruct El as [E1 E2]. apply Z.leb_le in E1. apply Z.ltb_lt in E2.
      destruct (nth (Z.to_nat l) (b_items b) BDbg) as [i|] eqn:En; [|discriminate]. unfold set_destination in H. destruct (jump_operand i) as [[]|] eqn:Ej; try discriminate.
      destruct (u64 v =? no_label) eqn:Eu; [|discriminate]. cbn [bind] in H. assert (b_items b' = set_nth (b_items b) (Z.to_nat l) (BI (with_operand i (OImm (s64 d))))) as -> by (inversion H; reflexivity).
      rewrite nth_set_nth by lia. destruct (Nat.eqb_spec n (Z.to_nat l)) as [->|Hne].
      * apply nth_error_nth with (d := BDbg) in Hi. assert (it = BI i) as -> by congruence. cbn [retarget_item retarget]. rewrite Z2Nat.id by exact E1. rewrite Z.eqb_refl.
        destruct i; try discriminate; reflexivity.
      * rewrite Hi. unfold retarget_item, retarget. destruct (Z.eqb_spec l (Z.of_nat n)); [lia|]. now destruct it.
    + assert (b' = b) as -> by congruence. rewrite Hi. unfold retarget_item, retarget, size in *. destruct (Z.eqb_spec l (Z.of_nat n)); [|now destruct it].
      exfalso. apply andb_false_iff in El. destruct El as [El|El]; [apply Z.leb_gt in El; lia|apply Z.ltb_ge in El; lia].
Qed.
Lemma bruns_item : forall os b rs b' n i, bruns os b = Ok (rs, b') -> building os -> nth_error (b_items b) n = Some (BI i) ->
  nth_error (b_items b') n = Some (BI (retargets (Z.of_nat n) os i)).
Proof.
  induction os as [|o os IH]; intros b rs b' n i H Hb Hi; [cbn in *; congruence|]. apply bruns_cons in H. destruct H as (r & rs1 & b1 & H1 & H2 & ->).
  inversion Hb as [|? ? B1 B2]; subst. exact (IH _ _ _ _ _ H2 B2 (brun_item _ _ _ _ _ _ H1 B1 Hi)).
Qed.
Lemma brun_data : forall o b r b' n v, brun o b = Ok (r, b') -> ~ hands_out o -> nth_error (b_data b) n = Some v -> nth_error (b_data b') n = Some v.
Proof.
  intros o b r b' n v H Hn Hi. assert (Hlt : (n < length (b_data b))%nat) by (apply nth_error_Some; congruence).
  destruct o as [i| | |v0|v0 k|s|l d|]; cbn [brun] in H; try (now elim Hn);
    repeat match type of H with context [if ?c then _ else _] => destruct c end; try discriminate;
    try (assert (b_data b' = b_data b) as -> by (inversion H; reflexivity); exact Hi);
    try (inversion H; subst; cbn [b_data]; rewrite nth_error_app1 by exact Hlt; exact Hi).
  destruct (nth (Z.to_nat l) (b_items b) BDbg) as [i|]; [|discriminate]. unfold set_destination in H. destruct (jump_operand i) as [[]|]; try discriminate.
  destruct (u64 v0 =? no_label); [|discriminate]. cbn [bind] in H. assert (b_data b' = b_data b) as -> by (inversion H; reflexivity). exact Hi.
Qed.
Lemma bruns_data : forall os b rs b' n v, bruns os b = Ok (rs, b') -> building os -> nth_error (b_data b) n = Some v -> nth_error (b_data b') n = Some v.
Proof.
  induction os as [|o os IH]; intros b rs b' n v H Hb Hi; [cbn in *; congruence|]. apply bruns_cons in H. destruct H as (r & rs1 & b1 & H1 & H2 & ->).
  inversion Hb as [|? ? B1 B2]; subst. exact (IH _ _ _ _ _ H2 B2 (brun_data _ _ _ _ _ _ H1 B1 Hi)).
Qed.
Lemma brun_size : forall o b r b', brun o b = Ok (r, b') -> ~ hands_out o -> ~ adds o -> length (b_items b') = length (b_items b).
Proof.
  intros o b r b' H Hn Ha. destruct o as [i| | |v0|v0 k|s|l d|]; cbn [brun adds] in *; try tauto; try (now elim Hn); try (inversion H; reflexivity).
  destruct ((0 <=? l) && (l <? size (b_items b))); [|inversion H; reflexivity]. destruct (nth (Z.to_nat l) (b_items b) BDbg) as [i|]; [|discriminate].
  unfold set_destination in H. destruct (jump_operand i) as [[]|]; try discriminate. destruct (u64 v =? no_label); [|discriminate]. cbn [bind] in H. inversion H. cbn [b_items].
  generalize (Z.to_nat l) (BI (with_operand i (OImm (s64 d)))) (b_items b). clear. intros n x l. revert n. induction l; intros []; cbn; auto.
Qed.
Lemma bruns_size : forall os b rs b', bruns os b = Ok (rs, b') -> building os -> Forall (fun o => ~ adds o) os -> length (b_items b') = length (b_items b).
Proof.
  induction os as [|o os IH]; intros b rs b' H Hb Ha; [cbn in *; congruence|]. apply bruns_cons in H. destruct H as (r & rs1 & b1 & H1 & H2 & ->).
  inversion Hb; subst. inversion Ha; subst. rewrite (IH _ _ _ H2) by assumption. eapply brun_size; eauto.
Qed.

(** ---- C38 ---- *)

(** The label of an added instruction: whatever is done before and after, the instruction
    is there in the program that is handed out, with the destination last set by
    [patch]. *)
Theorem C38_labels : forall p data release pre i post rs b, bruns (pre ++ BAdd i :: post) (builder_of p data release) = Ok (rs, b) -> building post ->
  match nth_error rs (length pre) with
  | Some (RLabel l) => 0 <= l /\ nth_error (b_items b) (Z.to_nat l) = Some (BI (retargets l post i))
  | Some RThrew => validate i = false
  | _ => False
  end.
Proof.
  intros p data release pre i post rs b H Hb. apply bruns_app in H. destruct H as (rs1 & rs2 & b1 & H1 & H2 & -> & Hl). apply bruns_cons in H2. destruct H2 as (r & rs3 & b2 & H2 & H3 & ->).
  rewrite nth_error_app2 by lia. replace (length pre - length rs1)%nat with 0%nat by lia. cbn [nth_error]. cbn [brun] in H2. destruct (validate i) eqn:V; inversion H2; subst; [|reflexivity].
  unfold size. rewrite app_length. cbn [length]. split; [lia|]. replace (Z.of_nat (length (b_items b1) + 1) - 1) with (Z.of_nat (length (b_items b1))) by lia. rewrite Nat2Z.id.
  apply (bruns_item _ _ _ _ _ _ H3 Hb). cbn [b_items]. rewrite nth_error_app2, Nat.sub_diag by lia. reflexivity.
Qed.

(** The current label is the label of the instruction added next. *)
Theorem C38_current : forall p data release pre mid i post rs b, bruns (pre ++ BCurrent :: mid ++ BAdd i :: post) (builder_of p data release) = Ok (rs, b) ->
  building mid -> Forall (fun o => ~ adds o) mid -> validate i = true ->
  exists l, nth_error rs (length pre) = Some (RLabel l) /\ nth_error rs (length pre + 1 + length mid) = Some (RLabel l).
Proof.
  intros p data release pre mid i post rs b H Hb Ha V. apply bruns_app in H. destruct H as (rs1 & rs2 & b1 & H1 & H2 & -> & Hl). apply bruns_cons in H2. destruct H2 as (r & rs3 & b2 & H2 & H3 & ->).
  apply bruns_app in H3. destruct H3 as (rs4 & rs5 & b3 & H3 & H4 & -> & Hl2). apply bruns_cons in H4. destruct H4 as (r2 & rs6 & b4 & H4 & H5 & ->).
  cbn [brun] in H2, H4. rewrite V in H4. inversion H2; subst. inversion H4; subst. exists (size (b_items b2)). split.
  - rewrite nth_error_app2 by lia. replace (length pre - length rs1)%nat with 0%nat by lia. reflexivity.
  - rewrite nth_error_app2 by lia. replace (length pre + 1 + length mid - length rs1)%nat with (S (length rs4)) by lia. cbn [nth_error].
    rewrite nth_error_app2 by lia. rewrite Nat.sub_diag. cbn [nth_error]. unfold size. rewrite app_length. cbn [length].
    rewrite (bruns_size _ _ _ _ H3 Hb Ha). do 2 f_equal. lia.
Qed.

(** The label of data: the values are there in the data section that is handed out. *)
Theorem C38_data : forall p data release pre o vs post rs b, bruns (pre ++ o :: post) (builder_of p data release) = Ok (rs, b) -> building post -> stores o = Some vs ->
  exists a, nth_error rs (length pre) = Some (RLabel a) /\ 0 <= a /\ forall k, (k < length vs)%nat -> nth_error (b_data b) (Z.to_nat a + k) = nth_error vs k.
Proof.
  intros p data release pre o vs post rs b H Hb Hs. apply bruns_app in H. destruct H as (rs1 & rs2 & b1 & H1 & H2 & -> & Hl). apply bruns_cons in H2. destruct H2 as (r & rs3 & b2 & H2 & H3 & ->).
  rewrite nth_error_app2 by lia. replace (length pre - length rs1)%nat with 0%nat by lia. cbn [nth_error].
  assert (X : r = RLabel (size (b_data b1)) /\ b_data b2 = b_data b1 ++ vs).
  { destruct o; try discriminate; cbn [stores brun] in *; inversion Hs; subst; inversion H2; subst; cbn [b_data]; split; auto. unfold size. rewrite app_length. cbn [length]. f_equal. lia. }
  destruct X as [-> Hd]. exists (size (b_data b1)). split; [reflexivity|]. unfold size. split; [lia|]. intros k Hk. rewrite Nat2Z.id.
  destruct (nth_error vs k) as [v|] eqn:Ev; [|apply nth_error_None in Ev; lia]. apply (bruns_data _ _ _ _ _ _ H3 Hb). rewrite Hd.
  rewrite nth_error_app2 by lia. replace (length (b_data b1) + k - length (b_data b1))%nat with k by lia. exact Ev.
Qed.

(** What is handed out is what was built, and the builder starts afresh. *)
Theorem C38_program : forall b r b', brun BProgram b = Ok (r, b') -> r = RProgram (b_items b) (b_data b) /\ b_items b' = [] /\ b_data b' = [].
Proof. intros b r b' H. cbn [brun] in H. inversion H. auto. Qed.

(** A jump that was added with an empty label and patched to [d]: it goes to [d] (or on,
    if conditional). *)
Theorem C38_jump : forall F p data release pre i mid d post rs b prog l S S',
  bruns (pre ++ BAdd i :: mid ++ BPatch l d :: post) (builder_of p data release) = Ok (rs, b) -> building (mid ++ BPatch l d :: post) -> nth_error rs (length pre) = Some (RLabel l) ->
  jump_operand i <> None -> Forall (fun o => match o with BPatch l' _ => l' <> l | _ => True end) post ->
  b_items b = map BI prog -> Z.of_nat (length prog) < 2 ^ 64 -> 0 <= d < 2 ^ 64 -> a_pc S = l -> isa_step F prog S S' ->
  a_pc S' = d \/ (match i with IJcc _ _ | ILoop _ _ => True | _ => False end) /\ (a_pc S' = address (l + 1) \/ exists a, i = ILoop PC a).
Proof.
  intros F p data release pre i mid d post rs b prog l S S' H Hb Hr Hj Hp Hm Hlen Hd Hpc HS.
  pose proof (C38_labels _ _ _ _ _ _ _ _ H Hb) as K. rewrite Hr in K. destruct K as [K1 K2].
  assert (E : exists j, instr_at prog l = j /\ jump_operand j = Some (OImm (s64 d)) /\ match i, j with IJmp _, IJmp _ | ICall _, ICall _ | IJcc _ _, IJcc _ _ => True | ILoop r _, ILoop r' _ => r = r' | _, _ => False end).
  { unfold instr_at. rewrite Hm, nth_error_map in K2. destruct (nth_error prog (Z.to_nat l)) as [j|] eqn:Ej; [|discriminate]. cbn [option_map] in K2. exists j. split; [now apply nth_error_nth|].
    assert (Ej' : j = retargets l (mid ++ BPatch l d :: post) i) by congruence. unfold retargets in Ej'. rewrite fold_left_app in Ej'. cbn [fold_left] in Ej'.
    assert (R : forall os k, Forall (fun o => match o with BPatch l' _ => l' <> l | _ => True end) os -> fold_left (fun i o => retarget l o i) os k = k).
    { clear. induction os as [|o os IH]; intros k Hk; [reflexivity|]. inversion Hk as [|? ? K1 K2]; subst. cbn [fold_left]. rewrite (IH _ K2). destruct o; try reflexivity. cbn [retarget].
      destruct (Z.eqb_spec l0 l); [contradiction|reflexivity]. }
    rewrite R in Ej' by exact Hp. set (k := fold_left (fun i o => retarget l o i) mid i) in *.
    assert (Kk : match i, k with IJmp _, IJmp _ | ICall _, ICall _ | IJcc _ _, IJcc _ _ => True | ILoop r _, ILoop r' _ => r = r' | _, _ => False end).
    { clear - Hj. unfold k. clear k. assert (G : forall os k, match i, k with IJmp _, IJmp _ | ICall _, ICall _ | IJcc _ _, IJcc _ _ => True | ILoop r _, ILoop r' _ => r = r' | _, _ => False end ->
        match i, fold_left (fun i o => retarget l o i) os k with IJmp _, IJmp _ | ICall _, ICall _ | IJcc _ _, IJcc _ _ => True | ILoop r _, ILoop r' _ => r = r' | _, _ => False end).
      { induction os as [|o os IH]; intros k Hk; [exact Hk|]. cbn [fold_left]. apply IH. destruct o; try exact Hk. cbn [retarget]. destruct (l0 =? l); [|exact Hk].
        destruct i; destruct k; auto. }
      apply G. destruct i; cbn in Hj; auto. }
    rewrite Ej'. unfold retarget. rewrite Z.eqb_refl. destruct i; destruct k; try contradiction; split; auto. }
  destruct E as (j & Ej & Ed & Hij). destruct HS as [Hh HE]. rewrite Hpc, Ej in HE.
  assert (A : address (s64 d) = d).
  { unfold address, s64, two64, two63. change (2 ^ 64) with 18446744073709551616 in *. rewrite (Z.mod_small d) by lia. destruct (Z.ltb_spec d 9223372036854775808).
    - now rewrite Z.mod_small.
    - symmetry. apply Z.mod_unique_pos with (q := -1); lia. }
  assert (O : forall t, opnd S (OImm (s64 d)) t -> t = s64 d).
  { intros t T. inversion T as [| | | | | | | | | |? ? ? X _]; subst; [reflexivity|inversion X]. }
  destruct j; try discriminate; cbn [jump_operand] in Ed; inversion Ed; subst a; cbn [effect] in HE; destruct i; try contradiction.
  - destruct HE as (t & T1 & T2). apply O in T1; subst. left. rewrite (s_pc _ _ T2). exact A.
  - destruct HE as (x & t & q & _ & T1 & _ & T2). subst. apply O in T1; subst. rewrite (s_pc _ _ T2). destruct (rval q =? 0); [|left; exact A].
    right. split; [exact I|]. destruct r; try (left; cbn; reflexivity). right. eauto.
  - destruct HE as (t & T1 & T2). apply O in T1; subst. rewrite (s_pc _ _ T2). destruct (taken c (a_reg S (LR Flags))); [left; exact A|right; split; [exact I|left; reflexivity]].
  - destruct HE as (t & sp & ret & T1 & _ & _ & _ & T2). apply O in T1; subst. left. rewrite (s_pc _ _ T2). exact A.
Qed.

(** A loop written backwards and forwards: the labels are 0 to 3, the data at 2. *)
Definition build38 : list bop :=
  [BData 7; BDataMany 1 1; BDataStr [65; 66]; BAdd (IJmp (OImm (-1))); BAdd (IMov (OReg (R 0)) (OImm 5)); BCurrent; BAdd (IUn UDEC (R 0)); BAdd (IJcc CNZ (OImm (-1))); BPatch 0 2; BPatch 3 1].
Example C38_case : exists b, bruns build38 (new_builder false) =
    Ok ([RLabel 0; RLabel 1; RLabel 2; RLabel 0; RLabel 1; RLabel 2; RLabel 2; RLabel 3; RDone; RDone], b) /\
  b_items b = map BI [IJmp (OImm 2); IMov (OReg (R 0)) (OImm 5); IUn UDEC (R 0); IJcc CNZ (OImm 1)] /\ b_data b = [7; 1; 65; 66; 0] /\ building build38.
Proof. eexists. split; [vm_compute; reflexivity|]. split; [reflexivity|]. split; [reflexivity|]. repeat constructor; discriminate. Qed.

(** ---- C65: the builder refuses instructions that write the program counter ---- *)

(** It does for the two-operand forms of arithmetic, MOV, LEA and POP. *)
Theorem C65_refused_partial : forall i b r b', brun (BAdd i) b = Ok (r, b') ->
  match i with IBin _ d r0 _ _ => d = r0 /\ r0 = PC | IUn _ r0 | IMov (OReg r0) _ | ILea r0 _ | IPop r0 => r0 = PC | _ => False end -> r = RThrew /\ b' = b.
Proof.
  intros i b r b' H Hi. cbn [brun] in H. assert (V : validate i = false).
  { destruct i; try contradiction; try (now subst); try (destruct Hi as [_ ->]; reflexivity). destruct d; try contradiction. now subst. }
  rewrite V in H. inversion H. auto.
Qed.
(** It does not for the three-operand form, GETCHAR and NRW. *)
Theorem C65_accepted_refuted : forall b i, (exists op r v, is_special r = false /\ i = IBin op PC r v true) \/ i = IGetchar PC \/ (exists f, i = INrw PC f) ->
  exists l b', brun (BAdd i) b = Ok (RLabel l, b') /\ nth_error (b_items b') (Z.to_nat l) = Some (BI i) /\ ~ keeps_ip i.
Proof.
  intros b i H. assert (V : validate i = true /\ ~ keeps_ip i).
  { destruct H as [(op & r & v & H & ->)|[->|[f ->]]]; cbn [validate keeps_ip]; [rewrite H|idtac|idtac]; split; auto. }
  destruct V as [V Hk]. cbn [brun]. rewrite V. eexists. eexists. split; [reflexivity|]. split; [|exact Hk]. cbn [b_items]. unfold size. rewrite app_length. cbn [length].
  replace (Z.to_nat (Z.of_nat (length (b_items b) + 1) - 1)) with (length (b_items b)) by lia. rewrite nth_error_app2, Nat.sub_diag by lia. reflexivity.
Qed.
Example C65_case : exists b, bruns [BAdd (IBin BADD PC (R 0) (OImm 1) true); BAdd (IMov (OReg PC) (OImm 1))] (new_builder false) = Ok ([RLabel 0; RThrew], b).
Proof. eexists. vm_compute. reflexivity. Qed.

Print Assumptions C38_labels.
Print Assumptions C38_current.
Print Assumptions C38_data.
Print Assumptions C38_program.
Print Assumptions C38_jump.
Print Assumptions C65_refused_partial.
Print Assumptions C65_accepted_refuted.
