(** Messages between debugger and VM: what is sent is what is understood. *)
From Coq Require Import Ascii String ZArith NArith List Bool Lia.
From Verif Require Import Base Text PropText PropNet StdMap Isa AluSpec Lexer Asm Show Exec Ram Writes Rat Cpu Os DbgText Client Spaces.
Import ListNotations.
Open Scope Z_scope.

(** ---- words ---- *)

(** A word of a message: not empty, without space, line end or colon. *)
Definition word_ok (w : text) : Prop := w <> [] /\ ~ In SPACE w /\ ~ In NL w /\ ~ In COLON w.

Definition digitc (c : ascii) : Prop := digit c <> None \/ c = ch 45.
Lemma digitc_not : forall c, digitc c -> c <> SPACE /\ c <> NL /\ c <> COLON /\ c <> QUOTE.
Proof. intros [[] [] [] [] [] [] [] []] [H|H]; try (exfalso; apply H; reflexivity); try discriminate H; repeat split; discriminate. Qed.

Lemma show_nat_chars : forall n c, 0 <= n -> In c (show_nat n) -> digit c <> None.
Proof. intros n c H I. destruct (show_nat_spec n H) as [_ D]. exact (denotes_digits _ _ _ D I). Qed.
Lemma show_Z_chars : forall v c, In c (show_Z v) -> digitc c.
Proof.
  intros v c H. unfold show_Z in H. destruct (Z.ltb_spec v 0); [destruct H as [<-|H]; [right; reflexivity|]|]; left; eapply show_nat_chars; try exact H; lia.
Qed.
Lemma show_Z_some : forall v, show_Z v <> [].
Proof. intros v. unfold show_Z. destruct (Z.ltb_spec v 0); [discriminate|]. now apply show_nat_spec. Qed.
Lemma show_Z_word : forall v, word_ok (show_Z v).
Proof.
  intros v. split; [apply show_Z_some|]. repeat split; intros H; apply show_Z_chars in H; apply digitc_not in H; destruct H as (A & B & C & _); congruence.
Qed.
Lemma show_nat_Z : forall n, 0 <= n -> show_Z n = show_nat n.
Proof. intros n H. unfold show_Z. destruct (Z.ltb_spec n 0); [lia|reflexivity]. Qed.

Lemma cons_word : forall c w, c <> SPACE -> c <> NL -> c <> COLON -> (w = [] \/ word_ok w) -> word_ok (c :: w).
Proof.
  intros c w A B C H. split; [discriminate|]. destruct H as [->|(_ & D & E & F)]; repeat split; intros [G|G]; try congruence; try (destruct G); tauto.
Qed.
Lemma show_reg_word : forall r, word_ok (show_reg r).
Proof.
  intros [n| | | |]; try (repeat split; [discriminate|..]; cbn; intuition discriminate).
  cbn [show_reg]. apply cons_word; try discriminate. right. rewrite <- show_nat_Z by lia. apply show_Z_word.
Qed.
Lemma show_freg_word : forall n, word_ok (show_freg n).
Proof. intros n. apply cons_word; try discriminate. right. rewrite <- show_nat_Z by lia. apply show_Z_word. Qed.

Lemma words_of : forall ws, Forall word_ok ws -> split_v (join ws [SPACE]) SPACE = ws.
Proof. intros ws H. apply C27_join_split. intros w I. rewrite Forall_forall in H. destruct (H w I) as (A & B & _). auto. Qed.

(** ---- numbers ---- *)

Lemma svtoi64_show : forall v, fits v -> svtoi64 (show_Z v) = Some v.
Proof. intros v H. rewrite <- (app_nil_r (show_Z v)). apply C28_signed_roundtrip; [exact H|exact I]. Qed.
Lemma svtou64_show : forall v, 0 <= v < 2 ^ 64 -> svtou64 (show_Z v) = Some v.
Proof. intros v H. rewrite <- (app_nil_r (show_Z v)). apply C28_unsigned_roundtrip; [exact H|exact I]. Qed.
Lemma svtoidx_show : forall v, 0 <= v < 2 ^ 63 -> svtoidx (show_Z v) = Some v.
Proof. intros v H. unfold svtoidx. rewrite svtoi64_show by (unfold fits; lia). destruct (Z.ltb_spec v 0); [lia|reflexivity]. Qed.

(** ---- lines ---- *)

Lemma lines_split : forall ls d, Forall (fun l => l <> [] /\ ~ In d l) ls -> split_v (concat (map (fun l => l ++ [d]) ls)) d = ls.
Proof.
  intros ls d H. assert (P : pieces d (ls ++ [[]]) (concat (map (fun l => l ++ [d]) ls))).
  { induction H as [|l ls [_ N] F IH]; cbn [map concat app]; [constructor; intros []|]. rewrite <- app_assoc. cbn [app]. now constructor. }
  rewrite (C27_split _ _ _ P), filter_app. cbn [filter nonempty]. rewrite app_nil_r. clear P.
  induction H as [|l ls [A _] F IH]; [reflexivity|]. cbn [filter]. destruct l; [now elim A|]. cbn [nonempty]. now rewrite IH.
Qed.

Lemma split_cmd : forall d w x, w <> [] -> ~ In d w -> split_v (w ++ d :: x) d = w :: split_v x d.
Proof.
  intros d w x A B. destruct (C27_split_total d x) as [ps P]. rewrite (C27_split _ _ _ P), (C27_split _ _ _ (pc_more _ _ _ _ B P)).
  cbn [filter]. destruct w; [now elim A|reflexivity].
Qed.
Lemma split_one : forall d w, w <> [] -> ~ In d w -> split_v w d = [w].
Proof. intros d w A B. rewrite (C27_split _ _ _ (pc_last _ _ B)). cbn [filter]. destruct w; [now elim A|reflexivity]. Qed.

Lemma pair_split : forall a b, word_ok a -> b <> [] -> ~ In COLON b -> split_v (a ++ [COLON] ++ b) COLON = [a; b].
Proof. intros a b (A & _ & _ & B) C D. cbn [app]. now rewrite split_cmd, split_one. Qed.

(** ---- decoding ---- *)

Section Decode.
Variable stod : text -> option Z.
Variable stof : text -> option Z.
Notation decode := (decode stod stof).

Lemma decode_arg : forall w x, split_v (str w ++ SPACE :: x) SPACE = str w :: split_v x SPACE ->
  decode (str w ++ SPACE :: x) = 
  if teqb (str w) (str "REASON") then DCmd CReason
  else if is_prefix_of (str "PEEKTEXT") (str w) then decode_range CPeekText (split_v x SPACE)
  else if is_prefix_of (str "POKETEXT") (str w) then decode_poketext stod (split_v x SPACE)
  else if is_prefix_of (str "PEEKDATA") (str w) then decode_range CPeekData (split_v x SPACE)
  else if is_prefix_of (str "POKEDATA") (str w) then decode_pokedata (split_v x SPACE)
  else if teqb (str w) (str "PEEKREGS") then DCmd CPeekRegs
  else if teqb (str w) (str "PEEKFLOATREGS") then DCmd CPeekFloatRegs
  else if teqb (str w) (str "PEEKDEBUGREGS") then DCmd CPeekDebugRegs
  else if teqb (str w) (str "POKEDEBUGREGS") then decode_pokereg translate_dreg svtou64 CPokeDebugRegs (split_v x SPACE)
  else if is_prefix_of (str "POKEFLOATREGS") (str w) then decode_pokereg translate_freg stof CPokeFloatRegs (split_v x SPACE)
  else if is_prefix_of (str "POKEREGS") (str w) then decode_pokereg translate_reg svtoi64 CPokeRegs (split_v x SPACE)
  else if teqb (str w) (str "SINGLESTEP") then DCmd CSingleStep
  else if teqb (str w) (str "REGCOUNT") then DCmd CRegCount
  else if teqb (str w) (str "TEXTSIZE") then DCmd CTextSize
  else if teqb (str w) (str "DATASIZE") then DCmd CDataSize
  else if teqb (str w) (str "TERMINATE") then DCmd CTerminate
  else DCmd CUnknown.
Proof.
  intros w x H. unfold DbgText.decode. rewrite H.
  assert (N : teqb (str w ++ SPACE :: x) (str "CONTINUE") = false).
  { destruct (teqb (str w ++ SPACE :: x) (str "CONTINUE")) eqn:E; [|reflexivity]. apply teqb_eq in E. exfalso.
    assert (I : In SPACE (str "CONTINUE")) by (rewrite <- E; apply in_or_app; right; now left). cbn in I. intuition discriminate. }
  now rewrite N.
Qed.

Lemma words2 : forall a b, word_ok a -> b <> [] -> ~ In SPACE b -> split_v (a ++ SPACE :: b) SPACE = [a; b].
Proof. intros a b (A & B & _) C D. now rewrite split_cmd, split_one. Qed.

Lemma decode_peektext : forall a n, 0 <= a < 2 ^ 63 -> 0 <= n < 2 ^ 63 ->
  decode (str "PEEKTEXT " ++ show_Z a ++ [SPACE] ++ show_Z n) = DCmd (CPeekText a (Z.to_nat n)).
Proof.
  intros a n A N. change (str "PEEKTEXT " ++ show_Z a ++ [SPACE] ++ show_Z n) with (str "PEEKTEXT" ++ SPACE :: (show_Z a ++ SPACE :: show_Z n)).
  rewrite decode_arg by (apply split_cmd; [discriminate|cbn; intuition discriminate]).
  rewrite words2 by (apply show_Z_word). change (decode_range CPeekText [show_Z a; show_Z n] = DCmd (CPeekText a (Z.to_nat n))).
  unfold decode_range. now rewrite !svtoidx_show.
Qed.
Lemma decode_peekdata : forall a n, 0 <= a < 2 ^ 63 -> 0 <= n < 2 ^ 63 ->
  decode (str "PEEKDATA " ++ show_Z a ++ [SPACE] ++ show_Z n) = DCmd (CPeekData a (Z.to_nat n)).
Proof.
  intros a n A N. change (str "PEEKDATA " ++ show_Z a ++ [SPACE] ++ show_Z n) with (str "PEEKDATA" ++ SPACE :: (show_Z a ++ SPACE :: show_Z n)).
  rewrite decode_arg by (apply split_cmd; [discriminate|cbn; intuition discriminate]).
  rewrite words2 by (apply show_Z_word). change (decode_range CPeekData [show_Z a; show_Z n] = DCmd (CPeekData a (Z.to_nat n))).
  unfold decode_range. now rewrite !svtoidx_show.
Qed.
Lemma decode_pokedata_msg : forall a v, 0 <= a < 2 ^ 63 -> fits v ->
  decode (str "POKEDATA " ++ show_Z a ++ [SPACE] ++ show_Z v) = DCmd (CPokeData a v).
Proof.
  intros a v A N. change (str "POKEDATA " ++ show_Z a ++ [SPACE] ++ show_Z v) with (str "POKEDATA" ++ SPACE :: (show_Z a ++ SPACE :: show_Z v)).
  rewrite decode_arg by (apply split_cmd; [discriminate|cbn; intuition discriminate]).
  rewrite words2 by (apply show_Z_word). change (decode_pokedata [show_Z a; show_Z v] = DCmd (CPokeData a v)).
  unfold decode_pokedata. now rewrite svtoidx_show, svtoi64_show.
Qed.
Lemma decode_pokeregs_msg : forall name r v, name <> [] -> ~ In SPACE name -> translate_reg name = Some r -> fits v ->
  decode (str "POKEREGS" ++ [SPACE] ++ name ++ [SPACE] ++ show_Z v) = DCmd (CPokeRegs r v).
Proof.
  intros name r v N S T V. change (str "POKEREGS" ++ [SPACE] ++ name ++ [SPACE] ++ show_Z v) with (str "POKEREGS" ++ SPACE :: (name ++ SPACE :: show_Z v)).
  rewrite decode_arg by (apply split_cmd; [discriminate|cbn; intuition discriminate]).
  rewrite split_cmd, split_one by (assumption || apply show_Z_word). change (decode_pokereg translate_reg svtoi64 CPokeRegs [name; show_Z v] = DCmd (CPokeRegs r v)).
  unfold decode_pokereg. now rewrite T, svtoi64_show.
Qed.
Lemma decode_pokefloat_msg : forall name n s v, name <> [] -> ~ In SPACE name -> translate_freg name = Some n ->
  s <> [] -> ~ In SPACE s -> stof s = Some v ->
  decode (str "POKEFLOATREGS" ++ [SPACE] ++ name ++ [SPACE] ++ s) = DCmd (CPokeFloatRegs n v).
Proof.
  intros name n s v N S T A B V. change (str "POKEFLOATREGS" ++ [SPACE] ++ name ++ [SPACE] ++ s) with (str "POKEFLOATREGS" ++ SPACE :: (name ++ SPACE :: s)).
  rewrite decode_arg by (apply split_cmd; [discriminate|cbn; intuition discriminate]).
  rewrite split_cmd, split_one by assumption. change (decode_pokereg translate_freg stof CPokeFloatRegs [name; s] = DCmd (CPokeFloatRegs n v)).
  unfold decode_pokereg. now rewrite T, V.
Qed.
Lemma decode_pokedebug_msg : forall name i v, name <> [] -> ~ In SPACE name -> translate_dreg name = Some i -> 0 <= v < 2 ^ 64 ->
  decode (str "POKEDEBUGREGS" ++ [SPACE] ++ name ++ [SPACE] ++ show_Z v) = DCmd (CPokeDebugRegs i v).
Proof.
  intros name i v N S T V. change (str "POKEDEBUGREGS" ++ [SPACE] ++ name ++ [SPACE] ++ show_Z v) with (str "POKEDEBUGREGS" ++ SPACE :: (name ++ SPACE :: show_Z v)).
  rewrite decode_arg by (apply split_cmd; [discriminate|cbn; intuition discriminate]).
  rewrite split_cmd, split_one by (assumption || apply show_Z_word). change (decode_pokereg translate_dreg svtou64 CPokeDebugRegs [name; show_Z v] = DCmd (CPokeDebugRegs i v)).
  unfold decode_pokereg. now rewrite T, svtou64_show.
Qed.

(** A text the debugger has accepted as an instruction is the same instruction for
    the VM. *)
Lemma check_assembles : forall t, check_instr stod t = POk tt -> exists i, assemble_instr stod t = POk i.
Proof.
  intros t H. unfold check_instr, assemble_instr in *. destruct (open stod t) as [p|e]; [|discriminate]. cbn [pbind] in *.
  destruct (p_instruction stod p) as [[i p']|e]; [|discriminate]. now exists i.
Qed.
Lemma decode_poketext_msg : forall a t i, 0 <= a < 2 ^ 63 -> ~ In QUOTE t -> assemble_instr stod t = POk i ->
  decode (str "POKETEXT " ++ show_Z a ++ [SPACE] ++ t) = DCmd (CPokeText a i).
Proof.
  intros a t i A Q H. change (str "POKETEXT " ++ show_Z a ++ [SPACE] ++ t) with (str "POKETEXT" ++ SPACE :: (show_Z a ++ SPACE :: t)).
  rewrite decode_arg by (apply split_cmd; [discriminate|cbn; intuition discriminate]).
  rewrite split_cmd by apply show_Z_word. change (decode_poketext stod (show_Z a :: split_v t SPACE) = DCmd (CPokeText a i)).
  unfold decode_poketext. rewrite svtoidx_show by assumption.
  destruct (C27_split_total SPACE t) as [ps P]. rewrite (C27_split _ _ _ P).
  assert (X : forall x, x = [] \/ x = [SPACE] -> assemble_instr stod (join (filter nonempty ps) [SPACE] ++ x) = POk i).
  { intros x Hx. destruct (spaced_instr stod _ _ (spaced_words ps t P Q x Hx)) as [E _]. now rewrite <- E. }
  destruct (filter nonempty ps) as [|name ops].
  - exfalso. specialize (X [] (or_introl eq_refl)). discriminate X.
  - destruct ops as [|o ops].
    + specialize (X [SPACE] (or_intror eq_refl)). cbn [join] in *. rewrite app_nil_r in X. rewrite app_nil_r. now rewrite X.
    + specialize (X [] (or_introl eq_refl)). rewrite app_nil_r in X.
      change (name ++ [SPACE] ++ join (o :: ops) [SPACE]) with (join (name :: o :: ops) [SPACE]). now rewrite X.
Qed.
End Decode.
