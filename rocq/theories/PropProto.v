(** C20, C33: the connection between the debugger and the VM. *)
From Coq Require Import Ascii String ZArith NArith List Bool Lia.
From Verif Require Import Base Text PropText PropNet StdMap Isa AluSpec State IsaSpec Lexer Asm Show Exec Ram Writes Rat Cpu Os DbgText Client Spaces
  PipeInv PipeBasics PipeRun PipePoke Session IsaRefine DbgSpec PropPipe PropDbg Client Proto.
From Verif Require PropFits.
Import ListNotations.
Open Scope Z_scope.

(** ---- specification ---- *)

(** The debugger library connected to a VM that has stopped for the reason [r]. *)
Definition stopped (r : reason) (c : cpu) : link := mkLink (Some (At r c)) true.

(** A register under the name the debugger uses for it. *)
Definition lreg_name (l : lreg) : text := match l with LR r => show_reg r | LF n => show_freg n end.
Definition dreg_name (i : nat) : text := str "D" ++ show_Z (Z.of_nat i).

(** The machine has values of 64 bits in all its registers and cells, and no two
    registers share their place. True at every stop: [C33_stopped_readable]. *)
Record readable (c : cpu) : Prop := mkReadable {
  rd_reg : forall l, lreg_ok (c_cfg c) l = true -> exists v, get_lreg c l = Some v /\ fits v;
  rd_mem : forall a v, ram_get (c_ram c) a = Some v -> fits v;
  rd_apart : forall l l' p, rget (c_rat c) l = Some p -> rget (c_rat c) l' = Some p -> l = l'
}.

(** All that can be seen of a machine through the debugging interface. *)
Record sees (c : cpu) (reg : lreg -> option Z) (mem : Z -> option Z) (prog : list instr) (dbg : list Z) : Prop := mkSees {
  se_reg : forall l, get_lreg c l = reg l;
  se_mem : forall a, ram_get (c_ram c) a = mem a;
  se_prog : c_prog c = prog;
  se_dbg : c_dbg c = dbg
}.

(** A function changed at the places of a list, later entries counting. *)
Definition assign {K V} (eqb : K -> K -> bool) (f : K -> option V) (l : list (K * V)) : K -> option V :=
  fold_left (fun g x => fun k => if eqb k (fst x) then Some (snd x) else g k) l f.

(** ---- reading ---- *)

Section U.
Variable U : setup.

Lemma ask_ok : forall m k r c a c', decode (u_stod U) (u_stof U) m = DCmd k -> do_cmd (u_cfg U) r k c = Ok (a, c', Stay) ->
  ask U m (stopped r c) = Done (Some (reply_text (u_ftos U) (u_gtos U) a)) (stopped r c').
Proof. intros m k r c a c' D H. unfold ask, stopped. cbn [k_host k_told]. unfold serve. rewrite D, H. reflexivity. Qed.

Lemma command_ok : forall m k r c c', decode (u_stod U) (u_stof U) m = DCmd k -> do_cmd (u_cfg U) r k c = Ok (AOk, c', Stay) ->
  command U m (stopped r c) = Done tt (stopped r c').
Proof. intros m k r c c' D H. unfold command, then_. rewrite (ask_ok _ _ _ _ _ _ D H). reflexivity. Qed.

Lemma collect_range : forall (f : Z -> option Z) a n, (forall k, 0 <= k < Z.of_nat n -> f (a + k) <> None) ->
  exists l, collect f (range a n) = Some l /\ length l = n /\ forall k, 0 <= k < Z.of_nat n -> f (a + k) = nth_error l (Z.to_nat k).
Proof.
  intros f a n. unfold range. remember 0%nat as s eqn:Hs. assert (G : forall n s, (forall k, 0 <= k < Z.of_nat n -> f (a + (Z.of_nat s + k)) <> None) ->
    exists l, collect f (map (fun k => a + Z.of_nat k) (seq s n)) = Some l /\ length l = n /\
      forall k, 0 <= k < Z.of_nat n -> f (a + (Z.of_nat s + k)) = nth_error l (Z.to_nat k)).
  { clear. induction n as [|n IH]; intros s H; cbn [seq map collect].
    - exists []. split; [reflexivity|]. split; [reflexivity|]. intros k Hk. lia.
    - destruct (f (a + Z.of_nat s)) as [v|] eqn:E; [|exfalso; apply (H 0); [lia|]; now rewrite Z.add_0_r].
      destruct (IH (S s)) as (l & L1 & L2 & L3).
      { intros k Hk. replace (a + (Z.of_nat (S s) + k)) with (a + (Z.of_nat s + (k + 1))) by lia. apply H. lia. }
      rewrite L1. exists (v :: l). split; [reflexivity|]. split; [cbn; lia|]. intros k Hk. destruct (Z.eq_dec k 0) as [->|Hz].
      + rewrite Z.add_0_r. exact E.
      + replace (Z.to_nat k) with (S (Z.to_nat (k - 1))) by lia. cbn [nth_error]. rewrite <- L3 by lia. f_equal. lia. }
  subst s. intros H. destruct (G n 0%nat) as (l & L1 & L2 & L3); [intros k Hk; rewrite Z.add_0_l; auto|].
  exists l. split; [exact L1|]. split; [exact L2|]. intros k Hk. rewrite <- (L3 k Hk). now rewrite Z.add_0_l.
Qed.

Lemma map_line : forall {A} (f : A -> text) l, concat (map (fun x => line (f x)) l) = concat (map (fun x => x ++ [NL]) (map f l)).
Proof. intros A f l. rewrite map_map. reflexivity. Qed.

Lemma read_numbers : forall l (s : link), Forall fits l -> each_map (fun x => opt_or dead (stoll x)) (map show_Z l) s = Done l s.
Proof.
  intros l s H. induction H as [|v l Hv Hl IH]; [reflexivity|]. cbn [map each_map]. unfold then_ at 1. unfold stoll at 1.
  rewrite svtoi64_show by exact Hv. cbn [opt_or ret]. unfold then_. rewrite IH. reflexivity.
Qed.

(** ReadMemory returns the cells as they are, and changes nothing. *)
Theorem C33_read_memory : forall r c a n, readable c -> 0 <= a -> 0 <= n -> a + n < 2 ^ 63 -> a + n <= u_data U ->
  (forall k, 0 <= k < n -> ram_get (c_ram c) (a + k) <> None) ->
  exists l, read_memory U a n (stopped r c) = Done l (stopped r c) /\ Z.of_nat (length l) = n /\
    forall k, 0 <= k < n -> ram_get (c_ram c) (a + k) = nth_error l (Z.to_nat k).
Proof.
  intros r c a n R A N B D M. destruct (collect_range (ram_get (c_ram c)) a (Z.to_nat n)) as (l & L1 & L2 & L3).
  { intros k Hk. apply M. lia. }
  exists l. rewrite Z2Nat.id in L3 by lia. split; [|split; [lia|exact L3]].
  unfold read_memory. replace (u64 (a + n)) with (a + n) by (unfold u64, two64; rewrite Z.mod_small; lia).
  destruct (Z.ltb_spec (u_data U) (a + n)); [lia|]. unfold then_.
  rewrite (ask_ok _ (CPeekData a (Z.to_nat n)) r c (AData l) c); [|apply decode_peekdata; lia|cbn [do_cmd]; now rewrite L1].
  cbn [reply_text]. rewrite map_line, lines_split.
  - apply read_numbers. apply Forall_forall. intros v I. apply In_nth_error in I. destruct I as [j I].
    apply (rd_mem c R (a + Z.of_nat j)). rewrite L3; [now rewrite Nat2Z.id|]. assert (j < length l)%nat by (apply nth_error_Some; congruence). lia.
  - apply Forall_forall. intros w I. apply in_map_iff in I. destruct I as (v & <- & _). destruct (show_Z_word v) as (W1 & _ & W2 & _). auto.
Qed.

(** ReadText returns the printed form of the instructions. *)
Definition prints_lines : Prop := forall v, ~ In NL (u_ftos U v).

Lemma show_op_line : forall o, prints_lines -> ~ In NL (show_operand (u_ftos U) o).
Proof.
  intros o H. assert (Z1 : forall v, ~ In NL (show_Z v)) by (intros v; apply (show_Z_word v)).
  assert (R1 : forall r, ~ In NL (show_reg r)) by (intros r; apply (show_reg_word r)).
  assert (F1 : forall n, ~ In NL (show_freg n)) by (intros r; apply (show_freg_word r)).
  assert (N1 : forall v, ~ In NL (show_nat v)).
  { intros v. destruct (Z_lt_le_dec v 0) as [L|L]; [|rewrite <- show_nat_Z by exact L; apply Z1].
    unfold show_nat. rewrite Z.log2_nonpos by lia. cbn [Z.to_nat put_digits]. destruct (Z.ltb_spec v 10); [|lia].
    intros [X|[]]. assert (0 <= v mod 10 < 10) by (apply Z.mod_pos_bound; lia).
    remember (v mod 10) as q eqn:Hq. assert (Q : q = 0 \/ q = 1 \/ q = 2 \/ q = 3 \/ q = 4 \/ q = 5 \/ q = 6 \/ q = 7 \/ q = 8 \/ q = 9) by lia.
    clear Hq. repeat (destruct Q as [->|Q]; [discriminate X|]). subst q. discriminate X. }
  assert (P : forall a b, ~ In NL a -> ~ In NL b -> ~ In NL (a ++ b)) by (intros a b Ha Hb I; apply in_app_or in I; tauto).
  assert (S1 : ~ In NL (str " + ")) by (cbn; intuition discriminate).
  assert (S2 : ~ In NL (str " * ")) by (cbn; intuition discriminate).
  assert (S3 : ~ In NL (str "[")) by (cbn; intuition discriminate).
  assert (S4 : ~ In NL (str "]")) by (cbn; intuition discriminate).
  destruct o; cbn [show_operand]; unfold bracket, show_off_scaled, show_reg_scaled, show_off_reg, show_reg_reg, show_scaled, show_off; auto;
    repeat (apply P; auto).
Qed.

Lemma show_instr_line : forall i, prints_lines -> show_instr (u_ftos U) i <> [] /\ ~ In NL (show_instr (u_ftos U) i).
Proof.
  intros i H. assert (N : name_of i <> [] /\ ~ In NL (name_of i)).
  { destruct i as [[]| [] | [] | | | | | | | | | | | |[]| | | | | | | | | | |]; split; try discriminate; cbn; intuition discriminate. }
  destruct N as [N1 N2]. unfold show_instr. split; [destruct (name_of i); [now elim N1|discriminate]|].
  intros I. apply in_app_or in I. destruct I as [I|I]; [now apply N2|]. revert I. destruct (signature i) as [|o l]; cbn [map]; [intros []|].
  intros I. apply in_app_or in I. destruct I as [I|I]; [cbn in I; intuition discriminate|]. apply in_app_or in I.
  destruct I as [I|I]; [revert I; now apply show_op_line|]. apply in_concat in I. destruct I as (x & X1 & X2).
  apply in_map_iff in X1. destruct X1 as (y & <- & X1). apply in_map_iff in X1. destruct X1 as (o' & <- & _).
  apply in_app_or in X2. destruct X2 as [I|I]; [cbn in I; intuition discriminate|]. revert I. now apply show_op_line.
Qed.

Theorem C33_read_text : forall r c a n, prints_lines -> 0 <= a < 2 ^ 63 -> 0 <= n < 2 ^ 63 ->
  read_text U a n (stopped r c) = Done (map (fun k => show_instr (u_ftos U) (prog_at (c_prog c) k)) (range a (Z.to_nat n))) (stopped r c).
Proof.
  intros r c a n P A N. unfold read_text, then_.
  rewrite (ask_ok _ (CPeekText a (Z.to_nat n)) r c (AText (map (prog_at (c_prog c)) (range a (Z.to_nat n)))) c); [|now apply decode_peektext|reflexivity].
  cbn [reply_text]. rewrite map_line, lines_split.
  - unfold ret. now rewrite map_map.
  - apply Forall_forall. intros w I. apply in_map_iff in I. destruct I as (i & <- & _). now apply show_instr_line.
Qed.

(** GetReason, TextSize *)
Theorem C33_reason : forall r c, get_reason U (stopped r c) = Done r (stopped r c).
Proof. intros [] c; reflexivity. Qed.

Theorem C33_text_size : forall r c, Z.of_nat (length (c_prog c)) < 2 ^ 64 ->
  text_size U (stopped r c) = Done (Z.of_nat (length (c_prog c))) (stopped r c).
Proof.
  intros r c H. unfold text_size, then_. rewrite (ask_ok _ CTextSize r c (ATextSize (length (c_prog c))) c); [|reflexivity|reflexivity].
  cbn [reply_text]. change (skipn 9 (str "TEXTSIZE:" ++ show_Z (Z.of_nat (length (c_prog c))))) with (show_Z (Z.of_nat (length (c_prog c)))).
  rewrite svtou64_show by lia. reflexivity.
Qed.

(** ---- registers ---- *)

Definition put_rows (rows : list (text * Z)) (m : list (text * Z)) : list (text * Z) := fold_left (fun m x => tput m (fst x) (snd x)) rows m.

Lemma fetch_rows : forall num sh rows m, Forall (fun x => word_ok (fst x) /\ sh (snd x) <> [] /\ ~ In COLON (sh (snd x)) /\ num (sh (snd x)) = Some (snd x)) rows ->
  fetch_lines num m (map (fun x => fst x ++ [COLON] ++ sh (snd x)) rows) = Some (put_rows rows m).
Proof.
  intros num sh rows m H. revert m. induction H as [|[k v] rows (H1 & H2 & H3 & H4) Hr IH]; intros m; [reflexivity|].
  cbn [map fetch_lines fst snd] in *. unfold fetch_line. rewrite pair_split by assumption. rewrite H4, IH. reflexivity.
Qed.

Lemma put_rows_get : forall rows m k, NoDup (map fst rows) ->
  tget (put_rows rows m) k = match tget rows k with Some v => Some v | None => tget m k end.
Proof.
  intros rows. induction rows as [|[k' v'] rows IH]; intros m k D; [reflexivity|]. cbn [map fst] in D. inversion D as [|? ? D1 D2]; subst.
  cbn [put_rows fold_left fst snd]. fold (put_rows rows (tput m k' v')). rewrite (IH _ _ D2). cbn [mget].
  destruct (teqb k k') eqn:E.
  - apply teqb_eq in E. subst k'. destruct (tget rows k) as [v|] eqn:G.
    + exfalso. apply D1. apply (mget_keys teqb (fun a b => teqb_eq a b)). congruence.
    + now rewrite (mget_put_same teqb tltb (fun a b => teqb_eq a b)).
  - rewrite (mget_put_other teqb tltb (fun a b => teqb_eq a b)); [reflexivity|]. intros ->. now rewrite teqb_refl in E.
Qed.

Lemma denotes_fun : forall s n, denotes s n -> forall m, denotes s m -> n = m.
Proof.
  induction 1 as [|s n c k Hs IH Hk Hc]; intros m H.
  - inversion H as [|s' n' c' k' H1 H2 H3 H4 H5]; [reflexivity|]. destruct s'; discriminate.
  - inversion H as [H4 H5|s' n' c' k' H1 H2 H3 H4 H5]; [destruct s; discriminate|]. apply app_inj_tail in H4. destruct H4 as [-> E].
    rewrite (IH _ H1). assert (K : digit c = digit c') by now rewrite E. rewrite Hc, H3, !digit_char in K by assumption. congruence.
Qed.
Lemma show_nat_inj : forall a b, 0 <= a -> 0 <= b -> show_nat a = show_nat b -> a = b.
Proof. intros a b A B E. destruct (show_nat_spec a A) as [_ D], (show_nat_spec b B) as [_ D']. rewrite E in D. exact (denotes_fun _ _ D _ D'). Qed.

Lemma lreg_name_inj : forall l l', lreg_name l = lreg_name l' -> l = l'.
Proof.
  assert (X : forall m, show_nat (Z.of_N m) <> str "LAGS").
  { intros m E. assert (D : digit "L"%char <> None); [|now elim D]. apply (show_nat_chars (Z.of_N m)); [lia|]. rewrite E. now left. }
  intros [[n| | | |]|n] [[m| | | |]|m] E; try discriminate E; try reflexivity; try (injection E as E; symmetry in E; now elim (X m)); try (injection E as E; now elim (X n)).
  - injection E as E. apply show_nat_inj in E; [|lia|lia]. do 2 f_equal. lia.
  - injection E as E. apply show_nat_inj in E; [|lia|lia]. f_equal. lia.
Qed.

Lemma map_nodup : forall A B (f : A -> B) l, (forall x y, f x = f y -> x = y) -> NoDup l -> NoDup (map f l).
Proof.
  intros A B f l F D. induction D as [|x l N D IH]; [constructor|]. cbn [map]. constructor; [|exact IH].
  intros I. apply in_map_iff in I. destruct I as (y & E & I). apply F in E. now subst.
Qed.
Lemma reg_list_nodup : forall g, NoDup (reg_list g) /\ NoDup (freg_list g).
Proof.
  intros g. assert (S : forall (f : nat -> lreg), (forall x y, f x = f y -> x = y) -> NoDup (map f (seq 0 (g_reg g))) /\ NoDup (map f (seq 0 (g_freg g)))).
  { intros f F. split; (apply map_nodup; [exact F|apply seq_NoDup]). }
  split; unfold reg_list, freg_list.
  - cbn [app]. assert (X : forall l, In l (map (fun k => LR (R (N.of_nat k))) (seq 0 (g_reg g))) -> exists n, l = LR (R n)).
    { intros l I. apply in_map_iff in I. destruct I as (k & <- & _). eauto. }
    repeat (constructor; [intros I; repeat (destruct I as [I|I]; [discriminate I|]); apply X in I; destruct I as [n I]; discriminate I|]).
    apply S. intros x y E. injection E as E. lia.
  - apply S. intros x y E. injection E as E. lia.
Qed.

Definition row (x : lreg * Z) : text * Z := (lreg_name (fst x), snd x).

Lemma shown_rows : forall c L, (forall l, In l L -> exists v, get_lreg c l = Some v) ->
  exists xs, show_regs c L = Some xs /\ map fst xs = L /\ forall l v, In (l, v) xs -> get_lreg c l = Some v.
Proof.
  intros c L. unfold show_regs. induction L as [|l L IH]; intros H; cbn [collect]; [exists []; repeat split; auto; intros ? ? []|].
  destruct (H l (or_introl eq_refl)) as [v Hv]. rewrite Hv. cbn [option_map].
  destruct IH as (xs & X1 & X2 & X3); [intros k Hk; apply H; now right|]. rewrite X1. exists ((l, v) :: xs). cbn [map fst]. rewrite X2.
  repeat split; auto. intros k u [E|I]; [injection E as <- <-; exact Hv|auto].
Qed.

Lemma rows_get : forall c xs l v, NoDup (map fst xs) -> (forall l v, In (l, v) xs -> get_lreg c l = Some v) -> In (l, v) xs ->
  tget (map row xs) (lreg_name l) = Some v.
Proof.
  intros c xs l v D G I. apply (mget_distinct teqb (fun a b => teqb_eq a b)).
  - unfold distinct. rewrite map_map. cbn [row fst]. change (fun x : lreg * Z => lreg_name (fst x)) with (fun x : lreg * Z => lreg_name (fst x)).
    rewrite <- (map_map fst lreg_name). apply map_nodup; [exact lreg_name_inj|exact D].
  - apply in_map_iff. exists (l, v). auto.
Qed.

(** The result of fetching registers: exactly those of the list, with their values. *)
Definition fetched (c : cpu) (L : list lreg) (m : list (text * Z)) : Prop :=
  (forall l, In l L -> tget m (lreg_name l) = get_lreg c l) /\ (forall name, tget m name <> None -> exists l, In l L /\ name = lreg_name l).

Lemma fetch_rows_ok : forall num sh msg k c r L xs, decode (u_stod U) (u_stof U) msg = DCmd k -> do_cmd (u_cfg U) r k c = Ok (ARegs xs, c, Stay) ->
  show_regs c L = Some xs -> (forall l, In l L -> exists v, get_lreg c l = Some v /\ num (sh v) = Some v /\ sh v <> [] /\ ~ In COLON (sh v) /\ ~ In NL (sh v)) ->
  (forall l v, In l L -> reg_line (u_gtos U) (l, v) = line (lreg_name l ++ [COLON] ++ sh v)) ->
  fetch U num msg (stopped r c) = Done (put_rows (map row xs) []) (stopped r c) /\ map fst xs = L /\ (forall l v, In (l, v) xs -> get_lreg c l = Some v).
Proof.
  intros num sh msg k c r L xs D H X V F. destruct (shown_rows c L) as (xs' & X1 & X2 & X3).
  { intros l I. destruct (V l I) as (v & Hv & _). eauto. }
  rewrite X in X1. injection X1 as <-. split; [|auto].
  unfold fetch, then_. rewrite (ask_ok _ _ _ _ _ _ D H). cbn [reply_text].
    assert (E : map (reg_line (u_gtos U)) xs = map (fun x => x ++ [NL]) (map (fun x => fst x ++ [COLON] ++ sh (snd x)) (map row xs))).
    { rewrite !map_map. apply map_ext_in. intros [l v] I. unfold row. cbn [fst snd].
      assert (In l L) by (rewrite <- X2; apply in_map_iff; now exists (l, v)). now rewrite F. }
    rewrite E, lines_split.
    + rewrite fetch_rows; [reflexivity|]. apply Forall_forall. intros x I. apply in_map_iff in I. destruct I as ([l v] & <- & I). cbn [row fst snd].
      assert (IL : In l L) by (rewrite <- X2; apply in_map_iff; now exists (l, v)). destruct (V l IL) as (v' & V1 & V2 & V3 & V4 & V5).
      rewrite (X3 _ _ I) in V1. injection V1 as <-. split; [|auto]. destruct l as [rg|n]; [apply show_reg_word|apply show_freg_word].
    + apply Forall_forall. intros w I. apply in_map_iff in I. destruct I as (x & <- & I). apply in_map_iff in I. destruct I as ([l v] & <- & I). cbn [row fst snd].
      assert (IL : In l L) by (rewrite <- X2; apply in_map_iff; now exists (l, v)). destruct (V l IL) as (v' & V1 & V2 & V3 & V4 & V5).
      rewrite (X3 _ _ I) in V1. injection V1 as <-. assert (W : word_ok (lreg_name l)) by (destruct l as [rg|n]; [apply show_reg_word|apply show_freg_word]).
      destruct W as (W1 & _ & W2 & _). split; [destruct (lreg_name l); [now elim W1|discriminate]|]. intros J. apply in_app_or in J. destruct J as [J|[J|J]]; [tauto|discriminate J|tauto].
Qed.

Lemma fetch_ok : forall num sh msg k c r L xs, decode (u_stod U) (u_stof U) msg = DCmd k -> do_cmd (u_cfg U) r k c = Ok (ARegs xs, c, Stay) ->
  show_regs c L = Some xs -> NoDup L -> (forall l, In l L -> exists v, get_lreg c l = Some v /\ num (sh v) = Some v /\ sh v <> [] /\ ~ In COLON (sh v) /\ ~ In NL (sh v)) ->
  (forall l v, In l L -> reg_line (u_gtos U) (l, v) = line (lreg_name l ++ [COLON] ++ sh v)) ->
  exists m, fetch U num msg (stopped r c) = Done m (stopped r c) /\ fetched c L m.
Proof.
  intros num sh msg k c r L xs D H X ND V F. destruct (fetch_rows_ok num sh msg k c r L xs D H X V F) as (X1 & X2 & X3).
  exists (put_rows (map row xs) []). split; [exact X1|].
  { assert (ND' : NoDup (map fst xs)) by now rewrite X2.
    assert (NR : NoDup (map fst (map row xs))).
    { rewrite map_map. cbn [row fst]. rewrite <- (map_map fst lreg_name). apply map_nodup; [exact lreg_name_inj|exact ND']. }
    split.
    + intros l I. rewrite put_rows_get by exact NR. rewrite <- X2 in I. apply in_map_iff in I. destruct I as ([l' v] & <- & I). cbn [fst].
      rewrite (rows_get c xs l' v ND' X3 I). now rewrite (X3 _ _ I).
    + intros name N. rewrite put_rows_get in N by exact NR. cbn [mget] in N. destruct (tget (map row xs) name) as [v|] eqn:G; [|now elim N].
      apply (mget_in teqb (fun a b => teqb_eq a b)) in G. apply in_map_iff in G. destruct G as ([l u] & G1 & G2). injection G1 as <- <-.
      exists l. split; [|reflexivity]. rewrite <- X2. apply in_map_iff. now exists (l, u). }
Qed.

(** FetchRegisters: IP, BP, SP and every general register with its value. *)
Theorem C33_fetch_registers : forall r c, readable c ->
  exists m, fetch_registers U (stopped r c) = Done m (stopped r c) /\ fetched c (reg_list (c_cfg c)) m.
Proof.
  intros r c R. destruct (shown_rows c (reg_list (c_cfg c))) as (xs & X & _).
  { intros l I. destruct (rd_reg c R l (listed_ok _ _ (or_introl I))) as (v & V & _). eauto. }
  apply (fetch_ok svtoi64 show_Z (str "PEEKREGS") CPeekRegs c r _ xs); auto.
  - cbn [do_cmd]. now rewrite X.
  - apply reg_list_nodup.
  - intros l I. destruct (rd_reg c R l (listed_ok _ _ (or_introl I))) as (v & V & Fv). exists v. destruct (show_Z_word v) as (A & B & C & D).
    split; [exact V|]. split; [now apply svtoi64_show|auto].
  - intros l v I. unfold reg_list in I. apply in_app_or in I. destruct I as [[<-|[<-|[<-|[]]]]|I]; try reflexivity.
    apply in_map_iff in I. destruct I as (k & <- & _). reflexivity.
Qed.

(** A double that survives being printed and read. *)
Definition float_text (v : Z) : Prop :=
  u_stof U (u_gtos U v) = Some v /\ u_gtos U v <> [] /\ ~ In COLON (u_gtos U v) /\ ~ In NL (u_gtos U v) /\ ~ In SPACE (u_gtos U v).

Theorem C33_fetch_float_registers : forall r c, readable c -> (forall l v, In l (freg_list (c_cfg c)) -> get_lreg c l = Some v -> float_text v) ->
  exists m, fetch_float_registers U (stopped r c) = Done m (stopped r c) /\ fetched c (freg_list (c_cfg c)) m.
Proof.
  intros r c R FT. destruct (shown_rows c (freg_list (c_cfg c))) as (xs & X & _).
  { intros l I. destruct (rd_reg c R l (listed_ok _ _ (or_intror I))) as (v & V & _). eauto. }
  apply (fetch_ok (u_stof U) (u_gtos U) (str "PEEKFLOATREGS") CPeekFloatRegs c r _ xs); auto.
  - cbn [do_cmd]. now rewrite X.
  - apply reg_list_nodup.
  - intros l I. destruct (rd_reg c R l (listed_ok _ _ (or_intror I))) as (v & V & Fv). exists v. destruct (FT l v I V) as (A & B & C & D & _). auto.
  - intros l v I. unfold freg_list in I. apply in_map_iff in I. destruct I as (k & <- & _). reflexivity.
Qed.

(** FetchDebugRegisters *)
Lemma dbg_lines_rows : forall l i, dbg_lines i l = concat (map (fun x => x ++ [NL]) (map (fun x => fst x ++ [COLON] ++ show_Z (snd x))
  (combine (map dreg_name (seq i (length l))) l))).
Proof. induction l as [|v l IH]; intros i; [reflexivity|]. cbn [dbg_lines length seq map combine concat fst snd]. rewrite IH. unfold dbg_line, line, dreg_name. cbn [app]. rewrite <- !app_assoc. reflexivity. Qed.

Lemma dreg_name_word : forall i, word_ok (dreg_name i).
Proof. intros i. apply cons_word; try discriminate. right. apply show_Z_word. Qed.
Lemma dreg_name_inj : forall i j, dreg_name i = dreg_name j -> i = j.
Proof. intros i j E. injection E as E. rewrite !show_nat_Z in E by lia. apply show_nat_inj in E; lia. Qed.

Lemma combine_get : forall (l : list Z) s i v, nth_error l i = Some v -> tget (combine (map dreg_name (seq s (length l))) l) (dreg_name (s + i)) = Some v.
Proof.
  induction l as [|x l IH]; intros s i v H; [destruct i; discriminate|]. cbn [length seq map combine mget]. destruct i as [|i].
  - rewrite Nat.add_0_r, teqb_refl. exact H.
  - destruct (teqb (dreg_name (s + S i)) (dreg_name s)) eqn:E; [apply teqb_eq, dreg_name_inj in E; lia|].
    replace (s + S i)%nat with (S s + i)%nat by lia. now apply IH.
Qed.
Lemma combine_fst : forall A B (a : list A) (b : list B), length a = length b -> map fst (combine a b) = a.
Proof. induction a as [|x a IH]; intros [|y b] H; try discriminate; [reflexivity|]. cbn [combine map fst]. f_equal. apply IH. now injection H. Qed.

Theorem C33_fetch_debug_registers : forall r c, Forall (fun v => 0 <= v < 2 ^ 64) (c_dbg c) ->
  exists m, fetch_debug_registers U (stopped r c) = Done m (stopped r c) /\
    (forall i, tget m (dreg_name i) = nth_error (c_dbg c) i) /\ (forall name, tget m name <> None -> exists i, (i < length (c_dbg c))%nat /\ name = dreg_name i).
Proof.
  intros r c R. set (rows := combine (map dreg_name (seq 0 (length (c_dbg c)))) (c_dbg c)). exists (put_rows rows []).
  assert (E : map fst rows = map dreg_name (seq 0 (length (c_dbg c)))) by (apply combine_fst; now rewrite map_length, seq_length).
  assert (ND : NoDup (map fst rows)) by (rewrite E; apply map_nodup; [exact dreg_name_inj|apply seq_NoDup]).
  assert (G : Forall (fun x => word_ok (fst x) /\ 0 <= snd x < 2 ^ 64) rows).
  { apply Forall_forall. intros [n v] I. cbn [fst snd]. split.
    - assert (J : In n (map fst rows)) by (apply in_map_iff; now exists (n, v)). rewrite E in J. apply in_map_iff in J. destruct J as (i & <- & _). apply dreg_name_word.
    - apply in_combine_r in I. rewrite Forall_forall in R. now apply R. }
  split; [|split].
  - unfold fetch_debug_registers, fetch, then_. rewrite (ask_ok _ CPeekDebugRegs r c (ADebugRegs (c_dbg c)) c) by reflexivity. cbn [reply_text].
    rewrite dbg_lines_rows, lines_split.
    + fold rows. rewrite fetch_rows; [reflexivity|]. eapply Forall_impl; [|exact G]. intros [n v] [G1 G2]. cbn [fst snd] in *.
      destruct (show_Z_word v) as (A & _ & _ & B). split; [exact G1|]. split; [exact A|]. split; [exact B|]. now apply svtou64_show.
    + apply Forall_forall. intros w I. apply in_map_iff in I. destruct I as ([n v] & <- & I). rewrite Forall_forall in G. specialize (G _ I). cbn [fst snd] in *.
      destruct G as [(W1 & _ & W2 & _) _]. destruct (show_Z_word v) as (_ & _ & W3 & _). split; [destruct n; [now elim W1|discriminate]|].
      intros J. apply in_app_or in J. destruct J as [J|[J|J]]; [tauto|discriminate J|tauto].
  - intros i. rewrite put_rows_get by exact ND. destruct (nth_error (c_dbg c) i) as [v|] eqn:Hi.
    + pose proof (combine_get _ 0 _ _ Hi) as C. cbn [Nat.add] in C. unfold rows. now rewrite C.
    + destruct (tget rows (dreg_name i)) as [v|] eqn:H; [|reflexivity]. exfalso. apply (mget_in teqb (fun a b => teqb_eq a b)) in H.
      assert (J : In (dreg_name i) (map fst rows)) by (apply in_map_iff; now exists (dreg_name i, v)). rewrite E in J. apply in_map_iff in J.
      destruct J as (j & J1 & J2). apply dreg_name_inj in J1. subst j. apply in_seq in J2. apply nth_error_None in Hi. lia.
  - intros name N. rewrite put_rows_get in N by exact ND. cbn [mget] in N. destruct (tget rows name) as [v|] eqn:H; [|now elim N].
    apply (mget_in teqb (fun a b => teqb_eq a b)) in H. assert (J : In name (map fst rows)) by (apply in_map_iff; now exists (name, v)). rewrite E in J.
    apply in_map_iff in J. destruct J as (i & <- & J). apply in_seq in J. exists i. split; [lia|reflexivity].
Qed.

(** ---- writing ---- *)

Lemma set_lreg_ok : forall c l v, readable c -> lreg_ok (c_cfg c) l = true -> fits v ->
  exists c', set_lreg c l v = Ok c' /\ readable c' /\ c_cfg c' = c_cfg c /\
    sees c' (fun k => if lreg_eqb k l then Some v else get_lreg c k) (ram_get (c_ram c)) (c_prog c) (c_dbg c).
Proof.
  intros c l v R L Fv. destruct (rd_reg c R l L) as (w & W & _). unfold get_lreg in W. destruct (rget (c_rat c) l) as [p|] eqn:P; [|discriminate].
  unfold get_preg in W. destruct (nth_error (c_regs c) p) as [q|] eqn:Q; [|discriminate].
  unfold set_lreg, pset. rewrite P, Q. set (c' := set_regs c _). exists c'.
  assert (G : forall k, get_lreg c' k = if lreg_eqb k l then Some v else get_lreg c k).
  { intros k. unfold get_lreg, get_preg. cbn [c' set_regs c_rat c_regs]. destruct (lreg_eqb_spec k l) as [->|N].
    - rewrite P, nth_error_set_nth, Nat.eqb_refl. assert (Hl : (p <? length (c_regs c))%nat = true) by (apply Nat.ltb_lt, nth_error_Some; congruence). now rewrite Hl.
    - destruct (rget (c_rat c) k) as [p'|] eqn:P'; [|reflexivity]. rewrite nth_error_set_nth. destruct (Nat.eqb_spec p' p) as [->|Np]; [|reflexivity].
      elim N. exact (rd_apart c R _ _ _ P' P). }
  split; [reflexivity|]. split; [|split; [reflexivity|constructor; auto]].
  constructor.
  - intros k Hk. rewrite G. destruct (lreg_eqb k l); [eauto|]. now apply (rd_reg c R).
  - exact (rd_mem c R).
  - exact (rd_apart c R).
Qed.

Lemma assign_cons : forall K V eqb (f : K -> option V) x l, assign eqb f (x :: l) = assign eqb (fun k => if eqb k (fst x) then Some (snd x) else f k) l.
Proof. reflexivity. Qed.
Lemma assign_ext : forall K V eqb (l : list (K * V)) f g, (forall k, f k = g k) -> forall k, assign eqb f l k = assign eqb g l k.
Proof. intros K V eqb l. induction l as [|x l IH]; intros f g H k; [apply H|]. rewrite !assign_cons. apply IH. intros j. destruct (eqb j (fst x)); auto. Qed.

(** The debugger's idea of the number of registers does not exceed the machine's. *)
Definition known_reg (c : cpu) (rg : reg) : Prop :=
  lreg_ok (c_cfg c) (LR rg) = true /\ match rg with R n => Z.of_N n < u_regs U /\ Z.of_N n < 2 ^ 63 | _ => True end.

Lemma valid_name : forall c rg, known_reg c rg -> valid_reg U (show_reg rg) = true /\ translate_reg (show_reg rg) = Some rg.
Proof.
  intros c [n| | | |] [_ K]; try (split; reflexivity). destruct K as [K1 K2].
  assert (E : svtou64 (show_nat (Z.of_N n)) = Some (Z.of_N n)) by (rewrite <- show_nat_Z by lia; apply svtou64_show; lia).
  split.
  - unfold valid_reg. cbn [show_reg]. change (str "R" ++ show_nat (Z.of_N n)) with (ch 82 :: show_nat (Z.of_N n)). cbn [indexed].
    rewrite E. destruct (Z.ltb_spec (Z.of_N n) (u_regs U)); [|lia]. rewrite Ascii.eqb_refl.
    destruct (show_nat_spec (Z.of_N n)) as [N _]; [lia|]. destruct (teqb (show_nat (Z.of_N n)) []) eqn:T; [apply teqb_eq in T; now elim N|].
    cbn [negb andb]. now rewrite !orb_true_r.
  - unfold translate_reg. cbn [show_reg]. change (str "R" ++ show_nat (Z.of_N n)) with (ch 82 :: show_nat (Z.of_N n)).
    cbn [teqb str list_ascii_of_string skipn]. change (Ascii.eqb (ch 82) "I") with false. change (Ascii.eqb (ch 82) "B") with false.
    change (Ascii.eqb (ch 82) "S") with false. change (Ascii.eqb (ch 82) "F") with false. cbn [andb]. rewrite E. cbn [option_map]. f_equal.
    unfold reg_of_index. assert (T : two64 = 2 ^ 64) by reflexivity. rewrite T.
    destruct (Z.eqb_spec (Z.of_N n) (2 ^ 64 - 1)); [lia|]. destruct (Z.eqb_spec (Z.of_N n) (2 ^ 64 - 2)); [lia|].
    destruct (Z.eqb_spec (Z.of_N n) (2 ^ 64 - 3)); [lia|]. destruct (Z.eqb_spec (Z.of_N n) (2 ^ 64 - 4)); [lia|]. now rewrite N2Z.id.
Qed.

Lemma poke_reg_ok : forall r c rg v, readable c -> lreg_ok (c_cfg c) (LR rg) = true -> fits v ->
  exists c', do_cmd (u_cfg U) r (CPokeRegs rg v) c = Ok (AOk, c', Stay) /\ readable c' /\ c_cfg c' = c_cfg c /\
    sees c' (fun k => if lreg_eqb k (LR rg) then Some v else get_lreg c k) (ram_get (c_ram c)) (c_prog c) (c_dbg c).
Proof.
  intros r c rg v R L Fv. destruct (set_lreg_ok c (LR rg) v R L Fv) as (c1 & E & R1 & C1 & S1).
  cbn [do_cmd]. unfold poke_reg. rewrite E. cbn [bind].
  set (c' := match rg with PC => set_spec c1 (u64 v) | _ => c1 end). exists c'. split; [reflexivity|].
  destruct rg; try (subst c'; auto; fail). split; [|split; [exact C1|]]; subst c'.
  - destruct R1 as [A B C]. constructor; assumption.
  - destruct S1 as [A B C D]. constructor; assumption.
Qed.

(** SetRegisters: each register named gets its value, everything else stays. *)
Definition reg_rows (ps : list (reg * Z)) : list (text * Z) := map (fun x => (show_reg (fst x), snd x)) ps.
Definition reg_values (ps : list (reg * Z)) : list (lreg * Z) := map (fun x => (LR (fst x), snd x)) ps.

Theorem C33_set_registers : forall r ps c, readable c -> Forall (fun x => known_reg c (fst x) /\ fits (snd x)) ps ->
  exists c', set_registers U (reg_rows ps) (stopped r c) = Done tt (stopped r c') /\ readable c' /\ c_cfg c' = c_cfg c /\
    sees c' (assign lreg_eqb (get_lreg c) (reg_values ps)) (ram_get (c_ram c)) (c_prog c) (c_dbg c).
Proof.
  intros r ps. induction ps as [|[rg v] ps IH]; intros c R H.
  - exists c. split; [reflexivity|]. split; [exact R|]. split; [reflexivity|]. constructor; reflexivity.
  - inversion H as [|? ? [K Fv] H']; subst. cbn [fst snd] in *. destruct (valid_name c rg K) as [V T]. destruct (show_reg_word rg) as (W1 & W2 & _).
    destruct (poke_reg_ok r c rg v R (proj1 K) Fv) as (c1 & E1 & R1 & C1 & S1).
    destruct (IH c1 R1) as (c' & E & R' & C' & S').
    { eapply Forall_impl; [|exact H']. intros [rg' v'] [[K1 K2] F']. split; [split; [now rewrite C1|exact K2]|exact F']. }
    exists c'. split; [|split; [exact R'|split; [congruence|]]].
    + unfold set_registers, set_with. cbn [reg_rows map each fst snd]. unfold then_ at 1. rewrite V.
      rewrite (command_ok _ _ _ _ _ (decode_pokeregs_msg _ _ _ _ _ W1 W2 T Fv) E1). exact E.
    + destruct S1 as [A1 B1 D1 F1], S' as [A2 B2 D2 F2]. constructor; try congruence.
      intros k. rewrite A2. cbn [reg_values map fst snd]. rewrite assign_cons. cbn [fst snd]. now apply assign_ext.
Qed.

(** A name that is not that of a register is refused and the VM is not asked. *)
Theorem C33_unknown_register : forall name v l s, valid_reg U name = false -> set_registers U ((name, v) :: l) s = Failed s.
Proof. intros name v l s H. unfold set_registers, set_with. cbn [each fst snd]. unfold then_. now rewrite H. Qed.

(** SetFloatRegisters *)
Definition freg_rows (ps : list (N * Z)) : list (text * Z) := map (fun x => (show_freg (fst x), snd x)) ps.
Definition freg_values (ps : list (N * Z)) : list (lreg * Z) := map (fun x => (LF (fst x), snd x)) ps.
Definition known_freg (c : cpu) (n : N) : Prop := lreg_ok (c_cfg c) (LF n) = true /\ Z.of_N n < u_fregs U /\ Z.of_N n < 2 ^ 63.

Lemma valid_fname : forall c n, known_freg c n -> valid_freg U (show_freg n) = true /\ translate_freg (show_freg n) = Some n.
Proof.
  intros c n (_ & K1 & K2). assert (E : svtou64 (show_nat (Z.of_N n)) = Some (Z.of_N n)) by (rewrite <- show_nat_Z by lia; apply svtou64_show; lia).
  unfold valid_freg, show_freg. change (str "F" ++ show_nat (Z.of_N n)) with (ch 70 :: show_nat (Z.of_N n)). split.
  - cbn [indexed]. rewrite E, Ascii.eqb_refl. destruct (Z.ltb_spec (Z.of_N n) (u_fregs U)); [|lia].
    destruct (show_nat_spec (Z.of_N n)) as [N _]; [lia|]. destruct (teqb (show_nat (Z.of_N n)) []) eqn:T; [apply teqb_eq in T; now elim N|]. reflexivity.
  - unfold translate_freg. cbn [skipn]. rewrite E. cbn [option_map]. now rewrite N2Z.id.
Qed.

Theorem C33_set_float_registers : forall r ps c, readable c -> Forall (fun x => known_freg c (fst x) /\ fits (snd x) /\ float_text (snd x)) ps ->
  exists c', set_float_registers U (freg_rows ps) (stopped r c) = Done tt (stopped r c') /\ readable c' /\ c_cfg c' = c_cfg c /\
    sees c' (assign lreg_eqb (get_lreg c) (freg_values ps)) (ram_get (c_ram c)) (c_prog c) (c_dbg c).
Proof.
  intros r ps. induction ps as [|[n v] ps IH]; intros c R H.
  - exists c. split; [reflexivity|]. split; [exact R|]. split; [reflexivity|]. constructor; reflexivity.
  - inversion H as [|? ? (K & Fv & T1 & T2 & _ & _ & T3) H']; subst. cbn [fst snd] in *. destruct (valid_fname c n K) as [V T]. destruct (show_freg_word n) as (W1 & W2 & _).
    destruct (set_lreg_ok c (LF n) v R (proj1 K) Fv) as (c1 & E1 & R1 & C1 & S1).
    destruct (IH c1 R1) as (c' & E & R' & C' & S').
    { eapply Forall_impl; [|exact H']. intros [n' v'] [[K1 K2] F']. split; [split; [now rewrite C1|exact K2]|exact F']. }
    exists c'. split; [|split; [exact R'|split; [congruence|]]].
    + unfold set_float_registers, set_with. cbn [freg_rows map each fst snd]. unfold then_ at 1. rewrite V.
      rewrite (command_ok _ (CPokeFloatRegs n v) r c c1); [exact E| |cbn [do_cmd]; now rewrite E1].
      now apply decode_pokefloat_msg.
    + destruct S1 as [A1 B1 D1 F1], S' as [A2 B2 D2 F2]. constructor; try congruence.
      intros k. rewrite A2. cbn [freg_values map fst snd]. rewrite assign_cons. cbn [fst snd]. now apply assign_ext.
Qed.

(** SetDebugRegisters *)
Definition dreg_rows (ps : list (nat * Z)) : list (text * Z) := map (fun x => (dreg_name (fst x), snd x)) ps.

Lemma valid_dname : forall i, (i < 5)%nat -> valid_dreg (dreg_name i) = true /\ translate_dreg (dreg_name i) = Some (Z.of_nat i).
Proof. intros i H. assert (C : i = 0%nat \/ i = 1%nat \/ i = 2%nat \/ i = 3%nat \/ i = 4%nat) by lia. destruct C as [->|[->|[->|[->| ->]]]]; split; reflexivity. Qed.

Theorem C33_set_debug_registers : forall r ps c, readable c -> length (c_dbg c) = 5%nat -> Forall (fun x => (fst x < 5)%nat /\ 0 <= snd x < 2 ^ 64) ps ->
  exists c', set_debug_registers U (dreg_rows ps) (stopped r c) = Done tt (stopped r c') /\ readable c' /\ c_cfg c' = c_cfg c /\ length (c_dbg c') = 5%nat /\
    sees c' (get_lreg c) (ram_get (c_ram c)) (c_prog c) (fold_left (fun d x => set_nth d (fst x) (snd x)) ps (c_dbg c)).
Proof.
  intros r ps. induction ps as [|[i v] ps IH]; intros c R L H.
  - exists c. split; [reflexivity|]. split; [exact R|]. split; [reflexivity|]. split; [exact L|]. constructor; reflexivity.
  - inversion H as [|? ? [K Fv] H']; subst. cbn [fst snd] in *. destruct (valid_dname i K) as [V T]. destruct (dreg_name_word i) as (W1 & W2 & _).
    set (c1 := set_dbg c (set_nth (c_dbg c) i v) (c_int c)).
    assert (E1 : do_cmd (u_cfg U) r (CPokeDebugRegs (Z.of_nat i) v) c = Ok (AOk, c1, Stay)).
    { cbn [do_cmd]. unfold poke_dbg. rewrite L, Nat2Z.id. destruct (Z.leb_spec 0 (Z.of_nat i)); [|lia].
      destruct (Z.ltb_spec (Z.of_nat i) (Z.of_nat 5)); [reflexivity|lia]. }
    assert (R1 : readable c1) by (destruct R as [A B C]; constructor; assumption).
    assert (L1 : length (c_dbg c1) = 5%nat) by (cbn [c1 set_dbg c_dbg]; now rewrite set_nth_length).
    destruct (IH c1 R1 L1 H') as (c' & E & R' & C' & L' & S').
    exists c'. split; [|split; [exact R'|split; [exact C'|split; [exact L'|exact S']]]].
    unfold set_debug_registers, set_with. cbn [dreg_rows map each fst snd]. unfold then_ at 1. rewrite V.
    rewrite (command_ok _ _ _ _ _ (decode_pokedebug_msg _ _ _ _ _ W1 W2 T Fv) E1). exact E.
Qed.

(** WriteMemory *)
Definition cells (a : Z) (l : list Z) : list (Z * Z) := combine (map (fun k => a + Z.of_nat k) (seq 0 (length l))) l.

Lemma poke_data_ok : forall r c a v, readable c -> ram_get (c_ram c) a <> None -> fits v ->
  exists c', do_cmd (u_cfg U) r (CPokeData a v) c = Ok (AOk, c', Stay) /\ readable c' /\ c_cfg c' = c_cfg c /\
    sees c' (get_lreg c) (fun b => if b =? a then Some v else ram_get (c_ram c) b) (c_prog c) (c_dbg c).
Proof.
  intros r c a v R A Fv. cbn [do_cmd]. unfold poke_data, ram_set. unfold ram_get in A. destruct (mem_at (ram_mem (c_ram c)) a) as [w|] eqn:W; [|now elim A].
  cbn [bind]. set (c' := set_mem c _ _). exists c'. split; [reflexivity|].
  assert (M : forall b, ram_get (c_ram c') b = if b =? a then Some v else ram_get (c_ram c) b).
  { intros b. cbn [c' set_mem c_ram]. unfold ram_get. cbn [ram_mem]. apply mem_at_set. congruence. }
  split; [|split; [reflexivity|constructor; auto]].
  destruct R as [A1 B1 C1]. constructor; try assumption. intros b u. rewrite M. destruct (b =? a); [intros E; injection E as <-; exact Fv|apply B1].
Qed.

Theorem C33_write_memory : forall r l a c, readable c -> 0 <= a -> a + Z.of_nat (length l) <= u_data U -> a + Z.of_nat (length l) < 2 ^ 63 ->
  (forall k, 0 <= k < Z.of_nat (length l) -> ram_get (c_ram c) (a + k) <> None) -> Forall fits l ->
  exists c', write_memory U a l (stopped r c) = Done tt (stopped r c') /\ readable c' /\ c_cfg c' = c_cfg c /\
    sees c' (get_lreg c) (assign Z.eqb (ram_get (c_ram c)) (cells a l)) (c_prog c) (c_dbg c).
Proof.
  intros r l a c R A D B M F. unfold write_memory.
  replace (u64 (a + Z.of_nat (length l))) with (a + Z.of_nat (length l)) by (unfold u64, two64; rewrite Z.mod_small; lia).
  destruct (Z.ltb_spec (u_data U) (a + Z.of_nat (length l))); [lia|].
  assert (G : forall l c s, readable c -> Forall fits l -> a + Z.of_nat s + Z.of_nat (length l) < 2 ^ 63 ->
    (forall k, Z.of_nat s <= k < Z.of_nat s + Z.of_nat (length l) -> ram_get (c_ram c) (a + k) <> None) ->
    exists c', each (fun x => command U (str "POKEDATA " ++ show_Z (fst x) ++ [SPACE] ++ show_Z (snd x)))
      (combine (map (fun k => u64 (a + Z.of_nat k)) (seq s (length l))) l) (stopped r c) = Done tt (stopped r c') /\ readable c' /\ c_cfg c' = c_cfg c /\
      sees c' (get_lreg c) (assign Z.eqb (ram_get (c_ram c)) (combine (map (fun k => a + Z.of_nat k) (seq s (length l))) l)) (c_prog c) (c_dbg c)).
  { clear - U r A. induction l as [|v l IH]; intros c s R F B M.
    - exists c. split; [reflexivity|]. split; [exact R|]. split; [reflexivity|]. constructor; reflexivity.
    - inversion F as [|? ? Fv F']; subst. cbn [length] in *. destruct (poke_data_ok r c (a + Z.of_nat s) v R) as (c1 & E1 & R1 & C1 & S1); [apply M; lia|exact Fv|].
      destruct (IH c1 (S s) R1 F') as (c' & E & R' & C' & S'); [lia| |].
      { intros k Hk. rewrite (se_mem _ _ _ _ _ S1). destruct (Z.eqb_spec (a + k) (a + Z.of_nat s)); [lia|]. apply M. lia. }
      exists c'. split; [|split; [exact R'|split; [congruence|]]].
      + cbn [seq map combine each fst snd]. unfold then_ at 1.
        replace (u64 (a + Z.of_nat s)) with (a + Z.of_nat s) by (unfold u64, two64; rewrite Z.mod_small; lia).
        rewrite (command_ok _ _ _ _ _ (decode_pokedata_msg _ _ (a + Z.of_nat s) v ltac:(lia) Fv) E1). exact E.
      + destruct S1 as [A1 B1 D1 F1], S' as [A2 B2 D2 F2]. constructor; try congruence.
        intros k. rewrite B2. cbn [seq map combine]. rewrite assign_cons. cbn [fst snd]. now apply assign_ext. }
  apply (G l c 0%nat R F); [cbn; lia|]. intros k Hk. apply M. lia.
Qed.

(** WriteText: what the debugger accepts as an instruction becomes that instruction. *)
Theorem C33_write_text : forall r a t i c, 0 <= a < Z.of_nat (length (c_prog c)) -> a < 2 ^ 63 ->
  check_instr (u_stod U) t = POk tt -> assemble_instr (u_stod U) t = POk i -> ~ In QUOTE t ->
  write_text U a [t] (stopped r c) = Done tt (stopped r (set_prog c (set_nth (c_prog c) (Z.to_nat a) i))).
Proof.
  intros r a t i c A B K H Q. unfold write_text, addresses. cbn [length seq map combine each]. unfold then_, write_text_1.
  replace (u64 (a + Z.of_nat 0)) with a by (unfold u64, two64; rewrite Z.mod_small; lia). rewrite K.
  rewrite (command_ok _ (CPokeText a i) r c (set_prog c (set_nth (c_prog c) (Z.to_nat a) i))); [reflexivity| |].
  - apply decode_poketext_msg; [lia|exact Q|exact H].
  - cbn [do_cmd]. unfold poke_text. destruct (Z.leb_spec 0 a); [|lia]. destruct (Z.ltb_spec a (Z.of_nat (length (c_prog c)))); [reflexivity|lia].
Qed.

(** A text that is no instruction is refused and the VM is not asked. *)
Theorem C33_bad_text : forall a t l s, check_instr (u_stod U) t = PFail PSyntax -> write_text U a (t :: l) s = Failed s.
Proof. intros a t l s H. unfold write_text, addresses. cbn [length seq map combine each]. unfold then_, write_text_1. now rewrite H. Qed.

End U.

(** ---- the states of sessions ---- *)

(** At every stop of a session the machine is [readable]. *)
Theorem C33_stopped_readable : forall E G g p data input c0 xs r c,
  started E g p data input c0 -> psession E G true xs (os_start true c0) (At r c) -> r <> RCpuError ->
  Forall typed_cmd (cmds xs) -> readable c.
Proof.
  intros E G g p data input c0 xs r c Hst Hs Hr Htc. pose proof (PropFits.C112_ip _ _ _ _ _ _ _ _ _ _ Hst Hs Htc) as Hpc. destruct Hst as [Hip Hty Hb].
  destruct (boot_host E g p data input c0 true (keeps_valid _ Hip) Hb) as [HA [Hp [Hg [HR Hh]]]].
  destruct (session_sound _ _ _ _ _ Hs _ _ _ eq_refl Hr HA) as [m [A1 [n [A' [[_ ->] [I2 [I3 I4]]]]]]].
  pose proof (boot_wordy _ _ _ _ _ Hty) as W. destruct Hty as [T1 T2 T3 T4 T5].
  cbn [os_start enter host_cpu] in I2. rewrite Hp in I2.
  destruct (io_debug _ _ _ _ _ I2 T1 Htc T2 W) as [H1 [W' _]]. cbn [snd] in W'. pose proof (rests_shows _ _ _ I3) as Sh.
  destruct I3 as [HI HD HRest]. constructor.
  - intros l Hl. destruct (D_reg c l HD Hl) as [v Hv]. exists v. split; [exact Hv|].
    destruct (lreg_eqb_spec l (LR PC)) as [->|N]; [now apply Hpc|]. rewrite (sh_reg _ _ Sh l Hl N) in Hv. injection Hv as <-. now apply (w_reg _ W').
  - intros a v Hv. rewrite (sh_mem _ _ Sh) in Hv. exact (w_mem _ W' _ _ Hv).
  - intros l l' q Hl Hl'. destruct HI as [_ [_ [_ [den [role HJ]]]]]. pose proof (ri_tab _ _ _ _ _ _ _ _ (j_regs _ _ _ _ _ _ _ HJ)) as Ht.
    destruct (Ht _ _ Hl) as [R1 _], (Ht _ _ Hl') as [R2 _]. congruence.
Qed.

(** Write, then read: the library gives back what it was given. *)
Theorem C33_registers_round_trip : forall U r ps c, readable c -> Forall (fun x => known_reg U c (fst x) /\ fits (snd x)) ps ->
  exists c' m, (set_registers U (reg_rows ps);; fetch_registers U) (stopped r c) = Done m (stopped r c') /\
    forall l, In l (reg_list (c_cfg c)) -> tget m (lreg_name l) = assign lreg_eqb (get_lreg c) (reg_values ps) l.
Proof.
  intros U r ps c R H. destruct (C33_set_registers U r ps c R H) as (c' & E & R' & C' & S').
  destruct (C33_fetch_registers U r c' R') as (m & E2 & F & _). exists c', m. split.
  - unfold then_. rewrite E. exact E2.
  - intros l I. rewrite F by now rewrite C'. apply (se_reg _ _ _ _ _ S').
Qed.

Lemma assign_other : forall l (f : Z -> option Z) k, ~ In k (map fst l) -> assign Z.eqb f l k = f k.
Proof.
  induction l as [|[x v] l IH]; intros f k H; [reflexivity|]. rewrite assign_cons, IH; cbn [map fst snd In] in *; [|tauto].
  destruct (Z.eqb_spec k x); [subst; tauto|reflexivity].
Qed.
Lemma cells_get : forall l (f : Z -> option Z) a s k, (k < length l)%nat ->
  assign Z.eqb f (combine (map (fun k => a + Z.of_nat k) (seq s (length l))) l) (a + Z.of_nat (s + k)) = nth_error l k.
Proof.
  induction l as [|v l IH]; intros f a s k H; cbn [length] in *; [lia|]. cbn [seq map combine]. rewrite assign_cons. cbn [fst snd]. destruct k as [|k].
  - rewrite assign_other.
    + rewrite Nat.add_0_r, Z.eqb_refl. reflexivity.
    + intros I. rewrite combine_fst in I by (now rewrite map_length, seq_length). apply in_map_iff in I. destruct I as (j & J & I). apply in_seq in I. lia.
  - replace (s + S k)%nat with (S s + k)%nat by lia. cbn [nth_error]. apply IH. lia.
Qed.

Theorem C33_memory_round_trip : forall U r l a c, readable c -> 0 <= a -> a + Z.of_nat (length l) <= u_data U -> a + Z.of_nat (length l) < 2 ^ 63 ->
  (forall k, 0 <= k < Z.of_nat (length l) -> ram_get (c_ram c) (a + k) <> None) -> Forall fits l ->
  exists c', (write_memory U a l;; read_memory U a (Z.of_nat (length l))) (stopped r c) = Done l (stopped r c').
Proof.
  intros U r l a c R A D B M F. destruct (C33_write_memory U r l a c R A D B M F) as (c' & E & R' & C' & S').
  assert (G : forall k, 0 <= k < Z.of_nat (length l) -> ram_get (c_ram c') (a + k) = nth_error l (Z.to_nat k)).
  { intros k Hk. rewrite (se_mem _ _ _ _ _ S'). replace k with (Z.of_nat (0 + Z.to_nat k)) at 1 by lia. apply cells_get. lia. }
  destruct (C33_read_memory U r c' a (Z.of_nat (length l)) R') as (l' & E2 & L & N); try lia.
  { intros k Hk. rewrite G by exact Hk. apply nth_error_Some. lia. }
  exists c'. unfold then_. rewrite E. replace l with l' at 2; [exact E2|].
  assert (LL : length l' = length l) by lia. clear E E2 L.
  apply nth_ext with (d := 0) (d' := 0); [exact LL|]. intros j Hj.
  assert (X : nth_error l' j = nth_error l j).
  { rewrite <- (Nat2Z.id j). rewrite <- N by lia. apply G. lia. }
  destruct (nth_error l' j) as [v|] eqn:E1; [|apply nth_error_None in E1; lia].
  rewrite (nth_error_nth _ _ 0 E1). symmetry in X. now rewrite (nth_error_nth _ _ 0 X).
Qed.

(** Text: what was written is read as its printed form, which is the same instruction. *)
Theorem C33_text_round_trip : forall U r a t i c, prints_lines U -> 0 <= a < Z.of_nat (length (c_prog c)) -> a < 2 ^ 63 ->
  check_instr (u_stod U) t = POk tt -> assemble_instr (u_stod U) t = POk i -> ~ In QUOTE t ->
  exists c', (write_text U a [t];; read_text U a 1) (stopped r c) = Done [show_instr (u_ftos U) i] (stopped r c') /\
    c_prog c' = set_nth (c_prog c) (Z.to_nat a) i.
Proof.
  intros U r a t i c P A B K H Q. eexists. split.
  - unfold then_. rewrite (C33_write_text U r a t i c A B K H Q), C33_read_text by (assumption || lia). cbn [Z.to_nat range]. change (Pos.to_nat 1) with 1%nat.
    cbn [range seq map]. unfold range. cbn [seq map]. rewrite Z.add_0_r. cbn [set_prog c_prog]. rewrite prog_at_set by exact A. rewrite Z.eqb_refl. reflexivity.
  - reflexivity.
Qed.

(** ---- C20 ---- *)

Section Talk.
Variables (stod : text -> option Z) (ftos gtos : Z -> text) (stof : text -> option Z).
Notation serve := (serve stod ftos gtos stof).
Notation talk := (talk stod ftos gtos stof).

(** Every message that is read is answered by one message before the next is read. *)
Definition exchange (x : text * text) : list io := [Recv (fst x); Send (snd x)].

Lemma talk_loop_pairs : forall G r ms c l c' b, talk_loop stod ftos gtos stof G r ms c = Ok (l, c', b) ->
  exists xs rest, l = concat (map exchange xs) /\ ms = map fst xs ++ rest /\ (b = None -> rest = []).
Proof.
  intros G r. induction ms as [|m ms IH]; intros c l c' b H; cbn [talk_loop] in H.
  - apply Ok_eq in H. injection H as <- <- <-. exists [], []. auto.
  - apply bind_ok in H. destruct H as [[[t c1] n] [H1 H]]. destruct n.
    + apply bind_ok in H. destruct H as [[[l1 c2] b1] [H2 H]]. apply Ok_eq in H. injection H as <- <- <-.
      destruct (IH _ _ _ _ H2) as (xs & rest & -> & -> & R). exists ((m, t) :: xs), rest. auto.
    + apply Ok_eq in H. injection H as <- <- <-. exists [(m, t)], ms. repeat split. discriminate.
    + apply Ok_eq in H. injection H as <- <- <-. exists [(m, t)], ms. repeat split. discriminate.
Qed.

Theorem C20_one_reply : forall G r ms c l c' b, talk G r ms c = Ok (l, c', b) ->
  exists xs rest, l = Send (str "STOPPED") :: concat (map exchange xs) /\ ms = map fst xs ++ rest /\ (b = None -> rest = []).
Proof.
  intros G r ms c l c' b H. unfold DbgText.talk in H. apply bind_ok in H. destruct H as [[[l1 c2] b1] [H2 H]]. apply Ok_eq in H. injection H as <- <- <-.
  destruct (talk_loop_pairs _ _ _ _ _ _ _ H2) as (xs & rest & -> & -> & R). exists xs, rest. auto.
Qed.

(** A message that is none of CONTINUE, SINGLESTEP, TERMINATE and POKE... . *)
Definition begins (p w : text) : Prop := exists r, w = p ++ r.
Definition question (m : text) : Prop :=
  exists w ws, split_v m SPACE = w :: ws /\ m <> str "CONTINUE" /\ w <> str "SINGLESTEP" /\ w <> str "TERMINATE" /\ ~ begins (str "POKE") w.

Lemma not_poke : forall s w, ~ begins (str "POKE") w -> is_prefix_of (str ("POKE" ++ s)) w = false.
Proof.
  intros s w H. destruct (is_prefix_of (str ("POKE" ++ s)) w) eqn:E; [|reflexivity]. exfalso. apply H. apply C43_prefix in E.
  destruct E as [r ->]. exists (str s ++ r). reflexivity.
Qed.

(** Questions leave the machine as it is, whatever they ask, and keep it stopped. *)
Theorem C20_questions_change_nothing : forall G r m c t c' n, question m -> serve G r m c = Ok (t, c', n) -> c' = c /\ n = Stay.
Proof.
  intros G r m c t c' n (w & ws & E & N1 & N2 & N3 & N4) H. unfold DbgText.serve, decode in H. rewrite E in H.
  assert (T : forall a b, a <> b -> teqb a b = false) by (intros a b N; destruct (teqb a b) eqn:X; [apply teqb_eq in X; now elim N|reflexivity]).
  assert (Q : forall k, looks k -> (forall i v, k <> CPokeDebugRegs i v) -> match do_cmd G r k c with Ok (_, c1, n1) => c1 = c /\ n1 = Stay | _ => True end).
  { intros k L D. destruct k; try contradiction; cbn [do_cmd]; auto; try (destruct (collect _ _); auto; fail); try (destruct (show_regs _ _); auto; fail). now elim (D i v). }
  assert (Fin : forall d, match d with DCmd k => looks k /\ (forall i v, k <> CPokeDebugRegs i v) | _ => True end ->
    match d with DCmd k => let! (a, c', n) := do_cmd G r k c in Ok (reply_text ftos gtos a, c', n) | DThrow => Throw ECommand c | DUndef u => Undef u end = Ok (t, c', n) -> c' = c /\ n = Stay).
  { intros [k| |u] Hd Hk; try discriminate. destruct Hd as [L D]. specialize (Q k L D). destruct (do_cmd G r k c) as [[[a c1] n1]|? ?|?]; cbn [bind] in Hk; try discriminate.
    apply Ok_eq in Hk. injection Hk as _ <- <-. exact Q. }
  rewrite (T m (str "CONTINUE") N1), (T w (str "SINGLESTEP") N2), (T w (str "TERMINATE") N3) in H.
  rewrite (not_poke "TEXT" w N4 : is_prefix_of (str "POKETEXT") w = false), (not_poke "DATA" w N4 : is_prefix_of (str "POKEDATA") w = false),
    (not_poke "FLOATREGS" w N4 : is_prefix_of (str "POKEFLOATREGS") w = false), (not_poke "REGS" w N4 : is_prefix_of (str "POKEREGS") w = false) in H.
  assert (ND : teqb w (str "POKEDEBUGREGS") = false) by (apply T; intros ->; apply N4; now exists (str "DEBUGREGS")). rewrite ND in H.
  revert H. apply Fin. unfold decode_range.
  repeat (match goal with |- context [if ?x then _ else _] => destruct x end; try (cbn [looks]; split; [exact I|intros; discriminate]));
  destruct ws as [|a [|b ws]]; try exact I; destruct (svtoidx a); try exact I; destruct (svtoidx b); try exact I; (cbn [looks]; split; [exact I|intros; discriminate]).
Qed.

Corollary C20_questions_in_a_row : forall G r ms c l c' b, Forall question ms -> talk G r ms c = Ok (l, c', b) ->
  c' = (match r with RSingle => set_trap c false | _ => c end) /\ b = None.
Proof.
  intros G r ms c l c' b F H. unfold DbgText.talk in H. apply bind_ok in H. destruct H as [[[l1 c2] b1] [H2 H]]. apply Ok_eq in H. injection H as _ <- <-.
  revert H2. generalize (match r with RSingle => set_trap c false | _ => c end). intros c0. revert c0 l1. induction F as [|m ms Q F IH]; intros c0 l1 H; cbn [talk_loop] in H.
  - apply Ok_eq in H. injection H as _ <- <-. auto.
  - apply bind_ok in H. destruct H as [[[t c1] n] [H1 H]]. destruct (C20_questions_change_nothing _ _ _ _ _ _ _ Q H1) as [-> ->].
    apply bind_ok in H. destruct H as [[[l3 c3] b3] [H2 H]]. apply Ok_eq in H. injection H as _ <- <-. eauto.
Qed.

(** A command the VM does not know is answered, too. *)
Definition known : list text := map str
  ["REASON"; "PEEKREGS"; "PEEKFLOATREGS"; "PEEKDEBUGREGS"; "POKEDEBUGREGS"; "SINGLESTEP"; "REGCOUNT"; "TEXTSIZE"; "DATASIZE"; "TERMINATE"]%string.
Definition known_prefixes : list text := map str ["PEEKTEXT"; "POKETEXT"; "PEEKDATA"; "POKEDATA"; "POKEFLOATREGS"; "POKEREGS"]%string.

Theorem C20_unknown_command : forall G r m w ws c, split_v m SPACE = w :: ws -> m <> str "CONTINUE" -> ~ In w known ->
  (forall p, In p known_prefixes -> ~ begins p w) -> serve G r m c = Ok (str "UNKNOWN COMMAND", c, Stay).
Proof.
  intros G r m w ws c E N1 N2 N3. unfold DbgText.serve, decode. rewrite E.
  assert (T : forall a b, a <> b -> teqb a b = false) by (intros a b N; destruct (teqb a b) eqn:X; [apply teqb_eq in X; now elim N|reflexivity]).
  assert (P : forall p, In p known_prefixes -> is_prefix_of p w = false).
  { intros p I. destruct (is_prefix_of p w) eqn:X; [|reflexivity]. apply C43_prefix in X. now elim (N3 p I). }
  assert (W : forall k, In k known -> teqb w k = false) by (intros k I; apply T; intros ->; contradiction).
  rewrite (T m (str "CONTINUE") N1).
  rewrite !P by (cbn; tauto). rewrite !W by (cbn; tauto). reflexivity.
Qed.

(** Well-formed messages. *)
Inductive well_formed (c : cpu) : text -> Prop :=
| wf_word : forall w, In w (map str ["REASON"; "CONTINUE"; "PEEKREGS"; "PEEKFLOATREGS"; "PEEKDEBUGREGS"; "SINGLESTEP"; "REGCOUNT"; "TEXTSIZE"; "DATASIZE"; "TERMINATE"]%string) -> well_formed c w
| wf_peektext : forall a n, 0 <= a < 2 ^ 63 -> 0 <= n < 2 ^ 63 -> well_formed c (str "PEEKTEXT " ++ show_Z a ++ [SPACE] ++ show_Z n)
| wf_poketext : forall a t i, 0 <= a < Z.of_nat (length (c_prog c)) -> a < 2 ^ 63 -> ~ In QUOTE t -> assemble_instr stod t = POk i -> well_formed c (str "POKETEXT " ++ show_Z a ++ [SPACE] ++ t)
| wf_peekdata : forall a n, 0 <= a < 2 ^ 63 -> 0 <= n < 2 ^ 63 -> (forall k, 0 <= k < n -> ram_get (c_ram c) (a + k) <> None) -> well_formed c (str "PEEKDATA " ++ show_Z a ++ [SPACE] ++ show_Z n)
| wf_pokedata : forall a v, 0 <= a < 2 ^ 63 -> ram_get (c_ram c) a <> None -> fits v -> well_formed c (str "POKEDATA " ++ show_Z a ++ [SPACE] ++ show_Z v)
| wf_pokeregs : forall rg v, lreg_ok (c_cfg c) (LR rg) = true -> match rg with R n => Z.of_N n < 2 ^ 63 | _ => True end -> fits v -> well_formed c (str "POKEREGS" ++ [SPACE] ++ show_reg rg ++ [SPACE] ++ show_Z v)
| wf_pokefloat : forall n s v, lreg_ok (c_cfg c) (LF n) = true -> Z.of_N n < 2 ^ 63 -> s <> [] -> ~ In SPACE s -> stof s = Some v -> fits v -> well_formed c (str "POKEFLOATREGS" ++ [SPACE] ++ show_freg n ++ [SPACE] ++ s)
| wf_pokedebug : forall i v, (i < 5)%nat -> 0 <= v < 2 ^ 64 -> well_formed c (str "POKEDEBUGREGS" ++ [SPACE] ++ dreg_name i ++ [SPACE] ++ show_Z v).

(** They are all answered. *)
Record same_shape (c c' : cpu) : Prop := mkSameShape {
  ss_cfg : c_cfg c' = c_cfg c; ss_prog : length (c_prog c') = length (c_prog c);
  ss_mem : forall a, ram_get (c_ram c) a <> None -> ram_get (c_ram c') a <> None }.
Lemma well_formed_shape : forall c c' m, same_shape c c' -> well_formed c m -> well_formed c' m.
Proof.
  intros c c' m [A B C] H. destruct H.
  - now apply wf_word.
  - now apply wf_peektext.
  - eapply wf_poketext; eauto. now rewrite B.
  - apply wf_peekdata; auto.
  - apply wf_pokedata; auto.
  - apply wf_pokeregs; auto. now rewrite A.
  - eapply wf_pokefloat; eauto. now rewrite A.
  - now apply wf_pokedebug.
Qed.

Theorem C20_well_formed_answered : forall G r m c, readable c -> length (c_dbg c) = 5%nat -> well_formed c m ->
  exists t c' n, serve G r m c = Ok (t, c', n) /\ readable c' /\ length (c_dbg c') = 5%nat /\ same_shape c c'.
Proof.
  intros G r m c R L W. set (U := mkSetup stod ftos gtos stof (2 ^ 63) (2 ^ 63) 0 env0 G false).
  assert (Same : same_shape c c) by (constructor; auto).
  assert (K : forall k, decode stod stof m = DCmd k -> (exists a c' n, do_cmd G r k c = Ok (a, c', n) /\ readable c' /\ length (c_dbg c') = 5%nat /\ same_shape c c') ->
    exists t c' n, serve G r m c = Ok (t, c', n) /\ readable c' /\ length (c_dbg c') = 5%nat /\ same_shape c c').
  { intros k D (a & c' & n & H & Z1). unfold DbgText.serve. rewrite D, H. cbn [bind]. exists (reply_text ftos gtos a), c', n. auto. }
  assert (V : forall reg v mem prog dbg c', sees c' reg mem prog dbg -> c_cfg c' = c_cfg c -> length prog = length (c_prog c) -> length dbg = 5%nat ->
    (forall a, ram_get (c_ram c) a <> None -> mem a <> None) -> v = tt -> length (c_dbg c') = 5%nat /\ same_shape c c').
  { intros reg v mem prog dbg c' [S1 S2 S3 S4] C P D M _. split; [now rewrite S4|]. constructor; [exact C|now rewrite S3|]. intros a Ha. rewrite S2. auto. }
  assert (RL : forall b, exists xs, show_regs c (if b : bool then reg_list (c_cfg c) else freg_list (c_cfg c)) = Some xs).
  { intros b. destruct (shown_rows c (if b then reg_list (c_cfg c) else freg_list (c_cfg c))) as (xs & X & _); [|eauto].
    intros l I. destruct (rd_reg c R l) as (v & Hv & _); [apply listed_ok; destruct b; auto|eauto]. }
  destruct W.
  - cbn in H. repeat destruct H as [<-|H]; try contradiction; (eapply K; [reflexivity|]); cbn [do_cmd];
      try (eexists _, c, _; split; [reflexivity|]; auto; fail).
    + destruct (RL true) as [xs X]. exists (ARegs xs), c, Stay. rewrite X. auto.
    + destruct (RL false) as [xs X]. exists (ARegs xs), c, Stay. rewrite X. auto.
    + exists AOk, (set_trap c true), Resume. split; [reflexivity|]. split; [destruct R as [A B C]; constructor; assumption|]. split; [exact L|constructor; auto].
  - apply (K (CPeekText a (Z.to_nat n))); [now apply decode_peektext|]. eexists _, c, _. split; [reflexivity|]. auto.
  - apply (K (CPokeText a i)); [apply decode_poketext_msg; auto; lia|]. cbn [do_cmd]. unfold poke_text.
    destruct (Z.leb_spec 0 a); [|lia]. destruct (Z.ltb_spec a (Z.of_nat (length (c_prog c)))); [|lia]. cbn [andb bind].
    eexists _, _, _. split; [reflexivity|]. split; [destruct R as [A B C]; constructor; assumption|]. split; [exact L|constructor; auto].
    cbn [set_prog c_prog]. now rewrite set_nth_length.
  - apply (K (CPeekData a (Z.to_nat n))); [now apply decode_peekdata|]. cbn [do_cmd].
    destruct (collect_range (ram_get (c_ram c)) a (Z.to_nat n)) as (l & L1 & _); [intros k Hk; apply H1; lia|]. rewrite L1.
    eexists _, c, _. split; [reflexivity|]. auto.
  - apply (K (CPokeData a v)); [now apply decode_pokedata_msg|]. destruct (poke_data_ok U r c a v R H0 H1) as (c' & E & R' & C' & S').
    exists AOk, c', Stay. split; [exact E|]. split; [exact R'|]. apply (V _ tt _ _ _ _ S'); auto. intros b Hb. destruct (b =? a); [discriminate|exact Hb].
  - destruct (valid_name U c rg) as [_ T]; [split; [exact H|]; destruct rg; auto|]. destruct (show_reg_word rg) as (W1 & W2 & _).
    apply (K (CPokeRegs rg v)); [now apply decode_pokeregs_msg|]. destruct (poke_reg_ok U r c rg v R H H1) as (c' & E & R' & C' & S').
    exists AOk, c', Stay. split; [exact E|]. split; [exact R'|]. apply (V _ tt _ _ _ _ S'); auto.
  - destruct (valid_fname U c n) as [_ T]; [split; auto|]. destruct (show_freg_word n) as (W1 & W2 & _).
    apply (K (CPokeFloatRegs n v)); [now apply decode_pokefloat_msg|]. destruct (set_lreg_ok c (LF n) v R H H4) as (c' & E & R' & C' & S').
    exists AOk, c', Stay. split; [cbn [do_cmd]; now rewrite E|]. split; [exact R'|]. apply (V _ tt _ _ _ _ S'); auto.
  - destruct (valid_dname i H) as [_ T]. destruct (dreg_name_word i) as (W1 & W2 & _).
    apply (K (CPokeDebugRegs (Z.of_nat i) v)); [now apply decode_pokedebug_msg|]. cbn [do_cmd]. unfold poke_dbg. rewrite L, Nat2Z.id.
    destruct (Z.leb_spec 0 (Z.of_nat i)); [|lia]. destruct (Z.ltb_spec (Z.of_nat i) (Z.of_nat 5)); [|lia]. cbn [andb bind].
    eexists _, _, _. split; [reflexivity|]. split; [destruct R as [A B C]; constructor; assumption|].
    split; [cbn [set_dbg c_dbg]; now rewrite set_nth_length|constructor; auto].
Qed.

(** A whole conversation of well-formed messages: it goes on until one that makes the
    machine run or end, and each message is answered (C20_one_reply). *)
Theorem C20_well_formed_conversation : forall G r ms c, readable c -> length (c_dbg c) = 5%nat -> Forall (well_formed c) ms ->
  exists l c' b, talk G r ms c = Ok (l, c', b).
Proof.
  intros G r ms c R L F. unfold DbgText.talk.
  assert (X : forall ms c0, readable c0 -> length (c_dbg c0) = 5%nat -> Forall (well_formed c0) ms -> exists l c' b, talk_loop stod ftos gtos stof G r ms c0 = Ok (l, c', b)).
  { clear. induction ms as [|m ms IH]; intros c R L F; cbn [talk_loop]; [eauto|]. inversion F as [|? ? W F']; subst.
    destruct (C20_well_formed_answered G r m c R L W) as (t & c1 & n & E & R1 & L1 & S1). rewrite E. cbn [bind]. destruct n; eauto.
    destruct (IH c1 R1 L1) as (l & c' & b & E2); [eapply Forall_impl; [|exact F']; intros x; now apply well_formed_shape|]. rewrite E2. cbn [bind]. eauto. }
  destruct (X ms (match r with RSingle => set_trap c false | _ => c end)) as (l & c' & b & E).
  - destruct r; auto. destruct R as [A B C]. constructor; assumption.
  - destruct r; auto.
  - destruct r; auto. eapply Forall_impl; [|exact F]. intros m. apply well_formed_shape. constructor; auto.
  - rewrite E. cbn [bind]. eauto.
Qed.
End Talk.

(** ---- the hypotheses are met ---- *)

(** The debugger library as shipped, but for the sizes of the machine. *)
Definition U1 : setup := mkSetup (fun _ => None) (fun _ => str "0.000000") (fun _ => str "0") (fun _ => Some 0) 4 1 16 env0 cfg1 false.
(** The machine of C17_case: stopped after a store to a watched cell. *)
Definition cpu1 : cpu := host_cpu (after_pplay (pplay env0 cfg1 true events_watch (os_start true (booted cfg1 prog0 [7; 8] [65; 10])))).

Lemma cpu1_stopped : psession env0 cfg1 true events_watch (os_start true (booted cfg1 prog0 [7; 8] [65; 10])) (At RHwBkpt cpu1).
Proof.
  set (h := after_pplay (pplay env0 cfg1 true events_watch (os_start true (booted cfg1 prog0 [7; 8] [65; 10])))).
  assert (Hh : pplay env0 cfg1 true events_watch (os_start true (booted cfg1 prog0 [7; 8] [65; 10])) = Some h) by (vm_compute; reflexivity).
  replace (At RHwBkpt cpu1) with h by (vm_compute; reflexivity). now apply pplay_psession.
Qed.

Example C33_case_readable : readable cpu1 /\ length (c_dbg cpu1) = 5%nat /\ prints_lines U1 /\ Forall (fun v => 0 <= v < 2 ^ 64) (c_dbg cpu1).
Proof.
  split; [|split; [vm_compute; reflexivity|split]].
  - apply (C33_stopped_readable _ _ _ _ _ _ _ _ _ _ started1 cpu1_stopped); [discriminate|]. repeat constructor; cbn; unfold fits; try lia.
  - intros v H. cbn in H. repeat destruct H as [H|H]; try discriminate; contradiction.
  - assert (H : forallb (fun v => (0 <=? v) && (v <? 2 ^ 64)) (c_dbg cpu1) = true) by (vm_compute; reflexivity).
    rewrite forallb_forall in H. apply Forall_forall. intros v Hv. specialize (H v Hv). lia.
Qed.

Lemma registers_case : forall c, readable c -> c_cfg c = cfg1 ->
  exists c' m, (set_registers U1 [(str "R2", 77); (str "IP", 3); (str "FLAGS", 1)];; fetch_registers U1) (stopped RHwBkpt c) = Done m (stopped RHwBkpt c') /\
  tget m (str "R2") = Some 77 /\ tget m (str "IP") = Some 3 /\ tget m (str "SP") = get_lreg c (LR SP).
Proof.
  intros c Rd X. destruct (C33_registers_round_trip U1 RHwBkpt [(R 2, 77); (PC, 3); (Flags, 1)] c Rd) as (c' & m & E & F).
  { repeat constructor; cbn; rewrite ?X; unfold fits; try reflexivity; try lia. }
  exists c', m. split; [exact E|].
  assert (I : forall l, In l [LR (R 2); LR PC; LR SP] -> In l (reg_list (c_cfg c))) by (rewrite X; cbn; intuition (subst; auto 12)).
  split; [|split].
  - exact (F (LR (R 2)) (I (LR (R 2)) ltac:(cbn; auto))).
  - exact (F (LR PC) (I (LR PC) ltac:(cbn; auto))).
  - exact (F (LR SP) (I (LR SP) ltac:(cbn; auto))).
Qed.
Example C33_case_registers :
  exists c' m, (set_registers U1 [(str "R2", 77); (str "IP", 3); (str "FLAGS", 1)];; fetch_registers U1) (stopped RHwBkpt cpu1) = Done m (stopped RHwBkpt c') /\
  tget m (str "R2") = Some 77 /\ tget m (str "IP") = Some 3 /\ tget m (str "SP") = get_lreg cpu1 (LR SP).
Proof. apply registers_case; [apply C33_case_readable|vm_compute; reflexivity]. Qed.

Lemma has_cells : forall c a n, forallb (fun k => match ram_get (c_ram c) k with None => false | _ => true end) (range a n) = true ->
  forall k, a <= k < a + Z.of_nat n -> ram_get (c_ram c) k <> None.
Proof.
  intros c a n X k Hk E. rewrite forallb_forall in X. specialize (X k). rewrite E in X. enough (false = true) by discriminate. apply X.
  apply in_map_iff. exists (Z.to_nat (k - a)). split; [lia|]. apply in_seq. lia.
Qed.
Lemma cpu1_cells : forall k, 3 <= k < 16 -> ram_get (c_ram cpu1) k <> None.
Proof. intros k Hk. apply (has_cells cpu1 3 13); [vm_compute; reflexivity|lia]. Qed.

Example C33_case_memory : exists c', (write_memory U1 14 [-5; 6];; read_memory U1 14 2) (stopped RHwBkpt cpu1) = Done [-5; 6] (stopped RHwBkpt c').
Proof.
  apply (C33_memory_round_trip U1 RHwBkpt [-5; 6] 14 cpu1); cbn [length u_data U1 Z.of_nat]; try lia; [apply C33_case_readable| |repeat constructor; unfold fits; lia].
  intros k Hk. apply cpu1_cells. lia.
Qed.

Example C33_case_text : exists c', (write_text U1 2 [str "ADD R1, 3 + R2"];; read_text U1 2 1) (stopped RHwBkpt cpu1) = Failed (stopped RHwBkpt cpu1) /\
  (write_text U1 2 [str "MOV [R1 + 4], R2"];; read_text U1 2 1) (stopped RHwBkpt cpu1) = Done [str "MOV [R1 + 4], R2"] (stopped RHwBkpt c').
Proof.
  destruct (C33_text_round_trip U1 RHwBkpt 2 (str "MOV [R1 + 4], R2") (IMov (OMemRegOff (R 1) 4) (OReg (R 2))) cpu1) as (c' & E & _).
  - apply C33_case_readable.
  - assert (X : length (c_prog cpu1) = 8%nat) by (vm_compute; reflexivity). rewrite X. lia.
  - lia.
  - vm_compute; reflexivity.
  - vm_compute; reflexivity.
  - cbn. intuition discriminate.
  - exists c'. split; [|exact E]. unfold then_. rewrite C33_bad_text by (vm_compute; reflexivity). reflexivity.
Qed.

Definition words1 : list text := map str
  ["REASON"; "PEEKREGS"; "POKEREGS R3 -7"; "POKEREGS IP 2"; "PEEKTEXT 0 100"; "PEEKDATA 3 13"; "POKEDATA 15 9223372036854775807"; "POKEDEBUGREGS D4 0"; "POKETEXT 1 NOP"; "POKEFLOATREGS F0 1"; "CONTINUE"; "REASON"]%string.
Example C20_case : Forall (well_formed (fun _ => None) (fun _ => Some 0) cpu1) words1.
Proof.
  assert (C : c_cfg cpu1 = cfg1) by (vm_compute; reflexivity).
  assert (P : length (c_prog cpu1) = 8%nat) by (vm_compute; reflexivity).
  pose proof cpu1_cells as M'.
  unfold words1. cbn [map].
  repeat apply Forall_cons; [apply wf_word; cbn; tauto|apply wf_word; cbn; tauto| | | | | | | | |apply wf_word; cbn; tauto|apply wf_word; cbn; tauto|apply Forall_nil].
  - apply (wf_pokeregs _ _ _ (R 3) (-7)); [rewrite C; reflexivity|cbn; lia|unfold fits; lia].
  - apply (wf_pokeregs _ _ _ PC 2); [rewrite C; reflexivity|exact I|unfold fits; lia].
  - apply (wf_peektext _ _ _ 0 100); lia.
  - apply (wf_peekdata _ _ _ 3 13); try lia. intros k Hk. apply M'. lia.
  - apply (wf_pokedata _ _ _ 15 9223372036854775807); [lia|apply M'; lia|unfold fits; lia].
  - apply (wf_pokedebug _ _ _ 4 0); lia.
  - apply (wf_poketext _ _ _ 1 (str "NOP") INop); [rewrite P; lia|lia|cbn; intuition discriminate|vm_compute; reflexivity].
  - apply (wf_pokefloat _ _ _ 0 (str "1") 0); [rewrite C; reflexivity|lia|discriminate|cbn; intuition discriminate|reflexivity|unfold fits; lia].
Qed.
Example C20_case_question : Forall question (map str ["REASON"; "PEEKTEXT 2 3"; "CONTINUE NOW"; "HELLO"; "REGCOUNT"; "peekregs"]%string) /\
  serve (fun _ => None) (fun _ => str "0.000000") (fun _ => str "0") (fun _ => Some 0) cfg1 RHwBkpt (str "HELLO") cpu1 = Ok (str "UNKNOWN COMMAND", cpu1, Stay).
Proof.
  split.
  - repeat constructor; eexists _, _; (split; [vm_compute; reflexivity|]); repeat split; try discriminate; intros [x E]; discriminate.
  - apply (C20_unknown_command _ _ _ _ cfg1 RHwBkpt (str "HELLO") (str "HELLO") [] cpu1); [reflexivity|discriminate|cbn; intuition discriminate|].
    intros p I [x E]. cbn in I. repeat destruct I as [<-|I]; try discriminate; contradiction.
Qed.

(** ---- C53 (refuted): messages that end the VM ---- *)

(** "No message but TERMINATE makes the VM end" is false: each of these ends it by an
    uncaught exception or by undefined behaviour, at any stop of the machine above. *)
Definition unanswered {A} (x : res cpu A) : Prop := match x with Ok _ => False | _ => True end.
Definition killers : list text := map str
  ["PEEKDATA 16 1"; "POKEDATA 99 1"; "POKETEXT 8 NOP"; "POKEREGS R4 1"; "POKEREGS X 1"; "PEEKTEXT"; "PEEKTEXT 1"; "POKEREGS"; "POKETEXT 0"; "POKETEXT 0 FOO"; "POKEDEBUGREGS D5 1"; ""; " "]%string.
Theorem C53_message_ends_vm_refuted : forall stod ftos gtos stof,
  Forall (fun m => unanswered (serve stod ftos gtos stof cfg1 RHwBkpt m cpu1)) killers.
Proof. intros. unfold killers. cbn [map]. do 13 (apply Forall_cons; [vm_compute; exact I|]). exact (Forall_nil _). Qed.

(** The library sends such a message when its idea of the machine's sizes (1024 cells
    by default) is not the machine's: reading memory that is not there is not refused
    but ends the VM. *)
Definition U2 : setup := mkSetup (fun _ => None) (fun _ => str "0.000000") (fun _ => str "0") (fun _ => Some 0) 10 4 1024 env0 cfg1 false.
Theorem C53_library_ends_vm_refuted : read_memory U2 16 1 (stopped RHwBkpt cpu1) = Failed (mkLink None true).
Proof. vm_compute. reflexivity. Qed.

(** ---- C54 (refuted): only the names of registers are taken ---- *)

(** The library takes any text that begins like a register: asked to write 7 to a
    register of the name "R1 5", it reports success, and has written 5 to R1. *)
Theorem C54_register_name_refuted : exists c', set_registers U1 [(str "R1 5", 7)] (stopped RHwBkpt cpu1) = Done tt (stopped RHwBkpt c') /\
  get_lreg cpu1 (LR (R 1)) <> Some 5 /\ get_lreg c' (LR (R 1)) = Some 5.
Proof.
  destruct (poke_reg_ok U1 RHwBkpt cpu1 (R 1) 5) as (c' & E & _ & _ & S').
  - apply C33_case_readable.
  - vm_compute; reflexivity.
  - unfold fits; lia.
  - exists c'. split; [|split].
    + change (set_registers U1 [(str "R1 5", 7)] (stopped RHwBkpt cpu1)) with ((command U1 (str "POKEREGS R1 5 7");; ret tt) (stopped RHwBkpt cpu1)).
      unfold then_. rewrite (command_ok U1 (str "POKEREGS R1 5 7") (CPokeRegs (R 1) 5) RHwBkpt cpu1 c'); [reflexivity|vm_compute; reflexivity|exact E].
    + vm_compute. discriminate.
    + destruct S' as [S1 _ _ _]. rewrite S1. reflexivity.
Qed.

Print Assumptions C20_one_reply.
Print Assumptions C20_questions_change_nothing.
Print Assumptions C20_questions_in_a_row.
Print Assumptions C20_unknown_command.
Print Assumptions C20_well_formed_answered.
Print Assumptions C20_well_formed_conversation.
Print Assumptions C33_read_memory.
Print Assumptions C33_read_text.
Print Assumptions C33_reason.
Print Assumptions C33_text_size.
Print Assumptions C33_fetch_registers.
Print Assumptions C33_fetch_float_registers.
Print Assumptions C33_fetch_debug_registers.
Print Assumptions C33_set_registers.
Print Assumptions C33_set_float_registers.
Print Assumptions C33_set_debug_registers.
Print Assumptions C33_write_memory.
Print Assumptions C33_write_text.
Print Assumptions C33_stopped_readable.
Print Assumptions C33_registers_round_trip.
Print Assumptions C33_memory_round_trip.
Print Assumptions C33_text_round_trip.
Print Assumptions C53_message_ends_vm_refuted.
Print Assumptions C54_register_name_refuted.
