(** C25, C26, C42, C48: the connection, the in-process channel, the command line. *)
From Coq Require Import Ascii String ZArith NArith List Bool Lia.
From Verif Require Import Base Text Tcp Queue Config PropText.
Import ListNotations.
Open Scope Z_scope.

(** ---- C25 ---- *)

(** The frame of a message: its length in eight bytes, then its bytes. *)
Definition frame (m : text) : text := le_bytes 8 (Z.of_nat (length m)) ++ m.

Lemma le_value_bytes : forall k n, 0 <= n < 256 ^ Z.of_nat k -> le_value (le_bytes k n) = n.
Proof.
  induction k as [|k IH]; intros n H; cbn [le_bytes le_value].
  - cbn in H. lia.
  - rewrite Nat2Z.inj_succ, Z.pow_succ_r in H by lia.
    rewrite IH by (split; [apply Z.div_pos; lia|apply Z.div_lt_upper_bound; lia]).
    pose proof (Z.mod_pos_bound n 256 ltac:(lia)).
    rewrite N_ascii_embedding by lia. rewrite Z2N.id by lia. rewrite (Z_div_mod_eq_full n 256) at 3. lia.
Qed.

Lemma le_bytes_length : forall k n, length (le_bytes k n) = k.
Proof. induction k; intros n; cbn [le_bytes length]; auto. Qed.

Lemma skipn_add : forall (A : Type) n m (l : list A), skipn n (skipn m l) = skipn (m + n) l.
Proof. induction m as [|m IH]; intros l; [reflexivity|]. destruct l; [now destruct n|]. cbn [skipn Nat.add]. apply IH. Qed.

(** A network that takes at least one byte and at most those offered. *)
Definition takes_some (net : nat -> Z -> Z) : Prop := forall t n, 0 < n -> 1 <= net t n <= n.

Lemma send_raw_all : forall net data, takes_some net -> Z.of_nat (length data) < 2 ^ 64 ->
  forall fuel t sent wire, 0 <= sent <= Z.of_nat (length data) -> (length data - Z.to_nat sent <= fuel)%nat ->
  exists t', send_raw fuel net t data sent wire = Some (wire ++ skipn (Z.to_nat sent) data, t').
Proof.
  intros net data Hnet Hlen. induction fuel as [|k IH]; intros t sent wire Hs Hf; cbn [send_raw].
  - destruct (Z.ltb_spec sent (Z.of_nat (length data))); [lia|]. exists t. rewrite skipn_all2 by lia. now rewrite app_nil_r.
  - destruct (Z.ltb_spec sent (Z.of_nat (length data))) as [Hl|Hl].
    2: { exists t. rewrite skipn_all2 by lia. now rewrite app_nil_r. }
    pose proof (Hnet t (Z.of_nat (length data) - sent) ltac:(lia)) as Hr.
    set (r := net t (Z.of_nat (length data) - sent)) in *. cbv zeta.
    destruct (Z.ltb_spec 0 r); [|lia]. rewrite (Z.mod_small (sent + r)) by lia.
    destruct (IH (S t) (sent + r) (wire ++ firstn (Z.to_nat r) (skipn (Z.to_nat sent) data))) as [t' Ht']; [lia|lia|].
    exists t'. rewrite Ht'. do 2 f_equal. rewrite <- app_assoc. f_equal.
    rewrite <- (firstn_skipn (Z.to_nat r) (skipn (Z.to_nat sent) data)) at 2. f_equal.
    rewrite skipn_add. f_equal. lia.
Qed.

Definition sendable (m : text) : Prop := Z.of_nat (length m) < 2 ^ 64.

(** Whatever parts of the data the single calls of send take, the wire carries the
    frames of the messages. *)
Theorem C25_send : forall net ms, takes_some net -> Forall sendable ms -> exists fuel0, forall fuel, (fuel0 <= fuel)%nat ->
  forall t wire, exists t', send_all fuel net t ms wire = Some (wire ++ concat (map frame ms), t').
Proof.
  intros net ms Hnet Hms. induction ms as [|m ms IH].
  - exists 0%nat. intros fuel _ t wire. exists t. cbn. now rewrite app_nil_r.
  - inversion Hms as [|? ? Hm Hms']; subst. destruct (IH Hms') as [f0 Hf0].
    exists (Nat.max f0 (Nat.max 8 (length m))). intros fuel Hf t wire. cbn [send_all send].
    unfold send. unfold sendable in Hm.
    destruct (send_raw_all net (le_bytes 8 (Z.of_nat (length m) mod 2 ^ 64)) Hnet) with (fuel := fuel) (t := t) (sent := 0) (wire := wire) as [t1 H1].
    { rewrite le_bytes_length. cbn. lia. } { rewrite le_bytes_length. cbn. lia. } { rewrite le_bytes_length. cbn. lia. }
    rewrite H1. cbn [Z.to_nat skipn].
    destruct (send_raw_all net m Hnet Hm) with (fuel := fuel) (t := t1) (sent := 0) (wire := wire ++ le_bytes 8 (Z.of_nat (length m) mod 2 ^ 64)) as [t2 H2].
    { lia. } { cbn. lia. }
    rewrite H2. cbn [Z.to_nat skipn].
    destruct (Hf0 fuel ltac:(lia) t2 ((wire ++ le_bytes 8 (Z.of_nat (length m) mod 2 ^ 64)) ++ m)) as [t3 H3].
    exists t3. rewrite H3. do 2 f_equal. cbn [map concat]. unfold frame. rewrite Z.mod_small by lia. now rewrite <- !app_assoc.
Qed.

Lemma read_loop_all : forall net m rest fuel t acc, (length m <= fuel)%nat ->
  read_loop fuel net t (length m) (m ++ rest) acc = Some (acc ++ m, rest).
Proof.
  intros net m rest fuel. revert m. induction fuel as [|k IH]; intros m t acc Hf.
  - destruct m; [|cbn in Hf; lia]. cbn. now rewrite app_nil_r.
  - destruct m as [|c m]; [cbn; now rewrite app_nil_r|]. cbn [length read_loop].
    unfold read. set (d := Nat.min (Nat.max 1 (net t)) (Nat.min (S (length m)) (length ((c :: m) ++ rest)))).
    assert (Hd : (1 <= d <= S (length m))%nat) by (unfold d; rewrite app_length; cbn [length]; lia).
    assert (H1 : firstn d ((c :: m) ++ rest) = firstn d (c :: m)).
    { rewrite firstn_app. replace (d - length (c :: m))%nat with 0%nat by (cbn [length]; lia). cbn [firstn]. apply app_nil_r. }
    assert (H2 : skipn d ((c :: m) ++ rest) = skipn d (c :: m) ++ rest).
    { rewrite skipn_app. replace (d - length (c :: m))%nat with 0%nat by (cbn [length]; lia). reflexivity. }
    rewrite H1, H2. clearbody d.
    assert (H3 : length (firstn d (c :: m)) = d) by (rewrite firstn_length; cbn [length]; lia).
    remember (firstn d (c :: m)) as w eqn:Hx. destruct w as [|x xs]; [cbn in H3; lia|]. rewrite H3, Hx.
    replace (S (length m) - d)%nat with (length (skipn d (c :: m))) by (rewrite skipn_length; cbn [length]; lia).
    rewrite IH by (rewrite skipn_length; cbn [length] in *; lia). do 2 f_equal.
    rewrite <- app_assoc. f_equal. apply firstn_skipn.
Qed.

Lemma receive_frame : forall hd net m r, (8 <= hd)%nat -> sendable m -> receive hd net (frame m ++ r) = Some (m, r).
Proof.
  intros hd net m r Hh Hm. unfold receive, read, frame. rewrite <- app_assoc. pose proof (le_bytes_length 8 (Z.of_nat (length m))) as Hl.
  pose proof (le_value_bytes 8 (Z.of_nat (length m)) ltac:(unfold sendable in Hm; change (256 ^ Z.of_nat 8) with (2 ^ 64); lia)) as Hv.
  remember (le_bytes 8 (Z.of_nat (length m))) as b eqn:Hb. clear Hb.
  replace (Nat.min (Nat.max 1 hd) (Nat.min 8 (length (b ++ m ++ r)))) with 8%nat by (rewrite app_length; lia).
  rewrite firstn_app, firstn_all2, skipn_app, skipn_all2, Hl by lia. cbn [Nat.sub firstn skipn app]. rewrite app_nil_r.
  destruct b as [|c b]; [discriminate Hl|]. rewrite Hv, Nat2Z.id. apply (read_loop_all net m r (length m) 0 []). lia.
Qed.

(** Whatever parts of the data the single calls of read deliver, the receiver gets
    the messages that were framed, provided that the eight bytes of a length arrive
    together. *)
Theorem C25_receive : forall hd net ms rest i, (forall j, (8 <= hd j)%nat) -> Forall sendable ms ->
  receive_all (length ms) hd net i (concat (map frame ms) ++ rest) = Some (ms, rest).
Proof.
  intros hd net ms rest i Hh Hms. revert i. induction Hms as [|m ms Hm Hms IH]; intros i; cbn [length receive_all map concat]; [reflexivity|].
  rewrite <- app_assoc, receive_frame by auto. now rewrite IH.
Qed.

(** Together: what is sent is received. *)
Theorem C25_framing : forall snet hd rnet ms, takes_some snet -> (forall j, (8 <= hd j)%nat) -> Forall sendable ms ->
  exists fuel0, forall fuel, (fuel0 <= fuel)%nat -> forall t, exists wire t',
    send_all fuel snet t ms [] = Some (wire, t') /\ receive_all (length ms) hd rnet 0 wire = Some (ms, []).
Proof.
  intros snet hd rnet ms H1 H2 H3. destruct (C25_send snet ms H1 H3) as [f0 Hf]. exists f0. intros fuel Hfu t.
  destruct (Hf fuel Hfu t []) as [t' Ht']. exists (concat (map frame ms)), t'. split; [exact Ht'|].
  rewrite <- (app_nil_r (concat (map frame ms))). apply C25_receive; auto.
Qed.

Example C25_case :
  let ms := [str "PEEKREGS"; []; str "CONTINUE"] in
  let snet := fun (t : nat) (n : Z) => if Nat.even t then 1 else n in
  match send_all 20 snet 0 ms [] with
  | Some (w, t) => t = 10%nat /\ receive_all 3 (fun _ => 8%nat) (fun _ t => S (Nat.modulo t 3)) 0 w = Some (ms, [])
  | None => False
  end /\ takes_some snet.
Proof.
  split; [vm_compute; split; reflexivity|]. intros t n Hn. cbv beta. destruct (Nat.even t); lia.
Qed.

(** ---- C48 ---- *)

(** The length is fetched with a single read: when the network delivers its bytes in
    two portions, the receiver gets a message that was not sent. *)
Theorem C48_split_length_refuted : exists hd net ms, Forall sendable ms /\
  exists m r, receive (hd 0%nat) (net 0%nat) (concat (map frame ms)) = Some (m, r) /\ hd_error ms <> Some m.
Proof.
  exists (fun _ => 3%nat), (fun _ _ => 100%nat), [str "CONTINUE"].
  split; [constructor; [cbn; reflexivity|constructor]|].
  eexists _, _. split; [vm_compute; reflexivity|]. discriminate.
Qed.

(** A send that fails is not noticed: at the beginning of a buffer the message is
    dropped silently, later on a byte is sent twice. *)
Theorem C48_failed_send_refuted :
  (exists net m t, send_raw 100 net 0 m 0 [] = Some ([], t) /\ m <> []) /\
  (exists net m w t, send_raw 100 net 0 m 0 [] = Some (w, t) /\ (length w > length m)%nat).
Proof.
  split.
  - exists (fun _ _ => -1), (str "CONTINUE"), 1%nat. split; [vm_compute; reflexivity|discriminate].
  - exists (fun t n => match t with O => 4 | S O => -1 | _ => n end), (str "CONTINUE"), (str "CONTTINUE"), 3%nat.
    split; vm_compute; [reflexivity|]. repeat constructor.
Qed.

(** ---- C26 ---- *)

(** A message popped but not yet returned. *)
Definition in_hand (r : rpc) : list text := match r with RPopped m => [m] | _ => [] end.

(** Inside Send; inside Receive and not waiting. *)
Definition in_send (s : spc) : bool := match s with SOut => false | _ => true end.
Definition in_receive (r : rpc) : bool := match r with RTest | RReady | RPopped _ => true | _ => false end.
Definition lock_of (s : spc) (r : rpc) (x : option who) : Prop :=
  in_send s = match x with Some Sender => true | _ => false end /\
  in_receive r = match x with Some Receiver => true | _ => false end.

Record ok (ms : list text) (c : chan) : Prop := mkOk {
  ok_all : got c ++ in_hand (at_r c) ++ q c ++ todo c = ms;
  ok_lock : lock_of (at_s c) (at_r c) (mutex c);
  ok_todo : at_s c = SLocked -> todo c <> [];
  ok_ready : at_r c = RReady -> q c <> [];
  ok_wake : at_r c = RAsleep -> q c <> [] -> at_s c = SPushed
}.

Lemma step_ok : forall ms a c d, step a c d -> ok ms c -> ok ms d.
Proof.
  intros ms a c d H [O1 O2 O3 O4 O5]. unfold lock_of in *.
  destruct H; cbn [q mutex at_s at_r todo got in_hand] in *; constructor; cbn [q mutex at_s at_r todo got in_hand].
  all: try (rewrite <- O1, <- ?app_assoc; reflexivity).
  all: try (destruct r; cbn [in_hand app] in *; rewrite <- O1, <- ?app_assoc; reflexivity).
  all: unfold lock_of in *; cbn [in_send in_receive] in *; try (destruct O2 as [X1 X2]).
  all: try (split; congruence).
  all: try (destruct r; cbn [in_receive] in *; try discriminate; try (split; congruence); intros; congruence).
  all: try (destruct s; cbn [in_send in_receive] in *; try discriminate; try (split; congruence); intros; congruence).
  all: try (intros X; congruence).
  all: try (intros X Y; congruence).
  all: try (destruct r; cbn [in_receive] in *; try discriminate; intros X Y; try congruence; specialize (O5 eq_refl Y); congruence).
  exact O3.
Qed.

Lemma steps_ok : forall ms l c d, steps l c d -> ok ms c -> ok ms d.
Proof. intros ms l c d H. induction H; eauto using step_ok. Qed.

Lemma fresh_ok : forall ms, ok ms (fresh ms).
Proof. intros ms. constructor; cbn; try reflexivity; try discriminate. unfold lock_of. cbn. auto. Qed.

(** In every state of every interleaving: what Receive returned, then the message it
    has popped, then the queue, then what is yet to be sent, is what was to be sent,
    in that order: nothing is lost, duplicated or reordered. *)
Theorem C26_fifo : forall ms l c, steps l (fresh ms) c ->
  got c ++ in_hand (at_r c) ++ q c ++ todo c = ms.
Proof. intros ms l c H. apply (ok_all _ _ (steps_ok ms l _ _ H (fresh_ok ms))). Qed.

(** The two threads are never both inside. *)
Theorem C26_exclusive : forall ms l c, steps l (fresh ms) c ->
  in_send (at_s c) = true -> in_receive (at_r c) = true -> False.
Proof.
  intros ms l c H. destruct (ok_lock _ _ (steps_ok ms l _ _ H (fresh_ok ms))) as [A B].
  rewrite A, B. destruct (mutex c) as [[]|]; discriminate.
Qed.

(** A receiver is never left asleep beside a message once the call of Send that
    brought it has returned. *)
Theorem C26_no_lost_wakeup : forall ms l c, steps l (fresh ms) c ->
  at_s c = SOut -> q c <> [] -> at_r c <> RAsleep.
Proof.
  intros ms l c H Hs Hq Hr. pose proof (ok_wake _ _ (steps_ok ms l _ _ H (fresh_ok ms)) Hr Hq). congruence.
Qed.

(** Work yet to be done. *)
Definition srank (s : spc) : nat := match s with SOut => 10 | SLocked => 9 | SPushed => 16 | SNotified => 13 end.
Definition rrank (r : rpc) : nat :=
  match r with RPopped _ => 6 | ROut => 5 | RAwake => 5 | RTest => 4 | RAsleep => 3 | RReady => 2 end.
Definition rank (c : chan) : nat := 20 * length (todo c) + srank (at_s c) + 10 * length (q c) + rrank (at_r c).

Definition spurious (l : list act) : nat := length (filter (fun a => match a with Spurious => true | _ => false end) l).

Lemma steps_rank : forall l c d, steps l c d -> (length l + rank d <= rank c + 3 * spurious l)%nat.
Proof.
  intros l c d H. unfold spurious. induction H as [c|a l c d e H H1 IH]; [cbn; lia|].
  destruct H; unfold rank in *; cbn [todo at_s q at_r srank rrank length filter] in *; rewrite ?app_length in *; cbn [length] in *; try lia.
  destruct r; cbn [rrank] in *; lia.
Qed.

(** No run goes on for ever without delivering (but for spurious wake-ups, each of
    which costs at most three steps) ... *)
Theorem C26_finite : forall ms l c, steps l (fresh ms) c -> (length l <= 20 * length ms + 15 + 3 * spurious l)%nat.
Proof. intros ms l c H. pose proof (steps_rank l _ _ H) as G. unfold rank, fresh in G. cbn [todo at_s q at_r srank rrank length] in G. lia. Qed.

(** ... and where a run cannot go on, every message has been received, and the
    receiver waits for another one. *)
Theorem C26_delivery : forall ms l c, steps l (fresh ms) c -> (forall a d, step a c d -> a = Spurious) ->
  got c = ms /\ todo c = [] /\ q c = [] /\ at_s c = SOut /\ at_r c = RAsleep.
Proof.
  intros ms l c H Hst. pose proof (steps_ok ms l _ _ H (fresh_ok ms)) as [O1 O2 O3 O4 O5]. clear H.
  destruct c as [qu x s r t g]. cbn [q mutex at_s at_r todo got] in *. unfold lock_of in O2.
  assert (St : forall a d, step a (mkChan qu x s r t g) d -> a <> Spurious -> False) by (intros a d A B; exact (B (Hst a d A))).
  clear Hst. destruct O2 as [X1 X2].
  destruct x as [[]|].
  - exfalso. destruct s; [discriminate|..].
    + destruct t as [|m t]; [now apply O3|]. eapply St; [apply s_push|discriminate].
    + eapply St; [apply s_notify|discriminate].
    + eapply St; [apply s_unlock|discriminate].
  - exfalso. destruct r; try discriminate.
    + destruct qu; (eapply St; [constructor|discriminate]).
    + destruct qu; [now apply O4|]. eapply St; [apply r_pop|discriminate].
    + eapply St; [apply r_return|discriminate].
  - destruct s; try discriminate. destruct t as [|m t]; [|exfalso; eapply St; [apply s_lock|discriminate]].
    destruct r; try discriminate; [exfalso; eapply St; [apply r_lock|discriminate]| |exfalso; eapply St; [apply r_relock|discriminate]].
    destruct qu as [|m qu]; [|assert (E : m :: qu <> []) by discriminate; pose proof (O5 eq_refl E); discriminate].
    cbn [in_hand app] in O1. rewrite app_nil_r in O1. auto.
Qed.

(** A receiver that falls asleep, is woken by Send, and gets both messages. *)
Example C26_case : exists l c, let ms := [str "A"; str "B"] in
  steps l (fresh ms) c /\ got c = ms /\ at_r c = RAsleep /\ (forall a d, step a c d -> a = Spurious).
Proof.
  exists [Work_r; Work_r; Work_s; Work_s; Work_s; Work_s; Work_r; Work_r; Work_r; Work_r;
          Work_s; Work_s; Work_s; Work_s; Work_r; Work_r; Work_r; Work_r; Work_r; Work_r],
         (mkChan [] None SOut RAsleep [] [str "A"; str "B"]).
  cbv zeta. split; [|split; [reflexivity|split; [reflexivity|]]].
  - unfold fresh. repeat (eapply st_cons; [solve [constructor]|cbn [app]]). apply st_nil.
  - intros a d H. inversion H; reflexivity.
Qed.

(** ---- C42 ---- *)

(** What an argument asks for (this specification does not mention the map). *)
Inductive given : text -> text -> text -> Prop :=
| g_verbose : forall a, In a [str "--verbose"; str "-v"] -> given a VERBOSE (str "true")
| g_repl : forall a, In a [str "--interactive"; str "-i"; str "--repl"] -> given a MODE (str "interactive")
| g_compile : forall a, In a [str "--compile"; str "-c"] -> given a MODE (str "compile")
| g_value : forall k v, ~ In (ch 61) k -> given (ch 45 :: k ++ ch 61 :: v) (ch 45 :: k) v
| g_flag : forall k, ~ In (ch 61) k ->
    ~ In (ch 45 :: k) [str "--verbose"; str "-v"; str "--interactive"; str "-i"; str "--repl"; str "--compile"; str "-c"] ->
    given (ch 45 :: k) (ch 45 :: k) []
| g_input : forall a, hd_error a <> Some (ch 45) -> given a INPUT a.

Lemma teqb_eq : forall a b, teqb a b = true <-> a = b.
Proof.
  induction a as [|x a IH]; intros [|y b]; cbn; split; intros H; try discriminate; try reflexivity.
  - apply andb_prop in H as [H1 H2]. apply Ascii.eqb_eq in H1. apply IH in H2. congruence.
  - injection H as -> H. rewrite Ascii.eqb_refl. cbn. now apply IH.
Qed.

Lemma one_of : forall a l, In a l <-> existsb (teqb a) l = true.
Proof.
  intros a l. rewrite existsb_exists. split.
  - intros H. exists a. split; [exact H|]. now apply teqb_eq.
  - intros (x & H1 & H2). apply teqb_eq in H2. now subst.
Qed.

Definition words : list text :=
  [str "--verbose"; str "-v"; str "--interactive"; str "-i"; str "--repl"; str "--compile"; str "-c"].

Lemma dash_word : forall a, hd_error a <> Some (ch 45) -> ~ In a words.
Proof. intros a H X. apply H. cbn in X. repeat (destruct X as [<-|X]; [reflexivity|]). destruct X. Qed.
Lemma eq_word : forall a, In (ch 61) a -> ~ In a words.
Proof.
  intros a H X. cbn in X. repeat (destruct X as [<-|X]; [cbn in H; repeat (destruct H as [H|H]; [discriminate H|]); destruct H|]). destruct X.
Qed.

Lemma option_of_other : forall a, ~ In a words ->
  option_of a = match a with
       | c :: _ =>
           if Ascii.eqb c (ch 45) then
             match find_char (ch 61) a with
             | Some k => (firstn k a, skipn (k + 1) a)
             | None => (a, [])
             end
           else (INPUT, a)
       | [] => (INPUT, a)
       end.
Proof.
  intros a H. unfold option_of.
  assert (E : forall w, In w words -> teqb a w = false).
  { intros w Hw. destruct (teqb a w) eqn:X; [|reflexivity]. apply teqb_eq in X. subst. contradiction. }
  rewrite !E by (cbn; tauto). reflexivity.
Qed.

Lemma given_option_of : forall a k v, given a k v -> option_of a = (k, v).
Proof.
  intros a k v H. destruct H as [a H|a H|a H|k v H|k H1 H2|a H].
  1-3: cbn in H; repeat (destruct H as [<-|H]; [reflexivity|]); destruct H.
  - rewrite option_of_other by (apply eq_word; right; apply in_or_app; right; left; reflexivity).
    rewrite Ascii.eqb_refl.
    assert (F : find_char (ch 61) (ch 45 :: k ++ ch 61 :: v) = Some (length (ch 45 :: k))).
    { cbn [find_char length]. replace (Ascii.eqb (ch 45) (ch 61)) with false by reflexivity.
      clear -H. assert (G : find_char (ch 61) (k ++ ch 61 :: v) = Some (length k)); [|now rewrite G].
      induction k as [|c k IH]; cbn [app find_char length]; [now rewrite Ascii.eqb_refl|].
      destruct (Ascii.eqb_spec c (ch 61)) as [->|N]; [exfalso; apply H; now left|].
      rewrite IH by (intros X; apply H; now right). reflexivity. }
    rewrite F. change (ch 45 :: k ++ ch 61 :: v) with ((ch 45 :: k) ++ ch 61 :: v).
    rewrite firstn_app, Nat.sub_diag, firstn_all, firstn_O, app_nil_r.
    rewrite skipn_app, skipn_all2 by lia. replace (length (ch 45 :: k) + 1 - length (ch 45 :: k))%nat with 1%nat by lia. reflexivity.
  - rewrite option_of_other by exact H2. rewrite Ascii.eqb_refl.
    assert (F : find_char (ch 61) (ch 45 :: k) = None).
    { apply find_char_none. intros [X|X]; [discriminate|contradiction]. }
    now rewrite F.
  - rewrite option_of_other by (now apply dash_word). destruct a as [|c a]; [reflexivity|].
    destruct (Ascii.eqb_spec c (ch 45)) as [->|N]; [now elim H|reflexivity].
Qed.

(** Every argument asks for exactly one thing. *)
Lemma given_some : forall a, exists k v, given a k v.
Proof.
  intros a. destruct (existsb (teqb a) words) eqn:W.
  - apply one_of in W. cbn in W.
    repeat (destruct W as [<-|W]; [eexists _, _; first [apply g_verbose; cbn; tauto | apply g_repl; cbn; tauto | apply g_compile; cbn; tauto]|]). destruct W.
  - assert (N : ~ In a words) by (rewrite one_of; congruence).
    destruct a as [|c a]; [eexists _, _; apply g_input; discriminate|].
    destruct (Ascii.eqb_spec c (ch 45)) as [->|X].
    + destruct (find_char (ch 61) a) as [k|] eqn:F.
      * destruct (find_char_some _ _ _ F) as (F1 & F2 & _). exists (ch 45 :: firstn k a), (skipn (k + 1) a). rewrite F1 at 1. apply g_value. exact F2.
      * apply find_char_none in F. eexists _, _. apply g_flag; auto.
    + eexists _, _. apply g_input. intros Q. apply X. now injection Q.
Qed.
Lemma option_of_given : forall a, given a (fst (option_of a)) (snd (option_of a)).
Proof. intros a. destruct (given_some a) as (k & v & H). rewrite (given_option_of _ _ _ H). exact H. Qed.

Lemma find_arg_set : forall a k v a' x, set_option a k v = Some a' ->
  find_arg a k = None /\ find_arg a' x = if teqb k x then Some v else find_arg a x.
Proof.
  intros a k v a' x H. unfold set_option in H. destruct (find_arg a k); [discriminate|]. injection H as <-. split; reflexivity.
Qed.
Lemma teqb_refl : forall a, teqb a a = true.
Proof. intros a. now apply teqb_eq. Qed.

Lemma parse_args_get : forall argv a m, parse_args a argv = Some m ->
  (forall k v, find_arg a k = Some v -> find_arg m k = Some v) /\
  (forall x k v, In x argv -> given x k v -> find_arg m k = Some v) /\
  (forall k v, find_arg m k = Some v -> find_arg a k = Some v \/ exists x, In x argv /\ given x k v).
Proof.
  induction argv as [|y argv IH]; intros a m H; cbn [parse_args] in H.
  - injection H as <-. split; [auto|]. split; [intros x k v []|auto].
  - pose proof (option_of_given y) as Y. destruct (option_of y) as [k1 v1] eqn:E. cbn [fst snd] in Y.
    destruct (set_option a k1 v1) as [a1|] eqn:S1; [|discriminate].
    destruct (IH _ _ H) as (I1 & I2 & I3). split; [|split].
    + intros k v F. apply I1. destruct (find_arg_set _ _ _ _ k S1) as [N ->].
      destruct (teqb k1 k) eqn:T; [|exact F]. apply teqb_eq in T. congruence.
    + intros x k v [<-|X] G; [|eauto]. pose proof (given_option_of _ _ _ G) as Z. rewrite E in Z. injection Z as -> ->.
      apply I1. destruct (find_arg_set _ _ _ _ k S1) as [N ->]. now rewrite teqb_refl.
    + intros k v F. destruct (I3 _ _ F) as [F1|(x & X1 & X2)]; [|right; exists x; split; [now right|exact X2]].
      destruct (find_arg_set _ _ _ _ k S1) as [N Q]. rewrite Q in F1. destruct (teqb k1 k) eqn:T; [|auto].
      apply teqb_eq in T. subst k1. injection F1 as ->. right. exists y. split; [now left|exact Y].
Qed.

(** A configuration that was accepted: every option given has the value given; an
    option has a value only because it was given, or it is VERBOSE, was not given,
    and has its default. *)
Theorem C42_values : forall argv m, parse argv = Some m ->
  (forall x k v, In x (tl argv) -> given x k v -> get m k = Some v) /\
  (forall k v, get m k = Some v ->
     (exists x, In x (tl argv) /\ given x k v) \/
     (k = VERBOSE /\ v = str "true" /\ forall x w, In x (tl argv) -> ~ given x VERBOSE w)) /\
  ((forall x w, In x (tl argv) -> ~ given x VERBOSE w) -> get m VERBOSE = Some (str "true")).
Proof.
  intros argv m H. unfold parse in H. destruct (parse_args [] (tl argv)) as [a|] eqn:P; [|discriminate]. injection H as <-.
  destruct (parse_args_get _ _ _ P) as (_ & I2 & I3). unfold set_default, get.
  destruct (find_arg a VERBOSE) as [w|] eqn:V; cbn [fst].
  - split; [eauto|]. split.
    + intros k v F. destruct (I3 _ _ F) as [X|X]; [discriminate X|now left].
    + intros N. exfalso. destruct (I3 _ _ V) as [X|(x & X1 & X2)]; [discriminate X|]. exact (N _ _ X1 X2).
  - assert (N : forall x w, In x (tl argv) -> ~ given x VERBOSE w) by (intros x w X Y; rewrite (I2 _ _ _ X Y) in V; discriminate V).
    split; [|split].
    + intros x k v X G. cbn [find_arg]. destruct (teqb VERBOSE k) eqn:T; [|eauto]. apply teqb_eq in T. subst k. now elim (N x v X).
    + intros k v F. cbn [find_arg] in F. destruct (teqb VERBOSE k) eqn:T.
      * apply teqb_eq in T. subst k. injection F as <-. right. auto.
      * destruct (I3 _ _ F) as [X|X]; [discriminate X|now left].
    + intros _. cbn [find_arg]. now rewrite teqb_refl.
Qed.

Lemma parse_args_none : forall argv a, parse_args a argv = None <->
  (exists x k v, In x argv /\ given x k v /\ find_arg a k <> None) \/
  (exists l1 x l2 y l3 k v w, argv = l1 ++ x :: l2 ++ y :: l3 /\ given x k v /\ given y k w).
Proof.
  induction argv as [|z argv IH]; intros a; cbn [parse_args].
  - split; [discriminate|]. intros [(x & k & v & [] & _)|(l1 & x & l2 & y & l3 & k & v & w & E & _)]. destruct l1; discriminate.
  - pose proof (option_of_given z) as Y. destruct (option_of z) as [k1 v1] eqn:E. cbn [fst snd] in Y.
    destruct (set_option a k1 v1) as [a1|] eqn:S1.
    + rewrite IH. split.
      * intros [(x & k & v & X & G & N)|(l1 & x & l2 & y & l3 & k & v & w & -> & G)].
        -- destruct (find_arg_set _ _ _ _ k S1) as [N1 Q]. rewrite Q in N. destruct (teqb k1 k) eqn:T.
           ++ apply teqb_eq in T. subst k1. right. destruct (in_split _ _ X) as (l2 & l3 & ->).
              exists [], z, l2, x, l3, k, v1, v. auto.
           ++ left. exists x, k, v. split; [now right|auto].
        -- right. exists (z :: l1), x, l2, y, l3, k, v, w. auto.
      * intros [(x & k & v & [<-|X] & G & N)|([|z' l1] & x & l2 & y & l3 & k & v & w & Q & G1 & G2)].
        -- exfalso. pose proof (given_option_of _ _ _ G) as Z. rewrite E in Z. injection Z as -> ->.
           destruct (find_arg_set _ _ _ _ k S1) as [N1 _]. contradiction.
        -- left. exists x, k, v. split; [exact X|]. split; [exact G|]. destruct (find_arg_set _ _ _ _ k S1) as [N1 ->].
           destruct (teqb k1 k); [discriminate|exact N].
        -- injection Q as -> ->. pose proof (given_option_of _ _ _ G1) as Z. rewrite E in Z. injection Z as -> ->.
           left. exists y, k, w. split; [apply in_or_app; right; now left|]. split; [exact G2|].
           destruct (find_arg_set _ _ _ _ k S1) as [_ ->]. now rewrite teqb_refl.
        -- injection Q as -> ->. right. exists l1, x, l2, y, l3, k, v, w. auto.
    + split; [|reflexivity]. intros _. left. exists z, k1, v1. split; [now left|]. split; [exact Y|].
      unfold set_option in S1. destruct (find_arg a k1); [discriminate|discriminate S1].
Qed.

(** A command line is rejected exactly if two arguments give the same option. *)
Theorem C42_twice : forall argv, parse argv = None <->
  exists l1 x l2 y l3 k v w, tl argv = l1 ++ x :: l2 ++ y :: l3 /\ given x k v /\ given y k w.
Proof.
  intros argv. unfold parse. pose proof (parse_args_none (tl argv) []) as H.
  destruct (parse_args [] (tl argv)) as [a|].
  - split; [discriminate|]. intros X. exfalso. assert (Some a = None) by (apply H; now right). discriminate.
  - split; [|reflexivity]. intros _. destruct (proj1 H eq_refl) as [(x & k & v & _ & _ & N)|X]; [now elim N|exact X].
Qed.

(** A default applies exactly to an option that has no value, and changes no other. *)
Theorem C42_default : forall m k v,
  get (fst (set_default m k v)) k = Some (match get m k with Some w => w | None => v end) /\
  (forall k', k' <> k -> get (fst (set_default m k v)) k' = get m k') /\
  (snd (set_default m k v) = true <-> get m k = None).
Proof.
  intros m k v. unfold set_default, get. destruct (find_arg m k) as [w|] eqn:F; cbn [fst snd find_arg].
  - rewrite F. split; [reflexivity|]. split; [auto|]. split; discriminate.
  - rewrite teqb_refl. split; [reflexivity|]. split; [|tauto]. intros k' N.
    destruct (teqb k k') eqn:T; [|reflexivity]. apply teqb_eq in T. congruence.
Qed.

Example C42_case :
  match parse [str "vm"; str "-registerCnt=12"; str "-x"; str "prog.t86"] with
  | Some m => get m (str "-registerCnt") = Some (str "12") /\ get m (str "-x") = Some [] /\ get m INPUT = Some (str "prog.t86") /\
      get m VERBOSE = Some (str "true") /\ get m MODE = None
  | None => False
  end /\ parse [str "vm"; str "-i"; str "-c"] = None /\ given (str "-registerCnt=12") (str "-registerCnt") (str "12").
Proof.
  split; [vm_compute; auto 10|]. split; [reflexivity|]. apply (g_value (str "registerCnt") (str "12")).
  cbn. repeat (intros [X|X]; [discriminate X|revert X]); auto.
Qed.

Print Assumptions C25_send.
Print Assumptions C25_receive.
Print Assumptions C25_framing.
Print Assumptions C48_split_length_refuted.
Print Assumptions C48_failed_send_refuted.
Print Assumptions C26_fifo.
Print Assumptions C26_exclusive.
Print Assumptions C26_no_lost_wakeup.
Print Assumptions C26_finite.
Print Assumptions C26_delivery.
Print Assumptions C42_values.
Print Assumptions C42_twice.
Print Assumptions C42_default.
