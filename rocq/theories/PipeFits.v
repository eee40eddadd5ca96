(** Every value the machine holds is a 64-bit number: registers, memory cells, stores and
    loads on their way, operands fetched. *)
From Coq Require Import ZArith NArith List Bool Lia ZifyBool.
From Verif Require Import Base Alu Isa AluSpec AluProofs Exec Ram Writes Rat Cpu InOrder IsaSpec PipeBasics IsaRefine Os DbgSpec PipeFault.
Import ListNotations.
Open Scope Z_scope.

(** ---- lists ---- *)

Lemma Forall_set_nth : forall A (P : A -> Prop) l n a, Forall P l -> P a -> Forall P (set_nth l n a).
Proof. intros A P l. induction l as [|x l IH]; intros n a H Ha; [exact H|]. apply Forall_cons_iff in H. destruct H. destruct n; cbn [set_nth]; constructor; auto. Qed.
Lemma Forall_aset : forall V (P : Z * V -> Prop) m k v, Forall P m -> P (k, v) -> Forall P (aset m k v).
Proof.
  intros V P m k v. induction m as [|[k' v'] m IH]; intros H Ha; cbn [aset]; [now constructor|]. apply Forall_cons_iff in H. destruct H.
  destruct (k =? k'); constructor; auto.
Qed.
Lemma Forall_nth : forall A (P : A -> Prop) l n a, Forall P l -> nth_error l n = Some a -> P a.
Proof. intros A P l n a H E. eapply Forall_forall; [exact H|]. eapply nth_error_In; eauto. Qed.

(** ---- the parts ---- *)

Definition fv (f : pfile) : Prop := Forall (fun r => fits (p_val r)) f.
Definition mv (w : mwrite) : Prop := forall v, mw_value w = Some v -> fits v.
Definition wv (w : wman) : Prop := Forall (fun p : Z * mwrites => Forall mv (mws_vec (snd p))) (wm_map w).
Definition rv (r : ram) : Prop := Forall fits (ram_mem r) /\ Forall (fun p : Z * rentry => fits (re_val (snd p))) (ram_reads r).
Definition enty (e : entry) : Prop := typed_instr (e_ins e) /\ Forall typed_operand (e_ops e).
Definition stage (o : option (instr * Z)) : Prop := match o with Some (i, _) => typed_instr i | None => True end.
Definition bytes (l : list Z) : Prop := Forall (fun b => 0 <= b < 256) l.

Record V (c : cpu) : Prop := mkV {
  v_prog : Forall typed_instr (c_prog c);
  v_fetch : stage (c_fetch c);
  v_decode : stage (c_decode c);
  v_regs : fv (c_regs c);
  v_rs : Forall enty (c_rs c);
  v_ram : rv (c_ram c);
  v_wm : wv (c_wm c);
  v_in : bytes (c_in c)
}.
#[local] Hint Resolve v_prog v_fetch v_decode v_regs v_rs v_ram v_wm v_in : vv.

(** A result that is fine: [P] of what is returned, [V] of the machine an exception leaves. *)
Definition okv {A} (P : A -> Prop) (r : res cpu A) : Prop := match r with Ok a => P a | Throw _ c => V c | Undef _ => True end.
Definition oku {A} (P : A -> Prop) (r : res unit A) : Prop := match r with Ok a => P a | _ => True end.

Lemma okv_bind : forall A B (P : A -> Prop) (Q : B -> Prop) r (k : A -> res cpu B), okv P r -> (forall a, P a -> okv Q (k a)) -> okv Q (bind r k).
Proof. intros A B P Q [a|e s|w] k H K; cbn [okv bind] in *; auto. Qed.
Lemma oku_bind : forall A B (P : A -> Prop) (Q : B -> Prop) r (k : A -> res unit B), oku P r -> (forall a, P a -> oku Q (k a)) -> oku Q (bind r k).
Proof. intros A B P Q [a|e s|w] k H K; cbn [oku bind] in *; auto. Qed.
Lemma okv_lift : forall A (P : A -> Prop) c r, V c -> oku P r -> okv P (lift c r).
Proof. intros A P c [a|e s|w] H K; cbn in *; auto. Qed.
Lemma okv_opt : forall A (P : A -> Prop) w o, (forall a, o = Some a -> P a) -> okv P (opt w o).
Proof. intros A P w [a|] H; cbn; auto. Qed.

(** ---- the ALU ---- *)

Lemma fits_s64 : forall z, fits (s64 z).
Proof. intros z. exact (word_fits _ _ (s64_word z)). Qed.
Lemma fits_in : forall z, fits z -> in_s64 z.
Proof. intros z H. apply fits_mod in H. exact H. Qed.
Lemma arith_v : forall m z, oku fits (arith m z).
Proof. intros m z. destruct (arith m z) eqn:H; cbn; auto. exact (word_fits _ _ (arith_word _ _ _ H)). Qed.
Lemma bin_v : forall m op x y, fits x -> fits y -> oku (fun r => fits (rval r)) (alu_bin m op x y).
Proof. intros m op x y Hx Hy. destruct (alu_bin m op x y) as [r| |] eqn:H; cbn; auto. exact (bin_fits op x y r (alu_bin_correct m op x y r (fits_in _ Hx) (fits_in _ Hy) H)). Qed.
Lemma un_v : forall m op x, fits x -> oku (fun r => fits (rval r)) (alu_un m op x).
Proof. intros m op x Hx. destruct (alu_un m op x) as [r| |] eqn:H; cbn; auto. exact (un_fits op x r (alu_un_correct m op x r (fits_in _ Hx) H)). Qed.
Lemma sub_v : forall m x y, oku (fun r => fits (rval r)) (alu_sub m x y).
Proof. intros m x y. unfold alu_sub. eapply oku_bind; [apply arith_v|]. intros a Ha. exact Ha. Qed.
Lemma flags_v : forall f, fits (flags_to_word f).
Proof. intros f. rewrite flags_word_bits. apply flag_bits_fits. Qed.

(** ---- operands ---- *)

Ltac okus := repeat first [apply arith_v | apply sub_v | (eapply oku_bind; [apply arith_v|cbv beta; intros ? ?]) | (cbn [oku]; fail)].

Lemma u64_ok : forall x, u64_range (u64 x).
Proof. intros x. unfold u64_range, u64. p64. apply Z.mod_pos_bound. reflexivity. Qed.

Lemma supply_v : forall m o v, fits v -> oku typed_operand (supply m o v).
Proof. intros m o v Hv. destruct o; cbn [supply]; okus; cbn [oku typed_operand]; auto using u64_ok. Qed.

Lemma op_vals_v : forall os vs, Forall typed_operand os -> op_vals os = Some vs -> Forall fits vs.
Proof.
  induction os as [|o os IH]; intros vs H E; cbn [op_vals] in E; [injection E as <-; constructor|]. apply Forall_cons_iff in H. destruct H as [H1 H2].
  destruct (op_val o) as [v|] eqn:Ho; [|discriminate]. destruct (op_vals os) as [l|] eqn:Hl; [|discriminate]. injection E as <-.
  constructor; [|eauto]. destruct o; try discriminate Ho; cbn [op_val] in Ho; injection Ho as <-; exact H1.
Qed.

(** ---- executing ---- *)

Definition actv (a : act) : Prop := match a with ASet _ v | AVal v | AOp v => fits v | AAddr _ => True end.

Ltac fcons := repeat first [apply Forall_cons|apply Forall_nil].

Lemma exec_acts_v : forall E i vs, typed_fops (e_fops E) -> Forall fits vs -> oku (Forall actv) (exec_acts E i vs).
Proof.
  intros E i vs TF H.
  assert (EA : forall d l, oku (fun _ => True) (eff_addr (e_mode E) d l)) by (intros d l; destruct (eff_addr _ _ _); cbn; auto).
  destruct i; cbn [exec_acts]; cbv zeta;
    repeat (match goal with
      | |- oku _ (match ?l with [] => _ | _ :: _ => _ end) => is_var l; destruct l as [|? ?]
      | H : Forall fits (_ :: _) |- _ => apply Forall_cons_iff in H; destruct H
      | |- oku _ (Undef _) => exact I
      end);
    try exact I;
    try (eapply oku_bind; [first [apply bin_v; assumption|apply un_v; assumption|apply sub_v|apply arith_v|apply EA]|cbv beta; intros ? ?]);
    try (cbn [oku]; fcons; cbn [actv]; auto using flags_v, fits_s64; fail).
  - (* FBIN *) cbn [oku]. constructor; [|constructor; [apply flags_v|constructor]]. cbn [actv]. destruct op; apply TF.
  - (* MOV *) destruct d, vs as [|? ?]; cbn [oku]; try exact I; try (fcons; assumption);
      (eapply oku_bind; [apply EA|intros ? ?]; fcons; assumption).
  - match goal with |- context [eff_addr _ ?d _] => destruct d end; try exact I; (eapply oku_bind; [apply EA|intros ? ?]; fcons; apply fits_s64).
  - (* LOOP *) cbn [oku]. apply Forall_app. split; [fcons; cbn [actv]; auto using flags_v|]. destruct (rval a0 =? 0); fcons. assumption.
  - (* JCC *) cbn [oku]. destruct (cond_holds _ _); fcons. assumption.
  - (* EXT *) cbn [oku]. fcons. apply TF.
  - (* NRW *) destruct (f_to_int _ _) as [y|] eqn:Hz; [|exact I]. cbn [oku]. fcons. eapply (tf_to _ TF); eauto.
Qed.

Lemma entry_set_v : forall f t l v, fv f -> fits v -> oku fv (entry_set f t l v).
Proof.
  intros f t l v Hf Hv. unfold entry_set. destruct (rget t l) as [p|]; [|exact I]. destruct (nth_error f p) as [r|]; [|exact I].
  destruct (is_lr l && negb (is_pc l) && p_ready r); [exact I|]. apply Forall_set_nth; assumption.
Qed.

(** ---- stores on their way ---- *)

Lemma split_gt_v : forall id l a b, split_gt id l = (a, b) -> l = a ++ b.
Proof.
  intros id l. induction l as [|w l IH]; intros a b H; cbn [split_gt] in H; [injection H as <- <-; reflexivity|].
  destruct (mw_id w >? id); [|injection H as <- <-; reflexivity]. destruct (split_gt id l) as [a' b'] eqn:Hs. injection H as <- <-.
  cbn [app]. f_equal. now apply IH.
Qed.

Lemma wm_get_v : forall w a, wv w -> Forall mv (mws_vec (wm_get w a)).
Proof.
  intros w a H. unfold wm_get. destruct (aget (wm_map w) a) as [ws|] eqn:Ha; [|constructor]. apply aget_in in Ha.
  exact (proj1 (Forall_forall _ _) H _ Ha).
Qed.

Lemma insert_v : forall w id a u cur, wv w -> wv (wm_insert w id a u cur).
Proof.
  intros w id a u cur H. unfold wm_insert, mws_add. pose proof (wm_get_v w a H) as Hg. destruct (split_gt id (mws_vec (wm_get w a))) as [b f] eqn:Hs.
  pose proof (split_gt_v _ _ _ _ Hs) as Heq. rewrite Heq in Hg. apply Forall_app in Hg. destruct Hg as [G1 G2].
  assert (HN : Forall mv (b ++ mkMw id a None None :: f)) by (apply Forall_app; split; [exact G1|constructor; [intros v Hv; discriminate Hv|exact G2]]).
  destruct (Nat.ltb _ _); unfold wv; cbn [wm_map]; apply Forall_aset; assumption.
Qed.

Lemma find_v : forall id m w, Forall (fun p : Z * mwrites => Forall mv (mws_vec (snd p))) m -> wm_find id m = Some w -> mv w.
Proof.
  intros id m w. induction m as [|[a ws] m IH]; intros H E; cbn [wm_find] in E; [discriminate|]. apply Forall_cons_iff in H. destruct H as [H1 H2].
  destruct (find_id id (mws_vec ws)) as [w'|] eqn:Hf; [|auto]. injection E as <-. cbn [snd] in H1. clear -H1 Hf.
  induction (mws_vec ws) as [|x l IH]; cbn [find_id] in Hf; [discriminate|]. apply Forall_cons_iff in H1. destruct H1. destruct (mw_id x =? id); [injection Hf as <-; assumption|auto].
Qed.

Lemma get_write_v : forall w id, wv w -> oku mv (wm_get_write w id).
Proof.
  intros w id H. unfold wm_get_write. destruct (aget (wm_byid w) id) as [[]|]; try exact I. destruct (wm_find id (wm_map w)) eqn:Hf; [|exact I].
  eapply find_v; eauto.
Qed.

Lemma update_v : forall w id g, wv w -> (forall x, mv x -> mv (g x)) -> wv (wm_update w id g).
Proof.
  intros w id g H G. unfold wv, wm_update. cbn [wm_map]. apply Forall_map. eapply Forall_impl; [|exact H]. cbv beta. intros [a ws] K. cbn [snd fst mws_vec] in *.
  unfold upd_id. apply Forall_map. eapply Forall_impl; [|exact K]. cbv beta. intros x Hx. destruct (mw_id x =? id); auto.
Qed.

Lemma set_value_v : forall w id v, wv w -> fits v -> oku wv (wm_set_value w id v).
Proof.
  intros w id v H Hv. unfold wm_set_value. eapply oku_bind; [apply get_write_v; exact H|]. intros x _. destruct (mw_value x), (mw_ram x); try exact I.
  apply update_v; [exact H|]. intros y _ z Hz. cbn [mw_value] in Hz. congruence.
Qed.

Lemma specify_v : forall w id a, wv w -> oku wv (wm_specify w id a).
Proof. intros w id a H. unfold wm_specify. destruct (existsb _ _); [|exact I]. now apply insert_v. Qed.

Lemma remove_v : forall drop w u, wv w -> wv (wm_remove drop w u).
Proof.
  intros drop w u H. unfold wm_remove. destruct (wm_remove_map drop (wm_map w)) as [[mp rem] inv] eqn:Hr. unfold wv in *. cbn [wm_map].
  revert mp rem inv H Hr. induction (wm_map w) as [|[a ws] m IH]; intros mp rem inv H Hr; cbn [wm_remove_map] in Hr; [injection Hr as <- _ _; constructor|].
  apply Forall_cons_iff in H. destruct H as [H1 H2]. destruct (mws_remove drop (mws_vec ws) false) as [[k r1] i1] eqn:Hk. destruct (wm_remove_map drop m) as [[m2 r2] i2] eqn:Hm.
  injection Hr as <- _ _. constructor; [|eapply IH; eauto]. cbn [snd mws_vec] in *. clear -H1 Hk. revert k r1 i1 Hk. generalize false.
  induction (mws_vec ws) as [|x l IH]; intros b k r1 i1 Hk; cbn [mws_remove] in Hk; [injection Hk as <- _ _; constructor|]. apply Forall_cons_iff in H1. destruct H1 as [A B].
  destruct (drop x).
  - destruct (mws_remove drop l true) as [[k' r'] i'] eqn:He. injection Hk as <- _ _. eapply IH; eauto.
  - destruct (mws_remove drop l b) as [[k' r'] i'] eqn:He. injection Hk as <- _ _. constructor; [exact A|eapply IH; eauto].
Qed.

Lemma previous_v : forall w a id, wv w -> oku (fun o => forall x, o = Some x -> mv x) (wm_previous w a id).
Proof.
  intros w a id H. unfold wm_previous. destruct (wm_has_unspec w id); [exact I|]. cbn [oku]. intros x Hx. pose proof (wm_get_v w a H) as G. unfold mws_latest in Hx.
  destruct (split_gt id (mws_vec (wm_get w a))) as [b f] eqn:Hs. rewrite (split_gt_v _ _ _ _ Hs) in G. apply Forall_app in G. destruct G as [_ G]. cbn [snd] in Hx.
  destruct f; [discriminate|]. injection Hx as <-. now apply Forall_cons_iff in G.
Qed.

(** ---- the memory ---- *)

Lemma mem_set_v : forall m a v, Forall fits m -> fits v -> Forall fits (mem_set m a v).
Proof. intros m a v H Hv. unfold mem_set. destruct (_ && _); [now apply Forall_set_nth|exact H]. Qed.
Lemma mem_at_v : forall m a v, Forall fits m -> mem_at m a = Some v -> fits v.
Proof. intros m a v H E. unfold mem_at in E. destruct (_ && _); [|discriminate]. exact (Forall_nth _ _ _ _ _ H E). Qed.
Lemma ram_tick_v : forall r, rv r -> rv (ram_tick r).
Proof.
  intros r [H1 H2]. split; [exact H1|]. cbn [ram_tick ram_reads]. induction (ram_reads r) as [|[a e] m IH]; [constructor|]. apply Forall_cons_iff in H2. destruct H2 as [A B].
  cbn [tick_reads]. destruct (re_rem e); [auto|]. constructor; [exact A|auto].
Qed.
Lemma ram_set_v : forall r a v r', rv r -> fits v -> ram_set r a v = Some r' -> rv r'.
Proof. intros r a v r' [H1 H2] Hv E. unfold ram_set in E. destruct (mem_at _ _); [|discriminate]. injection E as <-. split; cbn; [now apply mem_set_v|exact H2]. Qed.
Lemma ram_write_v : forall r a v r' id, rv r -> fits v -> ram_write r a v = Some (r', id) -> rv r'.
Proof. intros r a v r' id [H1 H2] Hv E. unfold ram_write in E. destruct (mem_at _ _); [|discriminate]. injection E as <- _. split; cbn; [now apply mem_set_v|exact H2]. Qed.

Definition readv (x : ram * rread) : Prop := rv (fst x) /\ forall v, snd x = RVal v -> fits v.
Lemma ram_read_v : forall g r a, rv r -> oku readv (ram_read g r a).
Proof.
  intros g r a [H1 H2]. unfold ram_read. destruct (aget (ram_reads r) a) as [e|] eqn:Ha.
  - apply aget_in in Ha. pose proof (proj1 (Forall_forall _ _) H2 _ Ha) as K. cbn [snd] in K. destruct (re_rem e); (split; [split; assumption|]); cbn [snd]; intros v Hv; congruence.
  - destruct (Nat.eqb _ _); [split; [split; assumption|discriminate]|]. destruct (aget (ram_writes r) a); [exact I|]. destruct (mem_at (ram_mem r) a) as [v|] eqn:Hm.
    + split; [|discriminate]. split; [exact H1|]. cbn. apply Forall_aset; [exact H2|]. eapply mem_at_v; eauto.
    + split; [split; assumption|discriminate].
Qed.
Lemma read_memory_v : forall g r w a id, rv r -> wv w -> oku readv (read_memory g r w a id).
Proof.
  intros g r w a id H Hw. unfold read_memory. destruct (wm_has_unspec w id); [split; [exact H|discriminate]|]. eapply oku_bind; [apply previous_v; exact Hw|].
  intros [x|] Hx; [|now apply ram_read_v]. destruct (mw_value x) as [v|] eqn:Hv; (split; [exact H|]); cbn [snd]; intros v' Hv'; [|discriminate]. injection Hv' as <-. exact (Hx _ eq_refl _ Hv).
Qed.

Lemma start_v : forall w r id, wv w -> rv r -> oku (fun o => forall w' r', o = Some (w', r') -> wv w' /\ rv r') (wm_start w r id).
Proof.
  intros w r id Hw Hr. unfold wm_start. eapply oku_bind; [apply get_write_v; exact Hw|]. intros x Hx. destruct (mw_value x) as [v|] eqn:Hv; [|exact I]. destruct (mw_ram x); [exact I|].
  destruct (ram_write r (mw_addr x) v) as [[r' rid]|] eqn:He; cbn [oku]; intros w' r'' H; [|discriminate]. injection H as <- <-. split; [|eapply ram_write_v; eauto].
  apply update_v; [exact Hw|]. intros y Hy z Hz. exact (Hy _ Hz).
Qed.

(** ---- executing, entry by entry ---- *)

Definition exev (s : pfile * wman * list operand) : Prop := fv (fst (fst s)) /\ wv (snd (fst s)) /\ Forall typed_operand (snd s).
Lemma do_acts_v : forall e l s, Forall actv l -> exev s -> oku exev (do_acts e l s).
Proof.
  intros e l. induction l as [|a l IH]; intros [[f w] ops] Hl Hs; cbn [do_acts]; [exact Hs|]. apply Forall_cons_iff in Hl. destruct Hl as [Ha Hl]. destruct Hs as [H1 [H2 H3]]. cbn [fst snd] in *.
  eapply oku_bind with (P := exev); [|intros s' Hs'; now apply IH]. destruct a; cbn [do_act actv] in *.
  - eapply oku_bind; [apply entry_set_v; eassumption|]. intros f' Hf'. split; [exact Hf'|split; assumption].
  - destruct (e_wids e) as [|id [|? ?]]; try exact I. eapply oku_bind; [apply specify_v; eassumption|]. intros w' Hw'. split; [exact H1|split; assumption].
  - destruct (e_wids e) as [|id [|? ?]]; try exact I. eapply oku_bind; [apply set_value_v; eassumption|]. intros w' Hw'. split; [exact H1|split; assumption].
  - split; [exact H1|]. split; [exact H2|]. cbn [snd]. apply Forall_app. split; [exact H3|]. fcons. exact Ha.
Qed.

Section E.
Context (E : env) (TF : typed_fops (e_fops E)).

Lemma exec_loop_v : forall es f w alus, fv f -> wv w -> Forall enty es ->
  oku (fun s => fv (fst (fst (fst s))) /\ wv (snd (fst (fst s))) /\ Forall enty (snd s)) (exec_loop E f w alus es).
Proof.
  induction es as [|e es IH]; intros f w alus Hf Hw He; cbn [exec_loop]; [cbn; auto|]. apply Forall_cons_iff in He. destruct He as [[T1 T2] He].
  eapply oku_bind with (P := fun s => fv (fst (fst (fst s))) /\ wv (snd (fst (fst s))) /\ enty (snd s)).
  - unfold exec_entry. destruct (e_state e); try (cbn; repeat split; assumption). destruct (Nat.pred (e_time e)); [|cbn; repeat split; assumption].
    unfold opt. destruct (op_vals (e_ops e)) as [vs|] eqn:Hv; [|exact I]. cbn [bind]. eapply oku_bind; [apply exec_acts_v; [exact TF|eapply op_vals_v; eauto]|]. intros acts Ha.
    eapply oku_bind; [apply do_acts_v with (s := (f, w, e_ops e)); [exact Ha|repeat split; assumption]|]. intros [[f' w'] ops'] [A [B C]]. cbn [oku fst snd] in *. repeat split; assumption.
  - intros [[[f1 w1] a1] e1] [A [B C]]. cbn [fst snd] in *. eapply oku_bind; [apply IH; eassumption|]. intros [[[f2 w2] a2] es2] [D1 [D2 D3]]. cbn [oku fst snd] in *. repeat split; auto.
Qed.

(** ---- fetching operands ---- *)

Lemma read_reg_v : forall f t l, fv f -> oku (fun o => forall v, o = Some v -> fits v) (read_reg f t l).
Proof.
  intros f t l Hf. unfold read_reg. destruct (rget t l); [|exact I]. destruct (nth_error f n) as [r|] eqn:Hn; [|exact I]. cbn [oku]. intros v Hv. destruct (p_ready r); [|discriminate].
  injection Hv as <-. exact (Forall_nth _ _ _ _ _ Hf Hn).
Qed.

Lemma fetch_op_v : forall n gates f w t maxid r exn o, fv f -> wv w -> rv r -> typed_operand o ->
  oku (fun s => rv (fst (fst s)) /\ typed_operand (snd s)) (fetch_op n E gates f w t maxid r exn o).
Proof.
  induction n as [|n IH]; intros gates f w t maxid r exn o Hf Hw Hr Ho; [exact I|]. cbn [fetch_op]. destruct (requirement o) as [[rg|k|a]|]; [| | |cbn; auto].
  - eapply oku_bind; [apply read_reg_v; exact Hf|]. intros [v|] Hv.
    + eapply oku_bind; [apply supply_v; apply Hv; reflexivity|]. intros o' Ho'. now apply IH.
    + eapply oku_bind with (P := fun _ => True); [destruct (stall_peek _ _ _ _); exact I|]. intros _ _. cbn. auto.
  - eapply oku_bind; [apply read_reg_v; exact Hf|]. intros [v|] Hv; [|cbn; auto].
    eapply oku_bind; [apply supply_v; apply Hv; reflexivity|]. intros o' Ho'. now apply IH.
  - eapply oku_bind; [apply read_memory_v; [exact Hr|exact Hw]|]. intros [r' v] [Hr' Hv]. cbn [fst snd] in *. destruct v as [v| |]; [| cbn; auto|].
    + eapply oku_bind; [apply supply_v; apply Hv; reflexivity|]. intros o' Ho'. now apply IH.
    + eapply oku_bind; [apply supply_v; apply fits_mod; split; [discriminate|reflexivity]|]. intros o' Ho'. now apply IH.
Qed.

Lemma fetch_ops_v : forall os gates f w t maxid r exn, fv f -> wv w -> rv r -> Forall typed_operand os ->
  oku (fun s => rv (fst (fst s)) /\ Forall typed_operand (snd s)) (fetch_ops E gates f w t maxid r exn os).
Proof.
  induction os as [|o os IH]; intros gates f w t maxid r exn Hf Hw Hr Ho; cbn [fetch_ops]; [cbn; auto|]. apply Forall_cons_iff in Ho. destruct Ho as [Ho1 Ho2].
  eapply oku_bind; [apply fetch_op_v; eassumption|]. intros [[r1 x1] o1] [A B]. cbn [fst snd] in *. eapply oku_bind; [apply IH; eassumption|]. intros [[r2 x2] os2] [C D]. cbn [oku fst snd] in *. auto.
Qed.

Lemma poll_loop_v : forall es gates f w r alus, fv f -> wv w -> rv r -> Forall enty es ->
  oku (fun s => rv (fst (fst s)) /\ Forall enty (snd s)) (poll_loop E gates f w r alus es).
Proof.
  induction es as [|e es IH]; intros gates f w r alus Hf Hw Hr He; cbn [poll_loop]; [cbn; auto|]. apply Forall_cons_iff in He. destruct He as [[T1 T2] He].
  eapply oku_bind with (P := fun s => rv (fst (fst s)) /\ enty (snd s)).
  - unfold poll_entry. destruct (e_state e); [| |cbn; repeat split; assumption || apply Hr|cbn; repeat split; assumption || apply Hr].
    + eapply oku_bind; [apply fetch_ops_v; eassumption|]. intros [[r' x] os] [A B]. cbn [oku fst snd] in *. repeat split; assumption || apply A.
    + destruct (needs_alu (e_ins e)); [destruct alus|]; cbn; repeat split; assumption || apply Hr.
  - intros [[r1 a1] e1] [A B]. cbn [fst snd] in *. eapply oku_bind; [apply IH; eassumption|]. intros [[r2 a2] es2] [C D]. cbn [oku fst snd] in *. auto.
Qed.

(** ---- subscriptions leave the values alone ---- *)

Lemma psub_v : forall f p f', fv f -> psub f p = Some f' -> fv f'.
Proof. intros f p f' H E0. unfold psub, pset in E0. destruct (nth_error f p) as [r|] eqn:Hn; [|discriminate]. injection E0 as <-. apply Forall_set_nth; [exact H|]. exact (Forall_nth _ _ _ _ _ H Hn). Qed.
Lemma punsub_v : forall f p f', fv f -> punsub f p = Some f' -> fv f'.
Proof. intros f p f' H E0. unfold punsub in E0. destruct (nth_error f p) as [r|] eqn:Hn; [|discriminate]. destruct (p_subs r); [discriminate|]. injection E0 as <-. apply Forall_set_nth; [exact H|]. exact (Forall_nth _ _ _ _ _ H Hn). Qed.
Lemma psub_all_v : forall t f f', fv f -> psub_all f t = Some f' -> fv f'.
Proof. induction t as [|[l p] t IH]; intros f f' H E0; cbn [psub_all] in E0; [congruence|]. destruct (psub f p) as [f1|] eqn:H1; [|discriminate]. eapply IH; [|exact E0]. eapply psub_v; eauto. Qed.
Lemma punsub_all_v : forall t f f', fv f -> punsub_all f t = Some f' -> fv f'.
Proof. induction t as [|[l p] t IH]; intros f f' H E0; cbn [punsub_all] in E0; [congruence|]. destruct (punsub f p) as [f1|] eqn:H1; [|discriminate]. eapply IH; [|exact E0]. eapply punsub_v; eauto. Qed.
Lemma unsub_entries_v : forall es f f', fv f -> unsub_entries f es = Some f' -> fv f'.
Proof.
  induction es as [|e es IH]; intros f f' H E0; cbn [unsub_entries] in E0; [congruence|]. destruct (punsub_all f (e_rrat e)) as [f1|] eqn:H1; [|discriminate].
  destruct (punsub_all f1 (e_wrat e)) as [f2|] eqn:H2; [|discriminate]. eapply IH; [|exact E0]. eapply punsub_all_v; [|exact H2]. eapply punsub_all_v; eauto.
Qed.

(** ---- retiring ---- *)

Ltac keepv H := destruct H as [? ? ? ? ? ? ? ?]; constructor; cbn in *; auto.

Lemma unroll_v : forall c t, V c -> okv V (unroll c t).
Proof.
  intros c t H. unfold unroll. eapply okv_bind; [apply okv_opt; intros f1 H1; exact (unsub_entries_v _ _ _ (v_regs c H) H1)|]. intros f1 F1.
  eapply okv_bind; [apply okv_opt; intros f2 H2; exact (punsub_all_v _ _ _ F1 H2)|]. intros f2 F2.
  eapply okv_bind; [apply okv_opt; intros f3 H3; exact (psub_all_v _ _ _ F2 H3)|]. intros f3 F3. cbv zeta.
  destruct (get_lreg _ _) as [pc|]; cbn [okv]; [|keepv H]. pose proof (remove_v (fun w => match mw_ram w with None => true | Some _ => false end) _ [] (v_wm c H)) as HW. keepv H.
Qed.

Lemma write_memory_v : forall c id, V c -> okv V (write_memory c id).
Proof.
  intros c id H. unfold write_memory. eapply okv_bind with (P := fun _ => True); [apply okv_lift; [exact H|destruct (wm_get_write _ _); exact I]|]. intros w _.
  eapply okv_bind; [apply okv_lift; [exact H|apply start_v; [exact (v_wm c H)|exact (v_ram c H)]]|]. intros [[w' r']|] K; [|exact H]. destruct (K _ _ eq_refl) as [K1 K2].
  cbv zeta. destruct (check_write _ _) as [d int]. cbn [okv]. keepv H.
Qed.

Lemma do_jump_v : forall c e, V c -> okv V (do_jump c e).
Proof.
  intros c e H. unfold do_jump. destruct (rget (e_wrat e) (LR PC)) as [p|]; [|exact H]. destruct (rget (e_rrat e) (LR PC)) as [q|]; [|exact H]. destruct (get_preg c p) as [v|]; [|exact H].
  destruct (nth_error (c_regs c) q) as [r|]; [|exact H]. destruct (negb (p_ready r)); [exact I|]. destruct (c_pred c) as [|x rest]; [exact I|]. cbv zeta.
  assert (V (set_pred c rest)) by keepv H. destruct (x =? u64 v); [exact H0|now apply unroll_v].
Qed.

Lemma get_char_v : forall l ch rest, bytes l -> get_char l = Some (ch, rest) -> fits ch /\ bytes rest.
Proof.
  induction l as [|b l IH]; intros ch rest H E0; cbn [get_char] in E0; [discriminate|]. apply Forall_cons_iff in H. destruct H as [Hb H]. destruct (is_space b); [auto|]. injection E0 as <- <-.
  split; [|exact H]. apply fits_mod. assert (256 <= two63) by discriminate. destruct (b <? 128); lia.
Qed.

Definition ractv (a : ract) : Prop := match a with RSet _ v => fits v | _ => True end.
Lemma retire_acts_v : forall i vs, oku (Forall ractv) (retire_acts i vs).
Proof.
  intros i vs. assert (F0 : fits (flags_to_word (mkFlags false false false false))) by apply flags_v.
  destruct i; cbn [retire_acts]; try (destruct vs as [|? [|? [|? [|? ?]]]]); try exact I; cbn [oku]; fcons; try exact I; try exact F0; destruct (is_reg_dest _); fcons; exact I.
Qed.

Lemma do_ract_v : forall e a c, V c -> ractv a -> okv V (do_ract e a c).
Proof.
  intros e a c H Ha. destruct a; cbn [do_ract ractv] in *.
  - destruct (e_wids e) as [|id [|? ?]]; try exact I. now apply write_memory_v.
  - now apply do_jump_v.
  - eapply okv_bind; [apply okv_lift; [exact H|apply entry_set_v; [exact (v_regs c H)|exact Ha]]|]. intros f Hf. cbn [okv]. keepv H.
  - destruct (get_char (c_in c)) as [[ch rest]|] eqn:Hg; [|exact I]. destruct (get_char_v _ _ _ (v_in c H) Hg) as [F1 F2].
    eapply okv_bind; [apply okv_lift; [exact H|apply entry_set_v; [exact (v_regs c H)|exact F1]]|]. intros f Hf. cbn [okv]. keepv H.
  - cbn [okv]. keepv H.
  - cbn [okv]. keepv H.
  - now apply unroll_v.
  - cbn [okv]. keepv H.
  - cbn [okv]. keepv H.
Qed.

Lemma do_racts_v : forall e l c, V c -> Forall ractv l -> okv V (do_racts e l c).
Proof.
  intros e l. induction l as [|a l IH]; intros c H Hl; cbn [do_racts]; [exact H|]. apply Forall_cons_iff in Hl. destruct Hl as [Ha Hl].
  eapply okv_bind; [apply do_ract_v; eassumption|]. intros c' H'. now apply IH.
Qed.

Lemma retire_entry_v : forall c e, V c -> okv V (retire_entry c e).
Proof.
  intros c e H. unfold retire_entry. eapply okv_bind with (P := fun _ => True); [apply okv_opt; auto|]. intros vs _.
  eapply okv_bind; [apply okv_lift; [exact H|apply retire_acts_v]|]. intros acts Ha. eapply okv_bind; [apply do_racts_v; eassumption|]. intros c1 H1.
  destruct (e_exn e); [exact H1|]. eapply okv_bind with (P := V).
  - destruct (c_trap c1); [|destruct (negb (c_int c1 =? 0)); [now apply unroll_v|exact H1]]. eapply okv_bind; [apply unroll_v; exact H1|]. intros c' H'. cbn [okv]. keepv H'.
  - intros c2 H2. eapply okv_bind; [apply okv_opt; intros f Hf; exact (unsub_entries_v _ _ _ (v_regs c2 H2) Hf)|]. intros f Hf. cbn [okv]. keepv H2.
Qed.

Lemma retire_loop_v : forall n c, V c -> okv V (retire_loop n c).
Proof.
  induction n as [|n IH]; intros c H; cbn [retire_loop]; [exact H|]. destruct (c_rs c) as [|e es] eqn:Hr; [exact H|]. destruct (e_state e); try exact H.
  assert (V (set_rs c es)). { pose proof (v_rs c H) as K. rewrite Hr in K. apply Forall_cons_iff in K. destruct K as [_ K]. keepv H. }
  eapply okv_bind; [apply retire_entry_v; exact H0|]. intros c' H'. now apply IH.
Qed.

(** ---- adding a decoded instruction ---- *)

Lemma rename_v : forall c l, V c -> okv V (rename c l).
Proof.
  intros c l H. unfold rename. destruct (next_free_from _ _ _) as [p|]; [|exact H]. destruct (negb _); [exact H|].
  eapply okv_bind with (P := fv); [destruct (rget (c_rat c) l); [|exact (v_regs c H)]; apply okv_opt; intros f Hf; exact (punsub_v _ _ _ (v_regs c H) Hf)|]. intros f1 F1.
  eapply okv_bind; [apply okv_opt; intros f Hf; exact (psub_v _ _ _ F1 Hf)|]. intros f2 F2.
  eapply okv_bind with (P := fv).
  - apply okv_opt. intros f Hf. unfold pset in Hf. destruct (nth_error f2 p) as [r|] eqn:Hn; [|discriminate]. injection Hf as <-. apply Forall_set_nth; [exact F2|]. exact (Forall_nth _ _ _ _ _ F2 Hn).
  - intros f3 F3. cbn [okv]. keepv H.
Qed.

Lemma add_products_v : forall ps c ids, V c -> okv (fun x => V (fst x)) (add_products c ids ps).
Proof.
  induction ps as [|p ps IH]; intros c ids H; cbn [add_products]; [exact H|]. destruct p as [l|a|].
  - destruct (is_pc l); [now apply IH|]. eapply okv_bind; [apply rename_v; exact H|]. intros c' H'. now apply IH.
  - unfold wm_register_at. apply IH. pose proof (insert_v (c_wm c) (wm_cur (c_wm c) + 1) a (wm_unspec (c_wm c)) (wm_cur (c_wm c) + 1) (v_wm c H)). keepv H.
  - unfold wm_register. apply IH. keepv H.
Qed.

Lemma set_lreg_v : forall c l v, V c -> fits v -> okv V (set_lreg c l v).
Proof.
  intros c l v H Hv. unfold set_lreg. destruct (rget (c_rat c) l) as [p|]; [|exact H]. unfold pset. destruct (nth_error (c_regs c) p) as [r|]; [|exact H]. cbn [okv].
  assert (fv (set_nth (c_regs c) p (mkPreg v true (p_subs r)))) by (apply Forall_set_nth; [exact (v_regs c H)|exact Hv]). keepv H.
Qed.

Lemma add_v : forall c i pc, V c -> typed_instr i -> okv V (add c i pc).
Proof.
  intros c i pc H Hi. unfold add. destruct (negb _); [exact I|]. eapply okv_bind; [apply rename_v; exact H|]. intros c1 H1. eapply okv_bind; [apply set_lreg_v; [exact H1|apply fits_s64]|]. intros c2 H2. cbv zeta.
  eapply okv_bind; [apply okv_opt; intros f Hf; exact (psub_all_v _ _ _ (v_regs c2 H2) Hf)|]. intros f2 F2. assert (H3 : V (set_regs c2 f2)) by keepv H2.
  destruct (produces i) as [ps|]; [|exact H3]. eapply okv_bind; [apply add_products_v; exact H3|]. intros [c4 ids] H4. cbn [fst] in H4.
  eapply okv_bind; [apply okv_opt; intros f Hf; exact (psub_all_v _ _ _ (v_regs c4 H4) Hf)|]. intros f4 F4. assert (H5 : V (set_regs c4 f4)) by keepv H4.
  destruct (operands i) as [ops|] eqn:Ho; [|exact H5]. cbn [okv]. destruct H5 as [? ? ? ? K ? ? ?]. constructor; cbn in *; auto. apply Forall_app. split; [exact K|]. fcons. split; [exact Hi|].
  cbn [e_ops]. apply Forall_forall. intros o Hin. eapply typed_operands; eauto.
Qed.

(** ---- a clock tick ---- *)

Lemma fetch_v : forall c, V c -> V (fetch c).
Proof.
  intros c H. assert (T : typed_instr (prog_at (c_prog c) (c_spec c))).
  { unfold prog_at. destruct (_ && _); [|exact I]. destruct (nth_in_or_default (Z.to_nat (c_spec c)) (c_prog c) INop) as [K|K]; [exact (proj1 (Forall_forall _ _) (v_prog c H) _ K)|rewrite K; exact I]. }
  unfold fetch. destruct (jump_dest _); keepv H.
Qed.

Theorem tick_v : forall c, V c -> okv V (tick E c).
Proof.
  intros c H. unfold tick. eapply okv_bind with (P := V).
  - unfold tick_retire. cbv zeta. pose proof (ram_tick_v _ (v_ram c H)) as R.
    pose proof (remove_v (fun w => match mw_ram w with Some rid => negb (ram_pending (ram_tick (c_ram c)) rid) | None => false end) _ (wm_unspec (c_wm c)) (v_wm c H)) as W.
    assert (H1 : V (set_stop (set_mem c (ram_tick (c_ram c)) (wm_remove_finished (c_wm c) (ram_tick (c_ram c)))) (c_single c) 0)) by keepv H.
    eapply okv_bind; [apply okv_lift; [exact H1|apply exec_loop_v; [exact (v_regs _ H1)|exact (v_wm _ H1)|exact (v_rs _ H1)]]|]. intros [[[f w] a] es] [A [B D]]. cbn [fst snd] in *.
    apply retire_loop_v. keepv H1.
  - intros c2 H2. destruct (c_halted c2); [exact H2|]. cbv zeta.
    set (c3 := if c_single c2 then _ else c2). assert (H3 : V c3) by (unfold c3; destruct (c_single c2); [keepv H2|exact H2]). clearbody c3.
    destruct (negb _); [exact H3|]. eapply okv_bind; [apply okv_lift; [exact H3|apply poll_loop_v; [exact (v_regs _ H3)|exact (v_wm _ H3)|exact (v_ram _ H3)|exact (v_rs _ H3)]]|].
    intros [[r a] es] [A B]. cbn [fst snd] in *. assert (H4 : V (set_polled c3 r es a)) by keepv H3.
    eapply okv_bind with (P := V).
    + unfold tick_decode. destruct (c_decode (set_polled c3 r es a)) as [[i pc]|] eqn:Hd; [|exact H4]. destruct (Nat.ltb _ _); [|exact H4].
      eapply okv_bind; [apply add_v; [exact H4|]; pose proof (v_decode _ H4) as K; rewrite Hd in K; exact K|]. intros c' H'. cbn [okv]. keepv H'.
    + intros c5 H5. cbn [okv]. unfold tick_front. cbv zeta.
      assert (K : V (match c_decode c5 with None => set_front c5 (c_spec c5) None (c_fetch c5) (c_pred c5) | Some _ => c5 end)) by (destruct (c_decode c5); [exact H5|keepv H5]).
      match type of K with V ?x => generalize dependent x end. intros x K. destruct (c_fetch x); [exact K|now apply fetch_v].
Qed.

(** ---- boot ---- *)

Lemma set_lregs_v : forall l c, V c -> Forall (fun x => fits (snd x)) l -> okv V (set_lregs c l).
Proof.
  induction l as [|[r v] l IH]; intros c H Hl; cbn [set_lregs]; [exact H|]. apply Forall_cons_iff in Hl. destruct Hl as [Hv Hl].
  eapply okv_bind; [apply set_lreg_v; [exact H|exact Hv]|]. intros c' H'. now apply IH.
Qed.
Lemma fits_0 : fits 0.
Proof. apply fits_mod. split; [discriminate|reflexivity]. Qed.
Lemma zero_regs_v : forall f n k, Forall (fun x => fits (snd x)) (zero_regs f k n).
Proof. intros f n. induction n as [|n IH]; intros k; cbn [zero_regs]; [constructor|]. constructor; [exact fits_0|apply IH]. Qed.
Lemma Forall_repeat : forall A (P : A -> Prop) a n, P a -> Forall P (repeat a n).
Proof. intros A P a n H. induction n; cbn [repeat]; [constructor|now constructor]. Qed.

Lemma boot_v : forall g p data input, Forall typed_instr p -> Z.of_nat (g_ram g) < 2 ^ 63 -> Forall fits data -> bytes input -> okv V (boot g p data input).
Proof.
  intros g p data input T1 T2 T3 T4. unfold boot. eapply okv_bind with (P := V).
  - unfold cpu_init. cbv zeta.
    assert (HV : forall f, fv f -> V (mkCpu g p 0 None None f [] (g_alus g) (rat_init (g_reg g) (g_freg g)) (ram_init (g_ram g)) wm_init [] false false 0 false [0; 0; 0; 0; 0] [] input)).
    { intros f Hf. constructor; cbn; auto; try constructor. apply Forall_repeat, fits_0. constructor. }
    assert (F0 : fv (repeat (mkPreg 0 false 0) (4 + g_reg g + g_freg g + 7 * g_rs g))) by (apply Forall_repeat, fits_0).
    destruct (psub_all _ _) as [f|] eqn:Hp; [|apply HV; exact F0]. apply set_lregs_v; [apply HV; exact (psub_all_v _ _ _ F0 Hp)|].
    assert (fits (Z.of_nat (g_ram g))) by (split; lia). apply Forall_app. split; [apply zero_regs_v|]. apply Forall_app. split; [apply zero_regs_v|]. fcons; try exact fits_0; assumption.
  - intros c. generalize 0. revert c. induction data as [|v data IH]; intros c a H; cbn [load_data]; [exact H|]. apply Forall_cons_iff in T3. destruct T3 as [Hv T3].
    destruct (ram_set (c_ram c) a v) as [r|] eqn:Hr; [|exact H]. apply IH; [exact T3|]. pose proof (ram_set_v _ _ _ _ (v_ram c H) Hv Hr). keepv H.
Qed.

(** ---- sessions ---- *)

Lemma do_cmd_v : forall G r k c, V c -> typed_cmd k -> okv (fun x => V (snd (fst x))) (do_cmd G r k c).
Proof.
  intros G r k c H T. destruct k; cbn [do_cmd typed_cmd] in *; try exact H.
  - eapply okv_bind with (P := V); [|intros c' H'; exact H']. unfold poke_text. destruct (_ && _); [|exact H]. cbn [okv]. destruct H. constructor; cbn; auto. now apply Forall_set_nth.
  - destruct (collect _ _); exact H.
  - eapply okv_bind with (P := V); [|intros c' H'; exact H']. unfold poke_data. destruct (ram_set (c_ram c) i v) as [x|] eqn:Hr; [|exact H]. cbn [okv]. pose proof (ram_set_v _ _ _ _ (v_ram c H) T Hr). keepv H.
  - destruct (show_regs _ _); exact H.
  - destruct (show_regs _ _); exact H.
  - eapply okv_bind with (P := V); [|intros c' H'; exact H']. unfold poke_dbg. destruct (_ && _); [|exact H]. cbn [okv]. keepv H.
  - eapply okv_bind; [apply set_lreg_v; [exact H|exact T]|]. intros c' H'. exact H'.
  - eapply okv_bind with (P := V); [|intros c' H'; exact H']. unfold poke_reg. eapply okv_bind; [apply set_lreg_v; [exact H|exact T]|]. intros c' H'. cbn [okv]. destruct r0; try exact H'. keepv H'.
  - cbn [okv snd fst]. keepv H.
Qed.

Definition host_v (h : host) : Prop := match h with At _ c | Going _ c | Ended _ c => V c end.

Lemma enter_v : forall r c, V c -> host_v (enter r c).
Proof. intros r c H. destruct r; cbn; try exact H. keepv H. Qed.

Lemma event_v : forall G dbg x h h', os_event E G dbg x h = Some (Ok h') -> host_v h -> Forall typed_cmd (cmds [x]) -> host_v h'.
Proof.
  intros G dbg x h h' Hx H T. destruct x as [|k], h as [r c|s c|b c]; cbn [os_event] in Hx; try discriminate.
  - injection Hx as Hx. pose proof (tick_v c H) as K. unfold os_tick in Hx. destruct (tick E c) as [c'|e c'|w] eqn:Ht; cbn [okv] in K; [| |discriminate].
    + destruct (c_halted c'); [apply Ok_eq in Hx; subst h'; destruct dbg; [now apply enter_v|exact K]|]. destruct (0 <? c_int c').
      * destruct (reason_of _); [|discriminate]. apply Ok_eq in Hx. subst h'. destruct dbg; [now apply enter_v|]. destruct s; exact K.
      * apply Ok_eq in Hx. subst h'. destruct s; exact K.
    + apply Ok_eq in Hx. subst h'. destruct dbg; [now apply enter_v|exact K].
  - injection Hx as Hx. cbn [cmds] in T. apply Forall_cons_iff in T. destruct T as [T _]. pose proof (do_cmd_v G r k c H T) as K. unfold os_cmd in Hx.
    destruct (do_cmd G r k c) as [[[a c'] n]|e c'|w]; cbn [bind okv fst snd] in *; [|discriminate|discriminate]. injection Hx as <-.
    destruct n; [exact K|destruct r; exact K|destruct r; exact K].
Qed.

Lemma session_v : forall G dbg xs h h', session E G dbg xs h h' -> host_v h -> Forall typed_cmd (cmds xs) -> host_v h'.
Proof.
  intros G dbg xs h h' Hs. induction Hs as [h|x xs h h1 h2 Hx Hs IH]; intros H T; [exact H|].
  assert (T' : Forall typed_cmd (cmds [x]) /\ Forall typed_cmd (cmds xs)) by (destruct x; cbn [cmds] in *; [split; [constructor|exact T]|apply Forall_cons_iff in T; destruct T; split; [fcons; assumption|assumption]]).
  apply IH; [|apply T']. eapply event_v; [exact Hx|exact H|apply T'].
Qed.

End E.
