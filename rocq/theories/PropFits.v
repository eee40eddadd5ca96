(** C112: every number the VM holds or reports is a 64-bit signed integer, whatever the
    program does and at every stop, an error of the CPU included. *)
From Coq Require Import ZArith NArith List Bool Lia.
From Verif Require Import Base Alu Isa AluSpec IsaSpec Exec Ram Writes Rat Cpu Os InOrder PipeBasics IsaRefine Session DbgSpec PropPipe PropDbg.
From Verif Require PipeFits.
Import ListNotations.
Open Scope Z_scope.

(** The numbers of a reply, and the immediates of the instructions in it. *)
Definition reply_fits (a : reply) : Prop :=
  match a with
  | AData l => Forall fits l
  | ARegs l => Forall (fun x => fits (snd x)) l
  | AText l => Forall typed_instr l
  | _ => True
  end.

Section C112.
Context (E : env) (G : cfg) (g : cfg) (p : list instr) (data input : list Z) (c0 : cpu) (dbg : bool).
Context (Hty : typed (e_fops E) p (g_ram g) data input) (Hboot : boot g p data input = Ok c0).

Lemma reached : forall xs h, session E G dbg xs (os_start dbg c0) h -> Forall typed_cmd (cmds xs) -> PipeFits.V (host_cpu h).
Proof.
  intros xs h Hs Ht. destruct Hty as [T1 T2 T3 T4 T5]. pose proof (PipeFits.boot_v g p data input T2 T3 T4 T5) as HB. rewrite Hboot in HB. cbn [PipeFits.okv] in HB.
  assert (H0 : PipeFits.host_v (os_start dbg c0)) by (destruct dbg; exact HB).
  pose proof (PipeFits.session_v E T1 G dbg xs _ _ Hs H0 Ht) as K. destruct h; exact K.
Qed.

(** Registers and memory cells, at every point of every session and of every run without
    a debugger. *)
Theorem C112_registers : forall xs h, session E G dbg xs (os_start dbg c0) h -> Forall typed_cmd (cmds xs) ->
  forall l v, get_lreg (host_cpu h) l = Some v -> fits v.
Proof.
  intros xs h Hs Ht l v Hv. pose proof (PipeFits.v_regs _ (reached xs h Hs Ht)) as K. unfold get_lreg, get_preg in Hv.
  destruct (rget _ l) as [q|]; [|discriminate]. destruct (nth_error _ q) as [r|] eqn:Hn; [|discriminate]. injection Hv as <-. exact (PipeFits.Forall_nth _ _ _ _ _ K Hn).
Qed.

Theorem C112_memory : forall xs h, session E G dbg xs (os_start dbg c0) h -> Forall typed_cmd (cmds xs) ->
  forall a v, ram_get (c_ram (host_cpu h)) a = Some v -> fits v.
Proof. intros xs h Hs Ht a v Hv. destruct (PipeFits.v_ram _ (reached xs h Hs Ht)) as [K _]. exact (PipeFits.mem_at_v _ _ _ K Hv). Qed.

Lemma collect_fits : forall A B (f : A -> option B) (P : B -> Prop) l r, (forall a b, f a = Some b -> P b) -> collect f l = Some r -> Forall P r.
Proof.
  intros A B f P l. induction l as [|a l IH]; intros r Hf H; cbn [collect] in H; [injection H as <-; constructor|].
  destruct (f a) as [b|] eqn:Hb; [|discriminate]. destruct (collect f l) as [bs|]; [|discriminate]. injection H as <-. constructor; [eauto|now apply IH].
Qed.

(** What the VM answers. *)
Theorem C112_replies : forall xs r c k a h, session E G dbg xs (os_start dbg c0) (At r c) -> Forall typed_cmd (cmds xs) ->
  os_cmd G k r c = Ok (a, h) -> reply_fits a.
Proof.
  intros xs r c k a h Hs Ht H. pose proof (C112_registers _ _ Hs Ht) as HR. pose proof (C112_memory _ _ Hs Ht) as HM. pose proof (PipeFits.v_prog _ (reached _ _ Hs Ht)) as HP. cbn [host_cpu] in *.
  assert (HS : forall l x, show_regs c l = Some x -> Forall (fun y => fits (snd y)) x).
  { intros l x Hx. eapply collect_fits; [|exact Hx]. cbv beta. intros q b Hb. destruct (get_lreg c q) as [v|] eqn:Hv; [|discriminate]. injection Hb as <-. exact (HR _ _ Hv). }
  unfold os_cmd in H. destruct k; cbn [do_cmd] in H.
  all: try (cbn [bind] in H; apply Ok_eq in H; injection H as <- _; exact I).
  - cbn [bind] in H. apply Ok_eq in H. injection H as <- _. cbn [reply_fits]. apply Forall_map. apply Forall_forall. intros x _. unfold prog_at. destruct (_ && _); [|exact I].
    destruct (nth_in_or_default (Z.to_nat x) (c_prog c) INop) as [K|K]; [exact (proj1 (Forall_forall _ _) HP _ K)|rewrite K; exact I].
  - destruct (poke_text _ _ _); cbn [bind] in H; [|discriminate|discriminate]. apply Ok_eq in H. injection H as <- _. exact I.
  - destruct (collect _ _) as [l|] eqn:Hc; cbn [bind] in H; [|discriminate]. apply Ok_eq in H. injection H as <- _. exact (collect_fits _ _ _ _ _ _ HM Hc).
  - destruct (poke_data _ _ _); cbn [bind] in H; [|discriminate|discriminate]. apply Ok_eq in H. injection H as <- _. exact I.
  - destruct (show_regs _ _) as [l|] eqn:Hc; cbn [bind] in H; [|discriminate]. apply Ok_eq in H. injection H as <- _. exact (HS _ _ Hc).
  - destruct (show_regs _ _) as [l|] eqn:Hc; cbn [bind] in H; [|discriminate]. apply Ok_eq in H. injection H as <- _. exact (HS _ _ Hc).
  - destruct (poke_dbg _ _ _); cbn [bind] in H; [|discriminate|discriminate]. apply Ok_eq in H. injection H as <- _. exact I.
  - destruct (set_lreg _ _ _); cbn [bind] in H; [|discriminate|discriminate]. apply Ok_eq in H. injection H as <- _. exact I.
  - destruct (poke_reg _ _ _); cbn [bind] in H; [|discriminate|discriminate]. apply Ok_eq in H. injection H as <- _. exact I.
Qed.

End C112.

Lemma psession_session : forall E G dbg xs h h', psession E G dbg xs h h' -> session E G dbg xs h h'.
Proof. intros E G dbg xs h h' H. induction H as [h|x xs h h1 h2 _ Hx _ IH]; [constructor|econstructor; eauto]. Qed.

(** The debugger's instruction pointer. *)
Corollary C112_ip : forall E G g p data input c0 xs r c, started E g p data input c0 -> psession E G true xs (os_start true c0) (At r c) -> Forall typed_cmd (cmds xs) ->
  forall v, get_lreg c (LR PC) = Some v -> fits v.
Proof.
  intros E G g p data input c0 xs r c [_ Hty Hb] Hs Ht v Hv. exact (C112_registers E G g p data input c0 true Hty Hb xs (At r c) (psession_session _ _ _ _ _ _ Hs) Ht _ _ Hv).
Qed.

(** ---- a case ---- *)

(** A sum that overflows and a load from where it points to: the CPU reports an error,
    and the registers can still be asked for. *)
Definition prog112 : list instr :=
  [IMov (OReg (R 0)) (OImm 9223372036854775807); IBin BADD (R 0) (R 0) (OImm 1) false; IMov (OReg (R 1)) (OMemReg (R 0)); IHalt].
Definition events112 : list event := ECmd CContinue :: repeat ETick 14.
Definition regs112 : option (list (lreg * Z)) :=
  match play env0 cfg1 true events112 (os_start true (booted cfg1 prog112 [7; 8] [65; 10])) with
  | Some (Ok (At RCpuError c)) => match os_cmd cfg1 CPeekRegs RCpuError c with Ok (ARegs l, _) => Some l | _ => None end
  | _ => None
  end.
Example C112_case :
  typed (e_fops env0) prog112 (g_ram cfg1) [7; 8] [65; 10] /\ boot cfg1 prog112 [7; 8] [65; 10] = Ok (booted cfg1 prog112 [7; 8] [65; 10]) /\
  Forall typed_cmd (cmds events112) /\
  (exists c, session env0 cfg1 true events112 (os_start true (booted cfg1 prog112 [7; 8] [65; 10])) (At RCpuError c)) /\
  regs112 = Some [(LR PC, 4); (LR BP, 16); (LR SP, 16); (LR (R 0), -9223372036854775808); (LR (R 1), -1); (LR (R 2), 0); (LR (R 3), 0)].
Proof.
  split; [|split; [vm_compute; reflexivity|split; [constructor; [exact I|constructor]|split; [|vm_compute; reflexivity]]]].
  - destruct started1 as [_ [T1 _ T3 T4 T5] _]. constructor; try assumption. repeat (apply Forall_cons; [cbn; repeat split; unfold fits; lia|]). apply Forall_nil.
  - pose (c0 := booted cfg1 prog112 [7; 8] [65; 10]). pose (h := match play env0 cfg1 true events112 (os_start true c0) with Some (Ok h) => h | _ => Going false c0 end).
    assert (Hp : play env0 cfg1 true events112 (os_start true c0) = Some (Ok h)) by (vm_compute; reflexivity).
    assert (Hh : h = At RCpuError (host_cpu h)) by (vm_compute; reflexivity).
    exists (host_cpu h). rewrite <- Hh. now apply play_session.
Qed.

Print Assumptions C112_registers.
Print Assumptions C112_memory.
Print Assumptions C112_replies.
Print Assumptions C112_ip.
