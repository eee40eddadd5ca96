(** What the library's answers are at a stopped debuggee: registers by name and cells. *)
From Coq Require Import Ascii String ZArith NArith List Bool Lia.
From Verif Require Import Base Text PropText PropNet StdMap Isa AluSpec State IsaSpec Lexer Asm Show AsmSpec PropAsm Exec Ram Writes Rat Cpu Os DbgText Spaces
  PipeInv PipeBasics PipeRun PipePoke Session IsaRefine DbgSpec PropPipe PropDbg Client Proto PropProto Native Src.
Import ListNotations.
Open Scope Z_scope.

(** The library is connected to a debuggee that has stopped, and every cell it believes to
    exist does exist there. *)
Record seen (U : setup) (N : native) (c : cpu) : Prop := mkSeen {
  sn_link : exists r, n_link N = stopped r c;
  sn_read : readable c;
  sn_cells : forall a, 0 <= a < u_data U -> ram_get (c_ram c) a <> None;
  sn_data : u_data U < 2 ^ 63
}.
(** The value of the register of a name: IP, BP, SP or R0, R1, ... *)
Definition reg_named (c : cpu) (n : text) : option Z :=
  match find (fun l => teqb n (lreg_name l)) (reg_list (c_cfg c)) with Some l => get_lreg c l | None => None end.
(** The contents of a cell of the memory. *)
Definition cell (U : setup) (c : cpu) (a : Z) : option Z := if (0 <=? a) && (a <? u_data U) then ram_get (c_ram c) a else None.

Section U.
Variable U : setup.

Lemma set_link_same : forall N, set_link N (n_link N) = N.
Proof. now intros []. Qed.
Lemma get_register_ok : forall N c n, seen U N c -> get_register U n N = match reg_named c n with Some v => Done v N | None => Failed N end.
Proof.
  intros N c n [[r L] Rd _ _]. destruct (C33_fetch_registers U r c Rd) as (m & E & F1 & F2).
  unfold get_register, then_, proc. rewrite L, E, <- L, set_link_same. unfold reg_named.
  destruct (find (fun l => teqb n (lreg_name l)) (reg_list (c_cfg c))) as [l|] eqn:X.
  - apply find_some in X. destruct X as [X1 X2]. apply teqb_eq in X2. rewrite X2, (F1 l X1). unfold opt_or, ret, fail. now destruct (get_lreg c l).
  - destruct (tget m n) as [v|] eqn:V; [|reflexivity]. destruct (F2 n) as (l & I & ->); [congruence|].
    apply (find_none _ _ X) in I. cbn beta in I. now rewrite teqb_refl in I.
Qed.
Lemma get_ip_ok : forall N c, seen U N c -> exists ip, get_lreg c (LR PC) = Some ip /\ get_ip U N = Done (u64 ip) N.
Proof.
  intros N c H. destruct (rd_reg c (sn_read U N c H) (LR PC) eq_refl) as (v & V & _). exists v. split; [exact V|].
  unfold get_ip, then_. rewrite (get_register_ok N c (str "IP") H). unfold reg_named.
  assert (X : find (fun l => teqb (str "IP") (lreg_name l)) (reg_list (c_cfg c)) = Some (LR PC)) by reflexivity. rewrite X, V. reflexivity.
Qed.
Lemma reg_named_fits : forall N c n v, seen U N c -> reg_named c n = Some v -> fits v.
Proof.
  intros N c n v H E. unfold reg_named in E. destruct (find _ _) as [l|] eqn:X; [|discriminate]. apply find_some in X. destruct X as [X _].
  destruct (rd_reg c (sn_read U N c H) l (listed_ok _ _ (or_introl X))) as (w & W & F). congruence.
Qed.
Lemma cell_fits : forall N c a v, seen U N c -> cell U c a = Some v -> fits v.
Proof.
  intros N c a v H E. unfold cell in E. destruct ((0 <=? a) && (a <? u_data U)); [|discriminate]. now apply (rd_mem c (sn_read U N c H) a).
Qed.

(** Reading a cell: its contents, or an error if there is none; the address 2^64 - 1 is
    the exception ([read_cell_last]). *)
Lemma read_cell_ok : forall N c a, seen U N c -> fits a -> a <> -1 -> read_cell U a N = match cell U c a with Some v => Done v N | None => Failed N end.
Proof.
  intros N c a [[r L] Rd M D] F A. unfold read_cell, then_, get_memory, proc, cell. rewrite L. unfold fits in F.
  destruct (Z.leb_spec 0 a); [destruct (Z.ltb_spec a (u_data U))|]; cbn [andb].
  - replace (u64 a) with a by (unfold u64, two64; rewrite Z.mod_small; lia).
    destruct (C33_read_memory U r c a 1) as (l & E & E1 & E2); try lia; auto.
    { intros k Hk. apply M. lia. }
    rewrite E, <- L, set_link_same. specialize (E2 0 ltac:(lia)). rewrite Z.add_0_r in E2. rewrite E2. destruct l as [|x l]; [cbn in E1; lia|]. reflexivity.
  - replace (u64 a) with a by (unfold u64, two64; rewrite Z.mod_small; lia). unfold read_memory.
    replace (u64 (a + 1)) with (a + 1) by (unfold u64, two64; rewrite Z.mod_small; lia). destruct (Z.ltb_spec (u_data U) (a + 1)); [|lia].
    cbn. rewrite <- L. now rewrite set_link_same.
  - replace (u64 a) with (a + 2 ^ 64) by (unfold u64, two64; apply (Z.mod_unique_pos _ _ (-1)); lia). unfold read_memory.
    replace (u64 (a + 2 ^ 64 + 1)) with (a + 2 ^ 64 + 1) by (unfold u64, two64; rewrite Z.mod_small; lia). destruct (Z.ltb_spec (u_data U) (a + 2 ^ 64 + 1)); [|lia].
    cbn. rewrite <- L. now rewrite set_link_same.
Qed.
End U.

(** ---- the hypotheses are met ---- *)
Definition native1 : native := mkNative [] [] None (stopped RHwBkpt cpu1).
Example seen_case : seen U1 native1 cpu1.
Proof.
  constructor; [now exists RHwBkpt|apply C33_case_readable| |vm_compute; reflexivity].
  intros a A. apply (has_cells cpu1 0 16); [vm_compute; reflexivity|]. exact A.
Qed.
Example seen_case_values : reg_named cpu1 (str "IP") = Some 5 /\ reg_named cpu1 (str "R9") = None /\ cell U1 cpu1 16 = None /\ cell U1 cpu1 0 = Some 7.
Proof. vm_compute. auto. Qed.
