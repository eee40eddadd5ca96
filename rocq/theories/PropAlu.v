(** C11, C12, C13: the integer ALU, comparisons and the flags register. *)
From Coq Require Import ZArith Bool Lia.
From Verif Require Import Base Alu Isa AluSpec AluProofs.
Open Scope Z_scope.

(** C11: whatever binary operation delivers a result delivers the exact one, with
    exact flags, under both readings of signed overflow. *)
Theorem C11_binary_exact m op x y r :
  fits x -> fits y -> alu_bin m op x y = Ok r -> bin_spec op x y r.
Proof. exact (alu_bin_correct m op x y r). Qed.

Theorem C11_unary_exact m op x r :
  fits x -> alu_un m op x = Ok r -> un_spec op x r.
Proof. exact (alu_un_correct m op x r). Qed.

(** C11: with wrapping arithmetic a result is delivered except exactly in the
    listed trapping cases. *)
Theorem C11_defined op x y :
  fits x -> fits y -> ((exists r, alu_bin Wrap op x y = Ok r) <-> ~ bin_traps op x y).
Proof.
  intros Hx Hy. split.
  - intros [r H] T. rewrite (alu_bin_traps op x y Hx Hy T) in H. discriminate.
  - apply alu_bin_defined; assumption.
Qed.

(** The two readings agree wherever the C++ standard defines the result. *)
Theorem C11_strict_refines_wrap op x y r :
  alu_bin Strict op x y = Ok r -> alu_bin Wrap op x y = Ok r.
Proof. exact (strict_le_wrap op x y r). Qed.

Example C11_case_add : exists r, alu_bin Wrap BADD (2 ^ 63 - 1) 1 = Ok r /\ rval r = - 2 ^ 63
  /\ vf (rflags r) = true /\ cf (rflags r) = false.
Proof. exists (mkRes (- 2 ^ 63) (mkFlags true false false true)). vm_compute. auto. Qed.

Example C11_case_shift : exists r, alu_bin Strict BLSH 3 63 = Ok r /\ rval r = - 2 ^ 63
  /\ cf (rflags r) = true.
Proof. exists (mkRes (- 2 ^ 63) (mkFlags true false true false)). vm_compute. auto. Qed.

(** Finding: "the mathematical result" fails for shift counts of 64 and more
    (1 << 64 gives 1 on x86-64, not 0), and a shift by zero is already
    undefined behaviour because alu.cpp:140 computes x << (y - 1). *)
Theorem C11_large_shift_refuted :
  exists x y r, fits x /\ fits y /\ alu_bin Wrap BLSH x y = Ok r
    /\ 64 <= y /\ ~ is_word_of (x * 2 ^ y) (rval r).
Proof.
  exists 1, 64, (mkRes 1 (mkFlags false false true false)).
  split; [unfold fits; lia|]. split; [unfold fits; lia|].
  split; [vm_compute; reflexivity|]. split; [lia|]. intros [_ [k K]].
  cbn [rval] in K. change (2 ^ 64) with 18446744073709551616 in K. lia.
Qed.

Theorem C11_shift_by_zero_refuted : exists x, fits x /\ alu_bin Strict BLSH x 0 = Undef UShift.
Proof. exists 1. split; [unfold fits; lia | reflexivity]. Qed.

(** IMUL of the two values whose product is 2^63 divides INT64_MIN by -1 while
    computing the overflow flag and traps (alu.cpp:83). *)
Theorem C11_imul_trap_refuted :
  exists x y, fits x /\ fits y /\ alu_bin Wrap BIMUL x y = Undef UDiv.
Proof. exists (- 2 ^ 63), (-1). split; [unfold fits; lia|]. split; [unfold fits; lia|]. vm_compute; reflexivity. Qed.

(** C12: flags computed by CMP (a subtraction, instruction.cpp:474-479) make each
    conditional jump decide the comparison it is named after. *)
Theorem C12_cmp_jcc m c a b r :
  fits a -> fits b -> alu_sub m a b = Ok r ->
  (cond_holds c (rflags r) = true <-> cmp_meaning c a b).
Proof. exact (cmp_jcc_correct m c a b r). Qed.

(** Through the FLAGS register, which is how the VM passes them on. *)
Theorem C12_cmp_jcc_word m c a b r :
  fits a -> fits b -> alu_sub m a b = Ok r ->
  (cond_holds c (flags_of_word (flags_to_word (rflags r))) = true <-> cmp_meaning c a b).
Proof. rewrite flags_roundtrip. exact (cmp_jcc_correct m c a b r). Qed.

Example C12_case : exists r, alu_sub Wrap (- 2 ^ 63) (2 ^ 63 - 1) = Ok r
  /\ cond_holds CL (rflags r) = true /\ cond_holds CB (rflags r) = false.
Proof. exists (mkRes 1 (mkFlags false false false true)). vm_compute. auto. Qed.

(** C13 *)
Theorem C13_flags_roundtrip f : flags_of_word (flags_to_word f) = f.
Proof. exact (flags_roundtrip f). Qed.

Theorem C13_flags_low_bits v w : v mod 16 = w mod 16 -> flags_of_word v = flags_of_word w.
Proof. exact (flags_low_bits v w). Qed.

Theorem C13_flags_word_range f : 0 <= flags_to_word f < 16.
Proof. exact (flags_word_range f). Qed.

(** Each flag sits at the documented bit. *)
Theorem C13_flags_bits f :
  Z.testbit (flags_to_word f) 0 = sf f /\ Z.testbit (flags_to_word f) 1 = zf f /\
  Z.testbit (flags_to_word f) 2 = cf f /\ Z.testbit (flags_to_word f) 3 = vf f.
Proof. destruct f as [[] [] [] []]; repeat split; reflexivity. Qed.

Example C13_case : flags_of_word (-11) = mkFlags true false true false.
Proof. reflexivity. Qed.

Print Assumptions C11_binary_exact.
Print Assumptions C11_unary_exact.
Print Assumptions C11_defined.
Print Assumptions C11_strict_refines_wrap.
Print Assumptions C12_cmp_jcc.
Print Assumptions C12_cmp_jcc_word.
Print Assumptions C13_flags_roundtrip.
Print Assumptions C13_flags_low_bits.
