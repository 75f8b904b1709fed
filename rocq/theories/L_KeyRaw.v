(** The key operations of M_TensorKey.v for arguments of any value. *)
From Verif Require Import Machine MachineLemmas M_TensorKey L_TensorKey L_DegreeWrap S_KeyRaw.
Local Open Scope N_scope.

Lemma bits_eq n : bits_per_letter n = letter_bits n.
Proof. unfold bits_per_letter, letter_bits. rewrite const_logn_log2. reflexivity. Qed.
Lemma lbits_pos n : 1 <= letter_bits n. Proof. unfold letter_bits. lia. Qed.
Lemma lbits_le n : n < 2 ^ 32 -> letter_bits n <= 32.
Proof. rewrite <- bits_eq. apply bpl_le_32. Qed.

Lemma uadd_unchecked w p a b : overflow_checks p = false -> uadd w p a b = Ret ((a + b) mod 2 ^ w).
Proof.
  intros Hp. unfold uadd, overflowed. rewrite Hp. destruct (N.ltb_spec (a + b) (2 ^ w)); [|reflexivity].
  rewrite N.mod_small by assumption. reflexivity.
Qed.
Lemma umul_unchecked w p a b : overflow_checks p = false -> umul w p a b = Ret ((a * b) mod 2 ^ w).
Proof.
  intros Hp. unfold umul, overflowed. rewrite Hp. destruct (N.ltb_spec (a * b) (2 ^ w)); [|reflexivity].
  rewrite N.mod_small by assumption. reflexivity.
Qed.
Lemma ushl_unchecked w p a s : w <> 0 -> overflow_checks p = false -> ushl w p a s = Ret ((a * 2 ^ (s mod w)) mod 2 ^ w).
Proof.
  intros Hw Hp. unfold ushl, overflowed. rewrite Hp. destruct (N.ltb_spec s w); [|reflexivity].
  rewrite (N.mod_small s) by assumption. reflexivity.
Qed.
Lemma ushr_unchecked w p a s : w <> 0 -> overflow_checks p = false -> ushr w p a s = Ret (a / 2 ^ (s mod w)).
Proof.
  intros Hw Hp. unfold ushr, overflowed. rewrite Hp. destruct (N.ltb_spec s w); [|reflexivity].
  rewrite (N.mod_small s) by assumption. reflexivity.
Qed.
Lemma uadd_checked w p a b : overflow_checks p = true -> uadd w p a b = if a + b <? 2 ^ w then Ret (a + b) else Panic.
Proof. intros Hp. unfold uadd, overflowed. rewrite Hp. reflexivity. Qed.
Lemma umul_checked w p a b : overflow_checks p = true -> umul w p a b = if a * b <? 2 ^ w then Ret (a * b) else Panic.
Proof. intros Hp. unfold umul, overflowed. rewrite Hp. reflexivity. Qed.
Lemma ushl_checked w p a s : overflow_checks p = true -> ushl w p a s = if s <? w then Ret ((a * 2 ^ s) mod 2 ^ w) else Panic.
Proof. intros Hp. unfold ushl, overflowed. rewrite Hp. reflexivity. Qed.
(** a shift amount computed modulo 2^32 and used modulo 64 *)
Lemma shift_mod x : (x mod 2 ^ 32) mod 64 = x mod 64.
Proof.
  change (2 ^ 32) with (64 * 2 ^ 26). rewrite N.mod_mul_r by lia.
  rewrite N.mul_comm, N.mod_add, N.mod_mod by lia. reflexivity.
Qed.

(** the mask of [b] bits at [s], cut at 64 bits *)
Lemma mask_any p b s : 1 <= b <= 32 -> s < 64 -> make_mask p b s = Ret (((2 ^ b - 1) * 2 ^ s) mod 2 ^ 64).
Proof.
  intros Hb Hs. unfold make_mask.
  assert (H2 : 2 ^ b <= 2 ^ 32) by (apply N.pow_le_mono_r; lia). pose proof (pow2_pos b).
  rewrite ushl_ok by lia. cbn [bind]. rewrite N.mul_1_l. rewrite usub_ok by lia. cbn [bind].
  unfold ushl. destruct (N.ltb_spec s 64); [reflexivity|lia].
Qed.
Lemma mask_panic p b s : overflow_checks p = true -> 1 <= b <= 32 -> 64 <= s -> make_mask p b s = Panic.
Proof.
  intros Hp Hb Hs. unfold make_mask.
  assert (H2 : 2 ^ b <= 2 ^ 32) by (apply N.pow_le_mono_r; lia). pose proof (pow2_pos b).
  rewrite ushl_ok by lia. cbn [bind]. rewrite N.mul_1_l. rewrite usub_ok by lia. cbn [bind].
  rewrite ushl_checked by assumption. destruct (N.ltb_spec s 64); [lia|reflexivity].
Qed.
Lemma mask_wrap p b s : overflow_checks p = false -> 1 <= b <= 32 ->
  make_mask p b s = Ret (((2 ^ b - 1) * 2 ^ (s mod 64)) mod 2 ^ 64).
Proof.
  intros Hp Hb. unfold make_mask.
  assert (H2 : 2 ^ b <= 2 ^ 32) by (apply N.pow_le_mono_r; lia). pose proof (pow2_pos b).
  rewrite ushl_ok by lia. cbn [bind]. rewrite N.mul_1_l. rewrite usub_ok by lia. cbn [bind].
  apply ushl_unchecked; [lia|assumption].
Qed.
Lemma read_mask data b s : data < 2 ^ 64 -> N.land data (((2 ^ b - 1) * 2 ^ s) mod 2 ^ 64) / 2 ^ s = bits_at b data s.
Proof.
  intros Hd. rewrite <- (N.land_ones _ 64), N.land_assoc, (N.land_comm data), <- N.land_assoc, N.land_ones, (N.mod_small data) by assumption.
  rewrite N.land_comm. replace ((2 ^ b - 1) * 2 ^ s) with (N.shiftl (N.ones b) s)
    by (rewrite N.shiftl_mul_pow2, N.ones_equiv, N.sub_1_r; reflexivity).
  apply land_mask_shift.
Qed.
Lemma bits_at_lt b data s : b <= 32 -> bits_at b data s < 2 ^ 32.
Proof.
  intros Hb. unfold bits_at. eapply N.lt_le_trans; [apply N.mod_lt; pose proof (pow2_pos b); lia|].
  apply N.pow_le_mono_r; lia.
Qed.
