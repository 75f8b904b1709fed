(** Property lemmas C113 (restated as theorems in P_SizeField.v). *)
From Verif Require Import Machine MachineLemmas S_Words L_Words M_TensorKey L_TensorKey L_DegreeWrap S_KeyRaw L_KeyRaw L_PropKey.
Local Open Scope N_scope.

Lemma const_logn_log2 x : const_logn x = N.log2 x.
Proof. pose proof (bits_eq x) as H. unfold bits_per_letter, letter_bits in H. lia. Qed.
Lemma size_bits_eq n : size_bits n = field_bits n.
Proof. unfold size_bits, field_bits. rewrite const_logn_log2, bits_eq. reflexivity. Qed.
(** a statement about letter_bits has 32 cases *)
Lemma by_bits (P : N -> Prop) n : n < 2 ^ 32 -> Forall P (map N.of_nat (seq 1 32)) -> P (letter_bits n).
Proof.
  intros Hn H. rewrite Forall_forall in H. apply H. apply in_map_iff. exists (N.to_nat (letter_bits n)).
  pose proof (lbits_pos n). pose proof (lbits_le n Hn). split; [apply N2Nat.id|]. apply in_seq. lia.
Qed.

(** * C113 *)
Lemma c113_letter_mask : forall (p : profile) (n : N), n < 2 ^ 32 ->
  letter_mask p n = Ret (2 ^ letter_bits n - 1).
Proof.
  intros p n Hn. unfold letter_mask. rewrite bits_eq. pose proof (lbits_pos n). pose proof (lbits_le n Hn).
  rewrite mask_any by lia. rewrite N.pow_0_r, N.mul_1_r, N.mod_small; [reflexivity|].
  pose proof (N.pow_le_mono_r 2 (letter_bits n) 32). change (2 ^ 32) with 4294967296 in *. change (2 ^ 64) with 18446744073709551616. lia.
Qed.
(** the field is the top of the 64 bits; for alphabets of at least 2^31 letters it is empty and computing its mask
    shifts by 64 *)
Lemma c113_size_mask : forall (p : profile) (n : N), n < 2 ^ 32 ->
  size_bits n = field_bits n
  /\ (n < 2 ^ 31 -> size_mask p n = Ret (2 ^ 64 - 2 ^ (64 - field_bits n)))
  /\ (2 ^ 31 <= n -> field_bits n = 0 /\ size_mask p n = if overflow_checks p then Panic else Ret 0).
Proof.
  intros p n Hn. split; [apply size_bits_eq|]. unfold size_mask. rewrite size_bits_eq. split; intros H.
  - assert (B : letter_bits n <= 31).
    { unfold letter_bits. destruct (N.eq_dec n 0) as [->|H0]; [cbn; lia|].
      pose proof (proj1 (N.log2_lt_pow2 n 31 ltac:(lia)) H). lia. }
    revert B. unfold field_bits.
    refine (by_bits (fun b => b <= 31 -> make_mask p (N.log2 (63 / b)) (64 - N.log2 (63 / b)) = Ret (2 ^ 64 - 2 ^ (64 - N.log2 (63 / b)))) n Hn _).
    repeat (constructor; [try (intros _; rewrite mask_any; [reflexivity|split; vm_compute; congruence|reflexivity])|]); [|constructor].
    intros X. exfalso. revert X. vm_compute. congruence.
  - assert (letter_bits n = 32) as E.
    { pose proof (lbits_le n Hn). unfold letter_bits in *. pose proof (proj1 (N.log2_le_pow2 n 31 ltac:(lia)) H). lia. }
    unfold field_bits. rewrite E. split; [reflexivity|]. destruct p as [[] []]; reflexivity.
Qed.
(** no letter of a key within max_depth is stored in the field, and one letter more would reach it *)
Lemma c113_letters_outside : forall (p : profile) (n : N) (w : word) (k : tkey),
  1 <= n < 2 ^ 32 -> word_ok n w -> tk_from_letters p n w = Ret k ->
  tk_data k < 2 ^ (64 - field_bits n)
  /\ max_depth n * letter_bits n <= 64 - field_bits n < (max_depth n + 1) * letter_bits n.
Proof.
  intros p n w k Hn Hw E. pose proof (lbits_pos n) as Hb.
  assert (D : max_depth n * letter_bits n <= 64 - field_bits n < (max_depth n + 1) * letter_bits n).
  { unfold max_depth. rewrite size_bits_eq, bits_eq. set (f := 64 - field_bits n). set (b := letter_bits n) in *.
    pose proof (N.div_mod f b ltac:(lia)) as DM. pose proof (N.mod_lt f b ltac:(lia)). clearbody f b. nia. }
  split; [|exact D]. apply from_letters_inv in E; [|lia|exact Hw]. destruct E as [F ->]. cbn [key_of tk_data].
  rewrite bits_eq. destruct F as [_ Fl].
  eapply N.lt_le_trans; [apply enc_bound; rewrite <- bits_eq; apply word_ok_below; exact Hw|].
  apply N.pow_le_mono_r; [lia|]. nia.
Qed.
(** the field is too small for the length of the longest keys *)
Lemma c113_field_too_small : forall (n : N), n < 2 ^ 32 -> 2 ^ field_bits n <= max_depth n.
Proof.
  intros n Hn. unfold max_depth. rewrite size_bits_eq, bits_eq. unfold field_bits.
  refine (by_bits (fun b => 2 ^ N.log2 (63 / b) <= (64 - N.log2 (63 / b)) / b) n Hn _).
  repeat (constructor; [vm_compute; congruence|]). constructor.
Qed.
Example c113_example : size_bits 3 = 4 /\ size_mask dev 3 = Ret 17293822569102704640 /\ max_depth 3 = 30
  /\ letter_mask dev 3 = Ret 3 /\ tk_from_letters dev 3 (repeat 3 30) = Ret (mk_tkey 30 768614336404564650)
  /\ N.land 768614336404564650 17293822569102704640 = 0
  /\ size_mask dev 4294967295 = Panic /\ size_mask release 4294967295 = Ret 0 /\ max_depth 4294967295 = 2.
Proof. repeat split; vm_compute; reflexivity. Qed.
