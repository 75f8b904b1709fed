(** Property theorems (generated by tools/gen_props.py from L_PropSizeField.v, where the proofs are). *)
From Verif Require Import Machine MachineLemmas S_Words L_Words M_TensorKey L_TensorKey L_DegreeWrap S_KeyRaw L_KeyRaw L_PropKey.
From Verif Require Import L_PropSizeField.
Local Open Scope N_scope.

(** * C113: The bits set aside for the length of a key *)
Theorem C113_letter_mask : forall (p : profile) (n : N), n < 2 ^ 32 ->
  letter_mask p n = Ret (2 ^ letter_bits n - 1).
Proof. exact c113_letter_mask. Qed.
Print Assumptions C113_letter_mask.
Theorem C113_size_mask : forall (p : profile) (n : N), n < 2 ^ 32 ->
  size_bits n = field_bits n
  /\ (n < 2 ^ 31 -> size_mask p n = Ret (2 ^ 64 - 2 ^ (64 - field_bits n)))
  /\ (2 ^ 31 <= n -> field_bits n = 0 /\ size_mask p n = if overflow_checks p then Panic else Ret 0).
Proof. exact c113_size_mask. Qed.
Print Assumptions C113_size_mask.
Theorem C113_letters_outside : forall (p : profile) (n : N) (w : word) (k : tkey),
  1 <= n < 2 ^ 32 -> word_ok n w -> tk_from_letters p n w = Ret k ->
  tk_data k < 2 ^ (64 - field_bits n)
  /\ max_depth n * letter_bits n <= 64 - field_bits n < (max_depth n + 1) * letter_bits n.
Proof. exact c113_letters_outside. Qed.
Print Assumptions C113_letters_outside.
Theorem C113_field_too_small : forall (n : N), n < 2 ^ 32 -> 2 ^ field_bits n <= max_depth n.
Proof. exact c113_field_too_small. Qed.
Print Assumptions C113_field_too_small.
Example C113_example : size_bits 3 = 4 /\ size_mask dev 3 = Ret 17293822569102704640 /\ max_depth 3 = 30
  /\ letter_mask dev 3 = Ret 3 /\ tk_from_letters dev 3 (repeat 3 30) = Ret (mk_tkey 30 768614336404564650)
  /\ N.land 768614336404564650 17293822569102704640 = 0
  /\ size_mask dev 4294967295 = Panic /\ size_mask release 4294967295 = Ret 0 /\ max_depth 4294967295 = 2.
Proof. exact c113_example. Qed.
