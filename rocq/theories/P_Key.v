(** Property theorems (generated by tools/gen_props.py from L_PropKey.v, where the proofs are). *)
From Coq Require Import String.
From Verif Require Import Machine MachineLemmas S_Words L_Words M_TensorKey L_TensorKey
  M_TensorBasis S_TensorApi L_TensorBasis L_BasisIter L_Debug.
From Verif Require Import L_PropKey.

(** * C01: A tensor key remembers exactly the word it was built from *)
Theorem C01_key_remembers_word : forall (p : profile) (n : N) (w : word),
  1 <= n < 2 ^ 32 -> word_ok n w -> len w <= max_depth n ->
  exists k, tk_from_letters p n w = Ret k
    /\ tk_size k = len w
    /\ (forall i, i < len w ->
          exists a, nth_error (rev w) (N.to_nat i) = Some a /\ tk_get_letter p n k i = Ret a)
    /\ (forall m, ti_take p n (ti_new k) (length w + m) = Ret (map Some w ++ repeat None m)).
Proof. exact c01_key_remembers_word. Qed.
Print Assumptions C01_key_remembers_word.
Example C01_example : word_ok 3 [1; 3; 2] /\ len [1; 3; 2] <= max_depth 3 /\
  tk_from_letters dev 3 [1; 3; 2] = Ret (mk_tkey 3 9).
Proof. exact c01_example. Qed.

(** * C02: Tensor keys are equal exactly when their words are equal *)
Theorem C02_key_eq_word_eq : forall (p p' : profile) (n : N) (u v : word) (k1 k2 : tkey),
  1 <= n < 2 ^ 32 -> word_ok n u -> word_ok n v ->
  tk_from_letters p n u = Ret k1 -> tk_from_letters p' n v = Ret k2 ->
  (tkey_eqb k1 k2 = true <-> u = v).
Proof. exact c02_key_eq_word_eq. Qed.
Print Assumptions C02_key_eq_word_eq.

(** * C54: Exactly when concatenate gives the concatenated word *)
Example C54_example : concat_overflow_corner dev 4294967295 [] [7; 8] /\ word_ok 4294967295 [7; 8]
  /\ tk_from_letters dev 4294967295 [7; 8] = Ret (mk_tkey 2 25769803783)
  /\ tk_concatenate dev 4294967295 (mk_tkey 0 0) (mk_tkey 2 25769803783) = Panic
  /\ ~ concat_overflow_corner release 4294967295 [] [7; 8]
  /\ tk_concatenate release 4294967295 (mk_tkey 0 0) (mk_tkey 2 25769803783) = Ret (mk_tkey 2 25769803783).
Proof. exact c54_example. Qed.

(** * C02: Tensor keys are equal exactly when their words are equal *)
Example C02_example : (* different words that differ only by leading letters 1 *)
  word_ok 3 [1] /\ word_ok 3 [1; 1] /\ tk_from_letters dev 3 [1] = Ret (mk_tkey 1 0)
  /\ tk_from_letters dev 3 [1; 1] = Ret (mk_tkey 2 0).
Proof. exact c02_example. Qed.

(** * C54: Exactly when concatenate gives the concatenated word *)
Theorem C54_concatenate_exact : forall (p : profile) (n : N) (u v : word) (k1 k2 k : tkey),
  1 <= n < 2 ^ 32 -> word_ok n u -> word_ok n v ->
  tk_from_letters p n u = Ret k1 -> tk_from_letters p n v = Ret k2 ->
  tk_from_letters p n (u ++ v) = Ret k ->
  (~ concat_overflow_corner p n u v -> tk_concatenate p n k1 k2 = Ret k) /\
  (concat_overflow_corner p n u v -> tk_concatenate p n k1 k2 = Panic).
Proof. exact c54_concatenate_exact. Qed.
Print Assumptions C54_concatenate_exact.

(** * C03: concatenate is concatenation of words *)
Example C03_example : word_ok 3 [1; 2] /\ word_ok 3 [3] /\
  tk_concatenate dev 3 (mk_tkey 2 1) (mk_tkey 1 2) = Ret (mk_tkey 3 6)
  /\ tk_from_letters dev 3 [1; 2; 3] = Ret (mk_tkey 3 6) /\ ~ concat_overflow_corner dev 3 [1; 2] [3].
Proof. exact c03_example. Qed.
Theorem C03_concatenate_refuted : exists (n : N) (v : word) (k : tkey),
  1 <= n < 2 ^ 32 /\ word_ok n v /\ len v <= max_depth n /\ tk_from_letters dev n v = Ret k /\
  tk_concatenate dev n tk_new k = Panic.
Proof. exact c03_concatenate_refuted. Qed.
Print Assumptions C03_concatenate_refuted.
Theorem C03_monoid_partial : forall (p : profile) (n : N) (u v w : word) (k1 k2 k3 : tkey),
  1 <= n < 2 ^ 31 -> word_ok n u -> word_ok n v -> word_ok n w ->
  len (u ++ v ++ w) <= max_depth n ->
  tk_from_letters p n u = Ret k1 -> tk_from_letters p n v = Ret k2 -> tk_from_letters p n w = Ret k3 ->
  exists k12 k23 k, tk_concatenate p n k1 k2 = Ret k12 /\ tk_concatenate p n k2 k3 = Ret k23
    /\ tk_concatenate p n k12 k3 = Ret k /\ tk_concatenate p n k1 k23 = Ret k
    /\ tk_concatenate p n tk_new k1 = Ret k1 /\ tk_concatenate p n k1 tk_new = Ret k1
    /\ tb_degree k12 = tb_degree k1 + tb_degree k2.
Proof. exact c03_monoid_partial. Qed.
Print Assumptions C03_monoid_partial.
Example C03_monoid_example : word_ok 3 [2] /\ word_ok 3 [3; 1] /\ word_ok 3 [2; 2] /\ len ([2] ++ [3; 1] ++ [2; 2]) <= max_depth 3
  /\ tk_from_letters dev 3 [2] = Ret (mk_tkey 1 1) /\ tk_from_letters dev 3 [3; 1] = Ret (mk_tkey 2 8)
  /\ tk_from_letters dev 3 [2; 2] = Ret (mk_tkey 2 5)
  /\ (k <- tk_concatenate dev 3 (mk_tkey 1 1) (mk_tkey 2 8) ;; tk_concatenate dev 3 k (mk_tkey 2 5)) = Ret (mk_tkey 5 389)
  /\ tk_from_letters dev 3 [2; 3; 1; 2; 2] = Ret (mk_tkey 5 389).
Proof. exact c03_monoid_example. Qed.

(** * C04: push_front prepends one letter *)
Theorem C04_push_front : forall (p : profile) (n a : N) (w : word) (k : tkey),
  1 <= n < 2 ^ 32 -> word_ok n w -> tk_from_letters p n w = Ret k ->
  1 <= a <= n -> len w < max_depth n ->
  exists k', tk_push_front p n k a = Ret k' /\ tk_from_letters p n (a :: w) = Ret k'.
Proof. exact c04_push_front. Qed.
Print Assumptions C04_push_front.
Theorem C04_build_by_push_front : forall (p : profile) (n : N) (w : word),
  1 <= n < 2 ^ 32 -> word_ok n w -> len w <= max_depth n ->
  for_each (rev w) (tk_push_front p n) tk_new = tk_from_letters p n w.
Proof. exact c04_build_by_push_front. Qed.
Print Assumptions C04_build_by_push_front.
Example C04_example : tk_push_front dev 3 (mk_tkey 2 9) 2 = Ret (mk_tkey 3 25)
  /\ tk_from_letters dev 3 [3; 2] = Ret (mk_tkey 2 9) /\ tk_from_letters dev 3 [2; 3; 2] = Ret (mk_tkey 3 25).
Proof. exact c04_example. Qed.

(** * C05: max_depth is a sound and enforced bound *)
Theorem C05_max_depth_sound : forall n, 1 <= n < 2 ^ 32 ->
  2 <= max_depth n /\ bits_per_letter n * max_depth n <= 64 /\ n < 2 ^ bits_per_letter n.
Proof. exact c05_max_depth_sound. Qed.
Print Assumptions C05_max_depth_sound.
Theorem C05_too_long_panics : forall (p : profile) (n : N) (l : list N),
  max_depth n < len l -> tk_from_letters p n l = Panic.
Proof. exact c05_too_long_panics. Qed.
Print Assumptions C05_too_long_panics.
Theorem C05_bad_letter_panics : forall (p : profile) (n : N) (l : list N),
  1 <= n < 2 ^ 32 -> debug_assertions p = true -> ~ word_ok n l -> tk_from_letters p n l = Panic.
Proof. exact c05_bad_letter_panics. Qed.
Print Assumptions C05_bad_letter_panics.
Example C05_example : max_depth 3 = 30 /\ max_depth 1 = 59 /\ max_depth 4294967295 = 2
  /\ tk_from_letters dev 3 [1; 4] = Panic /\ tk_from_letters release 3 (repeat 1 31) = Panic
  /\ tk_from_letters dev 3 (repeat 3 30) = Ret (mk_tkey 30 768614336404564650).
Proof. exact c05_example. Qed.

(** * C06: to_letters gives back the letters passed to from_letters *)
Theorem C06_to_letters_refuted : exists (w : word) (k : tkey),
  word_ok 3 w /\ tk_from_letters dev 3 w = Ret k /\ tk_to_letters dev 3 k = Ret [2; 1] /\ w = [1; 2].
Proof. exact c06_to_letters_refuted. Qed.
Print Assumptions C06_to_letters_refuted.

(** * C55: to_letters lists the letters from last to first *)
Theorem C55_to_letters_reversed : forall (p : profile) (n : N) (w : word) (k : tkey),
  1 <= n < 2 ^ 32 -> word_ok n w -> tk_from_letters p n w = Ret k ->
  tk_to_letters p n k = Ret (rev w).
Proof. exact c55_to_letters_reversed. Qed.
Print Assumptions C55_to_letters_reversed.
Theorem C55_roundtrip_iff_palindrome : forall (p : profile) (n : N) (w : word) (k : tkey),
  1 <= n < 2 ^ 32 -> word_ok n w -> tk_from_letters p n w = Ret k ->
  (tk_to_letters p n k = Ret w <-> rev w = w).
Proof. exact c55_roundtrip_iff_palindrome. Qed.
Print Assumptions C55_roundtrip_iff_palindrome.
Example C55_example : word_ok 3 [1; 3; 2] /\ tk_from_letters dev 3 [1; 3; 2] = Ret (mk_tkey 3 9)
  /\ tk_to_letters dev 3 (mk_tkey 3 9) = Ret [2; 3; 1]
  /\ word_ok 3 [2; 3; 2] /\ tk_from_letters dev 3 [2; 3; 2] = Ret (mk_tkey 3 25) /\ tk_to_letters dev 3 (mk_tkey 3 25) = Ret [2; 3; 2].
Proof. exact c55_example. Qed.

(** * C07: Every key obtainable through the safe public API denotes a word over the alphabet within max_depth *)
Theorem C07_guarded_partial : forall (p : profile) (n : N) (k : tkey),
  1 <= n < 2 ^ 32 -> guarded_key p n k -> valid_key n k.
Proof. exact c07_guarded_partial. Qed.
Print Assumptions C07_guarded_partial.
Example C07_example : guarded_key dev 3 (mk_tkey 3 25).
Proof. exact c07_example. Qed.
Theorem C07_any_key_valid_refuted : forall (p : profile),
  (exists k, api_key p 3 k /\ tk_get_letter p 3 k 0 = Ret 4 /\ ~ valid_key 3 k) /\
  (exists k, api_key p 2 k /\ tk_size k = 31 /\ ~ valid_key 2 k) /\
  (exists k, api_key p 2 k /\ tk_size k = 32 /\ ~ valid_key 2 k).
Proof. exact c07_any_key_valid_refuted. Qed.
Print Assumptions C07_any_key_valid_refuted.

(** * C08: Keys can be printed *)
Theorem C08_debug_text : forall (p : profile) (n : N) (w : word) (k : tkey),
  1 <= n < 2 ^ 32 -> word_ok n w -> tk_from_letters p n w = Ret k ->
  tk_debug p n k = Ret (debug_text (rev w)).
Proof. exact c08_debug_text. Qed.
Print Assumptions C08_debug_text.
Theorem C08_debug_injective : forall (p p' : profile) (n : N) (u v : word) (k1 k2 : tkey) (s : string),
  1 <= n < 2 ^ 32 -> word_ok n u -> word_ok n v ->
  tk_from_letters p n u = Ret k1 -> tk_from_letters p' n v = Ret k2 ->
  tk_debug p n k1 = Ret s -> tk_debug p' n k2 = Ret s -> u = v.
Proof. exact c08_debug_injective. Qed.
Print Assumptions C08_debug_injective.
Example C08_example : word_ok 12 [3; 11; 2] /\ tk_from_letters dev 12 [3; 11; 2] = Ret (mk_tkey 3 673)
  /\ tk_debug dev 12 (mk_tkey 3 673) = Ret "(2, 11, 3)"%string /\ tk_debug dev 3 (mk_tkey 0 0) = Ret "()"%string.
Proof. exact c08_example. Qed.
Theorem C08_display_refuted : forall (fuel : nat) (k : tkey), tk_display fuel k = None.
Proof. exact c08_display_refuted. Qed.
Print Assumptions C08_display_refuted.
