(** Property theorems (generated by tools/gen_props.py from L_PropIterKeys.v, where the proofs are). *)
From Verif Require Import Machine MachineLemmas S_Words L_Words M_TensorKey L_TensorKey M_TensorBasis L_TensorBasis S_TensorApi
  L_BasisIter S_KeyRaw L_KeyRaw S_IterKeys L_IterKeys.
From Verif Require Import L_PropIterKeys.
Local Open Scope N_scope.

(** * C108: What iter_keys enumerates *)
Theorem C108_short : forall (p : profile) (n : N) (m : nat) (xs : list (option tkey)), 3 <= n < 2 ^ 32 ->
  bi_take p n (tb_iter_keys n) m = Ret xs ->
  (forall k, In (Some k) xs -> tk_size k <= 3 /\ (tk_size k = 3 -> special n))
  /\ (In None xs -> special n /\ 22 <= letter_bits n).
Proof. exact c108_short. Qed.
Print Assumptions C108_short.
Theorem C108_words : forall (p : profile) (n : N) (m : nat) (xs : list (option tkey)) (a c : N), 3 <= n < 2 ^ 32 ->
  bi_take p n (tb_iter_keys n) m = Ret xs -> 1 <= a <= n -> 1 <= c <= n -> In (Some (key_of n [a; c])) xs ->
  exists j, j <= letter_bits n /\ a = alternating j + 1.
Proof. exact c108_words. Qed.
Print Assumptions C108_words.
Theorem C108_items : forall (p : profile) (n : N) (j : nat) (i : N), let b := letter_bits n in
  3 <= n < 2 ^ 32 -> i < n -> (special n -> N.of_nat j < b) -> fronts b (S j) * 2 ^ b < 2 ^ 64 ->
  exists xs, len xs = 1 + n + n * N.of_nat j + i /\
    bi_take p n (tb_iter_keys n) (length xs + 1) = Ret (xs ++ [Some (mk_tkey 2 (fronts b j * 2 ^ b + i))]).
Proof. exact c108_items. Qed.
Print Assumptions C108_items.
Theorem C108_fronts : forall (n : N) (j : nat), let b := letter_bits n in 3 <= n < 2 ^ 32 ->
  (N.of_nat j <= b -> fronts b j = alternating (N.of_nat j))
  /\ (b < N.of_nat j -> forall i w, word_ok n w -> key_of n w <> mk_tkey 2 (fronts b j * 2 ^ b + i)).
Proof. exact c108_fronts. Qed.
Print Assumptions C108_fronts.
Theorem C108_panics : forall (p : profile) (n : N), 3 <= n < 2 ^ 32 -> overflow_checks p = true -> ~ (special n /\ 22 <= letter_bits n) ->
  exists m, bi_take p n (tb_iter_keys n) m = Panic.
Proof. exact c108_panics. Qed.
Print Assumptions C108_panics.
Theorem C108_endless : forall (p : profile) (n : N) (m : nat), 3 <= n < 2 ^ 32 -> overflow_checks p = false ->
  exists xs, bi_take p n (tb_iter_keys n) m = Ret xs /\ length xs = m.
Proof. exact c108_endless. Qed.
Print Assumptions C108_endless.
Theorem C108_end : forall (p : profile) (n : N) (m : nat), let b := letter_bits n in 3 <= n < 2 ^ 32 -> special n -> 22 <= b ->
  exists xs, len xs = 1 + n + n * (b + 1) /\ ~ In None xs
  /\ bi_take p n (tb_iter_keys n) (length xs + m) = Ret (xs ++ repeat None m).
Proof. exact c108_end. Qed.
Print Assumptions C108_end.
Theorem C108_two : forall (p : profile) (m : nat), exists xs, len xs = 8675 /\ ~ In None xs
  /\ bi_take p 2 (tb_iter_keys 2) (length xs + m) = Ret (xs ++ repeat None m).
Proof. exact c108_two. Qed.
Print Assumptions C108_two.
Example C108_example :
  special 3 /\ ~ special 4 /\ special 6 /\ special 43 /\ ~ special 42
  /\ special 2796203 /\ letter_bits 2796203 = 22
  /\ fronts (letter_bits 5) 3 = 5 /\ fronts (letter_bits 5) 4 = 10 /\ fronts (letter_bits 5) 5 = 13
  /\ (forall p m xs c, bi_take p 4 (tb_iter_keys 4) m = Ret xs -> 1 <= c <= 4 -> ~ In (Some (key_of 4 [4; c])) xs).
Proof. exact c108_example. Qed.
