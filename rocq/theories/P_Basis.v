(** Property theorems (generated by tools/gen_props.py from L_PropBasis.v, where the proofs are). *)
From Verif Require Import Machine MachineLemmas S_Words L_Words M_TensorKey L_TensorKey
  M_TensorBasis S_TensorApi L_TensorBasis L_BasisIter L_PropKey.
From Verif Require Import L_PropBasis.

(** * C09: key_to_index and index_to_key are mutually inverse *)
Theorem C09_key_index_key : forall (p : profile) (n : N) (w : word) (k : tkey),
  1 <= n < 2 ^ 32 -> word_ok n w -> tk_from_letters p n w = Ret k ->
  exists i, i < 2 ^ 64 /\ tb_key_to_index p n k = Ret i /\ tb_index_to_key p n i = Ret k.
Proof. exact c09_key_index_key. Qed.
Print Assumptions C09_key_index_key.
Theorem C09_index_key_index : forall (p : profile) (n i : N),
  1 <= n < 2 ^ 32 -> i < count_below n (S (N.to_nat (max_depth n))) ->
  exists k w, tb_index_to_key p n i = Ret k /\ tb_key_to_index p n k = Ret i
    /\ word_ok n w /\ len w <= max_depth n /\ tk_from_letters p n w = Ret k.
Proof. exact c09_index_key_index. Qed.
Print Assumptions C09_index_key_index.
Example C09_example : 1000000000 < count_below 3 (S (N.to_nat (max_depth 3)))
  /\ (k <- tb_index_to_key dev 3 1000000000 ;; tb_key_to_index dev 3 k) = Ret 1000000000
  /\ (k <- tk_from_letters dev 4294967295 [4294967295; 4294967295] ;; tb_key_to_index dev 4294967295 k)
     = Ret 18446744069414584320.
Proof. exact c09_example. Qed.

(** * C10: The index of a key is its position in the length-then-lexicographic enumeration *)
Theorem C10_index_is_position : forall (p : profile) (n : N) (w : word) (k : tkey),
  1 <= n < 2 ^ 32 -> word_ok n w -> tk_from_letters p n w = Ret k ->
  exists i, tb_key_to_index p n k = Ret i
    /\ nth_error (words_below n (S (N.to_nat (max_depth n)))) (N.to_nat i) = Some w.
Proof. exact c10_index_is_position. Qed.
Print Assumptions C10_index_is_position.
Theorem C10_position_is_key : forall (p : profile) (n i : N) (w : word),
  1 <= n < 2 ^ 32 ->
  nth_error (words_below n (S (N.to_nat (max_depth n)))) (N.to_nat i) = Some w ->
  exists k, tb_index_to_key p n i = Ret k /\ tk_from_letters p n w = Ret k.
Proof. exact c10_position_is_key. Qed.
Print Assumptions C10_position_is_key.
Example C10_example : nth_error (words_below 3 4) 29 = Some [2; 3; 2]
  /\ (k <- tk_from_letters dev 3 [2; 3; 2] ;; tb_key_to_index dev 3 k) = Ret 29.
Proof. exact c10_example. Qed.
Theorem C10_enumeration : forall (n : N) (d : nat),
  (forall w, In w (words_below n d) <-> word_ok n w /\ (length w < d)%nat)
  /\ (1 <= n -> NoDup (words_below n d))
  /\ (forall i j u v, (i < j)%nat -> nth_error (words_below n d) i = Some u ->
        nth_error (words_below n d) j = Some v ->
        (length u < length v)%nat \/ (length u = length v /\ lex u v = Lt)).
Proof. exact c10_enumeration. Qed.
Print Assumptions C10_enumeration.

(** * C11: start_of_degree counts the words of smaller degree *)
Theorem C11_start_of_degree : forall (p : profile) (n deg : N), 2 <= n -> n ^ deg < 2 ^ 64 ->
  tb_start_of_degree p n deg = Ret (N.of_nat (length (words_below n (N.to_nat deg)))).
Proof. exact c11_start_of_degree. Qed.
Print Assumptions C11_start_of_degree.
Theorem C11_degree_range : forall (p : profile) (n deg : N), 2 <= n < 2 ^ 32 -> n ^ (deg + 1) < 2 ^ 64 ->
  exists a b, tb_degree_range p n deg = Ret (a, b)
    /\ a = N.of_nat (length (words_below n (N.to_nat deg)))
    /\ b = N.of_nat (length (words_below n (S (N.to_nat deg))))
    /\ forall w k i, word_ok n w -> tk_from_letters p n w = Ret k -> tb_key_to_index p n k = Ret i ->
       (a <= i < b <-> len w = deg).
Proof. exact c11_degree_range. Qed.
Print Assumptions C11_degree_range.
Theorem C11_panics : forall (p : profile) (n deg : N),
  (overflow_checks p = true -> 2 ^ 64 <= n ^ deg -> tb_start_of_degree p n deg = Panic)
  /\ tb_start_of_degree p 1 deg = Panic
  /\ (overflow_checks p = true -> tb_start_of_degree p 0 deg = Panic).
Proof. exact c11_panics. Qed.
Print Assumptions C11_panics.
Example C11_example : tb_start_of_degree dev 3 5 = Ret 121 /\ 3 ^ 5 < 2 ^ 64
  /\ tb_start_of_degree dev 2 64 = Panic /\ tb_degree_range dev 3 2 = Ret (4, 13).
Proof. exact c11_example. Qed.

(** * C12: index_to_degree is the length of the word at that index *)
Theorem C12_index_to_degree : forall (p : profile) (n : N) (w : word) (k : tkey) (i : N),
  1 <= n < 2 ^ 32 -> word_ok n w -> tk_from_letters p n w = Ret k -> tb_key_to_index p n k = Ret i ->
  len w <= 1 \/ (2 <= n /\ n ^ (len w + 1) < 2 ^ 64) ->
  tb_index_to_degree p n i = Ret (len w) /\ tb_degree k = len w.
Proof. exact c12_index_to_degree. Qed.
Print Assumptions C12_index_to_degree.
Theorem C12_otherwise_panics : forall (p : profile) (n : N) (w : word) (k : tkey) (i : N),
  overflow_checks p = true ->
  1 <= n < 2 ^ 32 -> word_ok n w -> tk_from_letters p n w = Ret k -> tb_key_to_index p n k = Ret i ->
  ~ (len w <= 1 \/ (2 <= n /\ n ^ (len w + 1) < 2 ^ 64)) ->
  tb_index_to_degree p n i = Panic.
Proof. exact c12_otherwise_panics. Qed.
Print Assumptions C12_otherwise_panics.
Example C12_example : tb_index_to_degree dev 3 29 = Ret 3 /\ tb_index_to_degree dev 3 1000000000 = Ret 19
  /\ tb_index_to_degree dev 2097152 9223372036854775807 = Panic.
Proof. exact c12_example. Qed.

(** * C13: The dimension reserved for a key always contains the key *)
Theorem C13_dimension_for_key : forall (p : profile) (n : N) (w : word) (k : tkey),
  2 <= n < 2 ^ 32 -> word_ok n w -> tk_from_letters p n w = Ret k -> n ^ (len w + 1) < 2 ^ 64 ->
  exists i d, tb_key_to_index p n k = Ret i /\ tb_vector_dimension_for_key p n k = Ret d
    /\ tb_vector_dimension_for_index p n i = Ret d
    /\ d = N.of_nat (length (words_below n (S (length w)))) /\ i < d
    /\ (forall m, i < N.of_nat (length (words_below n m)) -> d <= N.of_nat (length (words_below n m))).
Proof. exact c13_dimension_for_key. Qed.
Print Assumptions C13_dimension_for_key.
Theorem C13_overflow_panics : forall (p : profile) (n : N) (k : tkey), overflow_checks p = true ->
  tk_size k < 2 ^ 32 -> 2 ^ 64 <= n ^ (tk_size k + 1) -> tb_vector_dimension_for_key p n k = Panic.
Proof. exact c13_overflow_panics. Qed.
Print Assumptions C13_overflow_panics.
Example C13_example : tb_vector_dimension_for_key dev 3 (mk_tkey 2 3) = Ret 13
  /\ tb_key_to_index dev 3 (mk_tkey 2 3) = Ret 7 /\ tb_vector_dimension_for_index dev 3 7 = Ret 13.
Proof. exact c13_example. Qed.

(** * C14: compare orders keys the way indices do *)
Theorem C14_compare_refuted : forall (p : profile), exists k1 k2 k3 : tkey,
  tk_from_letters p 3 [] = Ret k1 /\ tk_from_letters p 3 [1; 1] = Ret k2 /\ tk_from_letters p 3 [3] = Ret k3
  /\ tb_compare k1 k2 = Eq /\ k1 <> k2
  /\ tb_compare k3 k2 = Gt /\ tb_key_to_index p 3 k3 = Ret 3 /\ tb_key_to_index p 3 k2 = Ret 4.
Proof. exact c14_compare_refuted. Qed.
Print Assumptions C14_compare_refuted.
Theorem C14_same_degree_partial : forall (p : profile) (n : N) (u v : word) (k1 k2 : tkey) (i1 i2 : N),
  1 <= n < 2 ^ 32 -> word_ok n u -> word_ok n v -> len u = len v ->
  tk_from_letters p n u = Ret k1 -> tk_from_letters p n v = Ret k2 ->
  tb_key_to_index p n k1 = Ret i1 -> tb_key_to_index p n k2 = Ret i2 ->
  tb_compare k1 k2 = N.compare i1 i2 /\ tb_compare k1 k2 = lex u v
  /\ (tb_compare k1 k2 = Eq <-> k1 = k2).
Proof. exact c14_same_degree_partial. Qed.
Print Assumptions C14_same_degree_partial.

(** * C56: What compare computes *)
Theorem C56_compare_exact : forall (p : profile) (n : N) (u v : word) (k1 k2 : tkey),
  1 <= n < 2 ^ 32 -> word_ok n u -> word_ok n v ->
  tk_from_letters p n u = Ret k1 -> tk_from_letters p n v = Ret k2 ->
  tb_compare k1 k2
  = lex (repeat 1 (length v - length u) ++ u) (repeat 1 (length u - length v) ++ v).
Proof. exact c56_compare_exact. Qed.
Print Assumptions C56_compare_exact.
Theorem C56_preorder : forall k1 k2 k3 : tkey,
  tb_compare k1 k1 = Eq /\ tb_compare k2 k1 = CompOpp (tb_compare k1 k2)
  /\ (tb_compare k1 k2 <> Gt -> tb_compare k2 k3 <> Gt -> tb_compare k1 k3 <> Gt).
Proof. exact c56_preorder. Qed.
Print Assumptions C56_preorder.

(** * C15: iter_keys enumerates the basis in index order *)
Theorem C15_iter_refuted : forall (p : profile) (n : N), 2 <= n < 2 ^ 32 ->
  exists xs k k', bi_take p n (tb_iter_keys n) (N.to_nat (first_wrong n) + 1) = Ret (xs ++ [Some k])
    /\ length xs = N.to_nat (first_wrong n)
    /\ tb_index_to_key p n (first_wrong n) = Ret k' /\ k <> k'.
Proof. exact c15_iter_refuted. Qed.
Print Assumptions C15_iter_refuted.

(** * C57: How far iter_keys can be trusted *)
Theorem C57_prefix : forall (p : profile) (n : N) (m : nat),
  2 <= n < 2 ^ 32 -> N.of_nat m <= first_wrong n ->
  bi_take p n (tb_iter_keys n) m = items_by_index p n 0 m /\ returns (items_by_index p n 0 m).
Proof. exact c57_prefix. Qed.
Print Assumptions C57_prefix.
Theorem C57_one_letter : forall (p : profile) (m : nat),
  count_below 1 (S (N.to_nat (max_depth 1))) = 60 /\
  returns (items_by_index p 1 0 60) /\
  bi_take p 1 (tb_iter_keys 1) (60 + m) = (xs <- items_by_index p 1 0 60 ;; Ret (xs ++ repeat None m)).
Proof. exact c57_one_letter. Qed.
Print Assumptions C57_one_letter.
Theorem C57_starting_from : forall (p : profile) (n : N) (u : word) (a : N) (m : nat) (k : tkey),
  1 <= n < 2 ^ 32 -> word_ok n (u ++ [a]) -> tk_from_letters p n (u ++ [a]) = Ret k ->
  (0 < m)%nat -> a + N.of_nat m <= n ->
  bi_take p n (bi_starting_from n k) m
  = mapM (fun j => k <- tk_from_letters p n (u ++ [j]) ;; Ret (Some k)) (seqN a m).
Proof. exact c57_starting_from. Qed.
Print Assumptions C57_starting_from.
Example C57_example : first_wrong 3 = 13 /\ first_wrong 5 = 21
  /\ bi_take dev 3 (tb_iter_keys 3) 3 = Ret [Some (mk_tkey 0 0); Some (mk_tkey 1 0); Some (mk_tkey 1 1)].
Proof. exact c57_example. Qed.
