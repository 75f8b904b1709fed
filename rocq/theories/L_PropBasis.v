(** Property lemmas C09-C15 (restated as theorems in P_Basis.v). *)
From Verif Require Import Machine MachineLemmas S_Words L_Words M_TensorKey L_TensorKey
  M_TensorBasis S_TensorApi L_TensorBasis L_BasisIter L_PropKey.

Lemma c09_key_index_key : forall (p : profile) (n : N) (w : word) (k : tkey),
  1 <= n < 2 ^ 32 -> word_ok n w -> tk_from_letters p n w = Ret k ->
  exists i, i < 2 ^ 64 /\ tb_key_to_index p n k = Ret i /\ tb_index_to_key p n i = Ret k.
Proof.
  intros p n w k Hn Hw E. apply from_letters_inv in E; try assumption; try lia. destruct E as [F ->].
  exists (windex n w). split; [apply windex_u64; (assumption || lia)|].
  split; [apply key_to_index_ok|apply index_to_key_ok]; (assumption || lia).
Qed.
Lemma c09_index_key_index : forall (p : profile) (n i : N),
  1 <= n < 2 ^ 32 -> i < count_below n (S (N.to_nat (max_depth n))) ->
  exists k w, tb_index_to_key p n i = Ret k /\ tb_key_to_index p n k = Ret i
    /\ word_ok n w /\ len w <= max_depth n /\ tk_from_letters p n w = Ret k.
Proof.
  intros p n i Hn Hi. destruct (windex_surj n _ i ltac:(lia) Hi) as (w & Hw & Hl & Hx).
  assert (F : fits n w) by (split; [exact Hw|unfold len; lia]).
  exists (key_of n w), w. rewrite <- Hx.
  split; [apply index_to_key_ok; (assumption || lia)|].
  split; [apply key_to_index_ok; (assumption || lia)|].
  split; [exact Hw|]. split; [apply F|]. apply from_letters_ok; (assumption || lia).
Qed.
Example c09_example : 1000000000 < count_below 3 (S (N.to_nat (max_depth 3)))
  /\ (k <- tb_index_to_key dev 3 1000000000 ;; tb_key_to_index dev 3 k) = Ret 1000000000
  /\ (k <- tk_from_letters dev 4294967295 [4294967295; 4294967295] ;; tb_key_to_index dev 4294967295 k)
     = Ret 18446744069414584320.
Proof. repeat split; vm_compute; reflexivity. Qed.

Lemma c10_index_is_position : forall (p : profile) (n : N) (w : word) (k : tkey),
  1 <= n < 2 ^ 32 -> word_ok n w -> tk_from_letters p n w = Ret k ->
  exists i, tb_key_to_index p n k = Ret i
    /\ nth_error (words_below n (S (N.to_nat (max_depth n)))) (N.to_nat i) = Some w.
Proof.
  intros p n w k Hn Hw E. apply from_letters_inv in E; try assumption; try lia. destruct E as [F ->].
  exists (windex n w). split; [apply key_to_index_ok; (assumption || lia)|].
  apply words_below_nth; [exact Hw|]. destruct F as [_ Hl]. unfold len in Hl. lia.
Qed.
Lemma c10_position_is_key : forall (p : profile) (n i : N) (w : word),
  1 <= n < 2 ^ 32 ->
  nth_error (words_below n (S (N.to_nat (max_depth n)))) (N.to_nat i) = Some w ->
  exists k, tb_index_to_key p n i = Ret k /\ tk_from_letters p n w = Ret k.
Proof.
  intros p n i w Hn H. apply words_below_inv in H. destruct H as (Hw & Hl & <-).
  assert (F : fits n w) by (split; [exact Hw|unfold len; lia]).
  exists (key_of n w). split; [apply index_to_key_ok|apply from_letters_ok]; (assumption || lia).
Qed.
Example c10_example : nth_error (words_below 3 4) 29 = Some [2; 3; 2]
  /\ (k <- tk_from_letters dev 3 [2; 3; 2] ;; tb_key_to_index dev 3 k) = Ret 29.
Proof. split; vm_compute; reflexivity. Qed.
(** the enumeration lists exactly the words of length < d, each once, and in increasing order of length
    and then lexicographically *)
Lemma c10_enumeration : forall (n : N) (d : nat),
  (forall w, In w (words_below n d) <-> word_ok n w /\ (length w < d)%nat)
  /\ (1 <= n -> NoDup (words_below n d))
  /\ (forall i j u v, (i < j)%nat -> nth_error (words_below n d) i = Some u ->
        nth_error (words_below n d) j = Some v ->
        (length u < length v)%nat \/ (length u = length v /\ lex u v = Lt)).
Proof.
  intros n d. split; [intros w; apply in_words_below|].
  assert (Hord : forall i j u v, (i < j)%nat -> nth_error (words_below n d) i = Some u ->
        nth_error (words_below n d) j = Some v -> word_ok n u /\ word_ok n v /\ windex n u < windex n v).
  { intros i j u v Hij Hu Hv. replace i with (N.to_nat (N.of_nat i)) in Hu by lia.
    replace j with (N.to_nat (N.of_nat j)) in Hv by lia.
    apply words_below_inv in Hu, Hv. split; [apply Hu|]. split; [apply Hv|]. lia. }
  split.
  - intros _. apply NoDup_nth_error. intros i j Hi E.
    destruct (nth_error (words_below n d) i) as [u|] eqn:Eu;
      [|apply nth_error_None in Eu; lia].
    symmetry in E. destruct (Nat.lt_trichotomy i j) as [H|[H|H]]; [|exact H|].
    + destruct (Hord i j u u H Eu E) as (_ & _ & Hlt). lia.
    + destruct (Hord j i u u H E Eu) as (_ & _ & Hlt). lia.
  - intros i j u v Hij Hu Hv. destruct (Hord i j u v Hij Hu Hv) as (Wu & Wv & Hlt).
    destruct (Nat.lt_trichotomy (length u) (length v)) as [H|[H|H]].
    + left. exact H.
    + right. split; [exact H|]. rewrite <- (rank_lex n u v Wu Wv) by (unfold len; lia).
      apply N.compare_lt_iff. rewrite (windex_rank n u Wu), (windex_rank n v Wv), H in Hlt. lia.
    + pose proof (windex_upper n v Wv). pose proof (windex_lower n u Wu).
      pose proof (count_below_mono n (S (length v)) (length u) H). lia.
Qed.

Lemma c11_start_of_degree : forall (p : profile) (n deg : N), 2 <= n -> n ^ deg < 2 ^ 64 ->
  tb_start_of_degree p n deg = Ret (N.of_nat (length (words_below n (N.to_nat deg)))).
Proof.
  intros p n deg Hn H. rewrite words_below_length, N2Nat.id. apply start_of_degree_ok; assumption.
Qed.
Lemma c11_degree_range : forall (p : profile) (n deg : N), 2 <= n < 2 ^ 32 -> n ^ (deg + 1) < 2 ^ 64 ->
  exists a b, tb_degree_range p n deg = Ret (a, b)
    /\ a = N.of_nat (length (words_below n (N.to_nat deg)))
    /\ b = N.of_nat (length (words_below n (S (N.to_nat deg))))
    /\ forall w k i, word_ok n w -> tk_from_letters p n w = Ret k -> tb_key_to_index p n k = Ret i ->
       (a <= i < b <-> len w = deg).
Proof.
  intros p n deg Hn H. rewrite (degree_range_ok p n deg) by (assumption || lia).
  do 2 eexists. split; [reflexivity|]. rewrite !words_below_length, !N2Nat.id. split; [reflexivity|]. split; [reflexivity|].
  intros w k i Hw E Ei.
  apply from_letters_inv in E; try assumption; try lia. destruct E as [F ->].
  rewrite key_to_index_ok in Ei by (assumption || lia). injection Ei as <-.
  pose proof (windex_lower n w Hw) as Hlo. pose proof (windex_upper n w Hw) as Hup. unfold len. split.
  - intros [H1 H2]. destruct (Nat.lt_trichotomy (length w) (N.to_nat deg)) as [H3|[H3|H3]]; [|lia|].
    + pose proof (count_below_mono n (S (length w)) (N.to_nat deg) H3). lia.
    + pose proof (count_below_mono n (S (N.to_nat deg)) (length w) H3). lia.
  - intros H1. replace (N.to_nat deg) with (length w) by lia. lia.
Qed.
Lemma c11_panics : forall (p : profile) (n deg : N),
  (overflow_checks p = true -> 2 ^ 64 <= n ^ deg -> tb_start_of_degree p n deg = Panic)
  /\ tb_start_of_degree p 1 deg = Panic
  /\ (overflow_checks p = true -> tb_start_of_degree p 0 deg = Panic).
Proof.
  intros p n deg. split; [apply start_of_degree_overflow|]. split; [apply start_of_degree_one|].
  apply start_of_degree_zero.
Qed.
Example c11_example : tb_start_of_degree dev 3 5 = Ret 121 /\ 3 ^ 5 < 2 ^ 64
  /\ tb_start_of_degree dev 2 64 = Panic /\ tb_degree_range dev 3 2 = Ret (4, 13).
Proof. repeat split; vm_compute; reflexivity. Qed.

Lemma c12_index_to_degree : forall (p : profile) (n : N) (w : word) (k : tkey) (i : N),
  1 <= n < 2 ^ 32 -> word_ok n w -> tk_from_letters p n w = Ret k -> tb_key_to_index p n k = Ret i ->
  len w <= 1 \/ (2 <= n /\ n ^ (len w + 1) < 2 ^ 64) ->
  tb_index_to_degree p n i = Ret (len w) /\ tb_degree k = len w.
Proof.
  intros p n w k i Hn Hw E Ei Hc. apply from_letters_inv in E; try assumption; try lia. destruct E as [F ->].
  rewrite key_to_index_ok in Ei by (assumption || lia). injection Ei as <-.
  split; [|reflexivity]. apply index_to_degree_ok; (assumption || lia).
Qed.
(** with overflow checks the remaining cases panic: the condition above is necessary *)
Lemma c12_otherwise_panics : forall (p : profile) (n : N) (w : word) (k : tkey) (i : N),
  overflow_checks p = true ->
  1 <= n < 2 ^ 32 -> word_ok n w -> tk_from_letters p n w = Ret k -> tb_key_to_index p n k = Ret i ->
  ~ (len w <= 1 \/ (2 <= n /\ n ^ (len w + 1) < 2 ^ 64)) ->
  tb_index_to_degree p n i = Panic.
Proof.
  intros p n w k i Hp Hn Hw E Ei Hc. apply from_letters_inv in E; try assumption; try lia. destruct E as [F ->].
  rewrite key_to_index_ok in Ei by (assumption || lia). injection Ei as <-.
  assert (H2 : 2 <= len w) by lia.
  destruct (N.eq_dec n 1) as [->|H1].
  - apply index_to_degree_one. pose proof (windex_lower 1 w Hw).
    pose proof (count_below_mono 1 2 (length w) ltac:(unfold len in H2; lia)). cbn in H0. lia.
  - pose proof (max_depth_le_59 n ltac:(lia)). destruct F as [_ Hl].
    apply index_to_degree_panic; try assumption; try lia.
Qed.
Example c12_example : tb_index_to_degree dev 3 29 = Ret 3 /\ tb_index_to_degree dev 3 1000000000 = Ret 19
  /\ tb_index_to_degree dev 2097152 9223372036854775807 = Panic.
Proof. repeat split; vm_compute; reflexivity. Qed.

Lemma c13_dimension_for_key : forall (p : profile) (n : N) (w : word) (k : tkey),
  2 <= n < 2 ^ 32 -> word_ok n w -> tk_from_letters p n w = Ret k -> n ^ (len w + 1) < 2 ^ 64 ->
  exists i d, tb_key_to_index p n k = Ret i /\ tb_vector_dimension_for_key p n k = Ret d
    /\ tb_vector_dimension_for_index p n i = Ret d
    /\ d = N.of_nat (length (words_below n (S (length w)))) /\ i < d
    /\ (forall m, i < N.of_nat (length (words_below n m)) -> d <= N.of_nat (length (words_below n m))).
Proof.
  intros p n w k Hn Hw E Hp. apply from_letters_inv in E; try assumption; try lia. destruct E as [F ->].
  exists (windex n w), (count_below n (S (length w))).
  split; [apply key_to_index_ok; (assumption || lia)|].
  split; [apply dim_for_key_ok; (assumption || lia)|].
  split; [apply dim_for_index_ok; (assumption || lia)|].
  rewrite words_below_length, N2Nat.id. split; [reflexivity|].
  split; [apply windex_upper; exact Hw|]. intros m Hm. rewrite words_below_length, N2Nat.id in *.
  pose proof (windex_lower n w Hw). apply count_below_mono.
  destruct (Nat.le_gt_cases (S (length w)) m) as [|H1]; [assumption|].
  pose proof (count_below_mono n m (length w) ltac:(lia)). lia.
Qed.
Lemma c13_overflow_panics : forall (p : profile) (n : N) (k : tkey), overflow_checks p = true ->
  tk_size k < 2 ^ 32 -> 2 ^ 64 <= n ^ (tk_size k + 1) -> tb_vector_dimension_for_key p n k = Panic.
Proof.
  intros p n k Hp Hs H. unfold tb_vector_dimension_for_key, tb_degree.
  destruct (N.lt_ge_cases (tk_size k + 1) (2 ^ 32)) as [H1|H1].
  - rewrite uadd_ok by exact H1. cbn [bind]. apply start_of_degree_overflow; assumption.
  - rewrite uadd_panic by assumption. reflexivity.
Qed.
Example c13_example : tb_vector_dimension_for_key dev 3 (mk_tkey 2 3) = Ret 13
  /\ tb_key_to_index dev 3 (mk_tkey 2 3) = Ret 7 /\ tb_vector_dimension_for_index dev 3 7 = Ret 13.
Proof. repeat split; vm_compute; reflexivity. Qed.

(** C14 *)
Lemma c14_compare_refuted : forall (p : profile), exists k1 k2 k3 : tkey,
  tk_from_letters p 3 [] = Ret k1 /\ tk_from_letters p 3 [1; 1] = Ret k2 /\ tk_from_letters p 3 [3] = Ret k3
  /\ tb_compare k1 k2 = Eq /\ k1 <> k2
  /\ tb_compare k3 k2 = Gt /\ tb_key_to_index p 3 k3 = Ret 3 /\ tb_key_to_index p 3 k2 = Ret 4.
Proof.
  intros p. exists (mk_tkey 0 0), (mk_tkey 2 0), (mk_tkey 1 2).
  repeat split; try (destruct p as [[] []]; vm_compute; reflexivity). discriminate.
Qed.
Lemma c14_same_degree_partial : forall (p : profile) (n : N) (u v : word) (k1 k2 : tkey) (i1 i2 : N),
  1 <= n < 2 ^ 32 -> word_ok n u -> word_ok n v -> len u = len v ->
  tk_from_letters p n u = Ret k1 -> tk_from_letters p n v = Ret k2 ->
  tb_key_to_index p n k1 = Ret i1 -> tb_key_to_index p n k2 = Ret i2 ->
  tb_compare k1 k2 = N.compare i1 i2 /\ tb_compare k1 k2 = lex u v
  /\ (tb_compare k1 k2 = Eq <-> k1 = k2).
Proof.
  intros p n u v k1 k2 i1 i2 Hn Hu Hv Hl E1 E2 I1 I2.
  apply from_letters_inv in E1, E2; try assumption; try lia. destruct E1 as [F1 ->], E2 as [F2 ->].
  rewrite key_to_index_ok in I1, I2 by (assumption || lia). injection I1 as <-. injection I2 as <-.
  destruct (compare_same_length n u v Hu Hv Hl) as [H1 H2].
  split; [exact H1|]. split; [exact H2|]. rewrite H1. rewrite N.compare_eq_iff. split.
  - intros H. f_equal. apply (windex_inj n); assumption.
  - intros H. apply key_of_inj in H; try assumption. congruence.
Qed.
(** what compare computes in general: the words are compared lexicographically after the shorter one
    has been extended on the left by letters 1 *)
Lemma c56_compare_exact : forall (p : profile) (n : N) (u v : word) (k1 k2 : tkey),
  1 <= n < 2 ^ 32 -> word_ok n u -> word_ok n v ->
  tk_from_letters p n u = Ret k1 -> tk_from_letters p n v = Ret k2 ->
  tb_compare k1 k2
  = lex (repeat 1 (length v - length u) ++ u) (repeat 1 (length u - length v) ++ v).
Proof.
  intros p n u v k1 k2 Hn Hu Hv E1 E2.
  apply from_letters_inv in E1, E2; try assumption; try lia. destruct E1 as [F1 ->], E2 as [F2 ->].
  apply compare_pad; try assumption; lia.
Qed.
(** it is a total preorder on all keys *)
Lemma c56_preorder : forall k1 k2 k3 : tkey,
  tb_compare k1 k1 = Eq /\ tb_compare k2 k1 = CompOpp (tb_compare k1 k2)
  /\ (tb_compare k1 k2 <> Gt -> tb_compare k2 k3 <> Gt -> tb_compare k1 k3 <> Gt).
Proof.
  intros k1 k2 k3. unfold tb_compare. split; [apply N.compare_refl|]. split; [apply N.compare_antisym|].
  change (tk_data k1 <= tk_data k2 -> tk_data k2 <= tk_data k3 -> tk_data k1 <= tk_data k3). lia.
Qed.

(** C15 *)
Lemma c15_iter_refuted : forall (p : profile) (n : N), 2 <= n < 2 ^ 32 ->
  exists xs k k', bi_take p n (tb_iter_keys n) (N.to_nat (first_wrong n) + 1) = Ret (xs ++ [Some k])
    /\ length xs = N.to_nat (first_wrong n)
    /\ tb_index_to_key p n (first_wrong n) = Ret k' /\ k <> k'.
Proof. exact iter_first_wrong. Qed.
Lemma c57_prefix : forall (p : profile) (n : N) (m : nat),
  2 <= n < 2 ^ 32 -> N.of_nat m <= first_wrong n ->
  bi_take p n (tb_iter_keys n) m = items_by_index p n 0 m /\ returns (items_by_index p n 0 m).
Proof. exact iter_correct_until. Qed.
Lemma c57_one_letter : forall (p : profile) (m : nat),
  count_below 1 (S (N.to_nat (max_depth 1))) = 60 /\
  returns (items_by_index p 1 0 60) /\
  bi_take p 1 (tb_iter_keys 1) (60 + m) = (xs <- items_by_index p 1 0 60 ;; Ret (xs ++ repeat None m)).
Proof.
  intros p m. split; [vm_compute; reflexivity|]. split; [|apply iter_one].
  destruct p as [[] []]; vm_compute; eexists; reflexivity.
Qed.
Lemma c57_starting_from : forall (p : profile) (n : N) (u : word) (a : N) (m : nat) (k : tkey),
  1 <= n < 2 ^ 32 -> word_ok n (u ++ [a]) -> tk_from_letters p n (u ++ [a]) = Ret k ->
  (0 < m)%nat -> a + N.of_nat m <= n ->
  bi_take p n (bi_starting_from n k) m
  = mapM (fun j => k <- tk_from_letters p n (u ++ [j]) ;; Ret (Some k)) (seqN a m).
Proof.
  intros p n u a m k Hn Hw E Hm Ha.
  apply from_letters_inv in E; try assumption; try lia. destruct E as [F ->].
  rewrite starting_from_last by (assumption || lia). symmetry. apply mapM_pure.
  intros j Hj. apply in_seqN in Hj. rewrite from_letters_ok; [reflexivity|lia|].
  destruct F as [_ Hl]. split.
  - apply Forall_app in Hw. apply Forall_app. split; [apply Hw|].
    destruct Hw as [_ Hw]. apply Forall_cons_iff in Hw. repeat constructor; lia.
  - rewrite len_app, len_cons in *. exact Hl.
Qed.
Example c57_example : first_wrong 3 = 13 /\ first_wrong 5 = 21
  /\ bi_take dev 3 (tb_iter_keys 3) 3 = Ret [Some (mk_tkey 0 0); Some (mk_tkey 1 0); Some (mk_tkey 1 1)].
Proof. repeat split; vm_compute; reflexivity. Qed.
