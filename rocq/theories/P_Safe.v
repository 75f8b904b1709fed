(** Property theorems (generated by tools/gen_props.py from L_PropSafe.v, where the proofs are). *)
From Coq Require Import QArith Qcanon String.
From Verif Require Import Machine MachineLemmas S_Words L_Words M_TensorKey L_TensorKey M_TensorBasis
  L_TensorBasis M_Scalar M_Vector M_Dense M_Display S_Vector I_Scalars L_Dense L_PropKey L_BasisIter.
From Verif Require Import L_PropSafe.
Local Open Scope N_scope.

(** * C58: Building a dense vector from keys never writes outside the new buffer *)
Theorem C58_from_key_exact : forall (K S R : Type) (so : scalar_ops S R) (ob : obasis K) (k : K) (s : S) (d i : N),
  ob_dim_for_key ob k = Ret d -> ob_key_to_index ob k = Ret i ->
  (i < d -> exists v, vr_from_key_scalar (dense_ops so ob) k s = Ret v /\ dv_size v = d)
  /\ (d <= i -> vr_from_key_scalar (dense_ops so ob) k s = UB).
Proof. exact c58_from_key_exact. Qed.
Print Assumptions C58_from_key_exact.
Theorem C58_from_iterator_exact : forall (K S R : Type) (so : scalar_ops S R) (ob : obasis K)
    (items : list (K * S)) (f : K -> N) (k : K) (s : S) (d : N),
  (forall e, In e items -> ob_key_to_index ob (fst e) = Ret (f (fst e)) /\ f (fst e) <= f k) ->
  In (k, s) items -> ob_dim_for_index ob (f k) = Ret d ->
  (f k < d -> exists v, vr_from_iterator (dense_ops so ob) items = Ret v /\ dv_size v = d)
  /\ (d <= f k -> vr_from_iterator (dense_ops so ob) items = UB).
Proof. exact c58_from_iterator_exact. Qed.
Print Assumptions C58_from_iterator_exact.
Theorem C58_memory_safety_refuted : forall (S R : Type) (so : scalar_ops S R) (p : profile) (n : N),
  2 <= n -> n + 1 < 2 ^ 32 ->
  exists k, tk_from_letter p (n + 1) = Ret k
    /\ vr_from_key (dense_ops so (tensor_basis p n)) k = UB.
Proof. exact c58_memory_safety_refuted. Qed.
Print Assumptions C58_memory_safety_refuted.
Theorem C58_wrapped_dimension_refuted : forall (S R : Type) (so : scalar_ops S R),
  exists k, word_ok (2 ^ 32 - 1) [1; 1] /\ tk_from_letters release (2 ^ 32 - 1) [1; 1] = Ret k
    /\ vr_from_key (dense_ops so (tensor_basis release (2 ^ 32 - 1))) k = UB.
Proof. exact c58_wrapped_dimension_refuted. Qed.
Print Assumptions C58_wrapped_dimension_refuted.
Theorem C58_words_checked_partial : forall (S R : Type) (so : scalar_ops S R) (p : profile) (n : N) (w : word)
    (k : tkey) (s : S),
  overflow_checks p = true -> n < 2 ^ 32 -> word_ok n w -> tk_from_letters p n w = Ret k ->
  vr_from_key_scalar (dense_ops so (tensor_basis p n)) k s <> UB.
Proof. exact c58_words_checked_partial. Qed.
Print Assumptions C58_words_checked_partial.
Example C58_example :
  vr_from_key (dense_ops qc_ops integer_basis) 255 = UB
  /\ vr_from_iterator (dense_ops qc_ops integer_basis) [(0, q 1); (255, q 1)] = UB
  /\ (v <- vr_from_key (dense_ops qc_ops integer_basis) 254 ;; Ret (dv_size v)) = Ret 255
  /\ (k <- tk_from_letter dev 4 ;; vr_from_key (dense_ops qc_ops (tensor_basis dev 3)) k) = UB.
Proof. exact c58_example. Qed.

(** * C59: degree() is the length of the longest stored word *)
Theorem C59_degree : forall (S R : Type) (so : scalar_ops S R) (p : profile) (n : N) (v : dvec S) (w : word) (k : tkey),
  2 <= n < 2 ^ 32 -> word_ok n w -> tk_from_letters p n w = Ret k ->
  tb_key_to_index p n k = Ret (dv_size v - 1) -> 0 < dv_size v -> n ^ (len w + 1) < 2 ^ 64 ->
  dv_degree (tensor_basis p n) v = Ret (len w)
  /\ forall w' k', word_ok n w' -> tk_from_letters p n w' = Ret k' ->
       (exists x, vr_get (dense_ops so (tensor_basis p n)) v k' = Ret (Some x)) -> len w' <= len w.
Proof. exact c59_degree. Qed.
Print Assumptions C59_degree.
Theorem C59_empty : forall (S K : Type) (ob : obasis K) (v : dvec S), dv_size v = 0 -> dv_degree ob v = Ret 0.
Proof. exact c59_empty. Qed.
Print Assumptions C59_empty.
Theorem C59_resized : forall (S R : Type) (so : scalar_ops S R) (p : profile) (n d s : N) (v : dvec S),
  2 <= n < 2 ^ 32 -> n ^ (d + 1) < 2 ^ 64 -> tb_start_of_degree p n (d + 1) = Ret s ->
  exists z, dv_resize so v s = Ret z /\ dv_degree (tensor_basis p n) z = Ret d.
Proof. exact c59_resized. Qed.
Print Assumptions C59_resized.
Example C59_example : dv_degree (tensor_basis dev 3) (dv_from (repeat (q 0) 13)) = Ret 2
  /\ dv_degree (tensor_basis dev 3) (dv_from [q 1; q 1]) = Ret 1.
Proof. exact c59_example. Qed.

(** * C60: Dense vectors can be printed *)
Theorem C60_display_refuted : forall (S : Type) (p : profile) (n : N) (fuel : nat) (show : S -> string) (v : dvec S),
  1 <= n < 2 ^ 32 -> 0 < dv_size v -> dv_display p n fuel show v = Diverge.
Proof. exact c60_display_refuted. Qed.
Print Assumptions C60_display_refuted.
Theorem C60_display_empty_partial : forall (S : Type) (p : profile) (n : N) (fuel : nat) (show : S -> string) (v : dvec S),
  1 <= n < 2 ^ 32 -> dv_size v = 0 -> dv_display p n fuel show v = Ret EmptyString.
Proof. exact c60_display_empty_partial. Qed.
Print Assumptions C60_display_empty_partial.
Example C60_example : dv_display dev 2 10 (fun _ : Qc => "1"%string) (dv_from [q 1]) = Diverge
  /\ dv_display dev 2 10 (fun _ : Qc => "1"%string) dv_new = Ret EmptyString.
Proof. exact c60_example. Qed.
