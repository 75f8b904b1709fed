(** The #[test] functions of src/vector/implementation/simple_dense_vector.rs:393-547, run in the model
    (with rational instead of f32 scalars: all values are small integers). *)
From Coq Require Import QArith Qcanon.
From Verif Require Import Machine M_TensorKey M_TensorBasis M_Scalar M_Vector M_Dense M_Algebra I_Scalars L_PropSafe.
Local Open Scope N_scope.

Definition ops := dense_ops qc_ops integer_basis.
(** `expect_buffer.resize(u8::MAX, 0.0)` *)
Definition padded (l : list Z) : list Q := map (fun z => this (q z)) (l ++ repeat 0%Z (255 - length l)).

Example test_create_from_iterator :
  (v <- vr_from_iterator ops [(0, q 0); (1, q 1); (2, q 2); (3, q 3)] ;; Ret (vals v)) = Ret (padded [0; 1; 2; 3]%Z).
Proof. vm_compute. reflexivity. Qed.
Example test_create_from_iterator_repeated_element :
  (v <- vr_from_iterator ops [(0, q 0); (1, q 1); (1, q 1); (2, q 2); (3, q 3)] ;; Ret (vals v))
  = Ret (padded [0; 2; 2; 3]%Z).
Proof. vm_compute. reflexivity. Qed.
Example test_create_from_iterator_unordered :
  (v <- vr_from_iterator ops [(3, q 3); (1, q 1); (0, q 0); (2, q 2)] ;; Ret (vals v)) = Ret (padded [0; 1; 2; 3]%Z).
Proof. vm_compute. reflexivity. Qed.
Example test_add_vectors :
  (v1 <- vr_from_key ops 0 ;; v2 <- vr_from_key ops 1 ;; r <- vd_add ops v1 v2 ;; Ret (vals r)) = Ret (padded [1; 1]%Z).
Proof. vm_compute. reflexivity. Qed.
Example test_sub_vectors :
  (v1 <- vr_from_key ops 0 ;; v2 <- vr_from_key ops 1 ;; r <- vd_sub ops v1 v2 ;; Ret (vals r)) = Ret (padded [1; -1]%Z).
Proof. vm_compute. reflexivity. Qed.
(** the vectors of this test are empty: fill_with on a Vec of length 0 does nothing *)
Example test_scalar_multiply :
  (r <- vd_scalar_lmultiply ops (dv_from []) (q 2) ;; Ret (vals r)) = Ret [].
Proof. vm_compute. reflexivity. Qed.

(** src/free_tensor/implementation/dense.rs:436-447, with rational instead of f64 scalars *)
Example test_tensor_multiplication_two_letters :
  let tops := dense_ops qc_ops (tensor_basis dev 3) in
  (k1 <- tk_from_letter dev 1 ;; lhs <- vr_from_key tops k1 ;;
   k2 <- tk_from_letter dev 2 ;; rhs <- vr_from_key tops k2 ;;
   result <- alg_multiply qc_ops dev 3 lhs rhs (Some 2) ;; Ret (vals result))
  = (k <- tk_from_letters dev 3 [1; 2] ;; expected <- vr_from_key tops k ;; Ret (vals expected)).
Proof. vm_compute. reflexivity. Qed.
