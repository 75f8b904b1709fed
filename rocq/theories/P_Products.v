(** Property theorems (generated by tools/gen_props.py from L_PropProducts.v, where the proofs are). *)
From Coq Require Import QArith Qcanon Ring_theory Ring.
From Verif Require Import Machine MachineLemmas S_Words L_Words M_TensorKey L_TensorKey M_TensorBasis
  L_TensorBasis M_Scalar M_Vector M_Dense S_Vector S_Tensor I_Scalars L_Dense L_Ring L_PropKey L_PropDense
  M_Algebra L_Algebra L_Conv L_PropAlgebra.
From Verif Require Import L_PropProducts.
Local Open Scope N_scope.

(** * C31: The product of two basis elements is the basis element of the concatenated word *)
Theorem C31_basis_product : forall (S R : Type) (so : scalar_ops S R) (p : profile) (n t : N) (u v : word)
    (k1 k2 k : tkey),
  ring_laws so -> 2 <= n < 2 ^ 32 -> word_ok n u -> word_ok n v ->
  tk_from_letters p n u = Ret k1 -> tk_from_letters p n v = Ret k2 -> tk_concatenate p n k1 k2 = Ret k ->
  1 <= len u + len v <= t -> len u + len v <= max_depth n -> n ^ (len u + len v + 1) < 2 ^ 64 ->
  (x <- vr_from_key (dense_ops so (tensor_basis p n)) k1 ;;
   y <- vr_from_key (dense_ops so (tensor_basis p n)) k2 ;; alg_multiply so p n x y (Some t))
  = vr_from_key (dense_ops so (tensor_basis p n)) k
  /\ returns (vr_from_key (dense_ops so (tensor_basis p n)) k).
Proof. exact c31_basis_product. Qed.
Print Assumptions C31_basis_product.
Theorem C31_truncated : forall (S R : Type) (so : scalar_ops S R) (p : profile) (n t : N) (u v : word)
    (k1 k2 : tkey),
  ring_laws so -> 2 <= n < 2 ^ 32 -> word_ok n u -> word_ok n v ->
  tk_from_letters p n u = Ret k1 -> tk_from_letters p n v = Ret k2 ->
  1 <= t < len u + len v ->
  n ^ (len u + 1) < 2 ^ 64 -> n ^ (len v + 1) < 2 ^ 64 -> n ^ (t + 1) < 2 ^ 64 ->
  exists z,
    (x <- vr_from_key (dense_ops so (tensor_basis p n)) k1 ;;
     y <- vr_from_key (dense_ops so (tensor_basis p n)) k2 ;; alg_multiply so p n x y (Some t)) = Ret z
    /\ filled n z t /\ forall w, word_ok n w -> wcoef so n z w = s_zero so.
Proof. exact c31_truncated. Qed.
Print Assumptions C31_truncated.
Example C31_example :
  let key l := match tk_from_letters dev 2 l with Ret k => k | _ => tk_new end in
  let from_key k := vr_from_key (dense_ops qc_ops (tensor_basis dev 2)) k in
  (x <- from_key (key [2]) ;; y <- from_key (key [1]) ;; z <- alg_multiply qc_ops dev 2 x y (Some 2) ;; Ret (vals z))
  = Ret (qz [0; 0; 0; 0; 0; 1; 0]%Z)
  /\ (x <- from_key (key [2; 1]) ;; Ret (vals x)) = Ret (qz [0; 0; 0; 0; 0; 1; 0]%Z)
  /\ tk_concatenate dev 2 (key [2]) (key [1]) = Ret (key [2; 1])
  /\ (x <- from_key (key [2]) ;; y <- from_key (key [1]) ;; z <- alg_multiply qc_ops dev 2 x y (Some 1) ;; Ret (vals z))
     = Ret (qz [0; 0; 0]%Z).
Proof. exact c31_example. Qed.

(** * C32: Tensor multiplication is an associative bilinear unital product *)
Theorem C32_associative : forall (S R : Type) (so : scalar_ops S R) (p : profile) (n t : N) (x y z : dvec S) (a b c : N),
  ring_laws so -> 2 <= n -> filled n x a -> filled n y b -> filled n z c ->
  1 <= t -> 1 <= a + b -> 1 <= b + c ->
  n ^ (a + 1) < 2 ^ 64 -> n ^ (b + 1) < 2 ^ 64 -> n ^ (c + 1) < 2 ^ 64 -> n ^ (N.min t (a + b + c) + 1) < 2 ^ 64 ->
  exists v, (xy <- alg_multiply so p n x y (Some t) ;; alg_multiply so p n xy z (Some t)) = Ret v
    /\ (yz <- alg_multiply so p n y z (Some t) ;; alg_multiply so p n x yz (Some t)) = Ret v.
Proof. exact c32_associative. Qed.
Print Assumptions C32_associative.
Theorem C32_bilinear : forall (S R : Type) (so : scalar_ops S R) (p : profile) (n t : N) (x x' y y' : dvec S)
    (s : S) (a a' b b' : N),
  let vo := dense_ops so (tensor_basis p n) in
  ring_laws so -> 2 <= n -> filled n x a -> filled n x' a' -> filled n y b -> filled n y' b' ->
  1 <= t -> 1 <= a + b -> 1 <= a' + b -> 1 <= a + b' ->
  n ^ (a + 1) < 2 ^ 64 -> n ^ (a' + 1) < 2 ^ 64 -> n ^ (b + 1) < 2 ^ 64 -> n ^ (b' + 1) < 2 ^ 64 ->
  n ^ (N.min t (N.max a a' + N.max b b') + 1) < 2 ^ 64 ->
  (exists v, (u <- vd_add vo x x' ;; alg_multiply so p n u y (Some t)) = Ret v
     /\ (u <- alg_multiply so p n x y (Some t) ;; u' <- alg_multiply so p n x' y (Some t) ;; vd_add vo u u') = Ret v)
  /\ (exists v, (u <- vd_add vo y y' ;; alg_multiply so p n x u (Some t)) = Ret v
     /\ (u <- alg_multiply so p n x y (Some t) ;; u' <- alg_multiply so p n x y' (Some t) ;; vd_add vo u u') = Ret v)
  /\ (exists v, (u <- alg_multiply so p n x y (Some t) ;; vd_scalar_lmultiply vo u s) = Ret v
     /\ (u <- vd_scalar_lmultiply vo x s ;; alg_multiply so p n u y (Some t)) = Ret v
     /\ (u <- vd_scalar_lmultiply vo y s ;; alg_multiply so p n x u (Some t)) = Ret v).
Proof. exact c32_bilinear. Qed.
Print Assumptions C32_bilinear.
Theorem C32_unit : forall (S R : Type) (so : scalar_ops S R) (p : profile) (n t : N) (x : dvec S) (a : N),
  ring_laws so -> 2 <= n < 2 ^ 32 -> filled n x a -> 1 <= t -> 1 <= a -> n ^ (a + 1) < 2 ^ 64 ->
  exists u v, vr_from_key (dense_ops so (tensor_basis p n)) tk_new = Ret u
    /\ alg_multiply so p n u x (Some t) = Ret v /\ alg_multiply so p n x u (Some t) = Ret v
    /\ dv_kind v = Owned
    /\ dv_elems v = firstn (N.to_nat (count_below n (Datatypes.S (N.to_nat t)))) (dv_elems x)
    /\ (a <= t -> dv_elems v = dv_elems x).
Proof. exact c32_unit. Qed.
Print Assumptions C32_unit.
Example C32_example :
  let x := dv_from [q 1; q 2; q 3] in let y := dv_from [q 5; q 7; q 11] in let z := dv_from [q 0; q 1; q 1] in
  (xy <- alg_multiply qc_ops dev 2 x y (Some 2) ;; v <- alg_multiply qc_ops dev 2 xy z (Some 2) ;; Ret (vals v))
  = Ret (qz [0; 5; 5; 17; 17; 26; 26]%Z)
  /\ (yz <- alg_multiply qc_ops dev 2 y z (Some 2) ;; v <- alg_multiply qc_ops dev 2 x yz (Some 2) ;; Ret (vals v))
  = Ret (qz [0; 5; 5; 17; 17; 26; 26]%Z)
  /\ filled 2 x 1 /\ ring_laws qc_ops.
Proof. exact c32_example. Qed.

(** * C33: The commutator is a Lie bracket *)
Theorem C33_commutator : forall (S R : Type) (so : scalar_ops S R) (p : profile) (n t : N) (x y : dvec S) (a b : N),
  ring_laws so -> 2 <= n -> filled n x a -> filled n y b -> 1 <= t -> 1 <= a + b ->
  n ^ (a + 1) < 2 ^ 64 -> n ^ (b + 1) < 2 ^ 64 -> n ^ (N.min t (a + b) + 1) < 2 ^ 64 ->
  exists z, alg_commutator so p n x y (Some t) = Ret z /\ filled n z (N.min t (a + b))
    /\ (exists xy yx, alg_multiply so p n x y (Some t) = Ret xy /\ alg_multiply so p n y x (Some t) = Ret yx
          /\ vd_sub (dense_ops so (tensor_basis p n)) xy yx = Ret z)
    /\ forall w, word_ok n w -> wcoef so n z w
         = s_sub so (tconv so t (wcoef so n x) (wcoef so n y) w) (tconv so t (wcoef so n y) (wcoef so n x) w).
Proof. exact c33_commutator. Qed.
Print Assumptions C33_commutator.
Theorem C33_antisymmetric : forall (S R : Type) (so : scalar_ops S R) (p : profile) (n t : N) (x y : dvec S) (a b : N),
  ring_laws so -> 2 <= n -> filled n x a -> filled n y b -> 1 <= t -> 1 <= a + b ->
  n ^ (a + 1) < 2 ^ 64 -> n ^ (b + 1) < 2 ^ 64 -> n ^ (N.min t (a + b) + 1) < 2 ^ 64 ->
  exists z, alg_commutator so p n y x (Some t) = Ret z
    /\ (v <- alg_commutator so p n x y (Some t) ;; vd_uminus (dense_ops so (tensor_basis p n)) v) = Ret z.
Proof. exact c33_antisymmetric. Qed.
Print Assumptions C33_antisymmetric.
Theorem C33_self : forall (S R : Type) (so : scalar_ops S R) (p : profile) (n t : N) (x : dvec S) (a : N),
  ring_laws so -> 2 <= n -> filled n x a -> 1 <= t -> 1 <= a ->
  n ^ (a + 1) < 2 ^ 64 -> n ^ (N.min t (a + a) + 1) < 2 ^ 64 ->
  exists z, alg_commutator so p n x x (Some t) = Ret z /\ forall w, word_ok n w -> wcoef so n z w = s_zero so.
Proof. exact c33_self. Qed.
Print Assumptions C33_self.
Theorem C33_jacobi : forall (S R : Type) (so : scalar_ops S R) (p : profile) (n t : N) (x y z : dvec S) (a b c : N),
  let vo := dense_ops so (tensor_basis p n) in
  let br u v := alg_commutator so p n u v (Some t) in
  ring_laws so -> 2 <= n -> filled n x a -> filled n y b -> filled n z c ->
  1 <= t -> 1 <= a + b -> 1 <= b + c -> 1 <= c + a ->
  n ^ (a + 1) < 2 ^ 64 -> n ^ (b + 1) < 2 ^ 64 -> n ^ (c + 1) < 2 ^ 64 -> n ^ (N.min t (a + b + c) + 1) < 2 ^ 64 ->
  exists s, (yz <- br y z ;; x_yz <- br x yz ;; zx <- br z x ;; y_zx <- br y zx ;;
             xy <- br x y ;; z_xy <- br z xy ;; s1 <- vd_add vo x_yz y_zx ;; vd_add vo s1 z_xy) = Ret s
    /\ forall w, word_ok n w -> wcoef so n s w = s_zero so.
Proof. exact c33_jacobi. Qed.
Print Assumptions C33_jacobi.
Example C33_example :
  let x := dv_from [q 0; q 1; q 0] in let y := dv_from [q 0; q 0; q 1] in
  (z <- alg_commutator qc_ops dev 2 x y (Some 2) ;; Ret (vals z)) = Ret (qz [0; 0; 0; 0; 1; -1; 0]%Z)
  /\ (z <- alg_commutator qc_ops release 2 y x (Some 2) ;; Ret (vals z)) = Ret (qz [0; 0; 0; 0; -1; 1; 0]%Z).
Proof. exact c33_example. Qed.

(** * C34: Omitting to_degree is reported *)
Theorem C34_none_never_returns : forall (S R : Type) (so : scalar_ops S R) (p : profile) (n : N)
    (self x y : dvec S) (s : S) (r : R),
  ~ returns (alg_multiply so p n x y None) /\ ~ returns (alg_multiply_inplace so p n x y None)
  /\ ~ returns (alg_add_mul so p n self x y None) /\ ~ returns (alg_sub_mul so p n self x y None)
  /\ ~ returns (alg_commutator so p n x y None)
  /\ ~ returns (alg_mul_scal_lprod so p n x y s None) /\ ~ returns (alg_mul_scal_rprod so p n x y s None)
  /\ ~ returns (alg_mul_rat_ldiv so p n x y r None) /\ ~ returns (alg_mul_rat_rdiv so p n x y s None).
Proof. exact c34_none_never_returns. Qed.
Print Assumptions C34_none_never_returns.
Theorem C34_none_panics : forall (S R : Type) (so : scalar_ops S R) (p : profile) (n : N)
    (self x y : dvec S) (s : S) (r : R) (a b : N),
  2 <= n -> has_degree n x a -> has_degree n y b -> n ^ (a + 1) < 2 ^ 64 -> n ^ (b + 1) < 2 ^ 64 ->
  alg_multiply so p n x y None = Panic /\ alg_multiply_inplace so p n x y None = Panic
  /\ alg_add_mul so p n self x y None = Panic /\ alg_sub_mul so p n self x y None = Panic
  /\ alg_commutator so p n x y None = Panic
  /\ alg_mul_scal_lprod so p n x y s None = Panic /\ alg_mul_scal_rprod so p n x y s None = Panic
  /\ alg_mul_rat_ldiv so p n x y r None = Panic /\ alg_mul_rat_rdiv so p n x y s None = Panic.
Proof. exact c34_none_panics. Qed.
Print Assumptions C34_none_panics.
Theorem C34_above_degree_partial : forall (S R : Type) (so : scalar_ops S R) (p : profile) (n : N)
    (self x y z : dvec S) (s l r t : N),
  let m := N.min t (l + r) in
  2 <= n -> has_degree n self s -> has_degree n x l -> has_degree n y r ->
  n ^ (s + 1) < 2 ^ 64 -> n ^ (l + 1) < 2 ^ 64 -> n ^ (r + 1) < 2 ^ 64 -> n ^ (m + 1) < 2 ^ 64 ->
  (alg_add_mul so p n self x y (Some t) = Ret z \/ alg_sub_mul so p n self x y (Some t) = Ret z ->
     forall w, word_ok n w -> t < len w -> wcoef so n z w = wcoef so n self w)
  /\ (alg_multiply so p n x y (Some t) = Ret z -> forall w, word_ok n w -> t < len w -> wcoef so n z w = s_zero so).
Proof. exact c34_above_degree_partial. Qed.
Print Assumptions C34_above_degree_partial.
Theorem C34_inplace_refuted : exists (x y : dvec Qc) (w : word), filled 2 x 2 /\ filled 2 y 1 /\ word_ok 2 w /\ len w = 2
  /\ this (wcoef qc_ops 2 x w) = (1 # 1)%Q
  /\ forall p, (z <- alg_multiply_inplace qc_ops p 2 x y (Some 1) ;; Ret (this (wcoef qc_ops 2 z w))) = Ret (12 # 1)%Q.
Proof. exact c34_inplace_refuted. Qed.
Print Assumptions C34_inplace_refuted.
Example C34_example :
  alg_multiply qc_ops dev 2 (dv_from [q 1; q 2; q 3]) (dv_from [q 5]) None = Panic
  /\ (z <- alg_multiply_inplace qc_ops dev 2 (dv_from (map q [1; 2; 3; 1; 1; 1; 1]%Z)) (dv_from (map q [5; 7; 11]%Z))
             (Some 1) ;; Ret (vals z)) = Ret (qz [1; 10; 22; 12; 1; 1; 1]%Z).
Proof. exact c34_example. Qed.
