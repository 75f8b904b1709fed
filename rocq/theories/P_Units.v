(** Property theorems (generated by tools/gen_props.py from L_PropUnits.v, where the proofs are). *)
From Coq Require Import QArith Qcanon Ring_theory Ring.
From Verif Require Import Machine MachineLemmas S_Words L_Words M_TensorKey L_TensorKey M_TensorBasis L_TensorBasis M_Scalar M_Vector
  M_Dense S_Vector S_Tensor S_Series I_Scalars L_Dense L_Ring L_PropKey L_PropDense M_Algebra L_Algebra L_Conv
  L_PropAlgebra L_PropProducts L_Series L_ExpGroup L_PropAntipode L_Units.
From Verif Require Import L_PropUnits.
Local Open Scope N_scope.

(** * C127: Inverses, divisors of zero and the centre of dense tensors *)
Theorem C127_inverse : forall (S R : Type) (so : scalar_ops S R) (p : profile) (n a k : N) (x : dvec S),
  ring_laws so -> 2 <= n -> filled n x a -> 1 <= k -> n ^ (a + 1) < 2 ^ 64 -> n ^ (k + 1) < 2 ^ 64 ->
  (exists c, s_mul so c (wcoef so n x []) = s_one so)
  <-> exists y z z', filled n y k /\ alg_multiply so p n x y (Some k) = Ret z /\ alg_multiply so p n y x (Some k) = Ret z'
        /\ forall w, word_ok n w -> len w <= k -> wcoef so n z w = unit_fun so w /\ wcoef so n z' w = unit_fun so w.
Proof. exact c127_inverse. Qed.
Print Assumptions C127_inverse.
Theorem C127_cancel : forall (S R : Type) (so : scalar_ops S R) (p : profile) (n a b b' t k : N) (c : S) (x y y' z z' : dvec S),
  ring_laws so -> 2 <= n -> filled n x a -> filled n y b -> filled n y' b' ->
  1 <= N.min t (a + b) -> 1 <= N.min t (a + b') -> n ^ (a + b + 1) < 2 ^ 64 -> n ^ (a + b' + 1) < 2 ^ 64 ->
  s_mul so c (wcoef so n x []) = s_one so -> k <= t ->
  (alg_multiply so p n x y (Some t) = Ret z /\ alg_multiply so p n x y' (Some t) = Ret z')
  \/ (alg_multiply so p n y x (Some t) = Ret z /\ alg_multiply so p n y' x (Some t) = Ret z') ->
  (forall w, word_ok n w -> len w <= k -> wcoef so n z w = wcoef so n z' w) ->
  forall w, word_ok n w -> len w <= k -> wcoef so n y w = wcoef so n y' w.
Proof. exact c127_cancel. Qed.
Print Assumptions C127_cancel.
Theorem C127_leading : forall (S R : Type) (so : scalar_ops S R) (p : profile) (n a b t : N) (x y : dvec S) (u v : word),
  ring_laws so -> 2 <= n -> filled n x a -> filled n y b -> 1 <= N.min t (a + b) ->
  n ^ (a + 1) < 2 ^ 64 -> n ^ (b + 1) < 2 ^ 64 -> n ^ (N.min t (a + b) + 1) < 2 ^ 64 ->
  word_ok n u -> word_ok n v -> len u + len v <= t ->
  exists z, alg_multiply so p n x y (Some t) = Ret z
    /\ ((forall w, word_ok n w -> len w < len u -> wcoef so n x w = s_zero so) ->
        (forall w, word_ok n w -> len w < len v -> wcoef so n y w = s_zero so) ->
        wcoef so n z (u ++ v) = s_mul so (wcoef so n x u) (wcoef so n y v)
        /\ forall w, word_ok n w -> len w < len u + len v -> wcoef so n z w = s_zero so)
    /\ ((forall w, word_ok n w -> len u < len w -> wcoef so n x w = s_zero so) ->
        (forall w, word_ok n w -> len v < len w -> wcoef so n y w = s_zero so) ->
        wcoef so n z (u ++ v) = s_mul so (wcoef so n x u) (wcoef so n y v)).
Proof. exact c127_leading. Qed.
Print Assumptions C127_leading.
Theorem C127_nonzero : forall (S R : Type) (so : scalar_ops S R) (p : profile) (n a b t : N) (x y : dvec S) (u v : word),
  ring_laws so -> (forall c d, s_mul so c d = s_zero so -> c = s_zero so \/ d = s_zero so) -> (forall c d : S, c = d \/ c <> d) ->
  2 <= n -> filled n x a -> filled n y b -> 1 <= N.min t (a + b) ->
  n ^ (a + 1) < 2 ^ 64 -> n ^ (b + 1) < 2 ^ 64 -> n ^ (N.min t (a + b) + 1) < 2 ^ 64 ->
  word_ok n u -> word_ok n v -> len u + len v <= t -> wcoef so n x u <> s_zero so -> wcoef so n y v <> s_zero so ->
  exists z w, alg_multiply so p n x y (Some t) = Ret z /\ word_ok n w /\ len w <= len u + len v /\ wcoef so n z w <> s_zero so.
Proof. exact c127_nonzero. Qed.
Print Assumptions C127_nonzero.
Theorem C127_centre : forall (S R : Type) (so : scalar_ops S R) (p : profile) (n a t : N) (x : dvec S),
  ring_laws so -> 2 <= n < 2 ^ 32 -> filled n x a -> 1 <= t -> n ^ (a + 2) < 2 ^ 64 ->
  (forall b, 1 <= b <= n -> exists e z,
     (k <- tk_from_letter p b ;; vr_from_key (dense_ops so (tensor_basis p n)) k) = Ret e
     /\ alg_commutator so p n x e (Some t) = Ret z /\ forall w, word_ok n w -> wcoef so n z w = s_zero so)
  <-> forall w, word_ok n w -> 1 <= len w < t -> wcoef so n x w = s_zero so.
Proof. exact c127_centre. Qed.
Print Assumptions C127_centre.
Example C127_example : let x := dv_from [q 2; q 1; q 3] in
  let y := dv_from (map Q2Qc [1 # 2; -1 # 4; -3 # 4; 1 # 8; 3 # 8; 3 # 8; 9 # 8]%Q) in
  (z <- alg_multiply qc_ops dev 2 x y (Some 2) ;; Ret (vals z)) = Ret [1; 0; 0; 0; 0; 0; 0]%Q
  /\ (z <- alg_multiply qc_ops dev 2 y x (Some 2) ;; Ret (vals z)) = Ret [1; 0; 0; 0; 0; 0; 0]%Q
  /\ filled 2 x 1 /\ filled 2 y 2
  /\ (z <- alg_multiply qc_ops dev 2 (dv_from [q 0; q 1; q 1]) (dv_from [q 0; q 1; q (-1)]) (Some 3) ;; Ret (vals z))
     = Ret [0; 0; 0; 1; -1; 1; -1]%Q
  /\ (k <- tk_from_letter dev 1 ;; e <- vr_from_key (dense_ops qc_ops (tensor_basis dev 2)) k ;;
      z <- alg_commutator qc_ops dev 2 (dv_from (map q [7; 0; 0; 0; 1; 0; 0]%Z)) e (Some 2) ;; Ret (vals z)) = Ret [0; 0; 0; 0; 0; 0; 0]%Q
  /\ (k <- tk_from_letter dev 1 ;; e <- vr_from_key (dense_ops qc_ops (tensor_basis dev 2)) k ;;
      z <- alg_commutator qc_ops dev 2 (dv_from (map q [7; 0; 0; 0; 1; 0; 0]%Z)) e (Some 3) ;; Ret (vals z))
     = Ret [0; 0; 0; 0; 0; 0; 0; 0; -1; 1; 0; 0; 0; 0; 0]%Q.
Proof. exact c127_example. Qed.
