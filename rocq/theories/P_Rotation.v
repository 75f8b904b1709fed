(** Property theorems (generated by tools/gen_props.py from L_PropRotation.v, where the proofs are). *)
From Coq Require Import QArith Qcanon Ring_theory Ring.
From Verif Require Import Machine MachineLemmas S_Words L_Words M_TensorKey L_TensorKey M_TensorBasis L_TensorBasis M_Scalar M_Vector
  M_Dense S_Vector S_Tensor S_Series I_Scalars L_Dense L_Ring L_PropKey L_PropDense M_Algebra L_Algebra L_Conv
  L_PropAlgebra L_PropProducts L_Shuffle L_ExpGroup L_Units S_Lie L_PropShuffle S_Dynkin L_Dynkin L_PropUnits L_PropDynkin S_Rotation L_Rotation.
From Verif Require Import L_PropRotation.
Local Open Scope N_scope.

(** * C130: Sums over rotations, and which tensors are sums of commutators *)
Theorem C130_cyclic : forall (S R : Type) (so : scalar_ops S R) (p : profile) (n a b t : N) (x y : dvec S),
  ring_laws so -> 2 <= n -> filled n x a -> filled n y b -> 1 <= N.min t (a + b) ->
  n ^ (a + 1) < 2 ^ 64 -> n ^ (b + 1) < 2 ^ 64 -> n ^ (N.min t (a + b) + 1) < 2 ^ 64 ->
  exists z z', alg_multiply so p n x y (Some t) = Ret z /\ alg_multiply so p n y x (Some t) = Ret z'
    /\ forall w, word_ok n w -> rotation_sum so (wcoef so n z) w = rotation_sum so (wcoef so n z') w.
Proof. exact c130_cyclic. Qed.
Print Assumptions C130_cyclic.
Theorem C130_conjugate : forall (S R : Type) (so : scalar_ops S R) (p : profile) (n a b c t : N) (x y x' u z z' : dvec S),
  ring_laws so -> 2 <= n -> filled n x a -> filled n y b -> filled n x' c ->
  1 <= N.min t (a + b) -> 1 <= c + a -> n ^ (a + b + c + 1) < 2 ^ 64 ->
  alg_multiply so p n x' x (Some t) = Ret u -> (forall w, word_ok n w -> len w <= t -> wcoef so n u w = unit_fun so w) ->
  alg_multiply so p n x y (Some t) = Ret z -> alg_multiply so p n z x' (Some t) = Ret z' ->
  forall w, word_ok n w -> len w <= t -> rotation_sum so (wcoef so n z') w = rotation_sum so (wcoef so n y) w.
Proof. exact c130_conjugate. Qed.
Print Assumptions C130_conjugate.
Theorem C130_lie : forall (S R : Type) (so : scalar_ops S R) (p : profile) (n t : N) (e : lie S),
  ring_laws so -> 2 <= n < 2 ^ 32 -> 1 <= t -> n ^ (t + 1) < 2 ^ 64 -> letters_ok n e ->
  exists z, lie_eval so p n t e = Ret z
    /\ forall w, word_ok n w -> 2 <= len w -> rotation_sum so (wcoef so n z) w = s_zero so.
Proof. exact c130_lie. Qed.
Print Assumptions C130_lie.
Theorem C130_commutators : forall (S R : Type) (so : scalar_ops S R) (p : profile) (n t : N) (l : list (dvec S * dvec S)),
  ring_laws so -> 2 <= n -> 1 <= t -> n ^ (t + 1) < 2 ^ 64 ->
  Forall (fun xy => exists a b, filled n (fst xy) a /\ filled n (snd xy) b /\ a <= t /\ b <= t /\ 1 <= a + b) l ->
  exists z, commutator_sum so p n t l = Ret z /\ wcoef so n z [] = s_zero so
    /\ forall w, word_ok n w -> rotation_sum so (wcoef so n z) w = s_zero so.
Proof. exact c130_commutators. Qed.
Print Assumptions C130_commutators.
Theorem C130_letters : forall (S R : Type) (so : scalar_ops S R) (p : profile) (n t d : N) (x : dvec S),
  field_laws so -> 2 <= n < 2 ^ 32 -> 1 <= t -> d <= t -> n ^ (t + 1) < 2 ^ 64 -> filled n x d ->
  wcoef so n x [] = s_zero so -> (forall w, word_ok n w -> rotation_sum so (wcoef so n x) w = s_zero so) ->
  exists es ys z,
    mapM (fun a => k <- tk_from_letter p a ;; vr_from_key (dense_ops so (tensor_basis p n)) k) (letters n) = Ret es
    /\ length ys = length es /\ Forall (fun y => filled n y t) ys
    /\ commutator_sum so p n t (List.combine es ys) = Ret z
    /\ forall w, word_ok n w -> wcoef so n z w = wcoef so n x w.
Proof. exact c130_letters. Qed.
Print Assumptions C130_letters.
Example C130_example :
  let q z := Q2Qc (inject_Z z) in
  let x := dv_from (map q [1; 2; 0; 0; 1; 0; 0]%Z) in
  let y := dv_from (map q [0; 0; 1; 0; 0; 3; 0]%Z) in
  let ws := [[1; 2]; [1; 2; 1]; [1; 2; 2]; [1; 2; 2; 1]] in
  (z <- alg_multiply qc_ops dev 2 x y (Some 4) ;; Ret (map (fun w => this (rotation_sum qc_ops (wcoef qc_ops 2 z) w)) ws))
    = Ret (map inject_Z [5; 6; 1; 3]%Z)
  /\ (z <- alg_multiply qc_ops dev 2 y x (Some 4) ;; Ret (map (fun w => this (rotation_sum qc_ops (wcoef qc_ops 2 z) w)) ws))
    = Ret (map inject_Z [5; 6; 1; 3]%Z)
  /\ (z <- alg_multiply qc_ops dev 2 x y (Some 4) ;; Ret (map (fun w => this (wcoef qc_ops 2 z w)) ws)) = Ret (map inject_Z [2; 6; 1; 3]%Z)
  /\ (z <- alg_multiply qc_ops dev 2 y x (Some 4) ;; Ret (map (fun w => this (wcoef qc_ops 2 z w)) ws)) = Ret (map inject_Z [0; 0; 0; 0]%Z)
  /\ rotations_of [1; 2; 3] = [[1; 2; 3]; [2; 3; 1]; [3; 1; 2]].
Proof. exact c130_example. Qed.
