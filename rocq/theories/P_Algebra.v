(** Property theorems (generated by tools/gen_props.py from L_PropAlgebra.v, where the proofs are). *)
From Coq Require Import QArith Qcanon Ring_theory Ring.
From Verif Require Import Machine MachineLemmas S_Words L_Words M_TensorKey L_TensorKey M_TensorBasis
  L_TensorBasis M_Scalar M_Vector M_Dense S_Vector S_Tensor I_Scalars L_Dense L_Ring L_PropKey L_PropDense
  M_Algebra L_Algebra L_Conv.
From Verif Require Import L_PropAlgebra.
Local Open Scope N_scope.

(** * C29: multiply/add_mul/sub_mul compute the truncated tensor product *)
Theorem C29_add_mul : forall (S R : Type) (so : scalar_ops S R) (p : profile) (n : N) (self x y : dvec S)
    (s l r t : N),
  let m := N.min t (l + r) in
  2 <= n -> has_degree n self s -> has_degree n x l -> has_degree n y r ->
  n ^ (s + 1) < 2 ^ 64 -> n ^ (l + 1) < 2 ^ 64 -> n ^ (r + 1) < 2 ^ 64 -> n ^ (m + 1) < 2 ^ 64 ->
  s < m \/ stored_to n self m -> stored_to n x (N.min m l) -> stored_to n y (N.min m r) ->
  exists z, alg_add_mul so p n self x y (Some t) = Ret z
    /\ dv_size z = (if s <? m then count_below n (Datatypes.S (N.to_nat m)) else dv_size self)
    /\ forall w, word_ok n w -> wcoef so n z w =
         if len w <=? m
         then fold_left (s_add so) (terms so l r (wcoef so n x) (wcoef so n y) w) (wcoef so n self w)
         else wcoef so n self w.
Proof. exact c29_add_mul. Qed.
Print Assumptions C29_add_mul.
Theorem C29_sub_mul : forall (S R : Type) (so : scalar_ops S R) (p : profile) (n : N) (self x y : dvec S)
    (s l r t : N),
  let m := N.min t (l + r) in
  2 <= n -> has_degree n self s -> has_degree n x l -> has_degree n y r ->
  n ^ (s + 1) < 2 ^ 64 -> n ^ (l + 1) < 2 ^ 64 -> n ^ (r + 1) < 2 ^ 64 -> n ^ (m + 1) < 2 ^ 64 ->
  s < m \/ stored_to n self m -> stored_to n x (N.min m l) -> stored_to n y (N.min m r) ->
  exists z, alg_sub_mul so p n self x y (Some t) = Ret z
    /\ dv_size z = (if s <? m then count_below n (Datatypes.S (N.to_nat m)) else dv_size self)
    /\ forall w, word_ok n w -> wcoef so n z w =
         if len w <=? m
         then fold_left (fun a c => s_add so a (s_uminus so c))
                (terms so l r (wcoef so n x) (wcoef so n y) w) (wcoef so n self w)
         else wcoef so n self w.
Proof. exact c29_sub_mul. Qed.
Print Assumptions C29_sub_mul.
Theorem C29_multiply : forall (S R : Type) (so : scalar_ops S R) (p : profile) (n : N) (x y : dvec S) (l r t : N),
  let m := N.min t (l + r) in
  2 <= n -> 1 <= m -> has_degree n x l -> has_degree n y r ->
  n ^ (l + 1) < 2 ^ 64 -> n ^ (r + 1) < 2 ^ 64 -> n ^ (m + 1) < 2 ^ 64 ->
  stored_to n x (N.min m l) -> stored_to n y (N.min m r) ->
  exists z, alg_multiply so p n x y (Some t) = Ret z /\ dv_kind z = Owned /\ filled n z m
    /\ forall w, word_ok n w -> wcoef so n z w =
         if len w <=? m
         then fold_left (s_add so) (terms so l r (wcoef so n x) (wcoef so n y) w) (s_zero so)
         else s_zero so.
Proof. exact c29_multiply. Qed.
Print Assumptions C29_multiply.
Theorem C29_convolution : forall (S R : Type) (so : scalar_ops S R) (n : N) (x y : dvec S) (l r : N) (w : word) (a : S),
  ring_laws so -> 2 <= n -> has_degree n x l -> has_degree n y r -> word_ok n w ->
  fold_left (s_add so) (terms so l r (wcoef so n x) (wcoef so n y) w) a
  = s_add so a (conv so (wcoef so n x) (wcoef so n y) w).
Proof. exact c29_convolution. Qed.
Print Assumptions C29_convolution.
Theorem C29_read : forall (S R : Type) (so : scalar_ops S R) (p : profile) (n : N) (z : dvec S) (w : word) (k : tkey),
  2 <= n < 2 ^ 32 -> word_ok n w -> tk_from_letters p n w = Ret k ->
  vr_get (dense_ops so (tensor_basis p n)) z k
  = Ret (if windex n w <? dv_size z then Some (wcoef so n z w) else None).
Proof. exact c29_read. Qed.
Print Assumptions C29_read.
Example C29_example :
  let x := dv_from [q 1; q 2; q 3] in let y := dv_borrow [q 5; q 7; q 11] in
  (z <- alg_multiply qc_ops dev 2 x y (Some 5) ;; Ret (vals z)) = Ret (qz [5; 17; 26; 14; 22; 21; 33]%Z)
  /\ (z <- alg_multiply qc_ops release 2 x y (Some 1) ;; Ret (vals z)) = Ret (qz [5; 17; 26]%Z)
  /\ (z <- alg_sub_mul qc_ops dev 2 (dv_borrow [q 0; q 0; q 100]) x y (Some 2) ;; Ret (vals z))
     = Ret (qz [-5; -17; 74; -14; -22; -21; -33]%Z)
  /\ map (fun w => this (fold_left Qcplus (terms qc_ops 1 1 (wcoef qc_ops 2 x) (wcoef qc_ops 2 y) w) 0%Qc))
       (words_below 2 3) = qz [5; 17; 26; 14; 22; 21; 33]%Z.
Proof. exact c29_example. Qed.
Example C29_example_longer :
  (z <- alg_add_mul qc_ops dev 2 (dv_from (map q [1; 1; 1; 1; 1; 1; 1]%Z)) (dv_from [q 1; q 2; q 3])
          (dv_from [q 10]) (Some 5) ;; Ret (vals z)) = Ret (qz [11; 21; 31; 1; 1; 1; 1]%Z).
Proof. exact c29_example_longer. Qed.

(** * C30: multiply never touches memory out of bounds *)
Theorem C30_exact : forall (S R : Type) (so : scalar_ops S R) (p : profile) (n : N) (self x y : dvec S) (s l r t : N),
  let m := N.min t (l + r) in
  2 <= n -> has_degree n self s -> has_degree n x l -> has_degree n y r ->
  n ^ (s + 1) < 2 ^ 64 -> n ^ (l + 1) < 2 ^ 64 -> n ^ (r + 1) < 2 ^ 64 -> n ^ (m + 1) < 2 ^ 64 ->
  let safe := (s < m \/ stored_to n self m) /\ stored_to n x (N.min m l) /\ stored_to n y (N.min m r) in
  (safe -> returns (alg_add_mul so p n self x y (Some t)) /\ returns (alg_sub_mul so p n self x y (Some t)))
  /\ (~ safe -> alg_add_mul so p n self x y (Some t) = UB /\ alg_sub_mul so p n self x y (Some t) = UB).
Proof. exact c30_exact. Qed.
Print Assumptions C30_exact.
Theorem C30_multiply_exact : forall (S R : Type) (so : scalar_ops S R) (p : profile) (n : N) (x y : dvec S) (l r t : N),
  let m := N.min t (l + r) in
  2 <= n -> has_degree n x l -> has_degree n y r ->
  n ^ (l + 1) < 2 ^ 64 -> n ^ (r + 1) < 2 ^ 64 -> n ^ (m + 1) < 2 ^ 64 ->
  let safe := 1 <= m /\ stored_to n x (N.min m l) /\ stored_to n y (N.min m r) in
  (safe -> returns (alg_multiply so p n x y (Some t))) /\ (~ safe -> alg_multiply so p n x y (Some t) = UB).
Proof. exact c30_multiply_exact. Qed.
Print Assumptions C30_multiply_exact.
Theorem C30_memory_safety_refuted : forall (S R : Type) (so : scalar_ops S R) (p : profile) (n t : N),
  2 <= n < 2 ^ 32 ->
  (u <- vr_from_key (dense_ops so (tensor_basis p n)) tk_new ;; alg_multiply so p n u u (Some t)) = UB
  /\ alg_multiply so p n dv_new dv_new (Some t) = UB
  /\ (1 <= t -> n ^ 3 < 2 ^ 64 -> forall c d,
       alg_multiply so p n (dv_from [c; d]) (dv_from [c; d]) (Some t) = UB).
Proof. exact c30_memory_safety_refuted. Qed.
Print Assumptions C30_memory_safety_refuted.
Theorem C30_overflow_panics : forall (S R : Type) (so : scalar_ops S R) (p : profile) (n : N) (self x y : dvec S)
    (s l r t : N),
  let m := N.min t (l + r) in
  overflow_checks p = true -> 2 <= n -> has_degree n self s -> has_degree n x l -> has_degree n y r ->
  n ^ (s + 1) < 2 ^ 64 -> n ^ (l + 1) < 2 ^ 64 -> n ^ (r + 1) < 2 ^ 64 -> 2 ^ 64 <= n ^ (m + 1) ->
  alg_add_mul so p n self x y (Some t) = Panic /\ alg_sub_mul so p n self x y (Some t) = Panic.
Proof. exact c30_overflow_panics. Qed.
Print Assumptions C30_overflow_panics.
Theorem C30_wrapped_size_refuted : forall (S R : Type) (so : scalar_ops S R) (p : profile) (x y : dvec S) (t : N),
  let n := 2642246 in
  overflow_checks p = false -> filled n x 1 -> filled n y 1 -> 2 <= t ->
  alg_multiply so p n x y (Some t) = UB.
Proof. exact c30_wrapped_size_refuted. Qed.
Print Assumptions C30_wrapped_size_refuted.
Example C30_example :
  returns (alg_multiply qc_ops release 2 (dv_from [q 1; q 2; q 3]) (dv_from [q 4]) (Some 1))
  /\ alg_multiply qc_ops dev 2 (dv_from [q 1; q 2]) (dv_from [q 4]) (Some 1) = UB
  /\ alg_add_mul qc_ops dev 2 (dv_from [q 1; q 2]) (dv_from [q 1; q 2; q 3]) (dv_from [q 4]) (Some 1) = UB
  /\ returns (alg_add_mul qc_ops dev 2 (dv_from [q 1; q 2]) (dv_from [q 1; q 2; q 3]) (dv_from [q 4]) (Some 0)).
Proof. exact c30_example. Qed.
