(** Property theorems (generated by tools/gen_props.py from L_PropAlgebraTrait.v, where the proofs are). *)
From Coq Require Import Ring_theory Ring QArith Qcanon.
From Verif Require Import Machine MachineLemmas M_Scalar M_Vector M_Dense M_TensorKey M_TensorBasis M_Algebra M_AlgebraTrait
  S_Vector S_AlgebraTrait I_Scalars L_Ring.
From Verif Require Import L_PropAlgebraTrait.
Local Open Scope N_scope.

(** * C106: The default methods of Algebra for every implementing type *)
Theorem C106_dense : forall (S R : Type) (so : scalar_ops S R) (p : profile) (n : N) (x y z : dvec S) (s : S) (r : R) (t : option N),
  let ar := mk_alg_required (multiply_and_add_into_impl so p n) (multiply_into_impl so p n) in
  alg_multiply so p n x y t = at_multiply dv_new ar x y t
  /\ alg_multiply_inplace so p n x y t = at_multiply_inplace ar x y t
  /\ alg_add_mul so p n x y z t = at_add_mul ar x y z t
  /\ alg_sub_mul so p n x y z t = at_sub_mul so ar x y z t
  /\ alg_commutator so p n x y t = at_commutator so dv_new ar x y t
  /\ alg_mul_scal_lprod so p n x y s t = at_mul_scal_lprod so ar x y s t
  /\ alg_mul_scal_rprod so p n x y s t = at_mul_scal_rprod so ar x y s t
  /\ alg_mul_rat_ldiv so p n x y r t = at_mul_rat_ldiv so ar x y r t
  /\ alg_mul_rat_rdiv so p n x y s t = at_mul_rat_rdiv so ar x y s t.
Proof. exact c106_dense. Qed.
Print Assumptions C106_dense.
Theorem C106_products : forall (V K S R : Type) (so : scalar_ops S R) (vnew : V) (ar : alg_required V S)
  (val : V -> K -> S) (terms : option N -> V -> V -> K -> list S),
  ring_laws so -> exact_products so vnew ar val terms -> forall (x y l r : V) (s : S) (q : R) (t : option N),
  let product a b k := sum_onto so (s_zero so) (fun v => v) (terms t a b k) in
  (forall z, at_multiply vnew ar x y t = Ret z -> forall k, val z k = product x y k)
  /\ (forall z, at_multiply_inplace ar x y t = Ret z -> forall k, val z k = product x y k)
  /\ (forall z, at_add_mul ar x l r t = Ret z -> forall k, val z k = s_add so (val x k) (product l r k))
  /\ (forall z, at_sub_mul so ar x l r t = Ret z -> forall k, val z k = s_sub so (val x k) (product l r k))
  /\ (forall z, at_commutator so vnew ar x y t = Ret z -> forall k, val z k = s_sub so (product x y k) (product y x k))
  /\ (forall z, at_mul_scal_lprod so ar x y s t = Ret z -> forall k, val z k = s_mul so s (product x y k))
  /\ (forall z, at_mul_scal_rprod so ar x y s t = Ret z -> forall k, val z k = s_mul so (product x y k) s)
  /\ (field_laws so -> forall z, at_mul_rat_ldiv so ar x y q t = Ret z -> forall k, val z k = s_div so (product x y k) q).
Proof. exact c106_products. Qed.
Print Assumptions C106_products.
Theorem C106_returns : forall (V S R : Type) (so : scalar_ops S R) (vnew : V) (ar : alg_required V S) (x y l r : V) (s : S) (q : R) (t : option N),
  (returns (at_commutator so vnew ar x y t) <->
     exists m, at_add_mul ar vnew x y t = Ret m /\ returns (at_sub_mul so ar m y x t))
  /\ ((forall a b c f, returns (ar_add_into ar a b c f t)) ->
      returns (at_multiply vnew ar x y t) /\ returns (at_add_mul ar x l r t) /\ returns (at_sub_mul so ar x l r t)
      /\ returns (at_commutator so vnew ar x y t))
  /\ ((forall a b f, returns (ar_into ar a b f t)) ->
      returns (at_multiply_inplace ar x y t) /\ returns (at_mul_scal_lprod so ar x y s t) /\ returns (at_mul_scal_rprod so ar x y s t)
      /\ returns (at_mul_rat_ldiv so ar x y q t) /\ returns (at_mul_rat_rdiv so ar x y s t)).
Proof. exact c106_returns. Qed.
Print Assumptions C106_returns.
Theorem C106_lie : forall (V K S R : Type) (so : scalar_ops S R) (vnew : V) (ar : alg_required V S)
  (val : V -> K -> S) (terms : option N -> V -> V -> K -> list S) (t : option N) (prod : (K -> S) -> (K -> S) -> K -> S),
  ring_laws so -> exact_products so vnew ar val terms -> exact_ring so ar val terms t prod ->
  exists bracket : V -> V -> V,
  (forall x y, at_commutator so vnew ar x y t = Ret (bracket x y))
  /\ (forall x k, val (bracket x x) k = s_zero so)
  /\ (forall x y k, val (bracket x y) k = s_uminus so (val (bracket y x) k))
  /\ (forall x y z k, s_add so (s_add so (val (bracket x (bracket y z)) k) (val (bracket y (bracket z x)) k))
                        (val (bracket z (bracket x y)) k) = s_zero so).
Proof. exact c106_lie. Qed.
Print Assumptions C106_lie.
Theorem C106_mul_rat_rdiv : forall (V K S R : Type) (so : scalar_ops S R) (vnew : V) (ar : alg_required V S)
  (val : V -> K -> S) (terms : option N -> V -> V -> K -> list S),
  ring_laws so -> exact_products so vnew ar val terms -> forall (x y : V) (s : S) (t : option N),
  at_mul_rat_rdiv so ar x y s t = at_mul_scal_rprod so ar x y s t
  /\ (forall z, at_mul_rat_rdiv so ar x y s t = Ret z ->
      forall k, val z k = s_mul so (sum_onto so (s_zero so) (fun v => v) (terms t x y k)) s).
Proof. exact c106_mul_rat_rdiv. Qed.
Print Assumptions C106_mul_rat_rdiv.
Example C106_example :
  exact_products qc_ops mat_zero mat_alg (fun x => x) mat_terms
  /\ exact_ring qc_ops mat_alg (fun x => x) mat_terms None
       (fun f g k => Qcplus (Qcmult (f (fst k, false)) (g (false, snd k))) (Qcmult (f (fst k, true)) (g (true, snd k))))
  /\ (exists z, at_commutator qc_ops mat_zero mat_alg (mat_of 0 1 0 0) (mat_of 0 0 1 0) None = Ret z
      /\ map z [(false, false); (false, true); (true, false); (true, true)] = map (fun a => Q2Qc (inject_Z a)) [1; 0; 0; -1]%Z)
  /\ (exists z, at_mul_rat_rdiv qc_ops mat_alg (mat_of 1 2 3 4) (mat_of 1 0 0 1) (Q2Qc 2) None = Ret z
      /\ z (true, true) = Q2Qc 8).
Proof. exact c106_example. Qed.
