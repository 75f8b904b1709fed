(** Property theorems (generated by tools/gen_props.py from L_PropParam.v, where the proofs are). *)
From Coq Require Import QArith Qcanon.
From Verif Require Import Machine MachineLemmas S_Words M_TensorKey M_TensorBasis M_Scalar M_Vector M_Dense M_Algebra M_FreeTensor I_Scalars
  S_TensorProg S_Borrow L_PropBorrow S_Param I_Dual.
From Verif Require Import L_PropParam.
Local Open Scope N_scope.

(** * C121: Code generic in the scalars treats all scalars alike *)
Theorem C121_programs : forall (S R S' R' : Type) (P : S -> S' -> Prop) (Q : R -> R' -> Prop) (so : scalar_ops S R) (so' : scalar_ops S' R')
    (p : profile) (n : N) (cs : list (tcmd S R)) (cs' : list (tcmd S' R')) (st : nat -> dvec S) (st' : nat -> dvec S'),
  related P Q so so' -> (forall i, vec_rel P (st i) (st' i)) -> Forall2 (cmd_rel P Q) cs cs' ->
  same_outcome (fun z z' => forall i, vec_rel P (z i) (z' i)) (run_prog so p n st cs) (run_prog so' p n st' cs').
Proof. exact c121_programs. Qed.
Print Assumptions C121_programs.
Theorem C121_reads : forall (S R S' R' : Type) (P : S -> S' -> Prop) (so : scalar_ops S R) (so' : scalar_ops S' R')
    (p : profile) (n : N) (v u : dvec S) (v' u' : dvec S') (k : tkey),
  vec_rel P v v' -> vec_rel P u u' ->
  same_outcome (fun a b => match a, b with Some x, Some y => P x y | None, None => True | _, _ => False end)
    (vr_get (dense_ops so (tensor_basis p n)) v k) (vr_get (dense_ops so' (tensor_basis p n)) v' k)
  /\ dv_degree (tensor_basis p n) v = dv_degree (tensor_basis p n) v'
  /\ (related_eq P so so' -> dv_eq so v u = dv_eq so' v' u').
Proof. exact c121_reads. Qed.
Print Assumptions C121_reads.
Theorem C121_inplace : forall (S R S' R' : Type) (P : S -> S' -> Prop) (Q : R -> R' -> Prop) (so : scalar_ops S R) (so' : scalar_ops S' R')
    (p : profile) (n : N) (v u : dvec S) (v' u' : dvec S') (t : option N) (c : S) (c' : S') (r : R) (r' : R'),
  related P Q so so' -> related_eq P so so' -> vec_rel P v v' -> vec_rel P u u' -> P c c' -> Q r r' ->
  same_outcome (vec_rel P) (alg_multiply_inplace so p n v u t) (alg_multiply_inplace so' p n v' u' t)
  /\ same_outcome (vec_rel P) (alg_mul_scal_lprod so p n v u c t) (alg_mul_scal_lprod so' p n v' u' c' t)
  /\ same_outcome (vec_rel P) (alg_mul_scal_rprod so p n v u c t) (alg_mul_scal_rprod so' p n v' u' c' t)
  /\ same_outcome (vec_rel P) (alg_mul_rat_ldiv so p n v u r t) (alg_mul_rat_ldiv so' p n v' u' r' t)
  /\ same_outcome (vec_rel P) (alg_mul_rat_rdiv so p n v u c t) (alg_mul_rat_rdiv so' p n v' u' c' t).
Proof. exact c121_inplace. Qed.
Print Assumptions C121_inplace.
Theorem C121_free_tensor : forall (S R S' R' : Type) (P : S -> S' -> Prop) (Q : R -> R' -> Prop) (so : scalar_ops S R) (so' : scalar_ops S' R')
    (p : profile) (n md : N) (v u : dvec S) (v' u' : dvec S'),
  related P Q so so' -> related_eq P so so' -> related_degrees P Q so so' -> vec_rel P v v' -> vec_rel P u u' ->
  same_outcome (vec_rel P) (ft_exp so p n md v) (ft_exp so' p n md v')
  /\ same_outcome (vec_rel P) (ft_fmexp so p n md v u) (ft_fmexp so' p n md v' u')
  /\ same_outcome (vec_rel P) (ft_log so p n md v) (ft_log so' p n md v').
Proof. exact c121_free_tensor. Qed.
Print Assumptions C121_free_tensor.
Theorem C121_homomorphism : forall (S R S' R' : Type) (h : S -> S') (g : R -> R') (so : scalar_ops S R) (so' : scalar_ops S' R')
    (p : profile) (n : N) (cs : list (tcmd S R)) (st : nat -> dvec S),
  homomorphism h g so so' ->
  same_outcome (fun z z' => forall i, z' i = vec_map h (z i))
    (run_prog so p n st cs) (run_prog so' p n (fun i => vec_map h (st i)) (map (cmd_map h g) cs)).
Proof. exact c121_homomorphism. Qed.
Print Assumptions C121_homomorphism.
Theorem C121_closed : forall (S R : Type) (T : S -> Prop) (U : R -> Prop) (so : scalar_ops S R) (p : profile) (n : N) (cs : list (tcmd S R))
    (st z : nat -> dvec S) (i : nat),
  closed T U so -> Forall (cmd_in T U) cs -> (forall i, Forall T (dv_elems (st i)) /\ Forall T (dv_lender (st i))) ->
  run_prog so p n st cs = Ret z -> Forall T (dv_elems (z i)).
Proof. exact c121_closed. Qed.
Print Assumptions C121_closed.
Example C121_example :
  let start := fun _ : nat => @dv_new dual in
  let cs := [CPairs 0 [([], du 4 1); ([1], du 2 0); ([2], du 0 3)]; CKey 1 [2] (du 5 2); CMul 2 0 0 (Some 1); CComm 3 0 1 (Some 2); CSubMul 2 0 1 (Some 1);
             CDivide 2 (q 2); CAddScaled 2 0 (du 1 7)] in
  let show := fun v : dvec dual => map (fun x => (this (fst x), this (snd x))) (dv_elems v) in
  (z <- run_prog dual_ops dev 2 start cs ;; Ret (show (z 2%nat), show (z 3%nat)))
    = Ret ([(12, 33); (10, 16); (- 10 # 1, 17 # 2)]%Q, [(0, 0); (0, 0); (0, 0); (0, 0); (10, 4); (- 10 # 1, - 4 # 1); (0, 0)]%Q)
  (** the first parts are those of the same program with rational scalars *)
  /\ (z <- run_prog qc_ops dev 2 (fun _ => dv_new) (map (cmd_map fst (fun r => r)) cs) ;; Ret (map this (dv_elems (z 2%nat))))
    = Ret [12; 10; - 10 # 1]%Q.
Proof. exact c121_example. Qed.
