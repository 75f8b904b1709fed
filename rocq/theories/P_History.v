(** Property theorems (generated by tools/gen_props.py from L_PropHistory.v, where the proofs are). *)
From Coq Require Import QArith Qcanon.
From Verif Require Import Machine MachineLemmas M_TensorKey M_TensorBasis
  M_Scalar M_Vector M_Dense M_Deref S_Vector I_Scalars L_Dense L_Ring.
From Verif Require Import L_PropHistory.
Local Open Scope N_scope.

(** * C26: Dense vectors refine coefficient maps along every history *)
Theorem C26_refinement : forall (K S R : Type) (so : scalar_ops S R) (ob : obasis K) (idx : K -> N)
    (x : dvec S) (os : list (vop K S R)),
  dv_wf x -> Forall (fun o => match o with OSwap w => dv_wf w | _ => True end) os ->
  Forall (op_key_ok ob idx) os ->
  exists z, calls so ob x os = Ret z /\ dv_wf z
    /\ avec_eq (avec_of so z) (fold_left (a_call so idx) os (avec_of so x)).
Proof. exact c26_refinement. Qed.
Print Assumptions C26_refinement.
Theorem C26_coefficients : forall (K S R : Type) (so : scalar_ops S R) (ob : obasis K) (idx : K -> N)
    (x : dvec S) (os : list (vop K S R)) (c : N -> S),
  field_laws so -> dv_wf x -> Forall (fun o => match o with OSwap w => dv_wf w | _ => True end) os ->
  Forall (op_key_ok ob idx) os -> f_calls so idx (coef so x) os = Some c ->
  exists z, calls so ob x os = Ret z /\ forall i, coef so z i = c i.
Proof. exact c26_coefficients. Qed.
Print Assumptions C26_coefficients.
Theorem C26_insert : forall (K S R : Type) (so : scalar_ops S R) (ob : obasis K) (idx : K -> N)
    (x : dvec S) (os os' : list (vop K S R)) (items : list (K * S)),
  dv_wf x -> Forall (fun o => match o with OSwap w => dv_wf w | _ => True end) os -> Forall (op_key_ok ob idx) os ->
  (z <- calls so ob x os ;; y <- vr_insert (dense_ops so ob) z items ;; calls so ob y os') = Panic.
Proof. exact c26_insert. Qed.
Print Assumptions C26_insert.
Example C26_example :
  let idx k := match ob_key_to_index (tensor_basis dev 2) k with Ret i => i | _ => 0 end in
  let os := [OAdd (dv_from [q 1; q 2; q 3]); OErase (mk_tkey 1 0); OLmul (q 5); OClear;
             OSubRdiv (dv_borrow [q 4; q 6]) (q 2)] in
  Forall (op_key_ok (tensor_basis dev 2) idx) os
  /\ (z <- calls qc_ops (tensor_basis dev 2) (dv_borrow_mut [q 7; q 0; q 0]) os ;; Ret (vals z)) = Ret (qz [-2; -3; 0]%Z).
Proof. exact c26_example. Qed.

(** * C25: Storage kind is invisible and borrowed data is protected *)
Theorem C25_same_coefficients : forall (K S R : Type) (so : scalar_ops S R) (ob : obasis K) (idx : K -> N)
    (x y : dvec S) (o : vop K S R),
  dv_wf x -> dv_wf y -> op_key_ok ob idx o -> dv_as_slice x = dv_as_slice y ->
  exists z t, call so ob x o = Ret z /\ call so ob y o = Ret t /\ forall i, coef so z i = coef so t i.
Proof. exact c25_same_coefficients. Qed.
Print Assumptions C25_same_coefficients.
Theorem C25_same_vectors : forall (K S R : Type) (so : scalar_ops S R) (ob : obasis K) (idx : K -> N)
    (x y : dvec S) (os : list (vop K S R)),
  dv_wf x -> dv_wf y -> Forall (fun o => match o with OSwap w => dv_wf w | _ => True end) os ->
  Forall (op_key_ok ob idx) os -> forallb (fun o => negb (is_clear o)) os = true ->
  dv_as_slice x = dv_as_slice y ->
  exists z t, calls so ob x os = Ret z /\ calls so ob y os = Ret t /\ dv_as_slice z = dv_as_slice t.
Proof. exact c25_same_vectors. Qed.
Print Assumptions C25_same_vectors.
Theorem C25_clear_refuted : exists (x y z t : dvec Qc) (os : list (vop tkey Qc Qc)) (i : N),
  dv_wf x /\ dv_wf y /\ dv_as_slice x = dv_as_slice y
  /\ calls qc_ops (tensor_basis dev 2) x os = Ret z /\ calls qc_ops (tensor_basis dev 2) y os = Ret t
  /\ coef qc_ops z i <> coef qc_ops t i.
Proof. exact c25_clear_refuted. Qed.
Print Assumptions C25_clear_refuted.
Theorem C25_borrowed_protected : forall (K S R : Type) (so : scalar_ops S R) (ob : obasis K) (idx : K -> N)
    (x z : dvec S) (os : list (vop K S R)),
  dv_wf x -> dv_kind x = Borrowed -> Forall (op_key_ok ob idx) os ->
  forallb (fun o => negb (is_swap o)) os = true -> calls so ob x os = Ret z ->
  dv_lender z = dv_as_slice x.
Proof. exact c25_borrowed_protected. Qed.
Print Assumptions C25_borrowed_protected.
Theorem C25_borrowed_mut_sees_updates : forall (K S R : Type) (so : scalar_ops S R) (ob : obasis K) (idx : K -> N)
    (x z : dvec S) (os : list (vop K S R)),
  dv_wf x -> dv_kind x = BorrowedMut -> Forall (op_key_ok ob idx) os ->
  forallb (fun o => negb (is_swap o)) os = true -> calls so ob x os = Ret z ->
  len (dv_lender z) = dv_size x
  /\ exists done rest m, os = done ++ rest /\ calls so ob x done = Ret m
       /\ dv_kind m = BorrowedMut /\ dv_size m = dv_size x /\ dv_lender z = dv_as_slice m
       /\ match rest with [] => z = m | o :: _ => needs_resize m o end.
Proof. exact c25_borrowed_mut_sees_updates. Qed.
Print Assumptions C25_borrowed_mut_sees_updates.
Example C25_example :
  let os := [OUminus; OAdd (dv_from [q 1]); OAdd (dv_from [q 1; q 1; q 1]); OLmul (q 9)] in
  (z <- calls qc_ops (tensor_basis dev 2) (dv_borrow_mut [q 2; q 3]) os ;; Ret (dv_kind z, vals z, map this (dv_lender z)))
    = Ret (Owned, qz [0; -18; 9]%Z, qz [-1; -3]%Z)
  /\ (z <- calls qc_ops (tensor_basis dev 2) (dv_borrow [q 2; q 3]) os ;; Ret (vals z, map this (dv_lender z)))
    = Ret (qz [0; -18; 9]%Z, qz [2; 3]%Z).
Proof. exact c25_example. Qed.

(** * C27: Vector-space laws *)
Theorem C27_vector_space : forall (K S R : Type) (so : scalar_ops S R) (ob : obasis K) (x y z : dvec S) (s t : S),
  ring_laws so ->
  let vo := dense_ops so ob in
  let add := vd_add vo in let mul := vd_scalar_lmultiply vo in
  same (a <- add x y ;; add a z) (b <- add y z ;; add x b)
  /\ same (add x y) (add y x)
  /\ same (add x (vr_new vo)) (Ret x)
  /\ same (add (vr_new vo) x) (Ret x)
  /\ (exists d, vd_sub vo x x = Ret d /\ dv_size d = dv_size x /\ forall i, coef so d i = s_zero so)
  /\ same (vd_sub vo x y) (m <- vd_uminus vo y ;; add x m)
  /\ same (a <- add x y ;; mul a s) (u <- mul x s ;; v <- mul y s ;; add u v)
  /\ same (mul x (s_add so s t)) (u <- mul x s ;; v <- mul x t ;; add u v)
  /\ same (mul x (s_mul so s t)) (u <- mul x s ;; mul u t)
  /\ same (mul x (s_one so)) (Ret x)
  /\ same (mul x (s_mone so)) (vd_uminus vo x).
Proof. exact c27_vector_space. Qed.
Print Assumptions C27_vector_space.
Example C27_example : ring_laws qc_ops
  /\ (a <- vd_add (dense_ops qc_ops (tensor_basis dev 2)) (dv_from [q 1]) (dv_from [q 2; q 3]) ;;
      b <- vd_add (dense_ops qc_ops (tensor_basis dev 2)) (dv_from [q 2; q 3]) (dv_from [q 1]) ;; Ret (vals a, vals b))
     = Ret (qz [3; 3]%Z, qz [3; 3]%Z).
Proof. exact c27_example. Qed.

(** * C28: DenseTensor behaves like the vector it wraps *)
Theorem C28_get_refuted : forall (S R : Type) (so : scalar_ops S R) (p : profile) (n : N)
    (x : wrapped (dvec S)) (k : tkey) (s : S) (r : R),
  let vo := dense_tensor_ops so p n in
  vr_get vo x k = Diverge /\ vr_get_mut vo x k = Diverge
  /\ ke_add_scalar_multiply so vo x k s = Diverge /\ ke_sub_scalar_multiply so vo x k s = Diverge
  /\ ke_add_scalar_divide so vo x k r = Diverge /\ ke_sub_scalar_divide so vo x k r = Diverge.
Proof. exact c28_get_refuted. Qed.
Print Assumptions C28_get_refuted.
Theorem C28_get_never_returns : forall (S R : Type) (so : scalar_ops S R) (p : profile) (n : N)
    (x : wrapped (dvec S)) (k : tkey) (m : nat),
  let round := fun a : wrapped (dvec S) * tkey => @inl _ (outcome (option S)) a in
  vr_get (dense_tensor_ops so p n) x k = run_loop round (x, k) /\ loop m round (x, k) = inl (x, k).
Proof. exact c28_get_never_returns. Qed.
Print Assumptions C28_get_never_returns.
Theorem C28_delegation_partial : forall (S R : Type) (so : scalar_ops S R) (p : profile) (n : N)
    (x y : dvec S) (k : tkey) (s : S) (r : R) (items : list (tkey * S)),
  let W := dense_tensor_ops so p n in let U := dense_ops so (tensor_basis p n) in
  vr_new W = wrap (vr_new U)
  /\ vr_from_key W k = lift (vr_from_key U k)
  /\ vr_from_key_scalar W k s = lift (vr_from_key_scalar U k s)
  /\ vr_from_iterator W items = lift (vr_from_iterator U items)
  /\ vr_swap W (wrap x) (wrap y) = ('(a, b) <- vr_swap U x y ;; Ret (wrap a, wrap b))
  /\ vr_to_owned W (wrap x) = lift (vr_to_owned U x)
  /\ vr_clear W (wrap x) = lift (vr_clear U x)
  /\ vr_insert_single W (wrap x) k s = lift (vr_insert_single U x k s)
  /\ vr_insert W (wrap x) items = lift (vr_insert U x items)
  /\ vr_erase W (wrap x) k = lift (vr_erase U x k)
  /\ vr_uminus_inplace W (wrap x) = lift (vr_uminus_inplace U x)
  /\ vr_add_inplace W (wrap x) (wrap y) = lift (vr_add_inplace U x y)
  /\ vr_sub_inplace W (wrap x) (wrap y) = lift (vr_sub_inplace U x y)
  /\ vr_scalar_lmultiply_inplace W (wrap x) s = lift (vr_scalar_lmultiply_inplace U x s)
  /\ vr_scalar_rdivide_inplace W (wrap x) r = lift (vr_scalar_rdivide_inplace U x r)
  /\ vd_uminus W (wrap x) = lift (vd_uminus U x)
  /\ vd_add W (wrap x) (wrap y) = lift (vd_add U x y)
  /\ vd_sub W (wrap x) (wrap y) = lift (vd_sub U x y)
  /\ vd_scalar_lmultiply W (wrap x) s = lift (vd_scalar_lmultiply U x s)
  /\ vd_scalar_rmultiply W (wrap x) s = lift (vd_scalar_rmultiply U x s)
  /\ vd_scalar_rdivide W (wrap x) r = lift (vd_scalar_rdivide U x r)
  /\ vd_scalar_ldivide W (wrap x) r = lift (vd_scalar_ldivide U x r)
  /\ vd_scalar_rmultiply_inplace W (wrap x) s = lift (vd_scalar_rmultiply_inplace U x s)
  /\ vd_scalar_ldivide_inplace W (wrap x) r = lift (vd_scalar_ldivide_inplace U x r)
  /\ vd_add_scalar_rmultiply W (wrap x) (wrap y) s = lift (vd_add_scalar_rmultiply U x y s)
  /\ vd_add_scalar_lmultiply W (wrap x) (wrap y) s = lift (vd_add_scalar_lmultiply U x y s)
  /\ vd_sub_scalar_rmultiply W (wrap x) (wrap y) s = lift (vd_sub_scalar_rmultiply U x y s)
  /\ vd_sub_scalar_lmultiply W (wrap x) (wrap y) s = lift (vd_sub_scalar_lmultiply U x y s)
  /\ vd_add_scalar_rdivide W (wrap x) (wrap y) r = lift (vd_add_scalar_rdivide U x y r)
  /\ vd_add_scalar_ldivide W (wrap x) (wrap y) r = lift (vd_add_scalar_ldivide U x y r)
  /\ vd_sub_scalar_rdivide W (wrap x) (wrap y) r = lift (vd_sub_scalar_rdivide U x y r)
  /\ vd_sub_scalar_ldivide W (wrap x) (wrap y) r = lift (vd_sub_scalar_ldivide U x y r)
  /\ dense_tensor_eq so (wrap x) (wrap y) = dv_eq so x y.
Proof. exact c28_delegation_partial. Qed.
Print Assumptions C28_delegation_partial.
Example C28_example :
  (x <- vr_from_key (dense_tensor_ops qc_ops dev 2) (mk_tkey 1 1) ;;
   z <- vd_add (dense_tensor_ops qc_ops dev 2) x x ;; Ret (vals (unwrap z))) = Ret (qz [0; 0; 2]%Z).
Proof. exact c28_example. Qed.
