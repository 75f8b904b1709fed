(** Property theorems (generated by tools/gen_props.py from L_PropBorrow.v, where the proofs are). *)
From Coq Require Import QArith Qcanon Ring_theory Ring.
From Verif Require Import Machine MachineLemmas M_Scalar M_Vector M_Dense M_Algebra M_TensorKey M_TensorBasis S_Words S_Vector S_Tensor S_TensorProg
  I_Scalars L_Dense L_Algebra L_PropTensorProg S_Borrow.
From Verif Require Import L_PropBorrow.
Local Open Scope N_scope.

(** * C118: Programs on borrowed tensors *)
Theorem C118_kinds : forall (S R : Type) (so : scalar_ops S R) (p : profile) (n : N) (cs : list (tcmd S R)) (st st' : nat -> dvec S),
  Forall (fun c => is_clear c = false) cs -> (forall i, same_coeffs (st i) (st' i)) ->
  same_outcome (fun z z' => forall i, same_coeffs (z i) (z' i)) (run_prog so p n st cs) (run_prog so p n st' cs).
Proof. exact c118_kinds. Qed.
Print Assumptions C118_kinds.
Theorem C118_shared : forall (S R : Type) (so : scalar_ops S R) (p : profile) (n : N) (cs : list (tcmd S R)) (st st' : nat -> dvec S),
  (forall i, dv_wf (st i) /\ dv_kind (st i) <> BorrowedMut) -> (forall i, dv_wf (st' i) /\ dv_kind (st' i) <> BorrowedMut) ->
  (forall i, same_coeffs (st i) (st' i)) ->
  same_outcome (fun z z' => forall i, same_coeffs (z i) (z' i)) (run_prog so p n st cs) (run_prog so p n st' cs).
Proof. exact c118_shared. Qed.
Print Assumptions C118_shared.
Theorem C118_clear_visible : exists (S R : Type) (so : scalar_ops S R) (n : N) (cs : list (tcmd S R)) (st st' : nat -> dvec S),
  (forall i, dv_wf (st i) /\ dv_wf (st' i)) /\ (forall i, same_coeffs (st i) (st' i))
  /\ (forall p, run_prog so p n st cs = UB) /\ (forall p, exists z, run_prog so p n st' cs = Ret z).
Proof. exact c118_clear_visible. Qed.
Print Assumptions C118_clear_visible.
Theorem C118_inplace : forall (S R : Type) (so : scalar_ops S R) (p : profile) (n : N) (x x' y y' : dvec S) (t : option N) (s : S) (r : R),
  same_coeffs x x' -> same_coeffs y y' ->
  same_outcome same_coeffs (alg_multiply_inplace so p n x y t) (alg_multiply_inplace so p n x' y' t)
  /\ same_outcome same_coeffs (alg_mul_scal_lprod so p n x y s t) (alg_mul_scal_lprod so p n x' y' s t)
  /\ same_outcome same_coeffs (alg_mul_scal_rprod so p n x y s t) (alg_mul_scal_rprod so p n x' y' s t)
  /\ same_outcome same_coeffs (alg_mul_rat_ldiv so p n x y r t) (alg_mul_rat_ldiv so p n x' y' r t)
  /\ same_outcome same_coeffs (alg_mul_rat_rdiv so p n x y s t) (alg_mul_rat_rdiv so p n x' y' s t).
Proof. exact c118_inplace. Qed.
Print Assumptions C118_inplace.
Theorem C118_unchanged : forall (S R : Type) (so : scalar_ops S R) (p : profile) (n : N) (cs : list (tcmd S R)) (st z : nat -> dvec S) (i : nat),
  Forall (fun c => i <> changed c) cs -> run_prog so p n st cs = Ret z -> z i = st i.
Proof. exact c118_unchanged. Qed.
Print Assumptions C118_unchanged.
Theorem C118_borrowed_protected : forall (S R : Type) (so : scalar_ops S R) (p : profile) (n : N) (cs : list (tcmd S R))
    (st z : nat -> dvec S) (i : nat),
  (forall j, dv_wf (st j)) -> dv_kind (st i) <> BorrowedMut -> Forall (fun c => i = changed c -> replaces c = false) cs ->
  run_prog so p n st cs = Ret z -> dv_lender (z i) = dv_lender (st i).
Proof. exact c118_borrowed_protected. Qed.
Print Assumptions C118_borrowed_protected.
Theorem C118_borrowed_mut : forall (S R : Type) (so : scalar_ops S R) (p : profile) (n : N) (cs : list (tcmd S R))
    (st z : nat -> dvec S) (i : nat),
  (forall j, dv_wf (st j)) -> dv_kind (st i) = BorrowedMut -> Forall (fun c => i = changed c -> replaces c = false) cs ->
  run_prog so p n st cs = Ret z ->
  exists before after y, cs = before ++ after /\ run_prog so p n st before = Ret y
    /\ dv_kind (y i) = BorrowedMut /\ dv_size (y i) = dv_size (st i) /\ dv_lender (z i) = dv_elems (y i)
    /\ match after with [] => z i = y i | c :: _ => i = changed c /\ needs_room p n y c end.
Proof. exact c118_borrowed_mut. Qed.
Print Assumptions C118_borrowed_mut.
Theorem C118_refinement : forall (S R : Type) (so : scalar_ops S R) (p : profile) (n D : N) (cs : list (tcmd S R))
    (st : nat -> dvec S) (a : nat -> atensor S),
  field_laws so -> 2 <= n < 2 ^ 32 -> n ^ (D + 1) < 2 ^ 64 -> Forall (fun c => is_clear c = false) cs ->
  (forall i, stands_for so n D (dv_from (dv_elems (st i))) (a i)) -> Forall (cmd_within n D) cs ->
  match mean_prog so a cs with
  | Ret a' => exists z, run_prog so p n st cs = Ret z /\ forall i, stands_for so n D (dv_from (dv_elems (z i))) (a' i)
  | Panic => run_prog so p n st cs = Panic
  | UB => run_prog so p n st cs = UB
  | Diverge => False
  end.
Proof. exact c118_refinement. Qed.
Print Assumptions C118_refinement.
Example C118_example :
  let l := [q 1; q 2; q 3] in
  let st := fun i => match i with 0 => dv_from l | 1 => dv_borrow l | _ => dv_borrow_mut l end%nat in
  let st' := fun _ : nat => dv_from l in
  let cs := [CScale 2 (q 2); CAdd 1 0; CSet 2 [1] (q 9); CAddMul 2 0 1 (Some 2); CNeg 2] in
  (forall i, dv_wf (st i)) /\ (forall i, same_coeffs (st i) (st' i)) /\ Forall (fun c => is_clear c = false) cs
  /\ Forall (cmd_within 2 5) cs
  /\ (z <- run_prog qc_ops dev 2 st cs ;; Ret (map (fun i => vals (z i)) [0; 1; 2]%nat))
     = Ret [qz [1; 2; 3]%Z; qz [2; 4; 6]%Z; qz [-4; -17; -18; -8; -12; -12; -18]%Z]
  /\ (z <- run_prog qc_ops dev 2 st' cs ;; Ret (map (fun i => vals (z i)) [0; 1; 2]%nat))
     = Ret [qz [1; 2; 3]%Z; qz [2; 4; 6]%Z; qz [-4; -17; -18; -8; -12; -12; -18]%Z]
  /\ (z <- run_prog qc_ops dev 2 st cs ;; Ret (map (fun i => (dv_kind (z i), map this (dv_lender (z i)))) [1; 2]%nat))
     = Ret [(Owned, qz [1; 2; 3]%Z); (Owned, qz [2; 9; 6]%Z)]
  /\ (z <- run_prog qc_ops dev 2 st [CScale 2 (q 2); CAdd 1 0; CSet 2 [1] (q 9)] ;;
      Ret (dv_kind (z 2%nat), vals (z 2%nat), map this (dv_lender (z 2%nat)))) = Ret (BorrowedMut, qz [2; 9; 6]%Z, qz [2; 9; 6]%Z)
  /\ needs_room dev 2 st (CAddMul 2 0 1 (Some 2) : tcmd Qc Qc)
  /\ (forall i, stands_for qc_ops 2 5 (dv_from (dv_elems (st i))) (mk_atensor (Some 1) (wcoef qc_ops 2 (dv_from l)))).
Proof. exact c118_example. Qed.
