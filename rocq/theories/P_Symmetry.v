(** Property theorems (generated by tools/gen_props.py from L_PropSymmetry.v, where the proofs are). *)
From Coq Require Import QArith Qcanon Ring_theory Ring.
From Verif Require Import Machine MachineLemmas S_Words M_TensorKey M_TensorBasis M_Scalar M_Vector M_Dense M_Algebra S_Vector S_Tensor I_Scalars
  S_TensorProg S_Borrow L_PropBorrow M_Float S_Float S_ProgSteps L_Dense L_Algebra L_PropDense L_PropFloat L_Ring L_Conv L_PropProducts L_PropTensorProg L_PropProgFloat S_Symmetry.
From Verif Require Import L_PropSymmetry.
Local Open Scope N_scope.

(** * C122: Symmetries of programs on tensors *)
Theorem C122_relabel : forall (S R : Type) (so : scalar_ops S R) (p p' : profile) (n m D : N) (s : N -> N) (cs : list (tcmd S R)) (st st' : nat -> dvec S),
  2 <= n < 2 ^ 32 -> n ^ (D + 1) < 2 ^ 64 -> 2 <= m < 2 ^ 32 -> m ^ (D + 1) < 2 ^ 64 -> injects s n m ->
  Forall (cmd_within n D) cs -> Forall (cmd_within m D) (map (rename (map s)) cs) ->
  (forall i, renamed so n m D (map s) (st i) (st' i)) ->
  same_outcome (fun z z' => forall i, renamed so n m D (map s) (z i) (z' i))
    (run_prog so p n st cs) (run_prog so p' m st' (map (rename (map s)) cs)).
Proof. exact c122_relabel. Qed.
Print Assumptions C122_relabel.
Theorem C122_weights : forall (S R : Type) (so : scalar_ops S R) (p p' : profile) (n D : N) (x : N -> S) (cs : list (tcmd S R)) (st st' : nat -> dvec S),
  field_laws so -> 2 <= n < 2 ^ 32 -> n ^ (D + 1) < 2 ^ 64 -> Forall (cmd_within n D) cs ->
  (forall i, weighted so n D x (st i) (st' i)) ->
  same_outcome (fun z z' => forall i, weighted so n D x (z i) (z' i)) (run_prog so p n st cs) (run_prog so p' n st' (map (weigh so x) cs)).
Proof. exact c122_weights. Qed.
Print Assumptions C122_weights.
Theorem C122_backwards : forall (S R : Type) (so : scalar_ops S R) (p p' : profile) (n D : N) (cs : list (tcmd S R)) (st st' : nat -> dvec S),
  field_laws so -> 2 <= n < 2 ^ 32 -> n ^ (D + 1) < 2 ^ 64 -> Forall (cmd_within n D) cs ->
  (forall i, renamed so n n D (@rev N) (st i) (st' i)) ->
  same_outcome (fun z z' => forall i, renamed so n n D (@rev N) (z i) (z' i)) (run_prog so p n st cs) (run_prog so p' n st' (map backwards cs)).
Proof. exact c122_backwards. Qed.
Print Assumptions C122_backwards.
Example C122_example :
  let s := fun a => if a =? 1 then 3 else 1 in
  let x := fun a => if a =? 1 then q 2 else q 3 in
  let start := fun _ : nat => @dv_new Qc in
  let cs := [CPairs 0 [([], q 4); ([1], q 2); ([2; 1], q 3)]; CKey 1 [2] (q 5); CMul 2 0 1 (Some 3); CSubMul 2 1 0 (Some 2); CErase 2 [2; 1]] in
  let coefs := fun n ws r => z <- r ;; Ret (map (fun w => this (wcoef qc_ops n (z 2%nat) w)) ws) in
  injects s 2 3
  /\ coefs 2 [[1]; [2]; [1; 2]; [2; 1]; [2; 1; 2]] (run_prog qc_ops dev 2 start cs) = Ret (qz [0; 0; 10; 0; 15]%Z)
  /\ coefs 3 [[3]; [1]; [3; 1]; [1; 3]; [1; 3; 1]; [2; 1; 2]] (run_prog qc_ops dev 3 start (map (rename (map s)) cs)) = Ret (qz [0; 0; 10; 0; 15; 0]%Z)
  /\ coefs 2 [[1]; [2]; [1; 2]; [2; 1]; [2; 1; 2]] (run_prog qc_ops dev 2 start (map (weigh qc_ops x) cs)) = Ret (qz [0; 0; 60; 0; 270]%Z)
  /\ coefs 2 [[1]; [2]; [2; 1]; [1; 2]; [2; 1; 2]] (run_prog qc_ops dev 2 start (map backwards cs)) = Ret (qz [0; 0; 10; 0; 15]%Z).
Proof. exact c122_example. Qed.
