(** Property theorems (generated by tools/gen_props.py from L_PropLocal.v, where the proofs are). *)
From Coq Require Import QArith Qcanon.
From Verif Require Import Machine MachineLemmas S_Words M_TensorKey M_TensorBasis M_Scalar M_Vector M_Dense M_Algebra S_Vector S_Tensor I_Scalars
  S_TensorProg S_Borrow L_PropBorrow M_Float S_Float S_ProgSteps L_Dense L_Algebra L_PropDense L_PropFloat L_Conv L_PropProducts L_PropTensorProg L_PropProgFloat
  L_PropSymmetry S_Local.
From Verif Require Import L_PropLocal.
Local Open Scope N_scope.

(** * C124: What a coefficient can depend on *)
Theorem C124_local : forall (S R : Type) (so : scalar_ops S R) (p p' : profile) (n D D' e : N) (W : word -> Prop) (cs cs' : list (tcmd S R)) (st st' : nat -> dvec S),
  2 <= n < 2 ^ 32 -> n ^ (D + 1) < 2 ^ 64 -> n ^ (D' + 1) < 2 ^ 64 -> 1 <= e -> factor_closed W -> (forall w, W w -> len w <= e) ->
  Forall (cmd_within n D) cs -> Forall (cmd_within n D') cs' -> Forall2 (alike W e) cs cs' ->
  (forall i, agree_on W e so n D D' (st i) (st' i)) ->
  same_outcome (fun z z' => forall i, agree_on W e so n D D' (z i) (z' i)) (run_prog so p n st cs) (run_prog so p' n st' cs').
Proof. exact c124_local. Qed.
Print Assumptions C124_local.
Theorem C124_truncation : forall (S R : Type) (so : scalar_ops S R) (p p' : profile) (n D e : N) (cs : list (tcmd S R)) (st : nat -> dvec S),
  2 <= n < 2 ^ 32 -> n ^ (D + 1) < 2 ^ 64 -> 1 <= e -> Forall (cmd_within n D) cs -> (forall i, exists d, shaped n D (st i) d) ->
  same_outcome (fun z z' => forall i w, word_ok n w -> len w <= e -> wcoef so n (z i) w = wcoef so n (z' i) w)
    (run_prog so p n st cs) (run_prog so p' n st (map (lower e) cs)).
Proof. exact c124_truncation. Qed.
Print Assumptions C124_truncation.
Theorem C124_factors : forall (S R : Type) (so : scalar_ops S R) (p : profile) (n D : N) (w : word) (cs : list (tcmd S R)) (st st' z : nat -> dvec S) (i : nat),
  2 <= n < 2 ^ 32 -> n ^ (D + 1) < 2 ^ 64 -> Forall (cmd_within n D) cs -> word_ok n w ->
  (forall i, exists d, shaped n D (st i) d /\ shaped n D (st' i) d) ->
  (forall i u, word_ok n u -> factor w u -> wcoef so n (st i) u = wcoef so n (st' i) u) ->
  run_prog so p n st cs = Ret z ->
  exists z', run_prog so p n st' cs = Ret z' /\ wcoef so n (z i) w = wcoef so n (z' i) w.
Proof. exact c124_factors. Qed.
Print Assumptions C124_factors.
Example C124_example :
  let start := fun _ : nat => @dv_new Qc in
  let prog := fun (x : Z) (t : N) => [CPairs 0 [([], q 4); ([1], q 2); ([2], q 3); ([1; 2], q 6); ([2; 1], q x)]; CKey 1 [2; 2] (q x); CKeyAdd 1 [2] (q 5); CMul 2 0 1 (Some t);
                                      CComm 3 0 2 (Some t); CAddMul 2 3 0 (Some t)] in
  let show := fun v : dvec Qc => map this (dv_elems v) in
  (** up to degree 1 nothing depends on what stands at words of length 2 or on what is computed there *)
  (z <- run_prog qc_ops dev 2 start (prog 7%Z 4) ;; Ret (firstn 3 (show (z 2%nat)), len (show (z 2%nat)))) = Ret ([0; 0; 20]%Q, 31)
  /\ (z <- run_prog qc_ops dev 2 start (map (lower 1) (prog (-1)%Z 4)) ;; Ret (firstn 3 (show (z 2%nat)), len (show (z 2%nat)))) = Ret ([0; 0; 20]%Q, 3)
  (** the coefficient of [1; 2] depends on those of [], [1], [2] and [1; 2], but not on those of [2; 1] and [2; 2] *)
  /\ (z <- run_prog qc_ops dev 2 start (prog 7%Z 4) ;; Ret (nth 4 (show (z 2%nat)) 0%Q)) = Ret 170%Q
  /\ (z <- run_prog qc_ops dev 2 start (prog (-1)%Z 4) ;; Ret (nth 4 (show (z 2%nat)) 0%Q)) = Ret 170%Q.
Proof. exact c124_example. Qed.
