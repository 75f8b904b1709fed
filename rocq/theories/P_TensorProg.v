(** Property theorems (generated by tools/gen_props.py from L_PropTensorProg.v, where the proofs are). *)
From Coq Require Import QArith Qcanon Ring_theory Ring.
From Verif Require Import Machine MachineLemmas S_Words L_Words M_TensorKey L_TensorKey M_TensorBasis
  L_TensorBasis M_Scalar M_Vector M_Dense S_Vector S_Tensor I_Scalars L_Dense L_Ring L_PropKey L_PropDense
  M_Algebra L_Algebra L_Conv L_PropAlgebra L_PropProducts L_PropHistory M_Float S_TensorProg.
From Verif Require Import L_PropTensorProg.
Local Open Scope N_scope.

(** * C111: Every program on dense tensors computes in the truncated tensor algebra *)
Theorem C111_refinement : forall (S R : Type) (so : scalar_ops S R) (p : profile) (n D : N) (cs : list (tcmd S R))
    (st : nat -> dvec S) (a : nat -> atensor S),
  field_laws so -> 2 <= n < 2 ^ 32 -> n ^ (D + 1) < 2 ^ 64 ->
  (forall i, stands_for so n D (st i) (a i)) -> Forall (cmd_within n D) cs ->
  match mean_prog so a cs with
  | Ret a' => exists st', run_prog so p n st cs = Ret st' /\ forall i, stands_for so n D (st' i) (a' i)
  | Panic => run_prog so p n st cs = Panic
  | UB => run_prog so p n st cs = UB
  | Diverge => False
  end.
Proof. exact c111_refinement. Qed.
Print Assumptions C111_refinement.
Theorem C111_read : forall (S R : Type) (so : scalar_ops S R) (p : profile) (n D : N) (v : dvec S) (a : atensor S)
    (w : word) (k : tkey),
  2 <= n < 2 ^ 32 -> stands_for so n D v a -> word_ok n w -> tk_from_letters p n w = Ret k ->
  vr_get (dense_ops so (tensor_basis p n)) v k
  = Ret (match t_deg a with
         | Some d => if len w <=? d then Some (t_fun a w) else None
         | None => None
         end).
Proof. exact c111_read. Qed.
Print Assumptions C111_read.
Theorem C111_storage : forall (S R : Type) (so : scalar_ops S R) (p : profile) (n D : N) (cs : list (tcmd S R))
    (st : nat -> dvec S) (a : nat -> option N),
  2 <= n < 2 ^ 32 -> n ^ (D + 1) < 2 ^ 64 ->
  (forall i, shaped n D (st i) (a i)) -> Forall (cmd_within n D) cs ->
  match deg_prog a cs with
  | Ret a' => exists st', run_prog so p n st cs = Ret st' /\ forall i, shaped n D (st' i) (a' i)
  | Panic => run_prog so p n st cs = Panic
  | UB => run_prog so p n st cs = UB
  | Diverge => False
  end.
Proof. exact c111_storage. Qed.
Print Assumptions C111_storage.
Theorem C111_careful : forall (S R : Type) (so : scalar_ops S R) (p : profile) (n D : N) (cs : list (tcmd S R))
    (st : nat -> dvec S),
  2 <= n < 2 ^ 32 -> n ^ (D + 1) < 2 ^ 64 ->
  (forall i, exists d, 1 <= d <= D /\ filled n (st i) d /\ dv_kind (st i) = Owned) ->
  Forall (cmd_within n D) cs -> Forall cmd_careful cs ->
  exists st', run_prog so p n st cs = Ret st'
    /\ forall i, exists d, 1 <= d <= D /\ filled n (st' i) d.
Proof. exact c111_careful. Qed.
Print Assumptions C111_careful.
Theorem C111_same_meaning : forall (S R : Type) (so : scalar_ops S R) (p p' : profile) (n D : N)
    (cs cs' : list (tcmd S R)) (st : nat -> dvec S) (a b b' : nat -> atensor S) (i i' : nat),
  field_laws so -> 2 <= n < 2 ^ 32 -> n ^ (D + 1) < 2 ^ 64 ->
  (forall i, stands_for so n D (st i) (a i)) -> Forall (cmd_within n D) cs -> Forall (cmd_within n D) cs' ->
  mean_prog so a cs = Ret b -> mean_prog so a cs' = Ret b' ->
  t_deg (b i) = t_deg (b' i') -> (forall w, word_ok n w -> t_fun (b i) w = t_fun (b' i') w) ->
  exists z z', run_prog so p n st cs = Ret z /\ run_prog so p' n st cs' = Ret z'
    /\ dv_as_slice (z i) = dv_as_slice (z' i').
Proof. exact c111_same_meaning. Qed.
Print Assumptions C111_same_meaning.
Example C111_example :
  let start := fun _ : nat => @dv_new Qc in
  let cs := [CKey 0 [1] (q 1); CKey 1 [2] (q 2); CComm 2 0 1 (Some 3); CCopy 3 2; CAddMul 3 2 0 (Some 3);
             CSubDivided 3 1 (q 2); CErase 3 [2; 1]] in
  (forall i, stands_for qc_ops 2 5 (start i) (t_zero qc_ops)) /\ 2 ^ (5 + 1) < 2 ^ 64
  /\ Forall (cmd_within 2 5) cs
  /\ (z <- run_prog qc_ops dev 2 start cs ;; Ret (vals (z 3%nat)))
     = Ret (qz [0; 0; -1; 0; 2; 0; 0; 0; 0; 2; 0; -2; 0; 0; 0]%Z)
  /\ (b <- mean_prog qc_ops (fun _ => t_zero qc_ops) cs ;;
      Ret (t_deg (b 3%nat), map (fun w => this (t_fun (b 3%nat) w)) (words_below 2 4)))
     = Ret (Some 3, qz [0; 0; -1; 0; 2; 0; 0; 0; 0; 2; 0; -2; 0; 0; 0]%Z)
  /\ (let cs := [CDegree 0 3; CPairs 1 [([1; 2], q 4); ([2], q 2); ([1; 2], q 6)]; CSet 0 [2] (q 8); CSet 0 [2; 2; 2] (q 8);
                 CSubScaled 0 1 (q 2); CKeyAdd 0 [1] (q 5); CKeySub 0 [1; 2] (q 3); CAddDivided 0 1 (q 2)] in
      Forall (cmd_within 2 5) cs
      /\ (z <- run_prog qc_ops dev 2 start cs ;; Ret (vals (z 0%nat))) = Ret (qz [0; 5; 5; 0; -18; 0; 0]%Z)
      /\ (b <- mean_prog qc_ops (fun _ => t_zero qc_ops) cs ;;
          Ret (t_deg (b 0%nat), map (fun w => this (t_fun (b 0%nat) w)) (words_below 2 3))) = Ret (Some 2, qz [0; 5; 5; 0; -18; 0; 0]%Z))
  /\ run_prog qc_ops release 2 start [CKey 0 [] (q 1); CMul 1 0 0 (Some 3)] = UB
  /\ mean_prog qc_ops (fun _ => t_zero qc_ops) [CKey 0 [] (q 1); CMul 1 0 0 (Some 3)] = UB
  /\ returns (run_prog qc_ops release 2 start [CKey 0 [] (q 1); CCopy 1 0; CAddMul 1 0 0 (Some 3)])
  /\ run_prog qc_ops release 2 start [CKey 0 [1] (q 1); CMul 1 0 0 None] = Panic
  /\ (let so := fl_ops f64 in let one := s_one so in let u := fun _ : nat => dv_from (repeat one 3) in
      let cs := [CKey 0 [1] one; CComm 2 0 1 (Some 3); CCopy 3 2; CAddMul 3 2 0 (Some 3); CDegree 4 3; CPairs 5 [([], one); ([2; 1; 1], one)]] in
      (forall i, shaped 2 5 (u i) (Some 1)) /\ Forall (cmd_within 2 5) cs /\ Forall cmd_careful cs
      /\ (a <- deg_prog (fun _ => Some 1) cs ;; Ret (a 2%nat, a 3%nat)) = Ret (Some 2, Some 3)
      /\ (z <- run_prog so release 2 u cs ;; Ret (dv_size (z 2%nat), dv_size (z 3%nat))) = Ret (7, 15)).
Proof. exact c111_example. Qed.
