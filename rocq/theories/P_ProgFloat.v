(** Property theorems (generated by tools/gen_props.py from L_PropProgFloat.v, where the proofs are). *)
From Coq Require Import ZArith QArith Qabs Lqa SpecFloat.
From Verif Require Import Machine MachineLemmas S_Words L_Words M_TensorKey L_TensorKey M_TensorBasis L_TensorBasis
  M_Scalar M_Vector M_Dense M_Algebra S_Vector S_Tensor L_Dense L_PropDense L_Conv M_Float S_Float L_Float L_FloatInt L_FloatOps L_FloatSum L_PropFloat L_PropRound
  L_PropCommFloat L_Algebra L_PropAlgebra L_PropProducts S_TensorProg L_PropTensorProg S_ProgSteps L_ProgSteps L_ProgRel L_ProgError L_ProgInt.
From Verif Require Import L_PropProgFloat.
Local Open Scope N_scope.

(** * C114: Which scalar operations a program on dense tensors performs *)
Theorem C114_steps : forall (S R : Type) (so : scalar_ops S R) (p : profile) (n D : N) (cs : list (tcmd S R))
    (st : nat -> dvec S) (a : nat -> atensor S),
  2 <= n < 2 ^ 32 -> n ^ (D + 1) < 2 ^ 64 ->
  (forall i, stands_for so n D (st i) (a i)) -> Forall (cmd_within n D) cs ->
  match step_prog so a cs with
  | Ret a' => exists st', run_prog so p n st cs = Ret st' /\ forall i, stands_for so n D (st' i) (a' i)
  | Panic => run_prog so p n st cs = Panic
  | UB => run_prog so p n st cs = UB
  | Diverge => False
  end.
Proof. exact c114_steps. Qed.
Print Assumptions C114_steps.
Theorem C114_same_in_every_build : forall (S R : Type) (so : scalar_ops S R) (p p' : profile) (n D : N)
    (cs : list (tcmd S R)) (st z : nat -> dvec S),
  2 <= n < 2 ^ 32 -> n ^ (D + 1) < 2 ^ 64 ->
  (forall i, exists d, shaped n D (st i) d) -> Forall (cmd_within n D) cs ->
  run_prog so p n st cs = Ret z ->
  exists z', run_prog so p' n st cs = Ret z' /\ forall i, dv_as_slice (z i) = dv_as_slice (z' i).
Proof. exact c114_same_in_every_build. Qed.
Print Assumptions C114_same_in_every_build.

(** * C115: Rounding errors of every program on floating point tensors *)
Theorem C115_error : forall (f : fmt) (p : profile) (n D : N) (cs : list (tcmd spec_float spec_float))
    (st : nat -> dvec spec_float) (v : nat -> atensor Q) (e : nat -> word -> Q),
  f = f32 \/ f = f64 -> 2 <= n < 2 ^ 32 -> n ^ (D + 1) < 2 ^ 64 ->
  (forall i, knows f n D (st i) (v i) (e i)) ->
  Forall (cmd_within n D) cs -> Forall (cmd_finite f) cs ->
  match mean_prog q_ops v (map exact_cmd cs) with
  | Ret v' => exists st' k', run_prog (fl_ops f) p n st cs = Ret st'
      /\ know_prog f (mk_known v e) cs = Ret k' /\ v_exact k' = v'
      /\ forall i, knows f n D (st' i) (v' i) (v_error k' i)
  | Panic => run_prog (fl_ops f) p n st cs = Panic
  | UB => run_prog (fl_ops f) p n st cs = UB
  | Diverge => False
  end.
Proof. exact c115_error. Qed.
Print Assumptions C115_error.
Theorem C115_finite : forall (f : fmt) (p : profile) (n D : N) (cs : list (tcmd spec_float spec_float))
    (st st' : nat -> dvec spec_float) (v : nat -> atensor Q) (e : nat -> word -> Q),
  f = f32 \/ f = f64 -> 2 <= n < 2 ^ 32 -> n ^ (D + 1) < 2 ^ 64 ->
  (forall i, knows f n D (st i) (v i) (e i)) ->
  (forall i w, word_ok n w -> finite (wcoef (fl_ops f) n (st i) w)) ->
  Forall (cmd_within n D) cs -> Forall (cmd_finite f) cs -> no_overflow f n (mk_known v e) cs ->
  run_prog (fl_ops f) p n st cs = Ret st' ->
  forall i w, word_ok n w -> finite (wcoef (fl_ops f) n (st' i) w).
Proof. exact c115_finite. Qed.
Print Assumptions C115_finite.

(** * C116: Integer programs on floating point tensors are exact *)
Theorem C116_integers : forall (f : fmt) (p : profile) (n D : N) (cs : list (tcmd spec_float spec_float))
    (st : nat -> dvec spec_float) (v : nat -> atensor Q),
  f = f32 \/ f = f64 -> 2 <= n < 2 ^ 32 -> n ^ (D + 1) < 2 ^ 64 ->
  (forall i, is_exactly f n D (st i) (v i)) ->
  Forall (cmd_within n D) cs -> Forall (cmd_integer f) cs -> sizes_fit f n v cs ->
  match mean_prog q_ops v (map exact_cmd cs) with
  | Ret v' => exists st', run_prog (fl_ops f) p n st cs = Ret st' /\ forall i, is_exactly f n D (st' i) (v' i)
  | Panic => run_prog (fl_ops f) p n st cs = Panic
  | UB => run_prog (fl_ops f) p n st cs = UB
  | Diverge => False
  end.
Proof. exact c116_integers. Qed.
Print Assumptions C116_integers.

(** * C114: Which scalar operations a program on dense tensors performs *)
Example C114_example :
  let so := fl_ops f64 in let z := fl_of_Z f64 in
  let st := fun i : nat => dv_from (map z (if Nat.eqb i 0 then [1; 1; 0; 9007199254740992; 0; 0; 0] else [1; 1; 0; -9007199254740992; 0; 0; 0])%Z) in
  let a := fun i => mk_atensor (Some 2) (wcoef so 2 (st i)) in
  let cs := [CMul 2 0 1 (Some 2); CMul 3 1 0 (Some 2); CSubMul 2 1 0 (Some 2)] in
  (forall i, stands_for so 2 4 (st i) (a i)) /\ Forall (cmd_within 2 4) cs
  /\ (x <- run_prog so release 2 st (firstn 2 cs) ;; Ret (map (fun i => wcoef so 2 (x i) [1; 1]) [2; 3]%nat)) = Ret (map z [0; 1]%Z)
  /\ (x <- step_prog so a (firstn 2 cs) ;; Ret (map (fun i => t_fun (x i) [1; 1]) [2; 3]%nat)) = Ret (map z [0; 1]%Z)
  /\ (x <- run_prog so dev 2 st cs ;; Ret (dv_elems (x 2%nat)))
     = (x <- step_prog so a cs ;; Ret (map (t_fun (x 2%nat)) (words_below 2 3))).
Proof. exact c114_example. Qed.

(** * C115: Rounding errors of every program on floating point tensors *)
Example C115_example :
  let f := f32 in let so := fl_ops f in let st := fun _ : nat => @dv_new spec_float in
  let k := mk_known (fun _ => t_zero q_ops) (fun _ _ => 0%Q) in let cs := some_prog f in
  (forall i, knows f 2 4 (st i) (v_exact k i) (v_error k i)) /\ Forall (cmd_within 2 4) cs /\ Forall (cmd_finite f) cs
  /\ no_overflow f 2 k cs
  (* the coefficient of 1 2 is not exact, but the bound for the error is small *)
  /\ (z <- run_prog so release 2 st cs ;; k' <- know_prog f k cs ;;
      Ret (Qeq_bool (fl_val (wcoef so 2 (z 2%nat) [1; 2])) (t_fun (v_exact k' 2%nat) [1; 2]),
           Qle_bool (v_error k' 2%nat [1; 2]) (1 # 100000))) = Ret (false, true).
Proof. exact c115_example. Qed.

(** * C116: Integer programs on floating point tensors are exact *)
Example C116_example :
  let f := f32 in let so := fl_ops f in let st := fun _ : nat => @dv_new spec_float in
  let v := fun _ : nat => t_zero q_ops in let cs := int_prog f in
  (forall i, is_exactly f 2 4 (st i) (v i)) /\ Forall (cmd_within 2 4) cs /\ Forall (cmd_integer f) cs
  /\ sizes_fit f 2 v cs
  /\ (z <- run_prog so release 2 st cs ;; Ret (map (fl_value) (dv_elems (z 2%nat))))
     = (x <- mean_prog q_ops v (map exact_cmd cs) ;; Ret (map (fun w => fl_value (fl_of_Z f (Qnum (Qred (t_fun (x 2%nat) w))))) (words_below 2 4)))
  (* squares of 5000 do not fit *)
  /\ exists z, run_prog so release 2 st [CKey 0 [1] (fl_of_Z f 5001); CMul 1 0 0 (Some 2)] = Ret z
       /\ wcoef so 2 (z 1%nat) [1; 1] = fl_of_Z f 25010000.
Proof. exact c116_example. Qed.
