(** Property theorems (generated by tools/gen_props.py from L_PropInplace.v, where the proofs are). *)
From Coq Require Import QArith Qcanon.
From Verif Require Import Machine MachineLemmas S_Words L_Words M_TensorKey L_TensorKey M_TensorBasis
  L_TensorBasis M_Scalar M_Vector M_Dense S_Vector S_Tensor I_Scalars L_Dense L_Ring L_PropKey L_PropDense
  M_Algebra L_Algebra L_Conv L_PropAlgebra L_PropProducts L_Inplace.
From Verif Require Import L_PropInplace.
Local Open Scope N_scope.

(** * C63: What the in-place products do *)
Theorem C63_degree_zero : forall (S R : Type) (so : scalar_ops S R) (p : profile) (n t l r : N) (func : S -> S)
    (x y : dvec S),
  let m := N.min t (l + r) in
  2 <= n -> filled n x l -> filled n y r ->
  n ^ (l + 1) < 2 ^ 64 -> n ^ (r + 1) < 2 ^ 64 -> n ^ (m + 1) < 2 ^ 64 ->
  m = 0 -> multiply_into_impl so p n x y func (Some t) = Ret x.
Proof. exact c63_degree_zero. Qed.
Print Assumptions C63_degree_zero.
Theorem C63_scalar : forall (S R : Type) (so : scalar_ops S R) (p : profile) (n t l : N) (func : S -> S)
    (x y : dvec S),
  let m := N.min t l in let c := coef so y 0 in
  let run := multiply_into_impl so p n x y func (Some t) in
  2 <= n -> filled n x l -> filled n y 0 -> n ^ (l + 1) < 2 ^ 64 -> 1 <= m ->
  (s_eqb so c (s_zero so) = true -> run = UB)
  /\ (s_eqb so c (s_zero so) = false -> s_eqb so c (s_one so) = true -> run = Ret x)
  /\ (s_eqb so c (s_zero so) = false -> s_eqb so c (s_one so) = false ->
      exists z, run = Ret z /\ filled n z l
        /\ forall w, word_ok n w -> wcoef so n z w =
             if (1 <=? len w) && (len w <=? m) then func (s_mul so (wcoef so n x w) c) else wcoef so n x w).
Proof. exact c63_scalar. Qed.
Print Assumptions C63_scalar.
Theorem C63_degree_one : forall (S R : Type) (so : scalar_ops S R) (p : profile) (n t l : N) (func : S -> S)
    (x y : dvec S),
  let m := N.min t (l + 1) in let c := coef so y 0 in
  let run := multiply_into_impl so p n x y func (Some t) in
  overflow_checks p = true ->
  2 <= n -> filled n x l -> filled n y 1 -> n ^ (l + 1) < 2 ^ 64 -> n ^ (m + 1) < 2 ^ 64 -> n ^ 2 < 2 ^ 64 -> 1 <= m ->
  (s_eqb so c (s_zero so) = true \/ s_eqb so c (s_one so) = true -> run = UB)
  /\ (s_eqb so c (s_zero so) = false -> s_eqb so c (s_one so) = false ->
      (l = 0 -> run = Panic)
      /\ (1 <= l -> ~ (l = 1 /\ m = 2) -> ~ (2 <= l /\ m = 1) -> run = UB)
      /\ (l = 1 -> m = 2 -> exists z, run = Ret z /\ filled n z 2
            /\ forall i, coef so z i =
                 let v := if i =? 0 then coef so x 0
                          else if i <=? n then func (s_mul so (coef so x i) c)
                          else if i <=? n + n * n
                          then fold_left (fun a b => func (s_mul so a b)) (degree_block n y 1) (s_zero so)
                          else s_zero so in
                 if (2 <=? i) && (i <=? n + 1)
                 then s_add so v (func (s_mul so (coef so x 0) (coef so y (i - 1)))) else v)
      /\ (2 <= l -> m = 1 -> exists z, run = Ret z /\ filled n z l
            /\ forall i, coef so z i =
                 let v := if (1 <=? i) && (i <=? n) then func (s_mul so (coef so x i) c) else coef so x i in
                 if (2 <=? i) && (i <=? n + 1)
                 then s_add so v (func (s_mul so (coef so x 0) (coef so y (i - 1)))) else v)).
Proof. exact c63_degree_one. Qed.
Print Assumptions C63_degree_one.
Theorem C63_degree_two_and_more : forall (S R : Type) (so : scalar_ops S R) (p : profile) (n t l r : N) (func : S -> S)
    (x y : dvec S),
  let m := N.min t (l + r) in
  overflow_checks p = true ->
  2 <= n -> filled n x l -> filled n y r -> n ^ (l + 1) < 2 ^ 64 -> n ^ (r + 1) < 2 ^ 64 -> n ^ (m + 1) < 2 ^ 64 ->
  1 <= m -> 2 <= r -> ~ returns (multiply_into_impl so p n x y func (Some t)).
Proof. exact c63_degree_two_and_more. Qed.
Print Assumptions C63_degree_two_and_more.
Example C63_example :
  let x := dv_from (map q [1; 2; 3]%Z) in let y := dv_from (map q [5; 7; 11]%Z) in
  let run x y t := z <- multiply_into_impl qc_ops dev 2 x y (fun v => v) (Some t) ;; Ret (vals z) in
  run x y 2 = Ret (qz [1; 10; 22; 11; 0; 0; 0]%Z)          (* l = 1, r = 1, m = 2 *)
  /\ run x y 1 = UB                                         (* l = 1, r = 1, m = 1 *)
  /\ run (dv_from (map q [1; 2; 3; 1; 1; 1; 1]%Z)) y 1 = Ret (qz [1; 10; 22; 12; 1; 1; 1]%Z)
  /\ run (dv_from [q 2]) y 1 = Panic
  /\ run x (dv_from (map q [1; 7; 11]%Z)) 2 = UB
  /\ run x (dv_from [q 4]) 1 = Ret (qz [1; 8; 12]%Z)
  /\ run x (dv_from (map q [2; 3; 1; 1; 1; 1; 1]%Z)) 2 = UB
  /\ run x (dv_from (map q [2; 3; 1; 1; 1; 1; 1]%Z)) 1 = Panic.
Proof. exact c63_example. Qed.

(** * C35: multiply_inplace equals multiply *)
Theorem C35_inplace_refuted : exists (x y : dvec Qc), filled 2 x 1 /\ filled 2 y 0
  /\ forall p, (z <- alg_multiply qc_ops p 2 x y (Some 1) ;; Ret (vals z)) = Ret (qz [5; 10; 15]%Z)
     /\ (z <- alg_multiply_inplace qc_ops p 2 x y (Some 1) ;; Ret (vals z)) = Ret (qz [1; 10; 15]%Z).
Proof. exact c35_inplace_refuted. Qed.
Print Assumptions C35_inplace_refuted.
Theorem C35_empty_word : forall (S R : Type) (so : scalar_ops S R) (p : profile) (n t l r : N) (x y z : dvec S),
  let m := N.min t (l + r) in
  overflow_checks p = true ->
  2 <= n -> filled n x l -> filled n y r -> n ^ (l + 1) < 2 ^ 64 -> n ^ (r + 1) < 2 ^ 64 -> n ^ (m + 1) < 2 ^ 64 ->
  alg_multiply_inplace so p n x y (Some t) = Ret z -> wcoef so n z [] = wcoef so n x [].
Proof. exact c35_empty_word. Qed.
Print Assumptions C35_empty_word.
Theorem C35_scalar_partial : forall (S R : Type) (so : scalar_ops S R) (p : profile) (n t l : N) (x y : dvec S),
  ring_laws so -> 2 <= n -> filled n x l -> filled n y 0 -> n ^ (l + 1) < 2 ^ 64 -> 1 <= l <= t ->
  coef so y 0 <> s_zero so -> coef so y 0 = s_one so \/ wcoef so n x [] = s_zero so ->
  exists z z', alg_multiply_inplace so p n x y (Some t) = Ret z /\ alg_multiply so p n x y (Some t) = Ret z'
    /\ dv_elems z = dv_elems z'.
Proof. exact c35_scalar_partial. Qed.
Print Assumptions C35_scalar_partial.
Example C35_example : let x := dv_from (map q [0; 2; 3]%Z) in let y := dv_from [q 5] in
  (z <- alg_multiply_inplace qc_ops dev 2 x y (Some 1) ;; Ret (vals z)) = Ret (qz [0; 10; 15]%Z)
  /\ (z <- alg_multiply qc_ops dev 2 x y (Some 1) ;; Ret (vals z)) = Ret (qz [0; 10; 15]%Z)
  /\ filled 2 x 1 /\ filled 2 y 0.
Proof. exact c35_example. Qed.

(** * C36: Scaled in-place products scale as documented by their names *)
Theorem C36_scaled_refuted : exists (x : dvec Qc), filled 2 x 1 /\ forall p,
  (z <- alg_mul_scal_lprod qc_ops p 2 x (dv_from [q 1]) (q 2) (Some 1) ;; Ret (vals z)) = Ret (qz [0; 2; 3]%Z)
  /\ (z <- alg_mul_scal_rprod qc_ops p 2 x (dv_from [q 1]) (q 2) (Some 1) ;; Ret (vals z)) = Ret (qz [0; 2; 3]%Z)
  /\ (z <- alg_mul_rat_ldiv qc_ops p 2 x (dv_from [q 1]) (q 2) (Some 1) ;; Ret (vals z)) = Ret (qz [0; 2; 3]%Z)
  /\ (z <- alg_mul_rat_ldiv qc_ops p 2 x (dv_from [q 4]) (q 2) (Some 1) ;; Ret (vals z)) = Ret (qz [0; 4; 6]%Z)
  /\ (z <- alg_mul_rat_rdiv qc_ops p 2 x (dv_from [q 4]) (q 2) (Some 1) ;; Ret (vals z)) = Ret (qz [0; 16; 24]%Z).
Proof. exact c36_scaled_refuted. Qed.
Print Assumptions C36_scaled_refuted.
Theorem C36_unit_not_scaled : forall (S R : Type) (so : scalar_ops S R) (p : profile) (n t l : N) (x y : dvec S) (s : S) (r : R),
  2 <= n -> filled n x l -> filled n y 0 -> n ^ (l + 1) < 2 ^ 64 -> 1 <= N.min t l ->
  s_eqb so (coef so y 0) (s_zero so) = false -> s_eqb so (coef so y 0) (s_one so) = true ->
  alg_mul_scal_lprod so p n x y s (Some t) = Ret x /\ alg_mul_scal_rprod so p n x y s (Some t) = Ret x
  /\ alg_mul_rat_ldiv so p n x y r (Some t) = Ret x /\ alg_mul_rat_rdiv so p n x y s (Some t) = Ret x.
Proof. exact c36_unit_not_scaled. Qed.
Print Assumptions C36_unit_not_scaled.
Theorem C36_scaled_partial : forall (S R : Type) (so : scalar_ops S R) (p : profile) (n t l : N) (x y : dvec S) (s : S) (r : R),
  let m := N.min t l in let c := coef so y 0 in
  let scaled (run : outcome (dvec S)) f := exists z, run = Ret z /\ filled n z l
    /\ forall w, word_ok n w -> wcoef so n z w =
         if (1 <=? len w) && (len w <=? m) then f (s_mul so (wcoef so n x w) c) else wcoef so n x w in
  2 <= n -> filled n x l -> filled n y 0 -> n ^ (l + 1) < 2 ^ 64 -> 1 <= m ->
  s_eqb so c (s_zero so) = false -> s_eqb so c (s_one so) = false ->
  scaled (alg_mul_scal_lprod so p n x y s (Some t)) (fun v => s_mul so s v)
  /\ scaled (alg_mul_scal_rprod so p n x y s (Some t)) (fun v => s_mul so v s)
  /\ scaled (alg_mul_rat_ldiv so p n x y r (Some t)) (fun v => s_div so v r)
  /\ scaled (alg_mul_rat_rdiv so p n x y s (Some t)) (fun v => s_mul so v s).
Proof. exact c36_scaled_partial. Qed.
Print Assumptions C36_scaled_partial.
Example C36_example : let x := dv_from (map q [1; 2; 3]%Z) in
  (z <- alg_mul_scal_lprod qc_ops dev 2 x (dv_from [q 5]) (q 2) (Some 1) ;; Ret (vals z)) = Ret (qz [1; 20; 30]%Z)
  /\ (z <- alg_mul_scal_rprod qc_ops release 2 x (dv_from [q 5]) (q 2) (Some 1) ;; Ret (vals z)) = Ret (qz [1; 20; 30]%Z).
Proof. exact c36_example. Qed.
