(** Property theorems (generated by tools/gen_props.py from L_PropFloat.v, where the proofs are). *)
From Coq Require Import ZArith QArith Qabs Qpower SpecFloat.
From Verif Require Import Machine MachineLemmas M_Scalar M_Vector M_Dense M_TensorBasis S_Vector L_Dense L_PropDense
  M_Float S_Float L_Float L_FloatDegree L_FloatInt S_Words L_Words L_TensorBasis S_Tensor M_Algebra L_Algebra
  L_PropAlgebra.
From Verif Require Import L_PropFloat.
Local Open Scope N_scope.

(** * C53: f32/f64 scalars *)
Theorem C53_laws : forall (f : fmt), f = f32 \/ f = f64 ->
  let so := fl_ops f in
  (forall x y, s_add so x y = s_add so y x)
  /\ (forall x y, s_mul so x y = s_mul so y x)
  /\ (forall x, s_uminus so (s_uminus so x) = x)
  /\ (forall x, is_float f x -> s_mul so x (s_one so) = x /\ s_mul so (s_one so) x = x /\ s_div so x (s_one so) = x)
  /\ (forall x y, s_sub so x y = s_add so x (s_uminus so y))
  /\ s_mone so = s_uminus so (s_one so).
Proof. exact c53_laws. Qed.
Print Assumptions C53_laws.
Theorem C53_closed : forall (f : fmt), f = f32 \/ f = f64 ->
  let so := fl_ops f in
  is_float f (s_zero so) /\ is_float f (s_one so) /\ is_float f (s_mone so)
  /\ (forall d, is_float f (s_from_degree so d))
  /\ (forall x, is_float f x -> is_float f (s_uminus so x) /\ is_float f (s_inv so x))
  /\ (forall x y, is_float f x -> is_float f y ->
        is_float f (s_add so x y) /\ is_float f (s_sub so x y) /\ is_float f (s_mul so x y) /\ is_float f (s_div so x y)).
Proof. exact c53_closed. Qed.
Print Assumptions C53_closed.
Theorem C53_f64_from_degree : forall d : N, d < 2 ^ 32 -> has_value (s_from_degree (fl_ops f64) d) (Q_of_N d).
Proof. exact c53_f64_from_degree. Qed.
Print Assumptions C53_f64_from_degree.
Theorem C53_f32_from_degree_partial : forall d : N, d <= 2 ^ 24 -> has_value (s_from_degree (fl_ops f32) d) (Q_of_N d).
Proof. exact c53_f32_from_degree_partial. Qed.
Print Assumptions C53_f32_from_degree_partial.
Theorem C53_f32_from_degree_refuted : exists d : N, d < 2 ^ 32 /\ ~ has_value (s_from_degree (fl_ops f32) d) (Q_of_N d).
Proof. exact c53_f32_from_degree_refuted. Qed.
Print Assumptions C53_f32_from_degree_refuted.
Example C53_example :
  let so := fl_ops f32 in
  let x := S754_finite true 12582912 (-23) in                      (* -1.5 *)
  is_float f32 x /\ has_value x (-3 # 2) /\ has_value (s_one so) 1
  /\ has_value (s_sub so x (s_one so)) (-5 # 2) /\ has_value (s_div so x (s_from_degree so 3)) (-1 # 2)
  /\ has_value (s_from_degree so 16777217) 16777216
  /\ has_value (s_inv (fl_ops f64) (s_from_degree (fl_ops f64) 4)) (1 # 4).
Proof. exact c53_example. Qed.

(** * C78: from_degree rounds to a nearest floating point number *)
Theorem C78_from_degree_nearest : forall (f : fmt) (d : N), f = f32 \/ f = f64 -> d < 2 ^ 32 ->
  exists v, has_value (s_from_degree (fl_ops f) d) v /\
    forall x w, is_float f x -> has_value x w -> (Qabs (v - Q_of_N d) <= Qabs (w - Q_of_N d))%Q.
Proof. exact c78_from_degree_nearest. Qed.
Print Assumptions C78_from_degree_nearest.
Theorem C78_exact_iff : forall (f : fmt) (d : N), f = f32 \/ f = f64 -> d < 2 ^ 32 ->
  (has_value (s_from_degree (fl_ops f) d) (Q_of_N d) <-> exists x, is_float f x /\ has_value x (Q_of_N d)).
Proof. exact c78_exact_iff. Qed.
Print Assumptions C78_exact_iff.
Example C78_example :
  has_value (s_from_degree (fl_ops f32) 4294967295) 4294967296
  /\ is_float f32 (S754_finite false 16777215 8) /\ has_value (S754_finite false 16777215 8) 4294967040
  /\ (Qabs (4294967296 - Q_of_N 4294967295) == 1)%Q /\ (Qabs (4294967040 - Q_of_N 4294967295) == 255)%Q.
Proof. exact c78_example. Qed.

(** * C79: Which ring laws f32 and f64 have *)
Theorem C79_which_laws : forall (f : fmt), f = f32 \/ f = f64 ->
  let so := fl_ops f in
  (forall x, s_add so (s_zero so) x = x <-> x <> S754_zero true)
  /\ (forall x, s_add so x (s_uminus so x) = s_zero so <-> finite x)
  /\ (forall x, s_eqb so x x = true <-> x <> S754_nan)
  /\ (forall x y, s_eqb so x y = true <-> (x = y /\ x <> S754_nan) \/ (has_value x 0 /\ has_value y 0)).
Proof. exact c79_which_laws. Qed.
Print Assumptions C79_which_laws.
Theorem C79_not_associative : forall (f : fmt), f = f32 \/ f = f64 ->
  let so := fl_ops f in
  (exists x y z, is_float f x /\ is_float f y /\ is_float f z /\
     finite (s_add so x (s_add so y z)) /\ finite (s_add so (s_add so x y) z) /\
     s_eqb so (s_add so x (s_add so y z)) (s_add so (s_add so x y) z) = false)
  /\ (exists x y z, is_float f x /\ is_float f y /\ is_float f z /\
     finite (s_mul so x (s_mul so y z)) /\ finite (s_mul so (s_mul so x y) z) /\
     s_eqb so (s_mul so x (s_mul so y z)) (s_mul so (s_mul so x y) z) = false)
  /\ (exists x y z, is_float f x /\ is_float f y /\ is_float f z /\
     finite (s_mul so (s_add so x y) z) /\ finite (s_add so (s_mul so x z) (s_mul so y z)) /\
     s_eqb so (s_mul so (s_add so x y) z) (s_add so (s_mul so x z) (s_mul so y z)) = false)
  /\ ~ ring_laws so.
Proof. exact c79_not_associative. Qed.
Print Assumptions C79_not_associative.
Example C79_example :
  let so := fl_ops f64 in
  s_eqb so (s_add so (s_zero so) (S754_zero true)) (S754_zero true) = true
  /\ s_add so (s_zero so) (S754_zero true) = S754_zero false
  /\ s_add so (S754_infinity true) (s_uminus so (S754_infinity true)) = S754_nan
  /\ s_eqb so S754_nan S754_nan = false.
Proof. exact c79_example. Qed.

(** * C80: Adding and subtracting dense vectors of floats *)
Theorem C80_add_commutes : forall (f : fmt) (K : Type) (ob : obasis K) (x y : dvec spec_float), f = f32 \/ f = f64 ->
  let vo := dense_ops (fl_ops f) ob in
  exists a b, vd_add vo x y = Ret a /\ vd_add vo y x = Ret b
    /\ dv_size a = dv_size b
    /\ (forall i, fl_same (coef (fl_ops f) a i) (coef (fl_ops f) b i))
    /\ (dv_size x = dv_size y -> dv_as_slice a = dv_as_slice b).
Proof. exact c80_add_commutes. Qed.
Print Assumptions C80_add_commutes.
Theorem C80_sub_self : forall (f : fmt) (K : Type) (ob : obasis K) (x : dvec spec_float), f = f32 \/ f = f64 ->
  exists z, vd_sub (dense_ops (fl_ops f) ob) x x = Ret z /\ dv_size z = dv_size x
    /\ forall i, (finite (coef (fl_ops f) x i) -> coef (fl_ops f) z i = s_zero (fl_ops f))
              /\ (~ finite (coef (fl_ops f) x i) -> coef (fl_ops f) z i = S754_nan).
Proof. exact c80_sub_self. Qed.
Print Assumptions C80_sub_self.
Theorem C80_not_associative : forall (f : fmt) (K : Type) (ob : obasis K), f = f32 \/ f = f64 ->
  let vo := dense_ops (fl_ops f) ob in
  exists x y z a b, (forall i, i < 1 -> finite (coef (fl_ops f) x i) /\ finite (coef (fl_ops f) y i) /\ finite (coef (fl_ops f) z i))
    /\ (u <- vd_add vo x y ;; vd_add vo u z) = Ret a /\ (u <- vd_add vo y z ;; vd_add vo x u) = Ret b
    /\ dv_eq (fl_ops f) a b = false.
Proof. exact c80_not_associative. Qed.
Print Assumptions C80_not_associative.
Example C80_example :
  let vo := dense_ops (fl_ops f32) (tensor_basis dev 2) in
  vd_add vo (dv_from [S754_zero true]) (dv_from []) = Ret (dv_from [S754_zero true])
  /\ vd_add vo (dv_from []) (dv_from [S754_zero true]) = Ret (dv_from [S754_zero false])
  /\ vd_sub vo (dv_from [S754_infinity true]) (dv_from [S754_infinity true]) = Ret (dv_from [S754_nan]).
Proof. exact c80_example. Qed.

(** * C81: Integer tensors in floating point are multiplied exactly *)
Theorem C81_integer_product : forall (f : fmt) (p : profile) (n : N) (x y : dvec spec_float) (A B : word -> Z) (l r t : N),
  let m := N.min t (l + r) in
  f = f32 \/ f = f64 ->
  2 <= n -> 1 <= m -> has_degree n x l -> has_degree n y r ->
  n ^ (l + 1) < 2 ^ 64 -> n ^ (r + 1) < 2 ^ 64 -> n ^ (m + 1) < 2 ^ 64 ->
  stored_to n x (N.min m l) -> stored_to n y (N.min m r) ->
  (forall w, word_ok n w -> fl_int f (wcoef (fl_ops f) n x w) (A w) /\ fl_int f (wcoef (fl_ops f) n y w) (B w)) ->
  exists z, alg_multiply (fl_ops f) p n x y (Some t) = Ret z /\ filled n z m
    /\ forall w, word_ok n w -> len w <= m -> (zsize A B w < 2 ^ f_prec f)%Z ->
         fl_int f (wcoef (fl_ops f) n z w) (zconv A B w).
Proof. exact c81_integer_product. Qed.
Print Assumptions C81_integer_product.
Theorem C81_integer_sum : forall (f : fmt) (K : Type) (ob : obasis K) (x y : dvec spec_float) (A B : N -> Z),
  f = f32 \/ f = f64 ->
  (forall i, fl_int f (coef (fl_ops f) x i) (A i) /\ fl_int f (coef (fl_ops f) y i) (B i)) ->
  exists a, vd_add (dense_ops (fl_ops f) ob) x y = Ret a
    /\ forall i, (Z.abs (A i + B i) < 2 ^ f_prec f)%Z -> fl_int f (coef (fl_ops f) a i) (A i + B i).
Proof. exact c81_integer_sum. Qed.
Print Assumptions C81_integer_sum.
Example C81_example :
  let v l := dv_from (map (fl_of_Z f32) l) in
  alg_multiply (fl_ops f32) dev 2 (v [1; 2; -3]%Z) (v [5; 7; 11]%Z) (Some 2) = Ret (v [5; 17; -4; 14; 22; -21; -33]%Z)
  /\ has_degree 2 (v [1; 2; -3]%Z) 1 /\ stored_to 2 (v [1; 2; -3]%Z) 1
  /\ (forall i, fl_int f32 (coef (fl_ops f32) (v [1; 2; -3]%Z) i) (nth (N.to_nat i) [1; 2; -3]%Z 0%Z))
  /\ ~ (exists z, alg_multiply (fl_ops f32) dev 2 (v [4097; 0; 0]%Z) (v [4097; 0; 0]%Z) (Some 1) = Ret z
                   /\ has_value (coef (fl_ops f32) z 0) (inject_Z 16785409)).
Proof. exact c81_example. Qed.
