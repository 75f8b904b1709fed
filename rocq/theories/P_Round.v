(** Property theorems (generated by tools/gen_props.py from L_PropRound.v, where the proofs are). *)
From Coq Require Import ZArith QArith Qabs Qpower Lqa SpecFloat.
From Verif Require Import Machine MachineLemmas M_Scalar M_Vector M_Dense M_TensorBasis S_Vector L_Dense L_PropDense
  M_Float S_Float L_Float L_FloatDegree L_FloatInt L_FloatRound L_FloatOps L_FloatUnique L_FloatSum S_Words L_Words L_TensorBasis S_Tensor
  M_Algebra L_Algebra L_PropAlgebra L_PropFloat.
From Verif Require Import L_PropRound.
Local Open Scope N_scope.

(** * C84: f32 and f64 scalars and dense vectors over them are correctly rounded *)
Theorem C84_operations : forall (f : fmt) (x y : spec_float) (a b : Q), f = f32 \/ f = f64 ->
  let so := fl_ops f in
  is_float f x -> is_float f y -> has_value x a -> has_value y b ->
  rounds_to f (a + b) (s_add so x y)
  /\ rounds_to f (a - b) (s_sub so x y)
  /\ rounds_to f (a * b) (s_mul so x y)
  /\ (~ (b == 0)%Q -> rounds_to f (a / b) (s_div so x y) /\ rounds_to f (1 / b) (s_inv so y))
  /\ has_value (s_uminus so x) (- a).
Proof. exact c84_operations. Qed.
Print Assumptions C84_operations.
Theorem C84_rounding_unique : forall (f : fmt) (q : Q) (r r' : spec_float), f = f32 \/ f = f64 ->
  rounds_to f q r -> rounds_to f q r' -> r = r' \/ exists v, has_value r v /\ has_value r' v.
Proof. exact c84_rounding_unique. Qed.
Print Assumptions C84_rounding_unique.
Theorem C84_division_by_zero : forall (f : fmt) (x : spec_float) (s : bool) (a : Q), f = f32 \/ f = f64 ->
  has_value x a ->
  s_div (fl_ops f) x (S754_zero s) =
    match (a ?= 0)%Q with Eq => S754_nan | Gt => S754_infinity s | Lt => S754_infinity (negb s) end.
Proof. exact c84_division_by_zero. Qed.
Print Assumptions C84_division_by_zero.
Theorem C84_dense : forall (f : fmt) (K : Type) (ob : obasis K) (x y : dvec spec_float) (s : spec_float),
  f = f32 \/ f = f64 ->
  let so := fl_ops f in let vo := dense_ops so ob in
  let value v i := fl_val (coef so v i) in
  (forall i, is_float f (coef so x i) /\ is_float f (coef so y i)) -> is_float f s ->
  exists a d m q, vd_add vo x y = Ret a /\ vd_sub vo x y = Ret d
    /\ vd_scalar_lmultiply vo x s = Ret m /\ vd_scalar_rdivide vo x s = Ret q
    /\ (forall i, finite (coef so x i) -> finite (coef so y i) ->
          rounds_to f (value x i + value y i) (coef so a i) /\ rounds_to f (value x i - value y i) (coef so d i))
    /\ (forall i, i < dv_size x -> finite (coef so x i) -> finite s ->
          rounds_to f (value x i * fl_val s) (coef so m i)
          /\ (~ (fl_val s == 0)%Q -> rounds_to f (value x i / fl_val s) (coef so q i))).
Proof. exact c84_dense. Qed.
Print Assumptions C84_dense.
Example C84_example :
  let so := fl_ops f32 in let i := fl_of_Z f32 in
  s_div so (i 1)%Z (i 3)%Z = S754_finite false 11184811 (-25)
  /\ rounds_to f32 (1 / 3) (S754_finite false 11184811 (-25))
  /\ s_add so (i 16777216)%Z (i 1)%Z = S754_finite false 8388608 1
  /\ rounds_to f32 16777217 (S754_finite false 8388608 1)
  /\ is_float f32 (S754_finite false 16777215 104)
  /\ s_add so (S754_finite false 16777215 104) (S754_finite false 16777215 104) = S754_infinity false
  /\ s_sub so (s_uminus so (S754_finite false 16777215 104)) (S754_finite false 16777215 104) = S754_infinity true.
Proof. exact c84_example. Qed.

(** * C85: Accuracy of products of floating point tensors *)
Theorem C85_multiply : forall (f : fmt) (p : profile) (n : N) (x y : dvec spec_float) (l r t : N),
  let m := N.min t (l + r) in let so := fl_ops f in
  let A w := fl_val (wcoef so n x w) in let B w := fl_val (wcoef so n y w) in
  f = f32 \/ f = f64 ->
  2 <= n -> 1 <= m -> has_degree n x l -> has_degree n y r ->
  n ^ (l + 1) < 2 ^ 64 -> n ^ (r + 1) < 2 ^ 64 -> n ^ (m + 1) < 2 ^ 64 ->
  stored_to n x (N.min m l) -> stored_to n y (N.min m r) ->
  (forall w, word_ok n w -> is_float f (wcoef so n x w) /\ is_float f (wcoef so n y w)) ->
  exists z, alg_multiply so p n x y (Some t) = Ret z /\ filled n z m
    /\ forall w, word_ok n w -> len w <= m ->
       let k := (Z.of_N (len w) + 1)%Z in let g := ((1 + unit_roundoff f) ^ k)%Q in
       (forall c, has_value (wcoef so n z w) c ->
          (Qabs (c - qconv A B w) <= (g - 1) * qsize A B w + inject_Z k * g * half_smallest f)%Q)
       /\ ((forall u, word_ok n u -> finite (wcoef so n x u) /\ finite (wcoef so n y u)) ->
           ((1 + unit_roundoff f) * g * qsize A B w + inject_Z k * g * half_smallest f < fl_limit f)%Q ->
           finite (wcoef so n z w)).
Proof. exact c85_multiply. Qed.
Print Assumptions C85_multiply.
Theorem C85_add_sub_mul : forall (f : fmt) (p : profile) (n : N) (self x y : dvec spec_float) (s l r t : N),
  let m := N.min t (l + r) in let so := fl_ops f in
  let A w := fl_val (wcoef so n x w) in let B w := fl_val (wcoef so n y w) in let C w := fl_val (wcoef so n self w) in
  f = f32 \/ f = f64 ->
  2 <= n -> has_degree n self s -> has_degree n x l -> has_degree n y r ->
  n ^ (s + 1) < 2 ^ 64 -> n ^ (l + 1) < 2 ^ 64 -> n ^ (r + 1) < 2 ^ 64 -> n ^ (m + 1) < 2 ^ 64 ->
  s < m \/ stored_to n self m -> stored_to n x (N.min m l) -> stored_to n y (N.min m r) ->
  (forall w, word_ok n w -> is_float f (wcoef so n x w) /\ is_float f (wcoef so n y w)) ->
  (forall w, word_ok n w -> is_float f (wcoef so n self w)) ->
  exists z d, alg_add_mul so p n self x y (Some t) = Ret z /\ alg_sub_mul so p n self x y (Some t) = Ret d
    /\ forall w, word_ok n w ->
       let k := (Z.of_N (len w) + 1)%Z in let u := unit_roundoff f in let g := ((1 + u) ^ k)%Q in
       let bound := ((g - 1) * Qabs (C w) + ((1 + u) * g - 1) * qsize A B w + inject_Z k * g * half_smallest f)%Q in
       if len w <=? m then
         (forall c, has_value (wcoef so n z w) c -> (Qabs (c - (C w + qconv A B w)) <= bound)%Q)
         /\ (forall c, has_value (wcoef so n d w) c -> (Qabs (c - (C w - qconv A B w)) <= bound)%Q)
       else wcoef so n z w = wcoef so n self w /\ wcoef so n d w = wcoef so n self w.
Proof. exact c85_add_sub_mul. Qed.
Print Assumptions C85_add_sub_mul.
Example C85_example :
  let so := fl_ops f32 in let third := s_div so (fl_of_Z f32 1) (fl_of_Z f32 3) in
  let x := dv_from [third; third; third] in
  has_degree 2 x 1 /\ stored_to 2 x 1 /\ (forall w, is_float f32 (wcoef so 2 x w))
  /\ exists z c, alg_multiply so dev 2 x x (Some 2) = Ret z /\ has_value (wcoef so 2 z [1%N]) c
     /\ (0 < Qabs (c - qconv (fun w => fl_val (wcoef so 2 x w)) (fun w => fl_val (wcoef so 2 x w)) [1%N]) < 1 # 100000000)%Q
     /\ (((1 + unit_roundoff f32) ^ 2 - 1) * qsize (fun w => fl_val (wcoef so 2 x w)) (fun w => fl_val (wcoef so 2 x w)) [1%N]
         < 1 # 10000000)%Q.
Proof. exact c85_example. Qed.

(** * C86: Conversions from small integers and from_rational *)
Theorem C86_from_int : forall (f : fmt) (z : Z), f = f32 \/ f = f64 -> (- 2 ^ 15 <= z < 2 ^ 15)%Z ->
  is_float f (fl_from_int f z) /\ has_value (fl_from_int f z) (inject_Z z).
Proof. exact c86_from_int. Qed.
Print Assumptions C86_from_int.
Theorem C86_from_rational : forall (f : fmt) (num denom : Z), f = f32 \/ f = f64 ->
  (- 2 ^ 15 <= num < 2 ^ 15)%Z -> (- 2 ^ 15 <= denom < 2 ^ 15)%Z ->
  let r := sc_from_rational (fl_ops f) (fl_from_int f num) (fl_from_int f denom) in
  (denom <> 0 -> rounds_to f (inject_Z num / inject_Z denom) r /\ finite r)%Z
  /\ (denom = 0%Z -> r = if (num =? 0)%Z then S754_nan else S754_infinity (num <? 0)%Z).
Proof. exact c86_from_rational. Qed.
Print Assumptions C86_from_rational.
Theorem C86_exact : forall (f : fmt) (num denom : Z) (x : spec_float), f = f32 \/ f = f64 ->
  (- 2 ^ 15 <= num < 2 ^ 15)%Z -> (- 2 ^ 15 <= denom < 2 ^ 15)%Z -> denom <> 0%Z ->
  is_float f x -> has_value x (inject_Z num / inject_Z denom) ->
  has_value (sc_from_rational (fl_ops f) (fl_from_int f num) (fl_from_int f denom)) (inject_Z num / inject_Z denom).
Proof. exact c86_exact. Qed.
Print Assumptions C86_exact.
Example C86_example :
  let r a b := sc_from_rational (fl_ops f32) (fl_from_int f32 a) (fl_from_int f32 b) in
  has_value (r (-3) 4)%Z (-3 # 4) /\ r 1%Z 3%Z = S754_finite false 11184811 (-25)
  /\ r 7%Z 0%Z = S754_infinity false /\ r (-7)%Z 0%Z = S754_infinity true /\ r 0%Z 0%Z = S754_nan
  /\ r 0%Z (-5)%Z = S754_zero true.
Proof. exact c86_example. Qed.
