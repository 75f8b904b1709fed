(** Property theorems (generated by tools/gen_props.py from L_PropCommFloat.v, where the proofs are). *)
From Coq Require Import ZArith QArith Qabs Qpower Lqa SpecFloat.
From Verif Require Import Machine MachineLemmas M_Scalar M_Vector M_Dense M_TensorBasis S_Vector L_Dense L_PropDense
  M_Float S_Float L_Float L_FloatDegree L_FloatInt L_FloatRound L_FloatOps L_FloatUnique L_FloatSum S_Words L_Words L_TensorBasis S_Tensor
  M_Algebra L_Algebra L_PropAlgebra L_PropFloat L_PropRound.
From Verif Require Import L_PropCommFloat.
Local Open Scope N_scope.

(** * C110: Commutators of floating point tensors *)
Theorem C110_terms : forall (S R : Type) (so : scalar_ops S R) (p : profile) (n : N) (x y : dvec S) (l r t : N),
  let m := N.min t (l + r) in
  2 <= n -> 1 <= m -> has_degree n x l -> has_degree n y r ->
  n ^ (l + 1) < 2 ^ 64 -> n ^ (r + 1) < 2 ^ 64 -> n ^ (m + 1) < 2 ^ 64 ->
  stored_to n x (N.min m l) -> stored_to n y (N.min m r) ->
  exists z, alg_commutator so p n x y (Some t) = Ret z /\ filled n z m
    /\ forall w, word_ok n w -> wcoef so n z w =
         if len w <=? m
         then fold_left (s_add so)
                (terms so l r (wcoef so n x) (wcoef so n y) w
                 ++ map (s_uminus so) (terms so r l (wcoef so n y) (wcoef so n x) w)) (s_zero so)
         else s_zero so.
Proof. exact c110_terms. Qed.
Print Assumptions C110_terms.
Theorem C110_accuracy : forall (f : fmt) (p : profile) (n : N) (x y : dvec spec_float) (l r t : N),
  let m := N.min t (l + r) in let so := fl_ops f in
  let A w := fl_val (wcoef so n x w) in let B w := fl_val (wcoef so n y w) in
  f = f32 \/ f = f64 ->
  2 <= n -> 1 <= m -> has_degree n x l -> has_degree n y r ->
  n ^ (l + 1) < 2 ^ 64 -> n ^ (r + 1) < 2 ^ 64 -> n ^ (m + 1) < 2 ^ 64 ->
  stored_to n x (N.min m l) -> stored_to n y (N.min m r) ->
  (forall w, word_ok n w -> is_float f (wcoef so n x w) /\ is_float f (wcoef so n y w)) ->
  exists z, alg_commutator so p n x y (Some t) = Ret z /\ filled n z m
    /\ forall w, word_ok n w -> len w <= m ->
       let k := (2 * (Z.of_N (len w) + 1))%Z in let g := ((1 + unit_roundoff f) ^ k)%Q in
       let size := (qsize A B w + qsize B A w)%Q in
       (forall c, has_value (wcoef so n z w) c ->
          (Qabs (c - (qconv A B w - qconv B A w)) <= (g - 1) * size + inject_Z k * g * half_smallest f)%Q)
       /\ ((forall u, word_ok n u -> finite (wcoef so n x u) /\ finite (wcoef so n y u)) ->
           ((1 + unit_roundoff f) * g * size + inject_Z k * g * half_smallest f < fl_limit f)%Q ->
           finite (wcoef so n z w)).
Proof. exact c110_accuracy. Qed.
Print Assumptions C110_accuracy.
Theorem C110_integers : forall (f : fmt) (p : profile) (n : N) (x y : dvec spec_float) (A B : word -> Z) (l r t : N),
  let m := N.min t (l + r) in
  f = f32 \/ f = f64 ->
  2 <= n -> 1 <= m -> has_degree n x l -> has_degree n y r ->
  n ^ (l + 1) < 2 ^ 64 -> n ^ (r + 1) < 2 ^ 64 -> n ^ (m + 1) < 2 ^ 64 ->
  stored_to n x (N.min m l) -> stored_to n y (N.min m r) ->
  (forall w, word_ok n w -> fl_int f (wcoef (fl_ops f) n x w) (A w) /\ fl_int f (wcoef (fl_ops f) n y w) (B w)) ->
  exists z, alg_commutator (fl_ops f) p n x y (Some t) = Ret z /\ filled n z m
    /\ forall w, word_ok n w -> len w <= m -> (zsize A B w + zsize B A w < 2 ^ f_prec f)%Z ->
         fl_int f (wcoef (fl_ops f) n z w) (zconv A B w - zconv B A w).
Proof. exact c110_integers. Qed.
Print Assumptions C110_integers.
Theorem C110_not_alternating : forall (p : profile), exists (x z : dvec spec_float),
  x = dv_from (map (fl_of_Z f32) [1; 1; 0; 2 ^ 24; 0; 0; 0]%Z) /\ filled 2 x 2
  /\ alg_commutator (fl_ops f32) p 2 x x (Some 2) = Ret z /\ has_value (wcoef (fl_ops f32) 2 z [1; 1]) (-1).
Proof. exact c110_not_alternating. Qed.
Print Assumptions C110_not_alternating.
Example C110_example :
  let so := fl_ops f32 in let third := s_div so (fl_of_Z f32 1) (fl_of_Z f32 3) in
  let x := dv_from [s_zero so; third; s_zero so] in let y := dv_from [s_zero so; s_one so; third] in
  let v l := dv_from (map (fl_of_Z f32) l) in
  filled 2 x 1 /\ filled 2 y 1 /\ (forall w, is_float f32 (wcoef so 2 x w) /\ is_float f32 (wcoef so 2 y w))
  /\ (exists z c, alg_commutator so dev 2 x y (Some 2) = Ret z /\ has_value (wcoef so 2 z [1; 2]) c
        /\ (0 < Qabs (c - qconv (fun w => fl_val (wcoef so 2 x w)) (fun w => fl_val (wcoef so 2 y w)) [1%N; 2%N]) < 1 # 100000000)%Q)
  /\ alg_commutator so release 2 (v [0; 2; 3]%Z) (v [0; 5; 7]%Z) (Some 2) = Ret (v [0; 0; 0; 0; -1; 1; 0]%Z).
Proof. exact c110_example. Qed.
