(** Property theorems (generated by tools/gen_props.py from L_PropFloatEq.v, where the proofs are). *)
From Coq Require Import ZArith QArith Qabs Qpower Lqa SpecFloat.
From stdpp Require Import gmap.
From Verif Require Import Machine MachineLemmas M_Scalar M_Vector M_Dense M_TensorBasis S_Vector L_Dense L_PropDense M_Sparse S_Sparse
  L_Sparse L_PropSparse M_Float S_Float L_Float L_FloatDegree L_FloatInt L_FloatRound L_FloatOps L_FloatUnique L_FloatSum L_PropFloat
  L_PropRound.
From Verif Require Import L_PropFloatEq.
Local Open Scope N_scope.

(** * C93: Equality of floats and of vectors of floats *)
Theorem C93_scalars : forall (f : fmt) (x y : spec_float), f = f32 \/ f = f64 -> is_float f x -> is_float f y ->
  (s_eqb (fl_ops f) x y = true <-> num_equal x y).
Proof. exact c93_scalars. Qed.
Print Assumptions C93_scalars.
Theorem C93_dense : forall (f : fmt) (x y : dvec spec_float), f = f32 \/ f = f64 ->
  (forall i, is_float f (coef (fl_ops f) x i) /\ is_float f (coef (fl_ops f) y i)) ->
  (dv_eq (fl_ops f) x y = true <->
   dv_size x = dv_size y /\ forall i, i < dv_size x -> num_equal (coef (fl_ops f) x i) (coef (fl_ops f) y i)).
Proof. exact c93_dense. Qed.
Print Assumptions C93_dense.
Theorem C93_sparse : forall (K : Type) (E : EqDecision K) (C : Countable K) (f : fmt)
    (iter : gmap K spec_float -> list (K * spec_float)) (x y : gmap K spec_float),
  f = f32 \/ f = f64 -> any_order iter ->
  (forall k v, x !! k = Some v \/ y !! k = Some v -> is_float f v) ->
  (sv_eq (fl_ops f) iter x y = true <->
   forall k, match x !! k, y !! k with
             | Some a, Some b => num_equal a b
             | None, None => True
             | _, _ => False
             end).
Proof. exact c93_sparse. Qed.
Print Assumptions C93_sparse.
Theorem C93_equivalence : forall (K : Type) (E : EqDecision K) (C : Countable K) (f : fmt)
    (iter : gmap K spec_float -> list (K * spec_float)) (x y z : dvec spec_float) (a b c : gmap K spec_float),
  f = f32 \/ f = f64 -> any_order iter ->
  let so := fl_ops f in
  (dv_eq so x x = true <-> forall i, i < dv_size x -> coef so x i <> S754_nan)
  /\ dv_eq so x y = dv_eq so y x
  /\ (dv_eq so x y = true -> dv_eq so y z = true -> dv_eq so x z = true)
  /\ (sv_eq so iter a a = true <-> forall k, a !! k <> Some S754_nan)
  /\ sv_eq so iter a b = sv_eq so iter b a
  /\ (sv_eq so iter a b = true -> sv_eq so iter b c = true -> sv_eq so iter a c = true).
Proof. exact c93_equivalence. Qed.
Print Assumptions C93_equivalence.
Example C93_example : let so := fl_ops f32 in let i := fl_of_Z f32 in
  dv_eq so (dv_from [i 1%Z; S754_zero true]) (dv_borrow [i 1%Z; S754_zero false]) = true
  /\ dv_eq so (dv_from [i 1%Z; S754_nan]) (dv_from [i 1%Z; S754_nan]) = false
  /\ dv_eq so (dv_from [S754_infinity true]) (dv_from [S754_infinity true]) = true
  /\ (let iter := (fun m : gmap N spec_float => map_to_list m) in
      any_order iter /\ sv_eq so iter {[ 3 := S754_nan ]} {[ 3 := S754_nan ]} = false
      /\ sv_eq so iter {[ 3 := S754_zero true ]} {[ 3 := S754_zero false ]} = true).
Proof. exact c93_example. Qed.

(** * C94: Sparse vectors of floats are correctly rounded *)
Theorem C94_sparse : forall (K : Type) (E : EqDecision K) (C : Countable K) (f : fmt)
    (iter : gmap K spec_float -> list (K * spec_float)) (x y : gmap K spec_float) (s : spec_float),
  f = f32 \/ f = f64 -> any_order iter ->
  let so := fl_ops f in let vo := sparse_ops so iter in
  let value v k := fl_val (sv_coef so v k) in
  (forall k v, x !! k = Some v \/ y !! k = Some v -> is_float f v) -> is_float f s ->
  exists a d m q, vr_add_inplace vo x y = Ret a /\ vr_sub_inplace vo x y = Ret d
    /\ vr_scalar_lmultiply_inplace vo x s = Ret m /\ vr_scalar_rdivide_inplace vo x s = Ret q
    /\ (forall k, finite (sv_coef so x k) -> finite (sv_coef so y k) ->
          rounds_to f (value x k + value y k) (sv_coef so a k) /\ rounds_to f (value x k - value y k) (sv_coef so d k))
    /\ (forall k, finite (sv_coef so x k) -> finite s ->
          rounds_to f (value x k * fl_val s) (sv_coef so m k)
          /\ (~ (fl_val s == 0)%Q -> rounds_to f (value x k / fl_val s) (sv_coef so q k))).
Proof. exact c94_sparse. Qed.
Print Assumptions C94_sparse.
Theorem C94_removed : forall (K : Type) (E : EqDecision K) (C : Countable K) (f : fmt)
    (iter : gmap K spec_float -> list (K * spec_float)) (x y : gmap K spec_float) (k : K) (u v : spec_float),
  f = f32 \/ f = f64 -> any_order iter -> x !! k = Some u -> y !! k = Some v ->
  let so := fl_ops f in
  exists a d, vr_add_inplace (sparse_ops so iter) x y = Ret a /\ vr_sub_inplace (sparse_ops so iter) x y = Ret d
    /\ (a !! k = None <-> has_value (s_add so u v) 0) /\ (a !! k <> None -> a !! k = Some (s_add so u v))
    /\ (d !! k = None <-> has_value (s_sub so u v) 0) /\ (d !! k <> None -> d !! k = Some (s_sub so u v)).
Proof. exact c94_removed. Qed.
Print Assumptions C94_removed.
Example C94_example : let so := fl_ops f32 in let i := fl_of_Z f32 in
  let iter := (fun m : gmap N spec_float => rev (map_to_list m)) in let vo := sparse_ops so iter in
  let x : gmap N spec_float := {[ 1 := i 3%Z; 2 := S754_nan; 3 := i 16777216%Z; 4 := S754_infinity false ]} in
  let y : gmap N spec_float := {[ 1 := i (-3)%Z; 2 := i 1%Z; 3 := i 1%Z; 4 := S754_infinity false; 5 := S754_zero true ]} in
  (a <- vr_add_inplace vo x y ;; d <- vr_sub_inplace vo x y ;;
   Ret (map (fun k => a !! k) [1; 2; 3; 4; 5], map (fun k => d !! k) [1; 4; 5]))
  = Ret ([None; Some S754_nan; Some (i 16777216%Z); Some (S754_infinity false); Some (S754_zero true)],
         [Some (i 6%Z); Some S754_nan; Some (S754_zero false)]).
Proof. exact c94_example. Qed.
