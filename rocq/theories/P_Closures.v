(** Property theorems (generated by tools/gen_props.py from L_PropClosures.v, where the proofs are). *)
From Coq Require Import QArith Qcanon.
From Verif Require Import Machine MachineLemmas S_Words L_Words M_Scalar M_Vector M_Dense M_TensorKey M_TensorBasis
  S_TensorApi S_Vector S_Tensor I_Scalars L_TensorKey L_TensorBasis L_Dense M_Algebra L_Algebra M_AlgebraFn S_AlgebraFn
  L_AlgebraFn.
From Verif Require Import L_PropClosures.
Local Open Scope N_scope.

(** * C90: The closure passed to a product: its calls and where its results go *)
Theorem C90_pairs : forall (n l r m : N),
  NoDup (product_pairs n l r m)
  /\ forall u v, In (u, v) (product_pairs n l r m)
       <-> word_ok n u /\ word_ok n v /\ len u <= l /\ len v <= r /\ len u + len v <= m.
Proof. exact c90_pairs. Qed.
Print Assumptions C90_pairs.
Theorem C90_calls : forall (S R St : Type) (so : scalar_ops S R) (p : profile) (n : N)
    (func : St -> S -> St * option S) (self x y : dvec S) (s l r t : N) (st st' : St) (bs : list S) (ok : bool),
  2 <= n -> has_degree n self s -> has_degree n x l -> has_degree n y r ->
  n ^ (s + 1) < 2 ^ 64 -> n ^ (l + 1) < 2 ^ 64 -> n ^ (r + 1) < 2 ^ 64 -> n ^ (N.min t (l + r) + 1) < 2 ^ 64 ->
  s < N.min t (l + r) \/ stored_to n self (N.min t (l + r)) ->
  stored_to n x (N.min (N.min t (l + r)) l) -> stored_to n y (N.min (N.min t (l + r)) r) ->
  let calls := product_pairs n l r (N.min t (l + r)) in
  run_calls func st (map (fun uv => s_mul so (wcoef so n x (fst uv)) (wcoef so n y (snd uv))) calls) = (bs, st', ok) ->
  exists z, multiply_and_add_into_impl_fn so p n func self x y st (Some t)
            = (if ok then Done (z, st') else Thrown (z, st'))
    /\ dv_size z = (if s <? N.min t (l + r) then N.of_nat (length (words_below n (N.to_nat (N.min t (l + r) + 1)))) else dv_size self)
    /\ forall w, word_ok n w -> wcoef so n z w = added_to so w (List.combine calls bs) (wcoef so n self w).
Proof. exact c90_calls. Qed.
Print Assumptions C90_calls.
Example C90_example :
  let x := dv_from (map q [1; 2; 3]%Z) in let y := dv_from (map q [5; 7; 11]%Z) in
  multiply_and_add_into_impl_fn qc_ops dev 2 counting dv_new x y 10 (Some 2)
  = Done (dv_from (map q [5; 17; 26; 14; 22; 21; 33]%Z), 19)
  /\ multiply_and_add_into_impl_fn qc_ops dev 2 counting dv_new x y 0 (Some 2)
     = Thrown (dv_from (map q [0; 0; 0; 14; 22; 21; 33]%Z), 5)
  /\ length (product_pairs 2 1 1 2) = 9%nat.
Proof. exact c90_example. Qed.

(** * C91: Products with pure closures *)
Theorem C91_pure_closures : forall (S R St : Type) (so : scalar_ops S R) (p : profile) (n : N) (f : S -> S) (st : St)
    (self lhs rhs : dvec S) (t : option N),
  let func := fun (s : St) (a : S) => (s, Some (f a)) in
  same_outcome st (multiply_and_add_into_impl_fn so p n func self lhs rhs st t)
                  (multiply_and_add_into_impl so p n self lhs rhs f t)
  /\ same_outcome st (multiply_into_impl_fn so p n func self rhs st t) (multiply_into_impl so p n self rhs f t).
Proof. exact c91_pure_closures. Qed.
Print Assumptions C91_pure_closures.
Example C91_example :
  multiply_into_impl_fn qc_ops dev 2 (fun (s : unit) a => (s, Some a)) (dv_from (map q [0; 2; 3]%Z)) (dv_from [q 5]) tt (Some 1)
  = Done (dv_from (map q [0; 10; 15]%Z), tt).
Proof. exact c91_example. Qed.

(** * C96: How many scalar products a tensor product computes *)
Theorem C96_counting_closure : forall (S R : Type) (so : scalar_ops S R) (p : profile) (n : N) (f : S -> S)
    (self x y : dvec S) (s l r t c : N),
  2 <= n -> has_degree n self s -> has_degree n x l -> has_degree n y r ->
  n ^ (s + 1) < 2 ^ 64 -> n ^ (l + 1) < 2 ^ 64 -> n ^ (r + 1) < 2 ^ 64 -> n ^ (N.min t (l + r) + 1) < 2 ^ 64 ->
  s < N.min t (l + r) \/ stored_to n self (N.min t (l + r)) ->
  stored_to n x (N.min (N.min t (l + r)) l) -> stored_to n y (N.min (N.min t (l + r)) r) ->
  exists z, multiply_and_add_into_impl_fn so p n (fun c a => (c + 1, Some (f a))) self x y c (Some t)
            = Done (z, c + pairs_below n l r (N.to_nat (N.min t (l + r) + 1))).
Proof. exact c96_counting_closure. Qed.
Print Assumptions C96_counting_closure.
Theorem C96_all_words : forall (n l r m : N), l + r <= m ->
  pairs_below n l r (N.to_nat (m + 1))
  = N.of_nat (length (words_below n (N.to_nat (l + 1)))) * N.of_nat (length (words_below n (N.to_nat (r + 1)))).
Proof. exact c96_all_words. Qed.
Print Assumptions C96_all_words.
Example C96_example :
  let x := dv_from (map q [1; 2; 3]%Z) in let y := dv_from (map q [5; 7; 11]%Z) in
  multiply_and_add_into_impl_fn qc_ops dev 2 (fun c a => (c + 1, Some a)) dv_new x y 10 (Some 2)
  = Done (dv_from (map q [5; 17; 26; 14; 22; 21; 33]%Z), 10 + pairs_below 2 1 1 3)
  /\ pairs_below 2 1 1 3 = 9 /\ pairs_below 2 1 1 2 = 5 /\ pairs_below 3 4 2 7 = 121 * 13.
Proof. exact c96_example. Qed.
