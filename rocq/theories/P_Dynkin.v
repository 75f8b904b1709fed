(** Property theorems (generated by tools/gen_props.py from L_PropDynkin.v, where the proofs are). *)
From Coq Require Import QArith Qcanon Ring_theory Ring.
From Verif Require Import Machine MachineLemmas S_Words L_Words M_TensorKey L_TensorKey M_TensorBasis L_TensorBasis M_Scalar M_Vector
  M_Dense S_Vector S_Tensor S_Series I_Scalars L_Dense L_Ring L_PropKey L_PropDense M_Algebra L_Algebra L_Conv
  L_PropAlgebra L_PropProducts S_Shuffle L_Shuffle S_Lie L_PropShuffle S_Dynkin L_Dynkin L_PropUnits.
From Verif Require Import L_PropDynkin.
Local Open Scope N_scope.

(** * C128: Primitive tensors are exactly the Lie polynomials *)
Theorem C128_dynkin : forall (S R : Type) (so : scalar_ops S R) (p : profile) (n t k : N) (x : dvec S),
  field_laws so -> 2 <= n < 2 ^ 32 -> 1 <= k <= t -> n ^ (t + 1) < 2 ^ 64 -> primitive so n k (wcoef so n x) ->
  exists z, lie_eval so p n t (bracket_sum so (wcoef so n x) (words_of_length n (N.to_nat k))) = Ret z
    /\ forall w, word_ok n w ->
         wcoef so n z w = if len w =? k then s_mul so (s_from_degree so k) (wcoef so n x w) else s_zero so.
Proof. exact c128_dynkin. Qed.
Print Assumptions C128_dynkin.
Theorem C128_specht_wever : forall (S R : Type) (so : scalar_ops S R) (p : profile) (n t k : N) (e : lie S),
  field_laws so -> 2 <= n < 2 ^ 32 -> 1 <= k <= t -> n ^ (t + 1) < 2 ^ 64 -> letters_ok n e ->
  exists x z, lie_eval so p n t e = Ret x
    /\ lie_eval so p n t (bracket_sum so (wcoef so n x) (words_of_length n (N.to_nat k))) = Ret z
    /\ forall w, word_ok n w -> len w = k -> wcoef so n z w = s_mul so (s_from_degree so k) (wcoef so n x w).
Proof. exact c128_specht_wever. Qed.
Print Assumptions C128_specht_wever.
Theorem C128_lie_polynomials : forall (S R : Type) (so : scalar_ops S R) (p : profile) (n t d : N) (x : dvec S),
  field_laws so -> 2 <= n < 2 ^ 32 -> 1 <= t -> d <= t -> n ^ (t + 1) < 2 ^ 64 -> filled n x d ->
  primitive so n t (wcoef so n x)
  <-> exists e z, letters_ok n e /\ lie_eval so p n t e = Ret z
        /\ forall w, word_ok n w -> wcoef so n z w = wcoef so n x w.
Proof. exact c128_lie_polynomials. Qed.
Print Assumptions C128_lie_polynomials.
Theorem C128_right_brackets : forall (S R : Type) (so : scalar_ops S R) (p : profile) (n t : N) (e : lie S),
  field_laws so -> 2 <= n < 2 ^ 32 -> 1 <= t -> n ^ (t + 1) < 2 ^ 64 -> letters_ok n e ->
  exists x z, lie_eval so p n t e = Ret x
    /\ lie_eval so p n t (bracket_sum so (fun w => s_div so (wcoef so n x w) (r_from_degree so (len w)))
         (concat (map (fun k => words_of_length n (k + 1)) (seq 0 (N.to_nat t))))) = Ret z
    /\ forall w, word_ok n w -> wcoef so n z w = wcoef so n x w.
Proof. exact c128_right_brackets. Qed.
Print Assumptions C128_right_brackets.
Example C128_example :
  let q z := Q2Qc (inject_Z z) in
  let e := Bracket (Plus (Scaled (q 2%Z) (Letter 1)) (Letter 2)) (Bracket (Letter 1) (Letter 2)) in
  (z <- lie_eval qc_ops dev 2 3 e ;; Ret (map this (dv_elems z)))
    = Ret (map inject_Z [0; 0; 0; 0; 0; 0; 0; 0; 2; -4; -1; 2; 2; -1; 0]%Z)
  /\ (x <- lie_eval qc_ops dev 2 3 e ;; z <- lie_eval qc_ops dev 2 3 (bracket_sum qc_ops (wcoef qc_ops 2 x) (words_of_length 2 3)) ;;
      Ret (map this (dv_elems z)))
    = Ret (map inject_Z [0; 0; 0; 0; 0; 0; 0; 0; 6; -12; -3; 6; 6; -3; 0]%Z)
  /\ (let y := dv_from (map q [0; 0; 0; 0; 1; 0; 0]%Z) in
      (z <- lie_eval qc_ops dev 2 2 (bracket_sum qc_ops (wcoef qc_ops 2 y) (words_of_length 2 2)) ;; Ret (map this (dv_elems z)))
      = Ret (map inject_Z [0; 0; 0; 0; 1; -1; 0]%Z))
  /\ right_bracket qc_ops [1; 2; 1] = Bracket (Letter 1) (Bracket (Letter 2) (Letter 1)).
Proof. exact c128_example. Qed.
