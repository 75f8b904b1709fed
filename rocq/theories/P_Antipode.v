(** Property theorems (generated by tools/gen_props.py from L_PropAntipode.v, where the proofs are). *)
From Coq Require Import QArith Qcanon Ring_theory Ring.
From Verif Require Import Machine MachineLemmas S_Words L_Words M_TensorKey L_TensorKey M_TensorBasis L_TensorBasis M_Scalar M_Vector
  M_Dense S_Vector S_Tensor S_Series S_FreeTensor I_Scalars I_FunAlgebra L_Dense L_Ring L_PropKey L_PropDense M_Algebra L_Algebra L_Conv
  L_PropAlgebra L_PropProducts L_Series M_FreeTensor L_ExactAlgebra L_ExpGroup L_PropExp S_Shuffle L_Shuffle L_ShuffleExp S_Lie
  L_PropShuffle S_Antipode L_Antipode.
From Verif Require Import L_PropAntipode.
Local Open Scope N_scope.

(** * C126: Inverses of group-like tensors and paths run backwards *)
Theorem C126_inverse : forall (S R : Type) (so : scalar_ops S R) (p : profile) (n t k a b : N) (x y : dvec S),
  ring_laws so -> 2 <= n -> filled n x a -> filled n y b -> 1 <= N.min t (a + b) ->
  n ^ (a + 1) < 2 ^ 64 -> n ^ (b + 1) < 2 ^ 64 -> n ^ (N.min t (a + b) + 1) < 2 ^ 64 ->
  k <= t -> group_like so n k (wcoef so n x) ->
  exists z z', alg_multiply so p n x y (Some t) = Ret z /\ alg_multiply so p n y x (Some t) = Ret z'
    /\ let below (f g : word -> S) := forall w, word_ok n w -> len w <= k -> f w = g w in
       (below (wcoef so n z) (unit_fun so) <-> below (wcoef so n y) (antipode so (wcoef so n x)))
       /\ (below (wcoef so n z') (unit_fun so) <-> below (wcoef so n y) (antipode so (wcoef so n x))).
Proof. exact c126_inverse. Qed.
Print Assumptions C126_inverse.
Theorem C126_group : forall (S R : Type) (so : scalar_ops S R) (n t : N) (f : word -> S),
  ring_laws so -> group_like so n t f ->
  group_like so n t (antipode so f) /\ forall w, antipode so (antipode so f) w = f w.
Proof. exact c126_group. Qed.
Print Assumptions C126_group.
Theorem C126_lie : forall (S R : Type) (so : scalar_ops S R) (p : profile) (n t : N) (e : lie S),
  ring_laws so -> 2 <= n < 2 ^ 32 -> 1 <= t -> n ^ (t + 1) < 2 ^ 64 -> letters_ok n e ->
  exists z, lie_eval so p n t e = Ret z
    /\ forall w, word_ok n w -> antipode so (wcoef so n z) w = s_uminus so (wcoef so n z w).
Proof. exact c126_lie. Qed.
Print Assumptions C126_lie.
Theorem C126_path : forall (V S R : Type) (so : scalar_ops S R) (p : profile) (n md : N) (vo : vec_ops V tkey S R)
    (mulr : V -> V -> S -> option N -> outcome V) (mul : V -> V -> option N -> outcome V) (val : V -> word -> S) (ys zs : list V),
  field_laws so -> exact_algebra so n vo mulr mul val -> 1 <= md < 2 ^ 32 ->
  Forall (fun y => primitive so n (md - 1) (no_unit so (val y))) ys ->
  Forall2 (fun y z => forall w, word_ok n w -> val z w = s_uminus so (val y w)) (rev ys) zs ->
  exists u a b, vr_from_key vo tk_new = Ret u
    /\ follow (trait_fmexp so p md vo mulr) u ys = Ret a /\ follow (trait_fmexp so p md vo mulr) u zs = Ret b
    /\ forall w, word_ok n w -> len w < md -> val b w = antipode so (val a) w.
Proof. exact c126_path. Qed.
Print Assumptions C126_path.
Example C126_example : let x := dv_from [q 1; q 1; q 1; Q2Qc (1 # 2); q 1; q 0; Q2Qc (1 # 2)] in
  let y := dv_from [q 1; q (-1); q (-1); Q2Qc (1 # 2); q 0; q 1; Q2Qc (1 # 2)] in
  let words : list word := [[]; [1]; [2]; [1; 1]; [1; 2]; [2; 1]; [2; 2]] in
  (z <- alg_multiply qc_ops dev 2 x y (Some 2) ;; Ret (vals z)) = Ret [1; 0; 0; 0; 0; 0; 0]%Q
  /\ (z <- alg_multiply qc_ops dev 2 y x (Some 2) ;; Ret (vals z)) = Ret [1; 0; 0; 0; 0; 0; 0]%Q
  /\ filled 2 x 2 /\ filled 2 y 2
  /\ map (antipode qc_ops (wcoef qc_ops 2 x)) words = dv_elems y
  /\ (let y1 : word -> Qc := fun w => match w with [1] => q 1 | _ => q 0 end in
      let y2 : word -> Qc := fun w => match w with [2] => q 2 | _ => q 0 end in
      let neg (y : word -> Qc) : word -> Qc := fun w => Qcopp (y w) in
      let go ys := (z <- follow (trait_fmexp qc_ops dev 3 (fun_ops qc_ops) fun_mul_rat_rdiv) (unit_fun qc_ops) ys ;;
                    Ret (map this (map z words))) in
      go [y1; y2] = Ret [1; 1; 2; 1 # 2; 2; 0; 2]%Q /\ go [neg y2; neg y1] = Ret [1; -1; -2; 1 # 2; 0; 2; 2]%Q).
Proof. exact c126_example. Qed.
