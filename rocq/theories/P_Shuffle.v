(** Property theorems (generated by tools/gen_props.py from L_PropShuffle.v, where the proofs are). *)
From Coq Require Import QArith Qcanon Ring_theory Ring.
From Verif Require Import Machine MachineLemmas S_Words L_Words M_TensorKey L_TensorKey M_TensorBasis L_TensorBasis M_Scalar M_Vector
  M_Dense S_Vector S_Tensor S_Series S_FreeTensor I_Scalars I_FunAlgebra L_Dense L_Ring L_PropKey L_PropDense M_Algebra L_Algebra L_Conv
  L_PropAlgebra L_PropProducts L_Series M_FreeTensor L_ExactAlgebra L_ExpGroup L_PropExp S_Shuffle L_Shuffle L_ShuffleExp S_Lie.
From Verif Require Import L_PropShuffle.
Local Open Scope N_scope.

(** * C100: Lie polynomials are primitive and products of group-like tensors are group-like *)
Theorem C100_multiply : forall (S R : Type) (so : scalar_ops S R) (p : profile) (n t k a b : N) (x y : dvec S),
  ring_laws so -> 2 <= n -> filled n x a -> filled n y b -> 1 <= N.min t (a + b) ->
  n ^ (a + 1) < 2 ^ 64 -> n ^ (b + 1) < 2 ^ 64 -> n ^ (N.min t (a + b) + 1) < 2 ^ 64 ->
  k <= t -> group_like so n k (wcoef so n x) -> group_like so n k (wcoef so n y) ->
  exists z, alg_multiply so p n x y (Some t) = Ret z /\ group_like so n k (wcoef so n z).
Proof. exact c100_multiply. Qed.
Print Assumptions C100_multiply.
Theorem C100_commutator : forall (S R : Type) (so : scalar_ops S R) (p : profile) (n t a b : N) (x y : dvec S),
  ring_laws so -> 2 <= n -> filled n x a -> filled n y b -> 1 <= N.min t (a + b) ->
  n ^ (a + 1) < 2 ^ 64 -> n ^ (b + 1) < 2 ^ 64 -> n ^ (N.min t (a + b) + 1) < 2 ^ 64 ->
  primitive so n t (wcoef so n x) -> primitive so n t (wcoef so n y) ->
  exists z, alg_commutator so p n x y (Some t) = Ret z /\ forall k, primitive so n k (wcoef so n z).
Proof. exact c100_commutator. Qed.
Print Assumptions C100_commutator.
Theorem C100_lie : forall (S R : Type) (so : scalar_ops S R) (p : profile) (n t : N) (e : lie S),
  ring_laws so -> 2 <= n < 2 ^ 32 -> 1 <= t -> n ^ (t + 1) < 2 ^ 64 -> letters_ok n e ->
  exists z, lie_eval so p n t e = Ret z /\ forall k, primitive so n k (wcoef so n z).
Proof. exact c100_lie. Qed.
Print Assumptions C100_lie.
Example C100_example : let e := Bracket (Plus (Scaled (q 2) (Letter 1)) (Letter 2)) (Bracket (Letter 1) (Letter 2)) in
  (z <- lie_eval qc_ops dev 2 3 e ;; Ret (vals z)) = Ret (qz [0; 0; 0; 0; 0; 0; 0; 0; 2; -4; -1; 2; 2; -1; 0]%Z)
  /\ letters_ok 2 e
  /\ (let x := dv_from [q 1; q 1; q 0; Q2Qc (1 # 2); q 0; q 0; q 0] in
      let y := dv_from [q 1; q 0; q 1; q 0; q 0; q 0; Q2Qc (1 # 2)] in
      (z <- alg_multiply qc_ops dev 2 x y (Some 2) ;; Ret (vals z)) = Ret [1; 1; 1; 1 # 2; 1; 0; 1 # 2]%Q
      /\ filled 2 x 2 /\ filled 2 y 2
      /\ shuffle [1] [1; 2] = [[1; 1; 2]; [1; 1; 2]; [1; 2; 1]]).
Proof. exact c100_example. Qed.

(** * C101: Exponentials of primitive tensors are group-like below MAX_DEGREE *)
Theorem C101_exp : forall (V S R : Type) (so : scalar_ops S R) (n md : N) (vo : vec_ops V tkey S R)
    (mulr : V -> V -> S -> option N -> outcome V) (mul : V -> V -> option N -> outcome V) (val : V -> word -> S) (x : V),
  field_laws so -> exact_algebra so n vo mulr mul val -> primitive so n (md - 1) (val x) ->
  exists z, trait_exp so md vo mulr x = Ret z /\ group_like so n (md - 1) (val z).
Proof. exact c101_exp. Qed.
Print Assumptions C101_exp.
Theorem C101_fmexp : forall (V S R : Type) (so : scalar_ops S R) (p : profile) (n md : N) (vo : vec_ops V tkey S R)
    (mulr : V -> V -> S -> option N -> outcome V) (mul : V -> V -> option N -> outcome V) (val : V -> word -> S) (x : V) (ys : list V),
  field_laws so -> exact_algebra so n vo mulr mul val -> md < 2 ^ 32 ->
  group_like so n (md - 1) (val x) -> Forall (fun y => primitive so n (md - 1) (no_unit so (val y))) ys ->
  exists z, follow (trait_fmexp so p md vo mulr) x ys = Ret z /\ group_like so n (md - 1) (val z).
Proof. exact c101_fmexp. Qed.
Print Assumptions C101_fmexp.
Theorem C101_not_at_max_degree : forall (V S R : Type) (so : scalar_ops S R) (p : profile) (n md a : N) (vo : vec_ops V tkey S R)
    (mulr : V -> V -> S -> option N -> outcome V) (mul : V -> V -> option N -> outcome V) (val : V -> word -> S) (y u z : V),
  field_laws so -> exact_algebra so n vo mulr mul val -> 2 <= md < 2 ^ 32 -> 1 <= a <= n ->
  (forall w, word_ok n w -> 2 <= len w -> val y w = s_zero so) -> val y [a] = s_one so ->
  vr_from_key vo tk_new = Ret u -> trait_fmexp so p md vo mulr u y = Ret z -> ~ group_like so n md (val z).
Proof. exact c101_not_at_max_degree. Qed.
Print Assumptions C101_not_at_max_degree.
Example C101_example : let y : word -> Qc := fun w => match w with [1] => q 1 | [2] => q 3 | [1; 2] => q 5 | [2; 1] => q (-5) | _ => q 0 end in
  (forall u v, u <> [] -> v <> [] -> len u + len v <= 2 -> shuffle_sum qc_ops y u v = q 0)
  /\ (z <- trait_fmexp qc_ops dev 3 (fun_ops qc_ops) fun_mul_rat_rdiv (unit_fun qc_ops) y ;;
      Ret (map this (map z [[]; [1]; [2]; [1; 1]; [1; 2]; [2; 1]; [2; 2]; [1; 1; 1]])))
     = Ret [1; 1; 3; 1 # 2; 13 # 2; -7 # 2; 9 # 2; 0]%Q.
Proof. exact c101_example. Qed.

(** * C102: Signatures of piecewise linear paths *)
Theorem C102_chen : forall (V S R : Type) (so : scalar_ops S R) (p : profile) (n md : N) (vo : vec_ops V tkey S R)
    (mulr : V -> V -> S -> option N -> outcome V) (mul : V -> V -> option N -> outcome V) (val : V -> word -> S) (ys zs : list V),
  field_laws so -> exact_algebra so n vo mulr mul val -> md < 2 ^ 32 ->
  exists u a b c d, vr_from_key vo tk_new = Ret u
    /\ follow (trait_fmexp so p md vo mulr) u ys = Ret a /\ follow (trait_fmexp so p md vo mulr) u zs = Ret b
    /\ follow (trait_fmexp so p md vo mulr) u (ys ++ zs) = Ret c
    /\ mul a b (Some md) = Ret d /\ forall w, word_ok n w -> val c w = val d w.
Proof. exact c102_chen. Qed.
Print Assumptions C102_chen.
Theorem C102_back : forall (V S R : Type) (so : scalar_ops S R) (p : profile) (n md : N) (vo : vec_ops V tkey S R)
    (mulr : V -> V -> S -> option N -> outcome V) (mul : V -> V -> option N -> outcome V) (val : V -> word -> S) (x : V) (ys zs : list V),
  field_laws so -> exact_algebra so n vo mulr mul val -> md < 2 ^ 32 ->
  Forall2 (fun y z => forall w, word_ok n w -> val z w = s_uminus so (val y w)) (rev ys) zs ->
  exists z, follow (trait_fmexp so p md vo mulr) x (ys ++ zs) = Ret z
    /\ forall w, word_ok n w -> len w <> md -> val z w = val x w.
Proof. exact c102_back. Qed.
Print Assumptions C102_back.
Theorem C102_line : forall (V S R : Type) (so : scalar_ops S R) (p : profile) (n md : N) (vo : vec_ops V tkey S R)
    (mulr : V -> V -> S -> option N -> outcome V) (mul : V -> V -> option N -> outcome V) (val : V -> word -> S) (y : V),
  field_laws so -> exact_algebra so n vo mulr mul val -> md < 2 ^ 32 ->
  (forall w, word_ok n w -> 2 <= len w -> val y w = s_zero so) ->
  exists u z, vr_from_key vo tk_new = Ret u /\ trait_fmexp so p md vo mulr u y = Ret z
    /\ forall w, word_ok n w -> len w < md -> val z w = s_mul so (inv_fact so (length w)) (weight so (val y) w).
Proof. exact c102_line. Qed.
Print Assumptions C102_line.
Example C102_example : let y1 : word -> Qc := fun w => match w with [1] => q 1 | _ => q 0 end in
  let y2 : word -> Qc := fun w => match w with [2] => q 2 | _ => q 0 end in
  let neg (y : word -> Qc) : word -> Qc := fun w => Qcopp (y w) in
  let go ys := (z <- follow (trait_fmexp qc_ops dev 3 (fun_ops qc_ops) fun_mul_rat_rdiv) (unit_fun qc_ops) ys ;;
                Ret (map this (map z [[]; [1]; [2]; [1; 1]; [1; 2]; [2; 1]; [2; 2]]))) in
  go [y1; y2] = Ret [1; 1; 2; 1 # 2; 2; 0; 2]%Q /\ go [y2; y1] = Ret [1; 1; 2; 1 # 2; 0; 2; 2]%Q
  /\ go [y1; y2; neg y2; neg y1] = Ret [1; 0; 0; 0; 0; 0; 0]%Q.
Proof. exact c102_example. Qed.
