(** Property theorems (generated by tools/gen_props.py from L_PropEval.v, where the proofs are). *)
From Coq Require Import QArith Qcanon.
From Verif Require Import Machine MachineLemmas S_Words L_Words M_TensorKey M_TensorBasis M_Scalar M_Vector M_Dense S_Vector S_Tensor I_Scalars
  L_Ring L_PropDense M_Algebra L_Algebra L_Conv L_PropAlgebra L_PropProducts S_TensorProg L_PropTensorProg L_PropClosures L_TensorKey L_PropKey L_PropHistory S_Eval L_Eval I_Matrix.
From Verif Require Import L_PropEval.
Local Open Scope N_scope.

(** * C120: Tensors are evaluated in any algebra *)
Theorem C120_multiply : forall (S R A : Type) (so : scalar_ops S R) (al : algebra S A) (phi : N -> A) (p : profile) (n : N)
    (x y : dvec S) (l r t : N),
  ring_laws so -> algebra_laws so al -> 2 <= n -> filled n x l -> filled n y r -> 1 <= l + r <= t -> n ^ (l + r + 1) < 2 ^ 64 ->
  exists z, alg_multiply so p n x y (Some t) = Ret z
    /\ evaluate al phi n t (wcoef so n z) = a_mul al (evaluate al phi n t (wcoef so n x)) (evaluate al phi n t (wcoef so n y)).
Proof. exact c120_multiply. Qed.
Print Assumptions C120_multiply.
Theorem C120_commutator : forall (S R A : Type) (so : scalar_ops S R) (al : algebra S A) (phi : N -> A) (p : profile) (n : N)
    (x y : dvec S) (l r t : N),
  ring_laws so -> algebra_laws so al -> 2 <= n -> filled n x l -> filled n y r -> 1 <= l + r <= t -> n ^ (l + r + 1) < 2 ^ 64 ->
  exists z, alg_commutator so p n x y (Some t) = Ret z
    /\ let a := evaluate al phi n t (wcoef so n x) in let b := evaluate al phi n t (wcoef so n y) in
       evaluate al phi n t (wcoef so n z) = a_sub so al (a_mul al a b) (a_mul al b a).
Proof. exact c120_commutator. Qed.
Print Assumptions C120_commutator.
Theorem C120_programs : forall (S R A : Type) (so : scalar_ops S R) (al : algebra S A) (phi : N -> A) (p : profile) (n D : N)
    (cs : list (tcmd S R)) (st z : nat -> dvec S) (i : nat),
  field_laws so -> algebra_laws so al -> 2 <= n < 2 ^ 32 -> n ^ (D + 1) < 2 ^ 64 ->
  (forall w, word_ok n w -> D < len w -> eval_word al phi w = a_zero al) ->
  (forall i, dv_kind (st i) = Owned /\ (dv_size (st i) = 0 \/ exists d, d <= D /\ filled n (st i) d)) ->
  Forall (cmd_within n D) cs -> Forall (algebraic D) cs ->
  run_prog so p n st cs = Ret z ->
  evaluate al phi n D (wcoef so n (z i)) = image_prog so al phi (fun j => evaluate al phi n D (wcoef so n (st j))) cs i.
Proof. exact c120_programs. Qed.
Print Assumptions C120_programs.
Theorem C120_words : forall (S R A : Type) (so : scalar_ops S R) (al : algebra S A) (phi : N -> A) (p : profile) (n D : N) (w : word)
    (k : tkey) (c : S),
  field_laws so -> algebra_laws so al -> 2 <= n < 2 ^ 32 -> word_ok n w -> len w <= D -> n ^ (D + 1) < 2 ^ 64 ->
  tk_from_letters p n w = Ret k ->
  exists v, vr_from_key_scalar (dense_ops so (tensor_basis p n)) k c = Ret v
    /\ evaluate al phi n D (wcoef so n v) = a_scale al c (eval_word al phi w).
Proof. exact c120_words. Qed.
Print Assumptions C120_words.
Example C120_example :
  let phi := fun a => if a =? 1 then mk_tri (q 1) (q 2) (q 0) (q 3) (q 1) (q 1) else mk_tri (q 0) (q 1) (q 5) (q 1) (q 1) (q 2) in
  let x := dv_from [q 1; q 2; q 3] in let y := dv_from [q 5; q 7; q 11] in
  let ev := fun v => evaluate tri_algebra phi 2 3 (wcoef qc_ops 2 v) in
  (** the letters do not commute *)
  a_mul tri_algebra (phi 1) (phi 2) <> a_mul tri_algebra (phi 2) (phi 1)
  /\ (z <- alg_multiply qc_ops dev 2 x y (Some 3) ;; Ret (entries (ev z))) = Ret (entries (a_mul tri_algebra (ev x) (ev y)))
  /\ entries (a_mul tri_algebra (ev x) (ev y)) = qz [36; 334; 801; 370; 350; 306]%Z
  (** strictly upper triangular matrices: three factors vanish *)
  /\ (let phi := fun a => if a =? 1 then mk_tri (q 0) (q 2) (q 0) (q 0) (q 1) (q 0) else mk_tri (q 0) (q 1) (q 5) (q 0) (q 3) (q 0) in
      let start := fun _ : nat => @dv_new Qc in
      let cs := [CKey 0 [1] (q 1); CPairs 1 [([], q 4); ([2], q 2); ([1; 2], q 3); ([2], q 5)]; CComm 2 0 1 (Some 2);
                 CSubMul 1 0 1 (Some 2); CDivide 1 (q 2); CAddScaled 1 2 (q 5); CNeg 1] in
      (forall w, word_ok 2 w -> 2 < len w -> eval_word tri_algebra phi w = a_zero tri_algebra)
      /\ Forall (cmd_within 2 2) cs /\ Forall (algebraic 2) cs
      /\ (z <- run_prog qc_ops dev 2 start cs ;; Ret (entries (evaluate tri_algebra phi 2 2 (wcoef qc_ops 2 (z 1%nat)))))
         = Ret (entries (image_prog qc_ops tri_algebra phi (fun _ => a_zero tri_algebra) cs 1%nat))
      /\ entries (image_prog qc_ops tri_algebra phi (fun _ => a_zero tri_algebra) cs 1%nat) = [- 2 # 1; 1 # 2; - 361 # 2; - 2 # 1; - 17 # 2; - 2 # 1]%Q).
Proof. exact c120_example. Qed.
