(** Upper triangular 3x3 matrices with rational entries, an algebra that is not commutative; only used in examples. *)
From Coq Require Import QArith Qcanon.
From Verif Require Import Machine M_Scalar I_Scalars S_Eval.

Record tri := mk_tri { m11 : Qc; m12 : Qc; m13 : Qc; m22 : Qc; m23 : Qc; m33 : Qc }.
Local Open Scope Qc_scope.
Definition tri_algebra : algebra Qc tri := {|
  a_zero := mk_tri 0 0 0 0 0 0;
  a_one := mk_tri 1 0 0 1 0 1;
  a_add x y := mk_tri (m11 x + m11 y) (m12 x + m12 y) (m13 x + m13 y) (m22 x + m22 y) (m23 x + m23 y) (m33 x + m33 y);
  a_mul x y := mk_tri (m11 x * m11 y) (m11 x * m12 y + m12 x * m22 y) (m11 x * m13 y + m12 x * m23 y + m13 x * m33 y)
                      (m22 x * m22 y) (m22 x * m23 y + m23 x * m33 y) (m33 x * m33 y);
  a_scale s x := mk_tri (s * m11 x) (s * m12 x) (s * m13 x) (s * m22 x) (s * m23 x) (s * m33 x)
|}.
Lemma tri_laws : algebra_laws qc_ops tri_algebra.
Proof.
  constructor; intros; repeat match goal with x : tri |- _ => destruct x end; cbn; f_equal; ring.
Qed.
(** the entries *)
Definition entries (x : tri) : list Q := map this [m11 x; m12 x; m13 x; m22 x; m23 x; m33 x].
