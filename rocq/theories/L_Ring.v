(** Consequences of the laws of scalars. *)
From Coq Require Import Ring_theory Ring.
From Verif Require Import Machine M_Scalar S_Vector.

Lemma ring_of {S R} (so : scalar_ops S R) : ring_laws so ->
  ring_theory (s_zero so) (s_one so) (s_add so) (s_mul so) (s_sub so) (s_uminus so) eq.
Proof.
  intros L. constructor; intros; apply L.
Qed.

Section Ring.
  Context {S R : Type} (so : scalar_ops S R) (L : ring_laws so).
  Let RT := ring_of so L.
  Add Ring scalars : RT.
  Notation zero := (s_zero so).
  Lemma r_add_0_r x : s_add so x zero = x. Proof. ring. Qed.
  Lemma r_sub_0_r x : s_sub so x zero = x. Proof. ring. Qed.
  Lemma r_sub_diag x : s_sub so x x = zero. Proof. ring. Qed.
  Lemma r_mul_0_l x : s_mul so zero x = zero. Proof. ring. Qed.
  Lemma r_mul_0_r x : s_mul so x zero = zero. Proof. ring. Qed.
  Lemma r_mul_1_r x : s_mul so x (s_one so) = x. Proof. ring. Qed.
  Lemma r_opp_0 : s_uminus so zero = zero. Proof. ring. Qed.
  Lemma r_opp_opp x : s_uminus so (s_uminus so x) = x. Proof. ring. Qed.
  Lemma r_opp_add x y : s_uminus so (s_add so x y) = s_add so (s_uminus so x) (s_uminus so y). Proof. ring. Qed.
  Lemma r_mul_opp_l x y : s_mul so (s_uminus so x) y = s_uminus so (s_mul so x y). Proof. ring. Qed.
  Lemma r_mul_opp_r x y : s_mul so x (s_uminus so y) = s_uminus so (s_mul so x y). Proof. ring. Qed.
  Lemma r_mul_add_r x y z : s_mul so z (s_add so x y) = s_add so (s_mul so z x) (s_mul so z y). Proof. ring. Qed.
End Ring.
