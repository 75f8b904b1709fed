(** Concrete scalars: canonical rationals, used to show that the laws are satisfiable and to compute
    examples. *)
From Coq Require Import QArith Qcanon.
From Verif Require Import Machine M_Scalar M_Vector M_Dense S_Vector.

Definition Qc_of_N (d : N) : Qc := Q2Qc (inject_Z (Z.of_N d)).
Definition qc_ops : scalar_ops Qc Qc := {|
  s_zero := 0%Qc; s_one := 1%Qc; s_mone := Qcopp 1%Qc;
  s_uminus := Qcopp; s_inv := Qcinv;
  s_add := Qcplus; s_sub := Qcminus; s_mul := Qcmult; s_div := Qcdiv;
  s_eqb := Qc_eq_bool;
  s_from_degree := Qc_of_N; r_from_degree := Qc_of_N |}.

Lemma Qc_of_N_succ d : Qc_of_N (d + 1) = (Qc_of_N d + 1)%Qc.
Proof.
  unfold Qc_of_N. apply Qc_is_canon. unfold Qcplus, Q2Qc. cbn [this].
  rewrite !Qred_correct. rewrite N2Z.inj_add, inject_Z_plus. reflexivity.
Qed.
Lemma Qc_of_N_pos d : (0 < d)%N -> Qc_of_N d <> 0%Qc.
Proof.
  intros Hd H. apply (f_equal this) in H. unfold Qc_of_N, Q2Qc in H. cbn [this] in H.
  assert (E : Qred (inject_Z (Z.of_N d)) == 0) by (rewrite H; reflexivity).
  rewrite Qred_correct in E. unfold Qeq, inject_Z in E. cbn in E. lia.
Qed.

Lemma qc_ring : ring_laws qc_ops.
Proof.
  constructor; cbn; intros; try ring.
  split; [apply Qc_eq_bool_correct|]. intros ->. unfold Qc_eq_bool. destruct (Qc_eq_dec y y); congruence.
Qed.
Lemma qc_field : field_laws qc_ops.
Proof.
  constructor; cbn; intros; try reflexivity.
  - apply qc_ring.
  - discriminate.
  - apply Qcmult_integral. assumption.
  - apply Qc_of_N_succ.
  - apply Qcmult_inv_r. apply Qc_of_N_pos. assumption.
Qed.

(** number literals for examples *)
Definition q (z : Z) : Qc := Q2Qc (inject_Z z).
(** the values stored in a vector, as plain fractions in lowest terms *)
Definition vals (v : dvec Qc) : list Q := map this (dv_elems v).
Definition qz (l : list Z) : list Q := map inject_Z l.
