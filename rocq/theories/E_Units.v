(** Cases that meet the hypotheses of the theorems of P_Units.v. *)
From Coq Require Import QArith Qcanon.
From Verif Require Import Machine S_Words M_TensorKey M_TensorBasis M_Scalar M_Vector M_Dense S_Vector S_Tensor
  M_Algebra I_Scalars L_PropUnits P_Units E_Tac.
Local Open Scope N_scope.

Lemma qc_integral : forall c d : Qc, s_mul qc_ops c d = s_zero qc_ops -> c = s_zero qc_ops \/ d = s_zero qc_ops.
Proof. exact Qcmult_integral. Qed.
Lemma qc_decide : forall c d : Qc, c = d \/ c <> d.
Proof. intros c d. destruct (Qc_eq_dec c d); [left|right]; assumption. Qed.
Ltac hyp_more ::=
  lazymatch goal with
  | |- filled _ _ _ => unfold filled; vm_compute; reflexivity
  | |- forall c d, s_mul _ c d = _ -> _ => exact qc_integral
  | |- forall c d, c = d \/ c <> d => exact qc_decide
  | |- s_mul _ _ _ = _ => apply Qc_is_canon; vm_compute; reflexivity
  | |- wcoef _ _ _ _ <> _ => let H := fresh in intros H; apply (f_equal this) in H; vm_compute in H; discriminate H
  end.
Local Notation v l := (dv_from (map q l)).
Example case_C127_inverse := ltac:(use (C127_inverse _ _ qc_ops dev 2 1 3 (v [2; 1; 3]%Z))).
Example case_C127_leading := ltac:(use (C127_leading _ _ qc_ops dev 2 1 2 4 (v [0; 1; 3]%Z) (v [0; 0; 0; 2; 5; 0; 1]%Z) [2] [1; 2])).
Example case_C127_nonzero := ltac:(use (C127_nonzero _ _ qc_ops dev 2 1 2 4 (v [0; 1; 3]%Z) (v [1; 0; 0; 2; 5; 0; 1]%Z) [2] [1; 2])).
Example case_C127_centre := ltac:(use (C127_centre _ _ qc_ops dev 2 2 2 (v [7; 0; 0; 0; 1; 0; 0]%Z))).
(** two factors that differ from degree 2 on *)
Definition cancel_z (y : dvec Qc) : dvec Qc :=
  match alg_multiply qc_ops dev 2 (v [2; 1; 3]%Z) y (Some 2) with Ret z => z | _ => dv_from [] end.
Local Notation y1 := (v [1; 4; 0]%Z).
Local Notation y2 := (v [1; 4; 0; 5; 0; 0; 6]%Z).
Example case_C127_cancel : forall w, word_ok 2 w -> len w <= 1 -> wcoef qc_ops 2 y1 w = wcoef qc_ops 2 y2 w.
Proof.
  apply (C127_cancel _ _ qc_ops dev 2 1 1 2 2 1 (Q2Qc (1 # 2)) (v [2; 1; 3]%Z) y1 y2 (cancel_z y1) (cancel_z y2)); try hyp.
  - intros [|a [|b w]] Hw Hl; [vm_compute; reflexivity| |exfalso; unfold len in Hl; cbn [length] in Hl; lia].
    inversion Hw as [|a' w' Ha _]; subst. assert (C : a = 1 \/ a = 2) by lia. destruct C as [-> | ->]; vm_compute; reflexivity.
Qed.
