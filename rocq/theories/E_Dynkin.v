(** Cases that meet the hypotheses of the theorems of P_Dynkin.v. *)
From Coq Require Import QArith Qcanon.
From Verif Require Import Machine S_Words M_TensorKey M_TensorBasis M_Scalar M_Vector M_Dense S_Vector S_Tensor S_Series
  M_Algebra I_Scalars S_Shuffle S_Lie S_Dynkin P_Dynkin E_Tac E_Shuffle.
Local Open Scope N_scope.

Ltac hyp_more ::=
  lazymatch goal with
  | |- filled _ _ _ => unfold filled; vm_compute; reflexivity
  | |- primitive _ _ _ _ => split; [apply Qc_is_canon; vm_compute; reflexivity|two_words]
  | |- letters_ok _ _ => cbn; lia
  end.
Local Notation v l := (dv_from (map q l)).
(** x1 + 2 x2 + 5 [x1, x2] + [x1, [x1, x2]] *)
Local Notation x := (v [0; 1; 2; 0; 5; -5; 0; 0; 1; -2; 0; 1; 0; 0; 0]%Z).
Example case_C128_dynkin := ltac:(use (C128_dynkin _ _ qc_ops dev 2 3 2 x)).
Example case_C128_dynkin_3 := ltac:(use (C128_dynkin _ _ qc_ops release 2 4 3 x)).
Example case_C128_specht_wever := ltac:(use (C128_specht_wever _ _ qc_ops dev 2 3 3
  (Bracket (Plus (Scaled (q 2) (Letter 1)) (Letter 2)) (Bracket (Letter 1) (Letter 2))))).
Example case_C128_right_brackets := ltac:(use (C128_right_brackets _ _ qc_ops dev 2 4
  (Bracket (Bracket (Letter 1) (Letter 2)) (Minus (Letter 1) (Bracket (Letter 1) (Letter 2)))))).
(** x is the value of an expression *)
Example case_C128_lie_polynomials : exists e z, letters_ok 2 e /\ lie_eval qc_ops dev 2 3 e = Ret z
  /\ forall w, word_ok 2 w -> wcoef qc_ops 2 z w = wcoef qc_ops 2 x w.
Proof. apply (C128_lie_polynomials _ _ qc_ops dev 2 3 3 x); hyp. Qed.
(** a product of two letters is not *)
Example case_C128_not_lie : ~ exists e z, letters_ok 2 e /\ lie_eval qc_ops dev 2 2 e = Ret z
  /\ forall w, word_ok 2 w -> wcoef qc_ops 2 z w = wcoef qc_ops 2 (v [0; 0; 0; 0; 1; 0; 0]%Z) w.
Proof.
  intros H. apply (C128_lie_polynomials _ _ qc_ops dev 2 2 2 (v [0; 0; 0; 0; 1; 0; 0]%Z)) in H; [|hyp..].
  destruct H as [_ H]. specialize (H [1] [2]). cbn -[shuffle_sum] in H.
  assert (E : shuffle_sum qc_ops (wcoef qc_ops 2 (v [0; 0; 0; 0; 1; 0; 0]%Z)) [1] [2] = 0%Qc) by (apply H; hyp).
  apply (f_equal this) in E. vm_compute in E. discriminate E.
Qed.
