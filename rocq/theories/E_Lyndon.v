(** Cases that meet the hypotheses of the theorems of P_Lyndon.v. *)
From Coq Require Import QArith Qcanon.
From Verif Require Import Machine S_Words M_TensorKey M_TensorBasis M_Scalar M_Vector M_Dense S_Vector S_Tensor S_Series
  M_Algebra I_Scalars S_Shuffle S_Lie S_Dynkin S_Hall M_DegreeRange S_Lyndon P_Lyndon E_Tac.
Local Open Scope N_scope.

Ltac hyp_more ::=
  lazymatch goal with
  | |- letters_ok _ _ => cbn; lia
  | |- forall l, In l _ -> _ => let l := fresh in let H := fresh in intros l H; vm_compute in H; repeat (destruct H as [<-|H]); [vm_compute; reflexivity..|destruct H]
  end.
Example case_C129_bracket := ltac:(use (C129_bracket _ _ qc_ops dev 3 5 [1; 2; 1; 3; 2])).
Example case_C129_basis := ltac:(use (C129_basis _ _ qc_ops dev 2 5
  (Bracket (Bracket (Letter 2) (Bracket (Letter 1) (Letter 2))) (Plus (Scaled (q 3) (Letter 1)) (Bracket (Letter 1) (Letter 2)))))).
Example case_C129_prescribed := ltac:(use (C129_prescribed _ _ qc_ops release 2 6 (fun w => q (Z.of_N (windex 2 w))))).
Example case_C129_hall_set_size := ltac:(use (C129_hall_set_size dev 1000 5)).
Example case_C129_hall_set_size_small := ltac:(use (C129_hall_set_size release 2 5)).
(** [[a1, a2], a1] and -[a1, [a1, a2]] *)
Definition value (e : lie Qc) : dvec Qc := match lie_eval qc_ops dev 2 3 e with Ret z => z | _ => dv_from [] end.
Local Notation e1 := (Bracket (Bracket (Letter 1) (Letter 2)) (Letter 1)).
Local Notation e2 := (Neg (Bracket (Letter 1) (Bracket (Letter 1) (Letter 2)))).
Example case_C129_determined : forall w, word_ok 2 w -> wcoef qc_ops 2 (value e1) w = wcoef qc_ops 2 (value e2) w.
Proof. apply (C129_determined _ _ qc_ops dev 2 3 e1 e2 (value e1) (value e2)); hyp. Qed.
