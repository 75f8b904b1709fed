(** Cases that meet the hypotheses of the theorems of P_Antipode.v. *)
From Coq Require Import QArith Qcanon.
From Verif Require Import Machine S_Words M_TensorKey M_TensorBasis M_Scalar M_Vector M_Dense S_Vector S_Tensor S_Series S_FreeTensor
  M_Algebra M_FreeTensor I_Scalars I_FunAlgebra S_Shuffle S_Lie S_Antipode P_Antipode E_Tac E_Shuffle.
Local Open Scope N_scope.

Local Notation v l := (dv_from (map q l)).
(** the product of the exponentials of the two letters, up to degree 2, and a tensor *)
Local Notation e12 := (dv_from [q 1; q 1; q 1; Q2Qc (1 # 2); q 1; q 0; Q2Qc (1 # 2)]).
Example case_C126_inverse := ltac:(use (C126_inverse _ _ qc_ops dev 2 3 2 2 1 e12 (v [1; -1; -1]%Z))).
Example case_C126_group := ltac:(use (C126_group _ _ qc_ops 2 2 (wcoef qc_ops 2 e12))).
Example case_C126_lie := ltac:(use (C126_lie _ _ qc_ops dev 2 3
  (Bracket (Plus (Scaled (q 2) (Letter 1)) (Letter 2)) (Bracket (Letter 1) (Letter 2))))).
Example case_C126_path := ltac:(use
  (C126_path _ _ _ qc_ops dev 2 3 (fun_ops qc_ops) fun_mul_rat_rdiv (fun_multiply qc_ops) (fun x w => x w) [fy; step] [fneg step; fneg fy])).
