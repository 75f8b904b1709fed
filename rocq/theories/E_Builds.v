(** Cases that meet the hypotheses of the theorems of P_Builds.v. *)
From Coq Require Import QArith Qcanon Lia.
From Verif Require Import Machine MachineLemmas S_Words M_Scalar M_Vector M_Dense M_Algebra M_TensorKey M_TensorBasis S_TensorProg I_Scalars M_Float S_Builds P_Builds E_Tac.
Local Open Scope N_scope.
(** only one of the two switches *)
Local Notation asserts := {| overflow_checks := false; debug_assertions := true |}.
Ltac hyp_more ::= lazymatch goal with |- checks_more _ _ => split; intros H; first [discriminate H | reflexivity] end.
Definition case_C125_keys := ltac:(use (C125_keys dev asserts 3)).
Definition case_C125_basis := ltac:(use (C125_basis asserts release 5)).
Definition case_C125_vectors := ltac:(use (C125_vectors _ _ (fl_ops f64) dev release 3)).
Definition case_C125_products := ltac:(use (C125_products Qc Qc qc_ops dev release 2)).
(** a program that panics in a build with checks: the product would have degree 70 *)
Definition case_C125_programs := ltac:(use (C125_programs Qc Qc qc_ops dev release 2 [CPairs 0 [([1], q 2)]; CDegree 1 70; CMul 2 0 0 (Some 3)] (fun _ => dv_new))).
Definition case_C125_hall := ltac:(use (C125_hall dev release 2)).
(** a closure that counts its calls and panics at the third *)
Definition case_C125_closures := ltac:(use (C125_closures Qc Qc nat qc_ops dev release 2 (fun k x => (S k, if Nat.eqb k 2 then None else Some x)))).
