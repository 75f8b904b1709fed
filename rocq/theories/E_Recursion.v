(** Cases that meet the hypotheses of the theorems of P_Recursion.v. *)
From Verif Require Import Machine S_Words M_TensorKey M_TensorBasis S_Recursion P_Recursion L_PropDegree E_Tac.
Local Open Scope N_scope.

Example case_C131_bounded := ltac:(use (C131_bounded dev 3 50)).
Example case_C131_bound_met := ltac:(use (C131_bound_met dev)).
Example case_C131_answer := ltac:(use (C131_answer release 2 1000 9)).
Example case_C131_endless_key := ltac:(use (C131_endless_key release)).
Example case_C131_endless : exists i, tb_index_to_degree release 4194304 i = Diverge /\ forall m r, ~ degree_calls release 4194304 i m r.
Proof.
  destruct (c103_wrong_degree release eq_refl) as [_ (w & k & i & _ & _ & _ & _ & E)]. exists i. split; [exact E|].
  apply C131_endless; [reflexivity|reflexivity|exact E].
Qed.
