(** Property theorems (generated by tools/gen_props.py from L_PropRecursion.v, where the proofs are). *)
From Verif Require Import Machine MachineLemmas S_Words L_Words M_TensorKey L_TensorKey M_TensorBasis L_TensorBasis S_Degree L_DegreeWrap
  L_PropKey L_PropDegree S_Recursion.
From Verif Require Import L_PropRecursion.
Local Open Scope N_scope.

(** * C131: How deeply index_to_degree recurses *)
Theorem C131_bounded : forall (p : profile) (n i : N), overflow_checks p = true -> n < 2 ^ 32 ->
  exists m, (m <= 61)%nat /\ degree_calls p n i m (tb_index_to_degree p n i).
Proof. exact c131_bounded. Qed.
Print Assumptions C131_bounded.
Theorem C131_bound_met : forall (p : profile), overflow_checks p = true ->
  degree_calls p 2 (2 ^ 63 - 1) 61 Panic.
Proof. exact c131_bound_met. Qed.
Print Assumptions C131_bound_met.
Theorem C131_answer : forall (p : profile) (n i d : N), n < 2 ^ 32 -> tb_index_to_degree p n i = Ret d ->
  forall m r, degree_calls p n i m r <-> m = N.to_nat (d - 2) /\ r = Ret d.
Proof. exact c131_answer. Qed.
Print Assumptions C131_answer.
Theorem C131_endless : forall (p : profile) (n i : N), overflow_checks p = false -> n < 2 ^ 32 ->
  tb_index_to_degree p n i = Diverge -> forall m r, ~ degree_calls p n i m r.
Proof. exact c131_endless. Qed.
Print Assumptions C131_endless.
Theorem C131_endless_key : forall (p : profile), overflow_checks p = false -> exists w k i, word_ok 4194304 w /\ len w = 2
  /\ tk_from_letters p 4194304 w = Ret k /\ tb_key_to_index p 4194304 k = Ret i /\ forall m r, ~ degree_calls p 4194304 i m r.
Proof. exact c131_endless_key. Qed.
Print Assumptions C131_endless_key.
Example C131_example : tb_index_to_degree dev 2 1000 = Ret 9 /\ steps 7 (tb_index_to_degree_step dev 2 1000) 3 = inr (Ret 9)
  /\ steps 6 (tb_index_to_degree_step dev 2 1000) 3 = inl 9 /\ tb_index_to_degree dev 2 (2 ^ 63 - 1) = Panic.
Proof. exact c131_example. Qed.
