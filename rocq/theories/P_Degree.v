(** Property theorems (generated by tools/gen_props.py from L_PropDegree.v, where the proofs are). *)
From Coq Require Import QArith Qcanon.
From Verif Require Import Machine MachineLemmas S_Words L_Words M_TensorKey L_TensorKey M_TensorBasis
  L_TensorBasis M_Scalar M_Vector M_Dense S_Degree L_DegreeWrap L_PropKey M_Algebra M_FreeTensor I_Scalars.
From Verif Require Import L_PropDegree.
Local Open Scope N_scope.

(** * C103: Sizes of degrees in builds without overflow checks *)
Theorem C103_start_of_degree : forall (p : profile) (n d : N), overflow_checks p = false -> n < 2 ^ 32 ->
  tb_start_of_degree p n d = (if n =? 1 then Panic else Ret (wrapped_start n d))
  /\ (2 <= n -> n ^ d < 2 ^ 64 -> wrapped_start n d = count_below n (N.to_nat d)).
Proof. exact c103_start_of_degree. Qed.
Print Assumptions C103_start_of_degree.
Theorem C103_index_to_degree : forall (p : profile) (n i : N), overflow_checks p = false -> n < 2 ^ 32 -> n <> 1 ->
  (exists d, d + 1 < 2 ^ 32 /\ i < wrapped_start n (d + 1) /\ (forall e, e <= d -> wrapped_start n e <= i)
     /\ tb_index_to_degree p n i = Ret d)
  \/ ((forall e, e < 2 ^ 32 -> wrapped_start n e <= i) /\ tb_index_to_degree p n i = Diverge).
Proof. exact c103_index_to_degree. Qed.
Print Assumptions C103_index_to_degree.
Theorem C103_right_iff : forall (p : profile) (n : N) (w : word) (k : tkey) (i : N), overflow_checks p = false ->
  2 <= n < 2 ^ 32 -> word_ok n w -> tk_from_letters p n w = Ret k -> tb_key_to_index p n k = Ret i ->
  tb_index_to_degree p n i = Ret (len w) <-> i < wrapped_start n (len w + 1).
Proof. exact c103_right_iff. Qed.
Print Assumptions C103_right_iff.
Theorem C103_dimension : forall (p : profile) (n : N) (k : tkey), overflow_checks p = false -> n < 2 ^ 32 -> n <> 1 ->
  tk_size k < 2 ^ 32 - 1 -> tb_vector_dimension_for_key p n k = Ret (wrapped_start n (tk_size k + 1)).
Proof. exact c103_dimension. Qed.
Print Assumptions C103_dimension.
Theorem C103_wrong_degree : forall (p : profile), overflow_checks p = false ->
  (exists w k i, word_ok 31 w /\ len w = 12 /\ tk_from_letters p 31 w = Ret k /\ tb_key_to_index p 31 k = Ret i
     /\ tb_index_to_degree p 31 i = Ret 15)
  /\ (exists w k i, word_ok 4194304 w /\ len w = 2 /\ tk_from_letters p 4194304 w = Ret k
     /\ tb_key_to_index p 4194304 k = Ret i /\ tb_index_to_degree p 4194304 i = Diverge).
Proof. exact c103_wrong_degree. Qed.
Print Assumptions C103_wrong_degree.
Example C103_example : wrapped_start 31 12 = 26255426126284992 /\ wrapped_start 31 13 = 199026740791183032
  /\ count_below 31 13 = 813918209914834753 /\ wrapped_start 4194304 3 = 4398047559680
  /\ tb_index_to_degree release 31 199026740791183031 = Ret 12
  /\ tb_vector_dimension_for_key release 31 (mk_tkey 12 0) = Ret 199026740791183032.
Proof. exact c103_example. Qed.

(** * C104: Dense tensors over alphabets with at most one letter *)
Theorem C104_one_letter : forall (S R : Type) (so : scalar_ops S R) (p : profile),
  (forall k s, dv_from_key_scalar so (tensor_basis p 1) k s = Panic)
  /\ (forall k, dv_from_key so (tensor_basis p 1) k = Panic)
  /\ (forall d, dv_from_degree so (tensor_basis p 1) d = Panic)
  /\ (forall self x y func t, multiply_and_add_into_impl so p 1 self x y func t = Panic)
  /\ (forall x y t, alg_multiply so p 1 x y t = Panic)
  /\ (forall self x y t, alg_add_mul so p 1 self x y t = Panic)
  /\ (forall self x y t, alg_sub_mul so p 1 self x y t = Panic)
  /\ (forall x y t, alg_commutator so p 1 x y t = Panic)
  /\ (forall md x, ft_exp so p 1 md x = Panic)
  /\ (forall md x, ft_log so p 1 md x = Panic).
Proof. exact c104_one_letter. Qed.
Print Assumptions C104_one_letter.
Theorem C104_one_letter_degree : forall (S : Type) (p : profile) (x : dvec S),
  dv_degree (tensor_basis p 1) x = if dv_size x <=? 2 then Ret (dv_size x - 1) else Panic.
Proof. exact c104_one_letter_degree. Qed.
Print Assumptions C104_one_letter_degree.
Theorem C104_no_letters : forall (S R : Type) (so : scalar_ops S R) (p : profile),
  (overflow_checks p = true ->
     (forall k s, dv_from_key_scalar so (tensor_basis p 0) k s = Panic)
     /\ (forall self x y func t, multiply_and_add_into_impl so p 0 self x y func t = Panic)
     /\ (forall x y t, alg_multiply so p 0 x y t = Panic)
     /\ (forall self x y t, alg_add_mul so p 0 self x y t = Panic)
     /\ (forall self x y t, alg_sub_mul so p 0 self x y t = Panic)
     /\ (forall x y t, alg_commutator so p 0 x y t = Panic))
  /\ (overflow_checks p = false ->
     (forall d, tb_start_of_degree p 0 d = Ret (N.of_nat (length (words_below 0 (N.to_nat d)))))
     /\ (forall s, dv_from_key_scalar so (tensor_basis p 0) tk_new s = Ret (dv_from [s]))
     /\ (forall x y t, dv_size x <= 1 -> dv_size y <= 1 -> alg_multiply so p 0 x y (Some t) = UB)).
Proof. exact c104_no_letters. Qed.
Print Assumptions C104_no_letters.
Example C104_example :
  dv_from_key qc_ops (tensor_basis dev 1) tk_new = Panic
  /\ alg_multiply qc_ops release 1 (dv_from [1; 1]%Qc) (dv_from [1; 1]%Qc) (Some 2) = Panic
  /\ tk_from_letters dev 1 [1; 1; 1] = Ret (mk_tkey 3 0) /\ tb_key_to_index dev 1 (mk_tkey 3 0) = Ret 3
  /\ dv_from_key qc_ops (tensor_basis release 0) tk_new = Ret (dv_from [1%Qc])
  /\ alg_multiply qc_ops release 0 (dv_from [1%Qc]) (dv_from [1%Qc]) (Some 2) = UB.
Proof. exact c104_example. Qed.
