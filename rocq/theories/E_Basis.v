(** Cases that meet the hypotheses of the theorems of P_Basis.v, P_NextKey.v, P_Degree.v, P_IndexKey.v, P_KeyRaw.v,
    P_KeyIndex.v, P_SizeField.v and P_IterKeys.v. *)
From Coq Require Import Qcanon.
From Verif Require Import Machine S_Words M_TensorKey L_TensorKey M_TensorBasis S_TensorApi S_Degree S_KeyRaw S_IterKeys
  I_Scalars P_Basis P_NextKey P_Degree P_IndexKey P_KeyRaw P_KeyIndex P_SizeField P_IterKeys E_Tac.
Local Open Scope N_scope.
Ltac hyp_more ::= lazymatch goal with |- special _ => vm_compute; reflexivity end.

Example case_C09_key_index_key := ltac:(use (C09_key_index_key dev 3 [2; 3; 2] (key 3 [2; 3; 2]))).
Example case_C09_index_key_index := ltac:(use (C09_index_key_index dev 3 1000000000)).
Example case_C10_index_is_position := ltac:(use (C10_index_is_position dev 3 [2; 3; 2] (key 3 [2; 3; 2]))).
Example case_C10_position_is_key :
  exists i w k, nth_error (words_below 3 (S (N.to_nat (max_depth 3)))) (N.to_nat i) = Some w /\ w = [2; 3; 2]
    /\ tb_index_to_key dev 3 i = Ret k /\ tk_from_letters dev 3 w = Ret k.
Proof.
  destruct case_C10_index_is_position as (i & _ & H). exists i, [2; 3; 2].
  destruct (C10_position_is_key dev 3 i [2; 3; 2] ltac:(hyp) H) as (k & E1 & E2).
  exists k. split; [exact H|]. split; [reflexivity|]. split; [exact E1|exact E2].
Qed.
Example case_C11_start_of_degree := ltac:(use (C11_start_of_degree dev 3 5)).
Example case_C11_degree_range := ltac:(use (C11_degree_range dev 3 2)).
Example case_C12_index_to_degree := ltac:(use (C12_index_to_degree dev 3 [2; 3; 2] (key 3 [2; 3; 2]) 29)).
Example case_C12_otherwise_panics :=
  ltac:(use (C12_otherwise_panics dev 4194304 [4194304; 5] (key 4194304 [4194304; 5]) 17592186044421)).
Example case_C13_dimension_for_key := ltac:(use (C13_dimension_for_key dev 3 [2; 1] (key 3 [2; 1]))).
Example case_C13_overflow_panics := ltac:(use (C13_overflow_panics dev 3 (mk_tkey 40 0))).
Example case_C14_same_degree_partial :=
  ltac:(use (C14_same_degree_partial dev 3 [2; 3; 1] [2; 1; 3] (key 3 [2; 3; 1]) (key 3 [2; 1; 3]) 28 24)).
Example case_C56_compare_exact := ltac:(use (C56_compare_exact dev 3 [3] [1; 1; 2] (key 3 [3]) (key 3 [1; 1; 2]))).
Example case_C15_iter_refuted := ltac:(use (C15_iter_refuted dev 5)).
Example case_C57_prefix := ltac:(use (C57_prefix dev 5 21)).
Example case_C57_starting_from := ltac:(use (C57_starting_from dev 5 [4; 2] 1 4 (key 5 [4; 2; 1]))).

Example case_C109_next := ltac:(use (C109_next dev 5 [2; 5])).
Example case_C109_last := ltac:(use (C109_last dev 5)).
Example case_C109_total := ltac:(use (C109_total release 5 (mk_tkey 100 77))).

Example case_C103_start_of_degree := ltac:(use (C103_start_of_degree release 31 13)).
Example case_C103_index_to_degree := ltac:(use (C103_index_to_degree release 31 199026740791183031)).
Example case_C103_right_iff := ltac:(use (C103_right_iff release 3 [2; 3; 2] (key 3 [2; 3; 2]) 29)).
Example case_C103_dimension := ltac:(use (C103_dimension release 31 (mk_tkey 12 0))).
Example case_C103_wrong_degree := ltac:(use (C103_wrong_degree release)).

Example case_C107_index_to_key := ltac:(use (C107_index_to_key dev 3 3486784401)).
Example case_C107_round_trip := ltac:(use (C107_round_trip dev 2 (2 :: repeat 1 31))).
Example case_C107_no_letters := ltac:(use (C107_no_letters dev 5)).

Example case_C105_from_letter := ltac:(use (C105_from_letter release 0)).
Example case_C105_get_letter := ltac:(use (C105_get_letter release 3 (mk_tkey 2 1) 32)).
Example case_C105_get_letter_beyond := ltac:(use (C105_get_letter_beyond dev 3 [1; 2] (key 3 [1; 2]) 31)).
Example case_C105_push_front := ltac:(use (C105_push_front release 3 7 (mk_tkey 40 5))).
Example case_C105_concatenate := ltac:(use (C105_concatenate release 3 (mk_tkey 20 5) (mk_tkey 30 7))).
Example case_C105_from_letters := ltac:(use (C105_from_letters release 3 [2; 0; 9])).

Example case_C112_key_to_index := ltac:(use (C112_key_to_index release 3 (mk_tkey 33 2))).
Example case_C112_iterate := ltac:(use (C112_iterate dev 5 (mk_tkey 2 62) 4)).
Example case_C112_letters := ltac:(use (C112_letters dev 5 (mk_tkey 2 62))).
Example case_C112_dimension_for_key := ltac:(use (C112_dimension_for_key release 31 (mk_tkey 12 5))).
Example case_C112_from_key := ltac:(use (C112_from_key Qc Qc qc_ops dev 5 (mk_tkey 2 63) (q 1))).

Example case_C113_letter_mask := ltac:(use (C113_letter_mask dev 5)).
Example case_C113_size_mask := ltac:(use (C113_size_mask dev 5)).
Example case_C113_letters_outside := ltac:(use (C113_letters_outside dev 5 [4; 5; 1] (key 5 [4; 5; 1]))).
Example case_C113_field_too_small := ltac:(use (C113_field_too_small 5)).

Definition items (m : nat) := match bi_take dev 5 (tb_iter_keys 5) m with Ret xs => xs | _ => [] end.
Example case_C108_short := ltac:(use (C108_short dev 5 16 (items 16))).
Example case_C108_words := ltac:(use (C108_words dev 5 16 (items 16) 2 4)).
Example case_C108_items := ltac:(use (C108_items dev 5 2 3)).
Example case_C108_fronts := ltac:(use (C108_fronts 5 2)).
Example case_C108_panics := ltac:(use (C108_panics dev 5)).
Example case_C108_endless := ltac:(use (C108_endless release 5 1000)).
Example case_C108_end := ltac:(use (C108_end dev 2796203 3)).
