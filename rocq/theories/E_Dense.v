(** Cases that meet the hypotheses of the theorems of P_Dense.v, P_Safe.v, P_Slices.v, P_History.v, P_Inplace.v, P_Wrap.v
    and P_TensorProg.v. *)
From Coq Require Import QArith Qcanon SpecFloat String.
From Verif Require Import Machine S_Words M_TensorKey M_TensorBasis M_Scalar M_Vector M_Dense M_Slices S_Vector S_Tensor S_Slices
  M_Algebra M_FreeTensor S_TensorProg M_Float I_Scalars L_PropTensorProg
  P_Dense P_Safe P_Slices P_History P_Inplace P_Wrap P_TensorProg E_Tac.
Local Open Scope N_scope.
Ltac hyp_more ::=
  lazymatch goal with
  | |- stored_to _ _ _ => unfold stored_to; vm_compute; discriminate
  | |- filled _ _ _ => unfold filled; vm_compute; reflexivity
  | |- dv_wf _ => vm_compute; first [exact I | reflexivity]
  | |- op_key_ok _ _ _ => first [exact I | vm_compute; reflexivity]
  | |- forall e, In e _ -> _ => let H := fresh in intros ? H; cbn [In] in H; repeat (destruct H as [<-|H]; [hyp|]); destruct H
  | |- forall i, stands_for _ _ _ _ (t_zero _) => intros i; apply std_new; [split; [lia|reflexivity]|reflexivity]
  | |- stands_for _ _ _ _ (t_zero _) => apply std_new; [split; [lia|reflexivity]|reflexivity]
  | |- forall i, shaped _ _ _ _ => intros i; split; [reflexivity|split; [lia|reflexivity]]
  | |- forall i : nat, exists d, _ => intros i; eexists 1; split; [lia|split; reflexivity]
  | |- cmd_within _ _ _ => cbn; repeat split; repeat constructor; try lia; vm_compute; congruence
  | |- cmd_careful _ => cbn; first [exact I | congruence | eexists; split; [reflexivity|lia]]
  | |- forall w, word_ok _ w -> _ = _ => reflexivity
  end.
Local Notation v l := (dv_from (map q l)).
Local Notation vx := (v [1; 2; 3]%Z).
Local Notation vy := (v [5; 2; -3; 4; 5; -6; 7]%Z).
Local Notation tb := (tensor_basis dev 2).
Local Notation k21 := (key 2 [2; 1]).

Example case_C16_from_key_scalar := ltac:(use (C16_from_key_scalar _ _ qc_ops dev 2 [2; 1] k21 (q 5))).
Example case_C16_overflow_panics := ltac:(use
  (C16_overflow_panics _ _ qc_ops dev 2642246 [2; 1642246] (key 2642246 [2; 1642246]) (q 5))).
Example case_C17_from_iterator := ltac:(use (C17_from_iterator _ _ qc_ops dev 2
  [([2; 1], q 5); ([1], q 3); ([2; 1], q 1)] [(k21, q 5); (key 2 [1], q 3); (k21, q 1)])).
Example case_C21_erase := ltac:(use (C21_erase _ _ _ qc_ops tb vy k21 5)).
Example case_C21_as_read := ltac:(use (C21_as_read _ _ _ qc_ops tb vy k21 (key 2 [1]) 5 1 (q 9))).
Example case_C22_insert_exact := ltac:(use (C22_insert_exact _ _ _ qc_ops tb vy k21 5 (q 9) [(k21, q 1)])).
Example case_C23_key_ext_exact := ltac:(use (C23_key_ext_exact _ _ _ qc_ops tb vy k21 5 (q 9) (q 2))).
Example case_C23_key_ext_partial := ltac:(use (C23_key_ext_partial _ _ _ qc_ops tb vy k21 5 (q 9) (q 2))).
Example case_C24_same_size_partial := ltac:(use (C24_same_size_partial _ _ qc_ops vx (v [1; 2; 4]%Z))).

Example case_C58_from_key_exact := ltac:(use (C58_from_key_exact _ _ _ qc_ops tb (mk_tkey 1 2) (q 3) 3 3)).
Example case_C58_from_iterator_exact := ltac:(use (C58_from_iterator_exact _ _ _ qc_ops tb
  [(key 2 [1], q 3); (k21, q 5)] (fun k => match tb_key_to_index dev 2 k with Ret i => i | _ => 0 end) k21 (q 5) 7)).
Example case_C58_memory_safety_refuted := ltac:(use (C58_memory_safety_refuted _ _ qc_ops dev 2)).
Example case_C58_words_checked_partial := ltac:(use
  (C58_words_checked_partial _ _ qc_ops dev 2642246 [2; 1642246] (key 2642246 [2; 1642246]) (q 5))).
Example case_C59_degree := ltac:(use (C59_degree _ _ qc_ops dev 2 (v [1; 2; 3; 4; 5; 6]%Z) [2; 1] k21)).
Example case_C59_empty := ltac:(use (C59_empty Qc _ tb dv_new)).
Example case_C59_resized := ltac:(use (C59_resized _ _ qc_ops dev 2 3 15 vx)).
Example case_C60_display_refuted := ltac:(use (C60_display_refuted Qc dev 2 3 (fun _ => "1"%string) vx)).
Example case_C60_display_empty_partial := ltac:(use (C60_display_empty_partial Qc dev 2 3 (fun _ => "1"%string) dv_new)).

Example case_C87_get := ltac:(use (C87_get _ vy (IRange 2 5))).
Example case_C87_degree := ltac:(use (C87_degree _ _ qc_ops dev 2 2 3 7 vy)).
Example case_C88_access :=
  ltac:(let r := eval cbv in (dv_get_mut_slice (dv_borrow [1; 2; 3; 4]) (IRange 1 3)) in
        lazymatch r with (?z, ?r) => use (C88_access _ (dv_borrow [1; 2; 3; 4]) z (IRange 1 3) r) end).
Example case_C88_write :=
  ltac:(let r := eval cbv in (dv_get_mut_slice (dv_borrow_mut [1; 2; 3; 4]) (IRange 1 3)) in
        lazymatch r with (?z, Some (?s, ?f)) => use (C88_write _ (dv_borrow_mut [1; 2; 3; 4]) z (IRange 1 3) s [8; 9] f) end).
Example case_C89_from_degree := ltac:(use (C89_from_degree _ _ qc_ops dev 3 2)).

Definition idx (k : tkey) : N := match ob_key_to_index tb k with Ret i => i | _ => 0 end.
Definition os : list (vop tkey Qc Qc) :=
  [OAdd vx; OErase (mk_tkey 1 0); OLmul (q 5); OClear; OSubRdiv (dv_borrow [q 4; q 6]) (q 2); OSwap (dv_borrow_mut [q 1; q 2]);
   OSet (mk_tkey 1 0) (q 8); OInsertSingle (mk_tkey 2 1) (q 3)].
Definition os1 : list (vop tkey Qc Qc) := [OUminus; OAdd vx; OLmul (q 5); OSubRdiv (dv_borrow [q 4; q 6]) (q 2)].
Local Notation bm := (dv_borrow_mut [q 7; q 2; q 9]).
Local Notation bw := (dv_borrow [q 7; q 2; q 9]).
Example case_C26_refinement := ltac:(use (C26_refinement _ _ _ qc_ops tb idx bm os)).
Example case_C26_coefficients :
  exists c z, f_calls qc_ops idx (coef qc_ops bm) os1 = Some c /\ calls qc_ops tb bm os1 = Ret z /\ forall i, coef qc_ops z i = c i.
Proof.
  eexists. destruct (C26_coefficients _ _ _ qc_ops tb idx bm os1 _ ltac:(hyp) ltac:(hyp) ltac:(hyp) ltac:(hyp) eq_refl) as (z & E & H).
  exists z. split; [reflexivity|]. split; [exact E|exact H].
Qed.
Example case_C26_insert := ltac:(use (C26_insert _ _ _ qc_ops tb idx bm os [OUminus] [(mk_tkey 1 0, q 3)])).
Example case_C25_same_coefficients := ltac:(use (C25_same_coefficients _ _ _ qc_ops tb idx bm bw (OErase (mk_tkey 1 0)))).
Example case_C25_same_vectors := ltac:(use (C25_same_vectors _ _ _ qc_ops tb idx bm bw os1)).
Example case_C25_borrowed_protected :
  exists z, calls qc_ops tb bw os1 = Ret z /\ dv_lender z = dv_as_slice bw.
Proof.
  destruct (C25_same_vectors _ _ _ qc_ops tb idx bw bw os1 ltac:(hyp) ltac:(hyp) ltac:(hyp) ltac:(hyp) eq_refl eq_refl) as (z & _ & E & _).
  exists z. split; [exact E|].
  exact (C25_borrowed_protected _ _ _ qc_ops tb idx bw z os1 ltac:(hyp) eq_refl ltac:(hyp) eq_refl E).
Qed.
Example case_C25_borrowed_mut_sees_updates :
  exists z, calls qc_ops tb bm os1 = Ret z /\ len (dv_lender z) = 3 /\ dv_lender z = dv_as_slice z.
Proof.
  destruct (C25_same_vectors _ _ _ qc_ops tb idx bm bm os1 ltac:(hyp) ltac:(hyp) ltac:(hyp) ltac:(hyp) eq_refl eq_refl) as (z & _ & E & _).
  exists z. split; [exact E|].
  destruct (C25_borrowed_mut_sees_updates _ _ _ qc_ops tb idx bm z os1 ltac:(hyp) eq_refl ltac:(hyp) eq_refl E) as (H & _).
  split; [exact H|].
  apply (f_equal (fun o => match o with Ret z => dv_lender z = dv_as_slice z | _ => True end)) in E. rewrite <- E. reflexivity.
Qed.
Example case_C27_vector_space := ltac:(use (C27_vector_space _ _ _ qc_ops tb vx vy bm (q 3) (q 4))).

Example case_C63_degree_zero := ltac:(use (C63_degree_zero _ _ qc_ops dev 2 0 1 2 Qcopp vx vy)).
Example case_C63_scalar := ltac:(use (C63_scalar _ _ qc_ops dev 2 4 2 Qcopp vy (v [3]%Z))).
Example case_C63_degree_one := ltac:(use (C63_degree_one _ _ qc_ops dev 2 4 1 Qcopp vx (v [5; 7; 11]%Z))).
Example case_C63_degree_two_and_more := ltac:(use (C63_degree_two_and_more _ _ qc_ops dev 2 4 1 2 Qcopp vx vy)).
Example case_C35_empty_word :
  exists z, alg_multiply_inplace qc_ops dev 2 vx (v [5; 7; 11]%Z) (Some 2) = Ret z /\ wcoef qc_ops 2 z [] = q 1.
Proof.
  eexists. split; [vm_compute; reflexivity|].
  eapply (C35_empty_word _ _ qc_ops dev 2 2 1 1 vx (v [5; 7; 11]%Z)); hyp.
Qed.
Example case_C35_scalar_partial := ltac:(use (C35_scalar_partial _ _ qc_ops dev 2 4 2 (v [0; 2; -3; 4; 5; -6; 7]%Z) (v [3]%Z))).
Example case_C36_unit_not_scaled := ltac:(use (C36_unit_not_scaled _ _ qc_ops dev 2 4 2 vy (v [1]%Z) (q 3) (q 4))).

Example case_C82_cut_below := ltac:(use (C82_cut_below _ _ qc_ops release 2 1 1 2 Qcopp vx vy)).
Example case_C82_reaching := ltac:(use (C82_reaching _ _ qc_ops release 2 3 1 2 Qcopp vx vy)).
Example case_C82_empty_word :
  exists z, multiply_into_impl qc_ops release 2 vx vy Qcopp (Some 3) = Ret z /\ wcoef qc_ops 2 z [] = q 1.
Proof.
  eexists. split; [vm_compute; reflexivity|].
  eapply (C82_empty_word _ _ qc_ops release 2 3 1 2 Qcopp vx vy); hyp.
Qed.
Example case_C83_exp := ltac:(use (C83_exp _ _ qc_ops release 2 4 2 vy)).
Example case_C83_fmexp := ltac:(use (C83_fmexp _ _ qc_ops release 2 4 1 2 vx vy)).

Definition start : nat -> dvec Qc := fun _ => dv_new.
Definition cs : list (tcmd Qc Qc) :=
  [CKey 0 [1] (q 1); CKey 1 [2] (q 2); CComm 2 0 1 (Some 3); CCopy 3 2; CAddMul 3 2 0 (Some 3); CSubDivided 3 1 (q 2);
   CErase 3 [2; 1]; CDegree 0 3; CPairs 1 [([1; 2], q 4); ([2], q 2); ([1; 2], q 6)]; CSet 0 [2] (q 8); CSubScaled 0 1 (q 2);
   CKeyAdd 0 [1] (q 5); CKeySub 0 [1; 2] (q 3); CAddDivided 0 1 (q 2)].
Example case_C111_refinement := ltac:(use (C111_refinement _ _ qc_ops dev 2 5 cs start (fun _ => t_zero qc_ops))).
Example case_C111_read := ltac:(use (C111_read _ _ qc_ops dev 2 5 dv_new (t_zero qc_ops) [2; 1] k21)).
Local Notation one := (s_one (fl_ops f64)).
Definition fstart : nat -> dvec spec_float := fun _ => dv_from (repeat one 3).
Definition fcs : list (tcmd spec_float spec_float) :=
  [CKey 0 [1] one; CComm 2 0 1 (Some 3); CCopy 3 2; CAddMul 3 2 0 (Some 3)].
Example case_C111_storage := ltac:(use (C111_storage _ _ (fl_ops f64) dev 2 5 fcs fstart (fun _ => Some 1))).
Example case_C111_careful := ltac:(use (C111_careful _ _ (fl_ops f64) dev 2 5 fcs fstart)).
(** the commutator, written in two ways *)
Example case_C111_same_meaning :
  let c1 := [CKey 0 [1] (q 1); CKey 1 [2] (q 2); CComm 2 0 1 (Some 3)] in
  let c2 := [CKey 0 [1] (q 1); CKey 1 [2] (q 2); CMul 3 0 1 (Some 3); CSubMul 3 1 0 (Some 3)] in
  exists z z', run_prog qc_ops dev 2 start c1 = Ret z /\ run_prog qc_ops release 2 start c2 = Ret z'
    /\ dv_as_slice (z 2%nat) = dv_as_slice (z' 3%nat).
Proof.
  intros c1 c2.
  eapply (C111_same_meaning _ _ qc_ops dev release 2 5 c1 c2 start (fun _ => t_zero qc_ops) _ _ 2 3);
    try reflexivity; subst c1 c2; hyp.
Qed.
