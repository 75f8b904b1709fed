(** Cases that meet the hypotheses of the theorems of P_Float.v, P_FloatEq.v and P_Round.v. *)
From Coq Require Import ZArith QArith Qabs SpecFloat.
From stdpp Require Import gmap.
From Verif Require Import Machine S_Words M_TensorBasis M_Scalar M_Vector M_Dense M_Sparse S_Vector S_Tensor S_Sparse M_Algebra
  M_Float S_Float P_Float P_FloatEq P_Round E_Tac.
Local Open Scope N_scope.
Ltac at_index i :=
  unfold wcoef, coef, slice_get; cbn [dv_as_slice dv_from dv_elems map];
  destruct (N.to_nat i) as [|[|[|[|?]]]]; cbn [nth_error nth];
  repeat split; try (vm_compute; reflexivity); eexists; split; try (vm_compute; reflexivity).
Ltac entries H :=
  repeat lazymatch type of H with
  | <[?a := _]> _ !! ?k = Some _ =>
      destruct (decide (a = k)) as [<-|]; [rewrite lookup_insert in H; injection H as <-; vm_compute; reflexivity
                                          |rewrite lookup_insert_ne in H by assumption]
  | ∅ !! _ = Some _ => rewrite lookup_empty in H; discriminate
  end.
Ltac hyp_more ::=
  lazymatch goal with
  | |- has_degree _ _ _ => unfold has_degree; first [left; vm_compute; split; reflexivity | right; vm_compute; split; [reflexivity|discriminate]]
  | |- stored_to _ _ _ => unfold stored_to; vm_compute; discriminate
  | |- is_float _ _ => vm_compute; reflexivity
  | |- has_value _ _ => eexists; split; vm_compute; reflexivity
  | |- any_order _ => intros ?; first [reflexivity | symmetry; apply Permutation_rev]
  | |- forall w, word_ok ?n w -> _ => let w := fresh in intros w _; at_index (windex n w)
  | |- forall i : N, is_float _ _ /\ _ => let i := fresh in intros i; at_index i
  | |- forall i : N, fl_int _ _ _ /\ _ => let i := fresh in intros i; at_index i
  | |- forall k v, _ !! k = Some v \/ _ -> _ => let H := fresh in intros ? ? [H|H]; entries H
  end.
Local Notation fz := (fl_of_Z f32).
Local Notation fv l := (dv_from (map (fl_of_Z f32) l)).
Local Notation third := (s_div (fl_ops f32) (fz 1) (fz 3)).
Local Notation tb := (tensor_basis dev 2).
Local Notation big := (S754_finite false 16777215 104).

Example case_C53_laws := ltac:(use (C53_laws f32)).
Example case_C53_closed := ltac:(use (C53_closed f64)).
Example case_C53_f64_from_degree := ltac:(use (C53_f64_from_degree 4294967295)).
Example case_C53_f32_from_degree_partial := ltac:(use (C53_f32_from_degree_partial 16777216)).
Example case_C78_from_degree_nearest := ltac:(use (C78_from_degree_nearest f32 4294967295)).
Example case_C78_exact_iff := ltac:(use (C78_exact_iff f32 4294967295)).
Example case_C79_which_laws := ltac:(use (C79_which_laws f32)).
Example case_C79_not_associative := ltac:(use (C79_not_associative f64)).
Example case_C80_add_commutes := ltac:(use (C80_add_commutes f32 _ tb (dv_from [third; S754_zero true]) (fv [2]%Z))).
Example case_C80_sub_self := ltac:(use (C80_sub_self f32 _ tb (dv_from [third; S754_infinity true]))).
Example case_C80_not_associative := ltac:(use (C80_not_associative f32 _ tb)).
Example case_C81_integer_product := ltac:(use (C81_integer_product f32 dev 2 (fv [1; 2; -3]%Z) (fv [5; 7; 11]%Z)
  (fun w => nth (N.to_nat (windex 2 w)) [1; 2; -3]%Z 0%Z) (fun w => nth (N.to_nat (windex 2 w)) [5; 7; 11]%Z 0%Z) 1 1 2)).
Example case_C81_integer_sum := ltac:(use (C81_integer_sum f32 _ tb (fv [1; 2; -3]%Z) (fv [5; 7]%Z)
  (fun i => nth (N.to_nat i) [1; 2; -3]%Z 0%Z) (fun i => nth (N.to_nat i) [5; 7]%Z 0%Z))).

Local Notation up := (fun m : gmap N spec_float => map_to_list m).
Local Notation down := (fun m : gmap N spec_float => rev (map_to_list m)).
Local Notation gx := (<[1 := fz 3]> (<[2 := S754_nan]> (<[3 := fz 16777216]> ∅)) : gmap N spec_float).
Local Notation gy := (<[1 := fz (-3)]> (<[2 := fz 1]> (<[3 := fz 1]> (<[5 := S754_zero true]> ∅))) : gmap N spec_float).
Example case_C93_scalars := ltac:(use (C93_scalars f32 (S754_zero true) (S754_zero false))).
Example case_C93_dense := ltac:(use (C93_dense f32 (dv_from [third; S754_zero true]) (dv_borrow [third; S754_zero false]))).
Example case_C93_sparse := ltac:(use (C93_sparse _ _ _ f32 down gx gy)).
Example case_C93_equivalence := ltac:(use (C93_equivalence _ _ _ f32 down (fv [1; 2]%Z) (fv [1]%Z) (fv [1; 2]%Z) gx gy gx)).
Example case_C94_sparse := ltac:(use (C94_sparse _ _ _ f32 down gx gy third)).
Example case_C94_removed := ltac:(use (C94_removed _ _ _ f32 up gx gy 1 (fz 3) (fz (-3)))).

Example case_C84_operations := ltac:(use (C84_operations f32 (fz 16777216) (fz 3) 16777216%Q 3%Q)).
(** 16777219 lies halfway between two floats *)
Example case_C84_rounding_unique :=
  ltac:(use (C84_rounding_unique f32 (16777216 + 3) (s_add (fl_ops f32) (fz 16777216) (fz 3)) _
               ltac:(hyp) (proj1 case_C84_operations) (proj1 case_C84_operations))).
Example case_C84_division_by_zero := ltac:(use (C84_division_by_zero f32 (fz (-7)) false (-7)%Q)).
Example case_C84_dense := ltac:(use (C84_dense f32 _ tb (dv_from [third; fz 2]) (dv_from [fz 1; third; fz 5]) third)).
Example case_C85_multiply := ltac:(use (C85_multiply f32 dev 2 (dv_from [third; third; fz 7]) (dv_from [fz 1; third; fz 5]) 1 1 2)).
Example case_C85_add_sub_mul := ltac:(use (C85_add_sub_mul f32 dev 2 (dv_from [third; fz 2; fz 3])
  (dv_from [third; third; fz 7]) (dv_from [fz 1; third; fz 5]) 1 1 1 2)).
Example case_C86_from_int := ltac:(use (C86_from_int f32 (-32768))).
Example case_C86_from_rational := ltac:(use (C86_from_rational f32 1 (-3))).
Example case_C86_exact := ltac:(use (C86_exact f32 (-3) 4 (S754_finite true 12582912 (-24)))).
