(** Cases that meet the hypotheses of the theorems of P_SparseDense.v. *)
From Coq Require Import QArith SpecFloat.
From stdpp Require Import gmap.
From Verif Require Import Machine M_Scalar M_Vector M_Dense M_Sparse S_Vector S_Sparse S_SparseHist M_Float S_Float S_SparseDense
  L_PropSparse L_PropSparseDense P_SparseDense E_Tac.
Local Open Scope N_scope.
Ltac hyp_more ::=
  lazymatch goal with
  | |- any_order _ => intros ?; first [reflexivity | symmetry; apply Permutation_rev]
  | |- dv_wf _ => vm_compute; first [exact I | reflexivity]
  | |- fl_same_op _ _ _ _ _ => cbn [fl_same_op fst snd]; hyp
  | |- fl_agree _ _ _ _ _ =>
      let k := fresh "k" in let H := fresh "H" in intros k H;
      assert (k = 0 \/ k = 1 \/ k = 2 \/ k = 3) as [->|[->|[->| ->]]] by lia; apply same_iff; vm_compute;
      first [left; reflexivity | right; split; reflexivity]
  | |- ~ has_value _ 0 => rewrite <- zero_b_value; vm_compute; discriminate
  | |- has_value _ 0 => apply zero_b_value; reflexivity
  | |- finite _ => apply finite_iff; exact I
  | |- ~ finite _ => rewrite finite_iff; exact (fun x => x)
  | |- good_basis _ _ _ => exact nat_basis_good
  | |- List.NoDup _ => repeat (constructor; [cbn; intuition discriminate|]); constructor
  end.
Local Notation up := (fun m : gmap N spec_float => map_to_list m).
Local Notation down := (fun m : gmap N spec_float => rev (map_to_list m)).
Local Notation i := (fl_of_Z f32).
Local Notation big := (fl_of_Z f32 (2 ^ 127)).
Local Notation dx := (dv_from [S754_zero true; i 3; i (-2); big]).
Local Notation gx := (<[1 := i 3]> (<[2 := i (-2)]> (<[3 := big]> ∅)) : gmap N spec_float).
Local Notation dy := (dv_borrow [i 0; S754_nan; i (-2); S754_infinity true]).
Local Notation gy := (<[1 := S754_nan]> (<[2 := i (-2)]> (<[3 := S754_infinity true]> ∅)) : gmap N spec_float).

Example case_C117_agree := ltac:(use
  (C117_agree N _ _ f32 nat_basis (fun k => k < 4) (fun k => k)
     [OLmul (i 2); OSub dy; OUminus; ORdiv (S754_infinity true); OClear; OAdd dx; ORmul (i 3); OLdiv (i 7)]
     [(up, HRmul (i 2)); (down, HSub gy); (up, HUminus); (down, HLdiv (S754_infinity true)); (up, HClear); (down, HAdd gx);
      (down, HRmul (i 3)); (up, HRdiv (i 7))] dx gx)).
Example case_C117_zero := ltac:(use
  (C117_zero N _ _ f32 nat_basis (fun k => k < 4) (fun k => k) down dy gy (S754_zero true) (OLmul (S754_zero true)) (HLmul (S754_zero true)))).
Example case_C117_storage := ltac:(use
  (C117_storage N _ _ f32 nat_basis (fun k => k < 4) (fun k => k) down dx gx (S754_infinity true) (OLmul (S754_infinity true))
     (HRmul (S754_infinity true)))).
Example case_C117_storage_divided := ltac:(use
  (C117_storage N _ _ f32 nat_basis (fun k => k < 4) (fun k => k) down dx gx (S754_zero false) (OLdiv (S754_zero false))
     (HRdiv (S754_zero false)))).
Example case_C117_constructors := ltac:(use
  (C117_constructors N _ _ f32 nat_basis (fun _ => True) (fun k => k) up [(3, i 1); (1, S754_nan); (2, S754_zero true)] 7 (i 4))).
