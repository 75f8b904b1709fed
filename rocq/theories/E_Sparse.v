(** Cases that meet the hypotheses of the theorems of P_Sparse.v and P_SparseHist.v. *)
From Coq Require Import QArith Qcanon.
From stdpp Require Import gmap.
From Verif Require Import Machine M_Scalar M_Vector M_Dense M_Sparse S_Vector S_Sparse S_SparseHist I_Scalars L_PropSparse
  P_Sparse P_SparseHist E_Tac.
Local Open Scope N_scope.
Ltac entries H :=
  repeat lazymatch type of H with
  | <[?a := _]> _ !! ?k = Some _ =>
      destruct (decide (a = k)) as [<-|]; [rewrite lookup_insert in H; injection H as <-; vm_compute; reflexivity
                                          |rewrite lookup_insert_ne in H by assumption]
  | ∅ !! _ = Some _ => rewrite lookup_empty in H; discriminate
  end.
Ltac hyp_more ::=
  lazymatch goal with
  | |- any_order _ => intros ?; first [reflexivity | symmetry; apply Permutation_rev]
  | |- no_zero _ _ => let H := fresh in intros ? ? H; entries H
  | |- sop_ok _ _ => cbn [sop_ok]; hyp
  | |- dv_wf _ => vm_compute; first [exact I | reflexivity]
  | |- same_op _ _ _ _ _ => cbn [same_op]; hyp
  | |- agree _ _ _ _ _ =>
      let k := fresh "k" in let H := fresh "H" in intros k H;
      assert (k = 0 \/ k = 1 \/ k = 2 \/ k = 3) as [->|[->|[->| ->]]] by lia; vm_compute; reflexivity
  | |- good_basis _ _ _ => exact nat_basis_good
  | |- List.NoDup _ => repeat (constructor; [cbn; intuition discriminate|]); constructor
  end.
Local Notation up := (fun m : gmap N Qc => map_to_list m).
Local Notation down := (fun m : gmap N Qc => rev (map_to_list m)).
Local Notation gx := (<[1 := q 3]> (<[2 := q 5]> (<[3 := q (-2)]> ∅)) : gmap N Qc).
Local Notation gy := (<[1 := q (-3)]> (<[2 := q 1]> (<[5 := q 7]> ∅)) : gmap N Qc).

Example case_C40_iteration := ltac:(use (C40_iteration _ _ _ _ _ qc_ops down gx)).
Example case_C41_add_inplace := ltac:(use (C41_add_inplace _ _ _ _ _ qc_ops down gx gy)).
Example case_C41_sub_inplace := ltac:(use (C41_sub_inplace _ _ _ _ _ qc_ops down gx gy)).
Example case_C41_order_independent := ltac:(use (C41_order_independent _ _ _ _ _ qc_ops up down gx gy (q 2) (q 3))).
Example case_C41_scaling := ltac:(use (C41_scaling _ _ _ _ _ qc_ops down gx (q 2) (q 3))).
Example case_C42_invariant := ltac:(use
  (C42_invariant _ _ _ _ _ qc_ops gx [SSub up gy; SScale down (q 5); SNeg up; SDiv down (q 2); SAdd down gx; SClear; SAdd up gy])).
Example case_C42_equality := ltac:(use (C42_equality _ _ _ _ _ qc_ops down gx gy)).
Example case_C42_stored_zero := ltac:(use (C42_stored_zero _ _ _ _ _ qc_ops down 7)).
Example case_C67_returns := ltac:(use (C67_returns _ _ _ _ _ qc_ops down gx gy 7 [(1, q 3); (1, q 4)] (q 2) (q 3))).
Example case_C66_coefficients := ltac:(use (C66_coefficients _ _ _ _ _ qc_ops down gx 7 (q 2) (q 3))).
Example case_C44_arithmetic_partial := ltac:(use
  (C44_arithmetic_partial _ _ _ _ _ qc_ops nat_basis (fun k => k < 4) (fun k => k) (dv_from (map q [0; 3; 5; -2]%Z)) gx
     [OLmul (q 2); OSub (dv_from (map q [0; 3; 5; -2]%Z)); OUminus; ORdiv (q 3)]
     [SScale up (q 2); SSub down gx; SNeg up; SDiv down (q 3)])).
Example case_C44_constructors_partial := ltac:(use
  (C44_constructors_partial _ _ _ _ _ qc_ops nat_basis (fun _ => True) (fun k => k) up [(3, q 1); (1, q 2)] 7 (q 4))).

Definition hist {It : Type} (a b : It) : list (It * hop (gmap N Qc) N Qc Qc) :=
  [(a, HKeyAddMul 1 (q (-2))); (b, HAdd gy); (b, HInsertSingle 7 (q 0)); (a, HLmul (q 3)); (a, HSet 7 (q 4));
   (b, HSub gx); (a, HKeySubDiv 7 (q 1)); (a, HUminus)].
Local Ltac hist := unfold hist; hyp.
Example case_C95_refinement := ltac:(use (C95_refinement _ _ _ _ _ qc_ops (hist up down) gx ltac:(hist))).
Example case_C95_order_independent := ltac:(use
  (C95_order_independent _ _ _ _ _ qc_ops (hist up down) (hist down up) gx ltac:(hist) ltac:(hist) eq_refl)).
Example case_C95_panics := ltac:(use (C95_panics _ _ _ _ _ qc_ops (hist up down) gx ltac:(hist))).
