(** Cases that meet the hypotheses of the theorems of P_Borrow.v. *)
From Coq Require Import QArith Qcanon.
From Verif Require Import Machine MachineLemmas S_Words M_Scalar M_Vector M_Dense M_Algebra M_TensorKey M_TensorBasis S_Vector S_Tensor S_TensorProg
  I_Scalars L_PropTensorProg S_Borrow P_Borrow E_Tac.
Local Open Scope N_scope.
Local Notation l := [q 1; q 2; q 3].
Local Notation st := (fun i : nat => match i with O => dv_from l | Datatypes.S O => dv_borrow l | _ => dv_borrow_mut l end).
Local Notation sh := (fun i : nat => match i with O => dv_from l | _ => dv_borrow l end).
Local Notation ow := (fun _ : nat => dv_from l).
Local Notation cs := [CScale 2 (q 2); CAdd 1 0; CSet 2 [1] (q 9); CAddMul 2 0 1 (Some 2); CNeg 2].
(** the state after the program *)
Local Notation fin := (match run_prog qc_ops dev 2 st cs with Ret z => z | _ => st end).
Ltac hyp_more ::=
  lazymatch goal with
  | |- forall i : nat, _ => intros [|[|?]]; hyp
  | |- dv_wf _ => first [exact I | reflexivity]
  | |- same_coeffs _ _ => reflexivity
  | |- dv_kind _ <> _ => discriminate
  | |- cmd_within _ _ _ => cbn [cmd_within]; hyp
  | |- stands_for _ _ _ _ _ => split; [reflexivity|]; split; [split; [lia|vm_compute; reflexivity]|]; reflexivity
  end.
Definition case_C118_kinds := ltac:(use (C118_kinds Qc Qc qc_ops dev 2 cs st ow)).
Definition case_C118_shared := ltac:(use (C118_shared Qc Qc qc_ops dev 2 [CClear 1; CAdd 1 0; CMul 2 1 0 (Some 2)] sh ow)).
Definition case_C118_inplace := ltac:(use (C118_inplace Qc Qc qc_ops dev 2 (dv_borrow l) (dv_from l) (dv_borrow_mut l) (dv_from l) (Some 2) (q 2) (q 3))).
Definition case_C118_unchanged := ltac:(use (C118_unchanged Qc Qc qc_ops dev 2 cs st fin 0)).
Definition case_C118_borrowed_protected := ltac:(use (C118_borrowed_protected Qc Qc qc_ops dev 2 cs st fin 1)).
Definition case_C118_borrowed_mut := ltac:(use (C118_borrowed_mut Qc Qc qc_ops dev 2 cs st fin 2)).
Definition case_C118_refinement := ltac:(use (C118_refinement Qc Qc qc_ops dev 2 5 cs st (fun _ => mk_atensor (Some 1) (wcoef qc_ops 2 (dv_from l))))).
