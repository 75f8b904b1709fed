(** Cases that meet the hypotheses of the theorems of P_Param.v. *)
From Coq Require Import QArith Qcanon.
From Verif Require Import Machine MachineLemmas S_Words M_Scalar M_Vector M_Dense M_Algebra M_TensorKey M_TensorBasis M_FreeTensor S_TensorProg S_Borrow
  I_Scalars S_Param I_Dual P_Param E_Tac.
Local Open Scope N_scope.
Local Notation vx := (dv_from [q 1; q 2; q 3]).
Local Notation vy := (mk_dvec BorrowedMut [q 5; q 7; q 11] [q 5]).
Local Notation dx := (vec_map constant vx).
Local Notation dy := (vec_map constant vy).
Local Notation st := (fun i : nat => match i with O => vx | 1%nat => vy | _ => dv_new end).
Local Notation cs := [CPairs 2 [([], q 4); ([2], q 2); ([1; 2], q 3); ([2], q 5)]; CComm 3 0 2 (Some 2); CSubMul 1 0 1 (Some 2); CDivide 1 (q 1);
                      CAddScaled 1 2 (q 5); CSet 2 [1; 2] (q 8); CNeg 1].
Local Notation dcs := (map (cmd_map constant (fun r : Qc => r)) cs).
Local Notation fin := (match run_prog qc_ops dev 2 st cs with Ret z => z | _ => st end).
Local Notation rel := (fun x x' => constant x = x').
Local Notation same := (fun r r' : Qc => r = r').
Ltac hyp_more ::=
  lazymatch goal with
  | |- related _ _ _ _ => exact dual_constant
  | |- homomorphism _ _ _ _ => exact dual_value
  | |- related_eq _ _ _ => exact dual_constant_eq
  | |- related_degrees _ _ _ _ => exact dual_constant_degrees
  | |- closed _ _ _ => exact integers_closed
  | |- vec_rel _ _ _ => split; [reflexivity|split; repeat constructor]
  | |- forall i : nat, vec_rel _ _ _ => intros [|[|?]]; (split; [reflexivity|split; repeat constructor])
  | |- cmd_rel _ _ _ _ => cbn [map cmd_map fst snd]; constructor; hyp
  | |- cmd_in _ _ _ => cbn [cmd_in]; first [exact I | reflexivity | eexists; reflexivity | repeat (apply Forall_cons; [eexists; reflexivity|]); apply Forall_nil]
  | |- forall i : nat, _ /\ _ => intros [|[|?]]; split; repeat (apply Forall_cons; [eexists; reflexivity|]); apply Forall_nil
  end.
Definition case_C121_programs := ltac:(use (C121_programs Qc Qc dual Qc rel same qc_ops dual_ops dev 2 cs dcs st (fun i => vec_map constant (st i)))).
Definition case_C121_reads := ltac:(use (C121_reads Qc Qc dual Qc rel qc_ops dual_ops dev 2 vx vy dx dy (key 2 [2]))).
Definition case_C121_inplace := ltac:(use (C121_inplace Qc Qc dual Qc rel same qc_ops dual_ops dev 2 vx vy dx dy (Some 2) (q 3) (constant (q 3)) (q 2) (q 2))).
Definition case_C121_free_tensor := ltac:(use (C121_free_tensor Qc Qc dual Qc rel same qc_ops dual_ops dev 2 2 vx vy dx dy)).
Definition case_C121_homomorphism :=
  ltac:(use (C121_homomorphism dual Qc Qc Qc fst (fun r => r) dual_ops qc_ops dev 2 [CKey 0 [1] (du 2 3); CMul 1 0 0 (Some 2)] (fun _ => dv_new))).
Definition case_C121_closed := ltac:(use (C121_closed Qc Qc integer (fun r => r = q 1) qc_ops dev 2 cs st fin 1%nat)).
