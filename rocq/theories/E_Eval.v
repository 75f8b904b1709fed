(** Cases that meet the hypotheses of the theorems of P_Eval.v. *)
From Coq Require Import QArith Qcanon.
From Verif Require Import Machine MachineLemmas S_Words M_Scalar M_Vector M_Dense M_Algebra M_TensorKey M_TensorBasis S_Vector S_Tensor S_TensorProg
  I_Scalars S_Eval I_Matrix P_Eval E_Tac.
Local Open Scope N_scope.
Local Notation phi := (fun a => if a =? 1 then mk_tri (q 1) (q 2) (q 0) (q 3) (q 1) (q 1) else mk_tri (q 0) (q 1) (q 5) (q 1) (q 1) (q 2)).
Local Notation psi := (fun a => if a =? 1 then mk_tri (q 0) (q 2) (q 0) (q 0) (q 1) (q 0) else mk_tri (q 0) (q 1) (q 5) (q 0) (q 3) (q 0)).
Local Notation vx := (dv_from [q 1; q 2; q 3]).
Local Notation vy := (dv_from [q 5; q 7; q 11]).
Local Notation st := (fun i : nat => match i with O => vx | _ => dv_new end).
Local Notation cs := [CPairs 1 [([], q 4); ([2], q 2); ([1; 2], q 3); ([2], q 5)]; CComm 2 0 1 (Some 2); CSubMul 1 0 1 (Some 2); CDivide 1 (q 2);
                      CAddScaled 1 2 (q 5); CNeg 1].
Local Notation fin := (match run_prog qc_ops dev 2 st cs with Ret z => z | _ => st end).
Ltac hyp_more ::=
  lazymatch goal with
  | |- algebra_laws _ _ => exact tri_laws
  | |- filled _ _ _ => vm_compute; reflexivity
  | |- cmd_within _ _ _ => cbn [cmd_within]; hyp
  | |- algebraic _ _ => cbn [algebraic]; hyp
  | |- forall i : nat, _ =>
      intros [|?]; (split; [reflexivity|]); [right; exists 1; split; [discriminate|vm_compute; reflexivity]|left; reflexivity]
  | |- forall w : word, _ =>
      intros [|a [|b [|c w]]] _ H; try (vm_compute in H; discriminate); clear H;
      cbn [eval_word fold_right]; destruct (fold_right _ _ w); destruct (a =? 1), (b =? 1), (c =? 1); cbn; f_equal; ring
  end.
Definition case_C120_multiply := ltac:(use (C120_multiply Qc Qc tri qc_ops tri_algebra phi dev 2 vx vy 1 1 3)).
Definition case_C120_commutator := ltac:(use (C120_commutator Qc Qc tri qc_ops tri_algebra phi dev 2 vx vy 1 1 3)).
Definition case_C120_programs := ltac:(use (C120_programs Qc Qc tri qc_ops tri_algebra psi dev 2 2 cs st fin 1)).
Definition case_C120_words := ltac:(use (C120_words Qc Qc tri qc_ops tri_algebra phi dev 2 3 [1; 2; 2] (key 2 [1; 2; 2]) (q 7))).
