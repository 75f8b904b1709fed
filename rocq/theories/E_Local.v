(** Cases that meet the hypotheses of the theorems of P_Local.v. *)
From Coq Require Import QArith Qcanon Lia.
From Verif Require Import Machine MachineLemmas S_Words M_Scalar M_Vector M_Dense M_Algebra M_TensorKey M_TensorBasis S_Vector S_Tensor S_TensorProg
  I_Scalars M_Float S_Borrow S_Local P_Local L_Algebra E_Tac.
Local Open Scope N_scope.
(** the words [] and [2] *)
Local Notation W := (fun w : word => w = [] \/ w = [2]).
Local Notation st := (fun i : nat => match i with O => dv_from [q 1; q 2; q 3] | _ => dv_new end).
Local Notation st' := (fun i : nat => match i with O => dv_from [q 1; q (-8); q 3; q 4; q 5; q 6; q 7] | _ => dv_new end).
Local Notation st1 := (fun i : nat => match i with O => dv_from [q 1; q 9; q 3] | _ => dv_new end).
Local Notation cs x w t e := [CPairs 1 [([], q 4); ([2], q 2); (w, q x); ([2], q 5)]; CComm 2 0 1 (Some t); CSubMul 1 0 1 (Some t); CDivide 1 (q 2);
                      CAddScaled 1 2 (q 5); CErase 1 w; CNeg 1; CKey 3 w (q x); CDegree 4 e].
Lemma W_closed : factor_closed W.
Proof. intros u v [H|H]; destruct u as [|a [|b u]], v as [|c [|d v]]; try discriminate H; cbn in H; rewrite ?app_nil_r in H; auto; discriminate H. Qed.
Ltac hyp_more ::=
  lazymatch goal with
  | |- cmd_within _ _ _ => cbn [cmd_within]; hyp
  | |- filled _ _ _ => vm_compute; reflexivity
  | |- factor_closed _ => exact W_closed
  | |- forall w : word, _ \/ _ -> _ => intros w [-> | ->]; vm_compute; discriminate
  | |- forall i : nat, exists d, shaped _ _ _ d => intros [|i]; [exists (Some 1)|exists None]; (split; [reflexivity|cbn; hyp])
  | |- forall i : nat, exists d, shaped _ _ _ d /\ _ => intros [|i]; [exists (Some 1)|exists None]; split; (split; [reflexivity|cbn; hyp])
  | |- forall i : nat, agree_on _ _ _ _ _ _ _ _ =>
      intros [|i]; [exists (Some 1), (Some 2)|exists None, None]; (split; [split; [reflexivity|cbn; hyp]|]; split; [split; [reflexivity|cbn; hyp]|]; split; [reflexivity|];
        intros w _ [-> | ->]; reflexivity)
  end.
Lemma cs_alike : Forall2 (alike W 1) (cs 7 [1; 1] 2 2) (cs 9 [2; 1] 3 3).
Proof.
  assert (N1 : ~ W [1; 1]) by (intros [H|H]; discriminate H). assert (N2 : ~ W [2; 1]) by (intros [H|H]; discriminate H).
  repeat (apply Forall2_cons; [cbn [alike]; repeat split; auto; try (right; split; assumption)|]); [|apply Forall2_nil].
  intros w [-> | ->]; reflexivity.
Qed.
Definition case_C124_local := ltac:(use (C124_local Qc Qc qc_ops dev release 2 2 3 1 W (cs 7 [1; 1] 2 2) (cs 9 [2; 1] 3 3) st st' ltac:(hyp) ltac:(hyp) ltac:(hyp) ltac:(hyp) W_closed
  ltac:(hyp) ltac:(hyp) ltac:(hyp) cs_alike)).
Definition case_C124_truncation := ltac:(use (C124_truncation Qc Qc qc_ops dev release 2 2 1 (cs 7 [1; 1] 2 2) st)).
Lemma factors_of_2 i u : word_ok 2 u -> factor [2] u -> wcoef qc_ops 2 (st i) u = wcoef qc_ops 2 (st1 i) u.
Proof.
  intros _ (a & b & H). destruct i as [|i]; [|reflexivity].
  destruct u as [|y u]; [reflexivity|]. destruct a as [|x a]; cbn in H; inversion H as [[H0 H1]].
  - symmetry in H1. apply app_eq_nil in H1. destruct H1 as [-> ->]. reflexivity.
  - destruct a; discriminate H1.
Qed.
Definition case_C124_factors :=
  ltac:(use (C124_factors Qc Qc qc_ops dev 2 2 [2] (cs 7 [1; 1] 2 2) st st1 (match run_prog qc_ops dev 2 st (cs 7 [1; 1] 2 2) with Ret z => z | _ => st end) 1%nat
    ltac:(hyp) ltac:(hyp) ltac:(hyp) ltac:(hyp) ltac:(hyp) factors_of_2)).
