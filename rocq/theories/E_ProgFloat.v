(** Cases that meet the hypotheses of the theorems of P_ProgFloat.v. *)
From Coq Require Import ZArith QArith SpecFloat.
From Verif Require Import Machine S_Words M_Scalar M_Dense S_Tensor M_Float S_Float S_TensorProg S_ProgSteps L_PropProgFloat
  P_ProgFloat E_Tac.
Local Open Scope N_scope.
Local Notation start := (fun _ : nat => @dv_new spec_float).
Local Notation none := (fun _ : nat => t_zero q_ops).
Local Notation exactly := (fun (_ : nat) (_ : word) => 0%Q).
Ltac fin :=
  lazymatch goal with
  | |- finite ?x => let v := eval vm_compute in (fl_val x) in exists v, v; split; [vm_compute; reflexivity|apply Qeq_refl]
  end.
Ltac hyp_more ::=
  lazymatch goal with
  | |- forall i, knows _ _ _ _ _ _ => intros ?; apply nothing_known
  | |- forall i, is_exactly _ _ _ _ _ => intros ?; apply nothing_integer
  | |- forall i, stands_for _ _ _ _ _ => intros ?; apply L_PropTensorProg.std_new; hyp
  | |- forall i, exists d, shaped _ _ _ d => intros ?; exists None; split; reflexivity
  | |- nat -> forall w, word_ok _ w -> finite _ => intros _ ? _; rewrite new_coef; exists 0%Q; apply L_FloatOps.zero_value
  | |- cmd_within _ _ _ => repeat constructor; cbn; try exact I; vm_compute; first [congruence|intuition congruence]
  | |- cmd_finite _ _ => cbn [cmd_finite]; repeat (apply Forall_cons; [cbn [snd]|]); try apply Forall_nil; repeat split; try reflexivity; try fin; vm_compute; discriminate
  | |- cmd_integer _ _ => cbn [cmd_integer]; repeat (apply Forall_cons; [cbn [snd]|]); try apply Forall_nil;
      lazymatch goal with
      | |- True => exact I
      | |- exists z, fl_int _ (fl_of_Z _ ?z0) z =>
          exists z0; split; [vm_compute; reflexivity|eexists; split; [vm_compute; reflexivity|vm_compute; reflexivity]]
      end
  | |- no_overflow _ _ _ _ => apply no_overflow_check; vm_compute; reflexivity
  | |- sizes_fit _ _ _ _ => apply sizes_fit_check; vm_compute; reflexivity
  end.
Example case_C114_steps := ltac:(use (C114_steps _ _ (fl_ops f64) dev 2 4 (some_prog f64) start (fun _ => t_zero (fl_ops f64)))).
Example case_C114_same_in_every_build :
  exists z z', run_prog (fl_ops f32) dev 2 start (some_prog f32) = Ret z /\ run_prog (fl_ops f32) release 2 start (some_prog f32) = Ret z'
    /\ forall i, dv_as_slice (z i) = dv_as_slice (z' i).
Proof.
  assert (E : exists z, run_prog (fl_ops f32) dev 2 start (some_prog f32) = Ret z) by (eexists; vm_compute; reflexivity).
  destruct E as [z E]. exists z.
  destruct (C114_same_in_every_build _ _ (fl_ops f32) dev release 2 4 (some_prog f32) start z) as (z' & E' & H);
    try hyp; [..|exists z'; auto].
Qed.
Example case_C115_error := ltac:(use (C115_error f32 dev 2 4 (some_prog f32) start none exactly)).
Example case_C115_finite :
  exists z, run_prog (fl_ops f32) release 2 start (some_prog f32) = Ret z
    /\ forall i w, word_ok 2 w -> finite (wcoef (fl_ops f32) 2 (z i) w).
Proof.
  assert (E : exists z, run_prog (fl_ops f32) release 2 start (some_prog f32) = Ret z) by (eexists; vm_compute; reflexivity).
  destruct E as [z E]. exists z. split; [exact E|].
  apply (C115_finite f32 release 2 4 (some_prog f32) start z none exactly); try hyp.
Qed.
Example case_C116_integers := ltac:(use (C116_integers f32 release 2 4 (int_prog f32) start none)).
