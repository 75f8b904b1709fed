(** An exact implementation of the tensor algebra: vectors are the coefficient functions themselves.  It shows that
    the hypotheses of the theorems about exact implementations can be met, and serves to compute examples. *)
From Coq Require Import QArith Qcanon.
From Verif Require Import Machine S_Words M_Scalar M_Vector M_TensorKey S_Vector S_Tensor S_Series S_FreeTensor I_Scalars L_Ring.
Local Open Scope N_scope.

Section Fun.
  Context {S R : Type} (so : scalar_ops S R).
  Notation V := (word -> S).
  Definition fun_set_unit (x : V) (c : S) : V := fun w => match w with [] => c | _ => x w end.
  Definition fun_required : vec_required V tkey S R := {|
    vr_new := fun _ => s_zero so;
    vr_from_key := fun _ => Ret (unit_fun so);          (* only the key of the empty word is used *)
    vr_from_key_scalar := fun _ c => Ret (fun w => s_mul so c (unit_fun so w));
    vr_from_iterator := fun _ => Panic;
    vr_swap := fun x y => Ret (y, x);
    vr_to_owned := fun x => Ret x;
    vr_clear := fun _ => Ret (fun _ => s_zero so);
    vr_get := fun x _ => Ret (Some (x []));
    vr_get_mut := fun x _ => Ret (x, Some (x [], fun_set_unit x));
    vr_insert_single := fun _ _ _ => Panic;
    vr_insert := fun _ _ => Panic;
    vr_erase := fun _ _ => Panic;
    vr_uminus_inplace := fun x => Ret (fun w => s_uminus so (x w));
    vr_add_inplace := fun x y => Ret (fun w => s_add so (x w) (y w));
    vr_sub_inplace := fun x y => Ret (fun w => s_sub so (x w) (y w));
    vr_scalar_lmultiply_inplace := fun x c => Ret (fun w => s_mul so c (x w));
    vr_scalar_rdivide_inplace := fun x r => Ret (fun w => s_mul so (s_inv so r) (x w)) |}.
  Definition fun_ops : vec_ops V tkey S R := with_defaults fun_required.
  Definition fun_multiply (x y : V) (t : option N) : outcome V :=
    match t with Some t => Ret (tconv so t x y) | None => Panic end.
End Fun.

(** over the rationals, where dividing by a scalar makes sense *)
Definition fun_mul_rat_rdiv (x y : word -> Qc) (s : Qc) (t : option N) : outcome (word -> Qc) :=
  match t with Some t => Ret (fun w => Qcmult (Qcinv s) (tconv qc_ops t x y w)) | None => Panic end.
Lemma fun_exact n : exact_algebra qc_ops n (fun_ops qc_ops) fun_mul_rat_rdiv (fun_multiply qc_ops) (fun x w => x w).
Proof.
  constructor; try reflexivity.
  - exists (unit_fun qc_ops). split; reflexivity.
  - intros x. exists x. split; reflexivity.
  - intros x. exists x, (Some (x [], fun_set_unit x)). split; [reflexivity|]. intros [|a w] _; reflexivity.
  - intros x y. eexists. split; reflexivity.
  - intros x y r. eexists. split; reflexivity.
  - intros x y r. eexists. split; reflexivity.
  - intros x y t. eexists. split; reflexivity.
  - intros x y i t _. eexists. split; reflexivity.
Qed.
