(** Property lemmas C125 (restated as theorems in P_Builds.v). *)
From Coq Require Import String QArith Qcanon.
From Verif Require Import Machine MachineLemmas M_Scalar M_TensorKey M_TensorBasis M_Vector M_Dense M_Algebra M_AlgebraFn M_FreeTensor M_Display M_DegreeRange M_HallKey M_HallSet
  I_Scalars S_Words S_TensorProg S_Builds L_Builds.
Local Open Scope N_scope.

Lemma c125_keys : forall (p p' : profile) (n : N), checks_more p p' ->
  (forall l, panics_or_same (tk_from_letter p l) (tk_from_letter p' l))
  /\ (forall ls, panics_or_same (tk_from_letters p n ls) (tk_from_letters p' n ls))
  /\ (forall k i, panics_or_same (tk_get_letter p n k i) (tk_get_letter p' n k i))
  /\ (forall k i l, panics_or_same (tk_set_letter p n k i l) (tk_set_letter p' n k i l))
  /\ (forall k l, panics_or_same (tk_push_front p n k l) (tk_push_front p' n k l))
  /\ (forall a b, panics_or_same (tk_concatenate p n a b) (tk_concatenate p' n a b))
  /\ (forall k, panics_or_same (tk_to_letters p n k) (tk_to_letters p' n k))
  /\ (forall k, panics_or_same (tk_debug p n k) (tk_debug p' n k))
  /\ (forall it m, panics_or_same (ti_take p n it m) (ti_take p' n it m)).
Proof.
  intros p p' n C. repeat match goal with |- _ /\ _ => split end; intros; [apply ps_from_letter|apply ps_from_letters|apply ps_get_letter|apply ps_set_letter|apply ps_push_front|apply ps_concatenate
    |apply ps_to_letters|apply ps_tk_debug|apply ps_ti_take]; exact C.
Qed.

Lemma c125_basis : forall (p p' : profile) (n : N), checks_more p p' ->
  (forall d, panics_or_same (tb_start_of_degree p n d) (tb_start_of_degree p' n d))
  /\ (forall d, panics_or_same (tb_degree_range p n d) (tb_degree_range p' n d))
  /\ (forall i, panics_or_same (tb_index_to_degree p n i) (tb_index_to_degree p' n i))
  /\ (forall k, panics_or_same (tb_key_to_index p n k) (tb_key_to_index p' n k))
  /\ (forall i, panics_or_same (tb_index_to_key p n i) (tb_index_to_key p' n i))
  /\ (forall k, panics_or_same (tb_vector_dimension_for_key p n k) (tb_vector_dimension_for_key p' n k))
  /\ (forall i, panics_or_same (tb_vector_dimension_for_index p n i) (tb_vector_dimension_for_index p' n i))
  /\ (forall it m, panics_or_same (bi_take p n it m) (bi_take p' n it m)).
Proof.
  intros p p' n C. repeat match goal with |- _ /\ _ => split end; intros; [apply ps_start|apply ps_range|apply ps_index_to_degree|apply ps_key_to_index|apply ps_index_to_key|apply ps_dim_key
    |apply ps_dim_index|apply ps_bi_take]; exact C.
Qed.

Lemma c125_vectors : forall (S R : Type) (so : scalar_ops S R) (p p' : profile) (n : N), checks_more p p' ->
  let vo := dense_ops so (tensor_basis p n) in let vo' := dense_ops so (tensor_basis p' n) in
  (forall k, panics_or_same (vr_from_key vo k) (vr_from_key vo' k))
  /\ (forall k s, panics_or_same (vr_from_key_scalar vo k s) (vr_from_key_scalar vo' k s))
  /\ (forall l, panics_or_same (vr_from_iterator vo l) (vr_from_iterator vo' l))
  /\ (forall d, panics_or_same (dv_from_degree so (tensor_basis p n) d) (dv_from_degree so (tensor_basis p' n) d))
  /\ (forall v k, panics_or_same (vr_get vo v k) (vr_get vo' v k))
  /\ (forall v k, panics_or_same (vr_get_mut vo v k) (vr_get_mut vo' v k))
  /\ (forall v k s, panics_or_same (vr_insert_single vo v k s) (vr_insert_single vo' v k s))
  /\ (forall v k, panics_or_same (vr_erase vo v k) (vr_erase vo' v k))
  /\ (forall v k s, panics_or_same (ke_add_scalar_multiply so vo v k s) (ke_add_scalar_multiply so vo' v k s))
  /\ (forall v k s, panics_or_same (ke_sub_scalar_multiply so vo v k s) (ke_sub_scalar_multiply so vo' v k s))
  /\ (forall v k r, panics_or_same (ke_add_scalar_divide so vo v k r) (ke_add_scalar_divide so vo' v k r))
  /\ (forall v k r, panics_or_same (ke_sub_scalar_divide so vo v k r) (ke_sub_scalar_divide so vo' v k r))
  /\ (forall v : dvec S, panics_or_same (dv_degree (tensor_basis p n) v) (dv_degree (tensor_basis p' n) v))
  /\ (forall fuel show (v : dvec S), panics_or_same (dv_display p n fuel show v) (dv_display p' n fuel show v)).
Proof.
  intros S R so p p' n C vo vo'. repeat match goal with |- _ /\ _ => split end; intros; [apply ps_from_key_scalar|apply ps_from_key_scalar|apply ps_from_iterator|apply ps_from_degree|apply ps_get|apply ps_get_mut
    |apply ps_insert_single|apply ps_erase|apply ps_add_scalar_multiply|apply ps_sub_scalar_multiply|apply ps_add_scalar_divide|apply ps_sub_scalar_divide|apply ps_degree
    |apply ps_display]; exact C.
Qed.

Lemma c125_products : forall (S R : Type) (so : scalar_ops S R) (p p' : profile) (n : N), checks_more p p' ->
  (forall x y t, panics_or_same (alg_multiply so p n x y t) (alg_multiply so p' n x y t))
  /\ (forall x y t, panics_or_same (alg_multiply_inplace so p n x y t) (alg_multiply_inplace so p' n x y t))
  /\ (forall v x y t, panics_or_same (alg_add_mul so p n v x y t) (alg_add_mul so p' n v x y t))
  /\ (forall v x y t, panics_or_same (alg_sub_mul so p n v x y t) (alg_sub_mul so p' n v x y t))
  /\ (forall x y t, panics_or_same (alg_commutator so p n x y t) (alg_commutator so p' n x y t))
  /\ (forall x y s t, panics_or_same (alg_mul_scal_lprod so p n x y s t) (alg_mul_scal_lprod so p' n x y s t))
  /\ (forall x y s t, panics_or_same (alg_mul_scal_rprod so p n x y s t) (alg_mul_scal_rprod so p' n x y s t))
  /\ (forall x y r t, panics_or_same (alg_mul_rat_ldiv so p n x y r t) (alg_mul_rat_ldiv so p' n x y r t))
  /\ (forall x y s t, panics_or_same (alg_mul_rat_rdiv so p n x y s t) (alg_mul_rat_rdiv so p' n x y s t))
  /\ (forall m x, panics_or_same (ft_exp so p n m x) (ft_exp so p' n m x))
  /\ (forall m x y, panics_or_same (ft_fmexp so p n m x y) (ft_fmexp so p' n m x y))
  /\ (forall m x, panics_or_same (ft_log so p n m x) (ft_log so p' n m x)).
Proof.
  intros S R so p p' n C. unfold alg_multiply, alg_multiply_inplace, alg_add_mul, alg_sub_mul, alg_mul_scal_lprod, alg_mul_scal_rprod, alg_mul_rat_ldiv, alg_mul_rat_rdiv.
  repeat match goal with |- _ /\ _ => split end; intros; [apply ps_add_into|apply ps_into|apply ps_add_into|apply ps_add_into|apply ps_commutator|apply ps_into|apply ps_into|apply ps_into|apply ps_into
    |apply ps_exp|apply ps_fmexp|apply ps_log]; exact C.
Qed.

Lemma c125_closures : forall (S R St : Type) (so : scalar_ops S R) (p p' : profile) (n : N) (func : St -> S -> St * option S), checks_more p p' ->
  (forall v x y st t, throws_or_same (multiply_and_add_into_impl_fn so p n func v x y st t) (multiply_and_add_into_impl_fn so p' n func v x y st t))
  /\ (forall v y st t, throws_or_same (multiply_into_impl_fn so p n func v y st t) (multiply_into_impl_fn so p' n func v y st t)).
Proof. intros S R St so p p' n func C. split; intros; [apply ts_add_into|apply ts_into]; exact C. Qed.

Lemma c125_programs : forall (S R : Type) (so : scalar_ops S R) (p p' : profile) (n : N) (cs : list (tcmd S R)) (st : nat -> dvec S), checks_more p p' ->
  panics_or_same (run_prog so p n st cs) (run_prog so p' n st cs).
Proof. intros S R so p p' n cs st C. apply ps_run_prog. exact C. Qed.

Lemma c125_hall : forall (p p' : profile) (n : N), checks_more p p' ->
  (forall fuel w d, panics_or_same (hall_set_size p fuel w d) (hall_set_size p' fuel w d))
  /\ (forall fuel d, panics_or_same (drm_new p fuel n d) (drm_new p' fuel n d))
  /\ (forall fuel m d, panics_or_same (drm_grow p fuel n m d) (drm_grow p' fuel n m d))
  /\ (forall fuel pre, panics_or_same (new_object p fuel n pre) (new_object p' fuel n pre))
  /\ (forall fuel h d, panics_or_same (hi_grow_up p fuel h d) (hi_grow_up p' fuel h d))
  /\ (forall o cs, Forall2 panics_or_same (fst (ho_runs p o cs)) (fst (ho_runs p' o cs)) /\ snd (ho_runs p o cs) = snd (ho_runs p' o cs))
  /\ (forall l, panics_or_same (hk_from_letter p n l) (hk_from_letter p' n l))
  /\ (forall k, panics_or_same (hk_get_key p k) (hk_get_key p' k))
  /\ (forall k, panics_or_same (hk_get_lparent p k) (hk_get_lparent p' k))
  /\ (forall k, panics_or_same (hk_get_rparent p k) (hk_get_rparent p' k))
  /\ (forall k, panics_or_same (hk_size p k) (hk_size p' k))
  /\ (forall k, panics_or_same (hk_is_letter p k) (hk_is_letter p' k))
  /\ (forall k, panics_or_same (hk_to_index p k) (hk_to_index p' k))
  /\ (forall k, panics_or_same (hk_debug p k) (hk_debug p' k))
  /\ (forall k, panics_or_same (hk_display p k) (hk_display p' k))
  /\ (forall o k, panics_or_same (hk_lparent p o k) (hk_lparent p' o k))
  /\ (forall o k, panics_or_same (hk_parent p o k) (hk_parent p' o k)).
Proof.
  intros p p' n C.
  split; [intros; apply ps_size; exact C|]. split; [intros; apply ps_drm_new; exact C|]. split; [intros; apply ps_drm_grow; exact C|]. split; [intros; apply ps_new_object; exact C|].
  split; [intros; apply ps_hi_grow; exact C|]. split; [intros; apply ps_ho_runs; exact C|].
  repeat match goal with |- _ /\ _ => split end; intros; [apply ps_hk_from_letter|apply ps_hk_get_key|apply ps_hk_get_lparent|apply ps_hk_get_rparent|apply ps_hk_size|apply ps_hk_is_letter|apply ps_hk_to_index
    |apply ps_hk_debug|apply ps_hk_display|apply ps_hk_lparent|apply ps_hk_parent]; exact C.
Qed.

Example c125_example :
  checks_more dev release
  (** most calls do the same in both *)
  /\ tb_start_of_degree dev 5 10 = Ret 2441406 /\ tb_start_of_degree release 5 10 = Ret 2441406
  /\ tk_from_letters dev 3 [1; 2] = Ret {| tk_size := 2; tk_data := 1 |} /\ tk_from_letters release 3 [1; 2] = Ret {| tk_size := 2; tk_data := 1 |}
  (** some panic in the first and return something in the second *)
  /\ tb_start_of_degree dev 5 30 = Panic /\ tb_start_of_degree release 5 30 = Ret 2246342732500233706
  /\ tk_from_letters dev 3 [0] = Panic /\ tk_from_letters release 3 [0] = Ret {| tk_size := 1; tk_data := 4294967295 |}
  /\ hk_from_letter dev 3 4 = Panic /\ hk_from_letter release 3 4 = Ret 18014673387388932
  (** some panic in both *)
  /\ tb_start_of_degree dev 1 3 = Panic /\ tb_start_of_degree release 1 3 = Panic.
Proof. repeat split; try discriminate; vm_compute; reflexivity. Qed.
