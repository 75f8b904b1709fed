(** Property lemmas C29, C30 (restated as theorems in P_Algebra.v). *)
From Coq Require Import QArith Qcanon Ring_theory Ring.
From Verif Require Import Machine MachineLemmas S_Words L_Words M_TensorKey L_TensorKey M_TensorBasis
  L_TensorBasis M_Scalar M_Vector M_Dense S_Vector S_Tensor I_Scalars L_Dense L_Ring L_PropKey L_PropDense
  M_Algebra L_Algebra L_Conv.
Local Open Scope N_scope.

(** * C29 *)
Lemma wc_after {S R} (so : scalar_ops S R) n v g l w : wcoef so n (after v g l) w = wcoef so n (dv_from l) w.
Proof. reflexivity. Qed.
Lemma c29_add_mul : forall (S R : Type) (so : scalar_ops S R) (p : profile) (n : N) (self x y : dvec S)
    (s l r t : N),
  let m := N.min t (l + r) in
  2 <= n -> has_degree n self s -> has_degree n x l -> has_degree n y r ->
  n ^ (s + 1) < 2 ^ 64 -> n ^ (l + 1) < 2 ^ 64 -> n ^ (r + 1) < 2 ^ 64 -> n ^ (m + 1) < 2 ^ 64 ->
  s < m \/ stored_to n self m -> stored_to n x (N.min m l) -> stored_to n y (N.min m r) ->
  exists z, alg_add_mul so p n self x y (Some t) = Ret z
    /\ dv_size z = (if s <? m then count_below n (Datatypes.S (N.to_nat m)) else dv_size self)
    /\ forall w, word_ok n w -> wcoef so n z w =
         if len w <=? m
         then fold_left (s_add so) (terms so l r (wcoef so n x) (wcoef so n y) w) (wcoef so n self w)
         else wcoef so n self w.
Proof.
  intros S R so p n self x y s l r t m Hn Hs Hl Hr Ps Pl Pr Pm Hself Hx Hy.
  destruct (mul_add_ok so p n Hn (fun v => v) self x y s l r t Hs Hl Hr Ps Pl Pr Pm Hself Hx Hy) as (e & E & He & Hw).
  eexists. split; [exact E|]. split; [exact He|]. intros w Hwo. rewrite wc_after. apply Hw. exact Hwo.
Qed.
Lemma c29_sub_mul : forall (S R : Type) (so : scalar_ops S R) (p : profile) (n : N) (self x y : dvec S)
    (s l r t : N),
  let m := N.min t (l + r) in
  2 <= n -> has_degree n self s -> has_degree n x l -> has_degree n y r ->
  n ^ (s + 1) < 2 ^ 64 -> n ^ (l + 1) < 2 ^ 64 -> n ^ (r + 1) < 2 ^ 64 -> n ^ (m + 1) < 2 ^ 64 ->
  s < m \/ stored_to n self m -> stored_to n x (N.min m l) -> stored_to n y (N.min m r) ->
  exists z, alg_sub_mul so p n self x y (Some t) = Ret z
    /\ dv_size z = (if s <? m then count_below n (Datatypes.S (N.to_nat m)) else dv_size self)
    /\ forall w, word_ok n w -> wcoef so n z w =
         if len w <=? m
         then fold_left (fun a c => s_add so a (s_uminus so c))
                (terms so l r (wcoef so n x) (wcoef so n y) w) (wcoef so n self w)
         else wcoef so n self w.
Proof.
  intros S R so p n self x y s l r t m Hn Hs Hl Hr Ps Pl Pr Pm Hself Hx Hy.
  destruct (mul_add_ok so p n Hn (s_uminus so) self x y s l r t Hs Hl Hr Ps Pl Pr Pm Hself Hx Hy) as (e & E & He & Hw).
  eexists. split; [exact E|]. split; [exact He|]. intros w Hwo. rewrite wc_after. apply Hw. exact Hwo.
Qed.
Lemma wc_new {S R} (so : scalar_ops S R) n w : wcoef so n dv_new w = s_zero so.
Proof. apply coef_out. apply N.le_0_l. Qed.
Lemma pow_1_fits n d : 2 <= n -> n ^ (d + 1) < 2 ^ 64 -> n ^ (0 + 1) < 2 ^ 64.
Proof. intros Hn H. pose proof (pow_le n (0 + 1) (d + 1)). lia. Qed.
Lemma multiply_elems {S R} (so : scalar_ops S R) p n (x y : dvec S) l r t (m := N.min t (l + r)) :
  2 <= n -> 1 <= m -> has_degree n x l -> has_degree n y r ->
  n ^ (l + 1) < 2 ^ 64 -> n ^ (r + 1) < 2 ^ 64 -> n ^ (m + 1) < 2 ^ 64 ->
  stored_to n x (N.min m l) -> stored_to n y (N.min m r) ->
  exists e, alg_multiply so p n x y (Some t) = Ret (dv_from e)
    /\ len e = count_below n (Datatypes.S (N.to_nat m))
    /\ forall w, word_ok n w -> wcoef so n (dv_from e) w =
         if len w <=? m
         then fold_left (s_add so) (terms so l r (wcoef so n x) (wcoef so n y) w) (s_zero so)
         else s_zero so.
Proof.
  intros Hn Hm Hl Hr Pl Pr Pm Hx Hy.
  destruct (mul_add_ok so p n Hn (fun v => v) dv_new x y 0 l r t (new_degree n) Hl Hr (pow_1_fits n l Hn Pl)
    Pl Pr Pm ltac:(left; fold m; lia) Hx Hy) as (e & E & He & Hw).
  fold m in E, He, Hw. destruct (N.ltb_spec 0 m); [|lia]. exists e. split; [exact E|]. split; [exact He|].
  intros w Hwo. rewrite (Hw w Hwo), wc_new. reflexivity.
Qed.
Lemma c29_multiply : forall (S R : Type) (so : scalar_ops S R) (p : profile) (n : N) (x y : dvec S) (l r t : N),
  let m := N.min t (l + r) in
  2 <= n -> 1 <= m -> has_degree n x l -> has_degree n y r ->
  n ^ (l + 1) < 2 ^ 64 -> n ^ (r + 1) < 2 ^ 64 -> n ^ (m + 1) < 2 ^ 64 ->
  stored_to n x (N.min m l) -> stored_to n y (N.min m r) ->
  exists z, alg_multiply so p n x y (Some t) = Ret z /\ dv_kind z = Owned /\ filled n z m
    /\ forall w, word_ok n w -> wcoef so n z w =
         if len w <=? m
         then fold_left (s_add so) (terms so l r (wcoef so n x) (wcoef so n y) w) (s_zero so)
         else s_zero so.
Proof.
  intros S R so p n x y l r t m Hn Hm Hl Hr Pl Pr Pm Hx Hy.
  destruct (multiply_elems so p n x y l r t Hn Hm Hl Hr Pl Pr Pm Hx Hy) as (e & E & He & Hw).
  exists (dv_from e). split; [exact E|]. split; [reflexivity|]. split; [exact He|exact Hw].
Qed.
(** the sum of the terms is the convolution, over a field *)
Lemma c29_convolution : forall (S R : Type) (so : scalar_ops S R) (n : N) (x y : dvec S) (l r : N) (w : word) (a : S),
  ring_laws so -> 2 <= n -> has_degree n x l -> has_degree n y r -> word_ok n w ->
  fold_left (s_add so) (terms so l r (wcoef so n x) (wcoef so n y) w) a
  = s_add so a (conv so (wcoef so n x) (wcoef so n y) w).
Proof.
  intros S R so n x y l r w a L Hn Hl Hr Hw. apply terms_conv; [exact L| |]; intros u v E Hlt; rewrite E in Hw;
    apply word_ok_app in Hw; destruct Hw as [Hu Hv]; eapply wcoef_beyond; eassumption || lia.
Qed.
(** what [get] with the key of a word reads *)
Lemma c29_read : forall (S R : Type) (so : scalar_ops S R) (p : profile) (n : N) (z : dvec S) (w : word) (k : tkey),
  2 <= n < 2 ^ 32 -> word_ok n w -> tk_from_letters p n w = Ret k ->
  vr_get (dense_ops so (tensor_basis p n)) z k
  = Ret (if windex n w <? dv_size z then Some (wcoef so n z w) else None).
Proof.
  intros S R so p n z w k Hn Hw E. rewrite (tensor_get so p n z w k ltac:(lia) Hw E). f_equal.
  unfold wcoef, coef, dv_as_slice, dv_size. destruct (N.ltb_spec (windex n w) (len (dv_elems z))) as [H|H].
  - destruct (slice_get_some _ _ H) as [v ->]. reflexivity.
  - apply slice_get_none. exact H.
Qed.
(** (1 + 2·[1] + 3·[2]) (5 + 7·[1] + 11·[2]) and its subtraction from 100·[2] *)
Example c29_example :
  let x := dv_from [q 1; q 2; q 3] in let y := dv_borrow [q 5; q 7; q 11] in
  (z <- alg_multiply qc_ops dev 2 x y (Some 5) ;; Ret (vals z)) = Ret (qz [5; 17; 26; 14; 22; 21; 33]%Z)
  /\ (z <- alg_multiply qc_ops release 2 x y (Some 1) ;; Ret (vals z)) = Ret (qz [5; 17; 26]%Z)
  /\ (z <- alg_sub_mul qc_ops dev 2 (dv_borrow [q 0; q 0; q 100]) x y (Some 2) ;; Ret (vals z))
     = Ret (qz [-5; -17; 74; -14; -22; -21; -33]%Z)
  /\ map (fun w => this (fold_left Qcplus (terms qc_ops 1 1 (wcoef qc_ops 2 x) (wcoef qc_ops 2 y) w) 0%Qc))
       (words_below 2 3) = qz [5; 17; 26; 14; 22; 21; 33]%Z.
Proof. repeat split; vm_compute; reflexivity. Qed.
(** a result that is already stored further than the product reaches keeps its longer words *)
Example c29_example_longer :
  (z <- alg_add_mul qc_ops dev 2 (dv_from (map q [1; 1; 1; 1; 1; 1; 1]%Z)) (dv_from [q 1; q 2; q 3])
          (dv_from [q 10]) (Some 5) ;; Ret (vals z)) = Ret (qz [11; 21; 31; 1; 1; 1; 1]%Z).
Proof. vm_compute. reflexivity. Qed.

(** * C30 *)
Lemma c30_exact : forall (S R : Type) (so : scalar_ops S R) (p : profile) (n : N) (self x y : dvec S) (s l r t : N),
  let m := N.min t (l + r) in
  2 <= n -> has_degree n self s -> has_degree n x l -> has_degree n y r ->
  n ^ (s + 1) < 2 ^ 64 -> n ^ (l + 1) < 2 ^ 64 -> n ^ (r + 1) < 2 ^ 64 -> n ^ (m + 1) < 2 ^ 64 ->
  let safe := (s < m \/ stored_to n self m) /\ stored_to n x (N.min m l) /\ stored_to n y (N.min m r) in
  (safe -> returns (alg_add_mul so p n self x y (Some t)) /\ returns (alg_sub_mul so p n self x y (Some t)))
  /\ (~ safe -> alg_add_mul so p n self x y (Some t) = UB /\ alg_sub_mul so p n self x y (Some t) = UB).
Proof.
  intros S R so p n self x y s l r t m Hn Hs Hl Hr Ps Pl Pr Pm safe. split.
  - intros (H1 & H2 & H3). split.
    + destruct (c29_add_mul S R so p n self x y s l r t Hn Hs Hl Hr Ps Pl Pr Pm H1 H2 H3) as (z & E & _).
      exists z. exact E.
    + destruct (c29_sub_mul S R so p n self x y s l r t Hn Hs Hl Hr Ps Pl Pr Pm H1 H2 H3) as (z & E & _).
      exists z. exact E.
  - intros H. split; apply (mul_add_UB so p n Hn _ self x y s l r t); assumption.
Qed.
Lemma c30_multiply_exact : forall (S R : Type) (so : scalar_ops S R) (p : profile) (n : N) (x y : dvec S) (l r t : N),
  let m := N.min t (l + r) in
  2 <= n -> has_degree n x l -> has_degree n y r ->
  n ^ (l + 1) < 2 ^ 64 -> n ^ (r + 1) < 2 ^ 64 -> n ^ (m + 1) < 2 ^ 64 ->
  let safe := 1 <= m /\ stored_to n x (N.min m l) /\ stored_to n y (N.min m r) in
  (safe -> returns (alg_multiply so p n x y (Some t))) /\ (~ safe -> alg_multiply so p n x y (Some t) = UB).
Proof.
  intros S R so p n x y l r t m Hn Hl Hr Pl Pr Pm safe. split.
  - intros (H1 & H2 & H3). destruct (c29_multiply S R so p n x y l r t Hn H1 Hl Hr Pl Pr Pm H2 H3) as (z & E & _).
    exists z. exact E.
  - intros H. apply (mul_add_UB so p n Hn _ dv_new x y 0 l r t); try assumption.
    + apply new_degree.
    + apply (pow_1_fits n l); assumption.
    + fold m. intros ([H1|H1] & H2 & H3); apply H; unfold safe.
      * split; [lia|]. split; assumption.
      * exfalso. unfold stored_to, dv_size in H1. cbn [dv_new dv_elems] in H1. rewrite len_nil in H1.
        rewrite count_below_S_l in H1. lia.
Qed.
Lemma from_key_new {S R} (so : scalar_ops S R) p n : 2 <= n < 2 ^ 32 ->
  vr_from_key (dense_ops so (tensor_basis p n)) tk_new = Ret (dv_from [s_one so]).
Proof.
  intros Hn. cbn [dense_ops with_defaults v_req dense_required vr_from_key]. unfold dv_from_key, dv_from_key_scalar.
  change (@tk_new) with (key_of n []). cbn [tensor_basis ob_dim_for_key]. rewrite (dim_for_key_ok p n []) by (try lia; change (n ^ (0 + 1) < 2 ^ 64);
    rewrite N.add_0_l, N.pow_1_r; assert (2 ^ 32 < 2 ^ 64) by reflexivity; lia).
  reflexivity.
Qed.
(** safe code, every build: the square of the unit; and a vector cut off inside a degree *)
Lemma c30_memory_safety_refuted : forall (S R : Type) (so : scalar_ops S R) (p : profile) (n t : N),
  2 <= n < 2 ^ 32 ->
  (u <- vr_from_key (dense_ops so (tensor_basis p n)) tk_new ;; alg_multiply so p n u u (Some t)) = UB
  /\ alg_multiply so p n dv_new dv_new (Some t) = UB
  /\ (1 <= t -> n ^ 3 < 2 ^ 64 -> forall c d,
       alg_multiply so p n (dv_from [c; d]) (dv_from [c; d]) (Some t) = UB).
Proof.
  intros S R so p n t Hn. assert (H64 : 2 ^ 32 < 2 ^ 64) by reflexivity.
  assert (P1 : n ^ (0 + 1) < 2 ^ 64) by (rewrite N.add_0_l, N.pow_1_r; lia).
  split; [|split].
  - rewrite from_key_new by assumption. cbn [bind].
    assert (D : has_degree n (dv_from [s_one so]) 0).
    { apply filled_degree; [lia|]. reflexivity. }
    apply (c30_multiply_exact S R so p n _ _ 0 0 t); try assumption; try lia.
    replace (N.min t (0 + 0)) with 0 by lia. exact P1.
  - apply (c30_multiply_exact S R so p n _ _ 0 0 t); try assumption; try lia; try apply new_degree.
    replace (N.min t (0 + 0)) with 0 by lia. exact P1.
  - intros Ht P3 c d.
    assert (D : has_degree n (dv_from [c; d]) 1).
    { right. change (dv_size (dv_from [c; d])) with 2. change (N.to_nat 1) with 1%nat.
      rewrite !count_below_S_l. cbn [count_below]. lia. }
    assert (P2 : n ^ (1 + 1) < 2 ^ 64) by (pose proof (pow_le n (1 + 1) 3); lia).
    apply (c30_multiply_exact S R so p n _ _ 1 1 t); try assumption; try lia.
    + pose proof (pow_le n (N.min t (1 + 1) + 1) 3). lia.
    + intros (_ & H & _). unfold stored_to in H. change (dv_size (dv_from [c; d])) with 2 in H.
      replace (N.min (N.min t (1 + 1)) 1) with 1 in H by lia. change (N.to_nat 1) with 1%nat in H.
      rewrite !count_below_S_l in H. cbn [count_below] in H. lia.
Qed.
(** checked builds: a product that does not fit in 64 bits panics *)
Lemma c30_overflow_panics : forall (S R : Type) (so : scalar_ops S R) (p : profile) (n : N) (self x y : dvec S)
    (s l r t : N),
  let m := N.min t (l + r) in
  overflow_checks p = true -> 2 <= n -> has_degree n self s -> has_degree n x l -> has_degree n y r ->
  n ^ (s + 1) < 2 ^ 64 -> n ^ (l + 1) < 2 ^ 64 -> n ^ (r + 1) < 2 ^ 64 -> 2 ^ 64 <= n ^ (m + 1) ->
  alg_add_mul so p n self x y (Some t) = Panic /\ alg_sub_mul so p n self x y (Some t) = Panic.
Proof.
  intros S R so p n self x y s l r t m Hp Hn Hs Hl Hr Ps Pl Pr Pm.
  assert (G : forall func, multiply_and_add_into_impl so p n self x y func (Some t) = Panic).
  { intros func. unfold multiply_and_add_into_impl.
    rewrite (degree_ok p n Hn x l Hl Pl), (degree_ok p n Hn y r Hr Pr). cbn [bind].
    pose proof (pow_u64_exp n _ Hn Pl). pose proof (pow_u64_exp n _ Hn Pr).
    rewrite product_degree_ok by lia. cbn [bind]. fold m. unfold grow_to_degree.
    rewrite (degree_ok p n Hn self s Hs Ps). cbn [bind].
    destruct (N.ltb_spec s m) as [H1|H1]; [|pose proof (pow_le n (m + 1) (s + 1)); lia].
    assert (m < 128) by (unfold m; lia). rewrite uadd_ok by (assert (129 < 2 ^ 32) by reflexivity; lia). cbn [bind].
    rewrite start_of_degree_overflow by assumption. reflexivity. }
  split; apply G.
Qed.
(** builds without overflow checks: the size of the product wraps around, and filled operands are not safe
    either (2642246 is the first number whose cube exceeds 2^64) *)
Lemma c30_wrapped_size_refuted : forall (S R : Type) (so : scalar_ops S R) (p : profile) (x y : dvec S) (t : N),
  let n := 2642246 in
  overflow_checks p = false -> filled n x 1 -> filled n y 1 -> 2 <= t ->
  alg_multiply so p n x y (Some t) = UB.
Proof.
  intros S R so p x y t n Hp Hx Hy Ht. unfold alg_multiply, multiply_and_add_into_impl.
  assert (Hn : 2 <= n) by discriminate. assert (P2 : n ^ (1 + 1) < 2 ^ 64) by reflexivity.
  rewrite (degree_ok p n Hn x 1 (filled_degree n Hn x 1 Hx) P2), (degree_ok p n Hn y 1 (filled_degree n Hn y 1 Hy) P2).
  cbn [bind]. rewrite product_degree_ok by reflexivity. cbn [bind]. replace (N.min t (1 + 1)) with 2 by lia.
  unfold grow_to_degree. change (dv_degree (tensor_basis p n) dv_new) with (@Ret N 0). cbn [bind].
  change (0 <? 2) with true. assert (uadd 32 p 2 1 = Ret 3) as -> by reflexivity. cbn [bind].
  assert (E3 : tb_start_of_degree p n 3 = Ret 399276).
  { unfold tb_start_of_degree, upow, usub, udiv, overflowed. rewrite Hp. vm_compute. reflexivity. }
  rewrite E3. cbn [bind]. rewrite resize_eq. cbn [bind].
  change (rev_range_incl 0 2) with [2; 1; 0]. cbn [for_each]. change (1 <? 2) with true. cbn match.
  change (rev_range_incl (2 - 1) (N.min 2 1)) with [1]. cbn [for_each].
  assert (mul_add_body so p n x y (fun v => v) 2
            (after dv_new true (vec_resize (dv_elems (@dv_new S)) 399276 (s_zero so))) 1 = UB) as ->; [|reflexivity].
  unfold mul_add_body. rewrite as_mut_elems.
  assert (E2 : tb_degree_range p n 2 = Ret (2642247, 399276)).
  { unfold tb_degree_range. change (uadd 32 p 2 1) with (@Ret N 3). cbn [bind]. rewrite E3.
    unfold tb_start_of_degree, upow, usub, udiv, overflowed. rewrite Hp. vm_compute. reflexivity. }
  rewrite E2. cbn [bind]. rewrite slice_unchecked_UB by (left; reflexivity). reflexivity.
Qed.
Example c30_example :
  returns (alg_multiply qc_ops release 2 (dv_from [q 1; q 2; q 3]) (dv_from [q 4]) (Some 1))
  /\ alg_multiply qc_ops dev 2 (dv_from [q 1; q 2]) (dv_from [q 4]) (Some 1) = UB
  /\ alg_add_mul qc_ops dev 2 (dv_from [q 1; q 2]) (dv_from [q 1; q 2; q 3]) (dv_from [q 4]) (Some 1) = UB
  /\ returns (alg_add_mul qc_ops dev 2 (dv_from [q 1; q 2]) (dv_from [q 1; q 2; q 3]) (dv_from [q 4]) (Some 0)).
Proof. repeat split; try (vm_compute; reflexivity); (eexists; vm_compute; reflexivity). Qed.

