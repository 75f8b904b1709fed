(** Lemmas on exp, log and fmexp of dense tensors (M_FreeTensor.v). *)
From Coq Require Import QArith Qcanon.
From Verif Require Import Machine MachineLemmas S_Words L_Words M_TensorKey L_TensorKey M_TensorBasis
  L_TensorBasis M_Scalar M_Vector M_Dense S_Vector S_Tensor I_Scalars L_Dense L_Ring L_PropKey L_PropDense
  M_Algebra L_Algebra L_PropAlgebra L_Inplace L_PropInplace M_FreeTensor.
Local Open Scope N_scope.

Lemma countdown_nil m : m <= 1 -> countdown m = [].
Proof. intros H. unfold countdown, range. replace (N.to_nat (m - 1)) with 0%nat by lia. reflexivity. Qed.
Lemma countdown_cons m : 1 <= m -> countdown (m + 1) = m :: countdown m.
Proof.
  intros H. unfold countdown, range. replace (N.to_nat (m + 1 - 1)) with (Datatypes.S (N.to_nat (m - 1))) by lia.
  rewrite seqN_snoc, rev_app_distr. cbn [rev app]. f_equal. lia.
Qed.
Lemma in_countdown m i : In i (countdown m) <-> 1 <= i < m.
Proof. unfold countdown, range. rewrite <- in_rev, in_seqN. lia. Qed.
Lemma countdown_length m : length (countdown m) = N.to_nat (m - 1).
Proof. unfold countdown, range. rewrite rev_length. generalize 1 at 1. induction (N.to_nat (m - 1)); intros; cbn; [reflexivity|f_equal; auto]. Qed.

Lemma iter_shift {A} (f : A -> A) k a : Nat.iter k f (f a) = Nat.iter (Datatypes.S k) f a.
Proof. induction k as [|k IH]; [reflexivity|]. cbn [Nat.iter nat_rect] in *. unfold Nat.iter in *. rewrite IH. reflexivity. Qed.

Lemma bind_ret {A B} (a : A) (f : A -> outcome B) : bind (Ret a) f = f a.
Proof. reflexivity. Qed.
Section FreeTensor.
  Context {S R : Type} (so : scalar_ops S R) (p : profile) (n : N) (Hn : 2 <= n < 2 ^ 32).
  Notation vo := (dense_ops so (tensor_basis p n)).
  Lemma Hn2 : 2 <= n. Proof. lia. Qed.
  Lemma P1 : n ^ (0 + 1) < 2 ^ 64.
  Proof. assert (2 ^ 32 < 2 ^ 64) by reflexivity. rewrite N.add_0_l, N.pow_1_r. lia. Qed.
  Lemma small_degree (x : dvec S) : dv_size x <= 1 -> has_degree n x 0.
  Proof.
    intros H. destruct (N.eq_dec (dv_size x) 0) as [E|E]; [left; split; [exact E|reflexivity]|].
    right. change (N.to_nat 0) with 0%nat. cbn [count_below]. rewrite N.pow_0_r. lia.
  Qed.
  (** two operands of degree 0: the in-place product does nothing *)
  Lemma into_degree_zero (x y : dvec S) func t : dv_size x <= 1 -> dv_size y <= 1 ->
    multiply_into_impl so p n x y func (Some t) = Ret x.
  Proof.
    intros Hx Hy. unfold multiply_into_impl.
    rewrite (degree_ok p n Hn2 x 0 (small_degree x Hx) P1), (degree_ok p n Hn2 y 0 (small_degree y Hy) P1). cbn [bind].
    rewrite product_degree_ok by lia. cbn [bind]. replace (N.min t (0 + 0)) with 0 by lia.
    unfold grow_to_degree. rewrite (degree_ok p n Hn2 x 0 (small_degree x Hx) P1). cbn [bind].
    destruct (N.ltb_spec 0 0); [lia|]. cbn [bind]. destruct (offset_assign so y). reflexivity.
  Qed.
  Lemma add_inplace_vo (x y : dvec S) : vr_add_inplace vo x y
    = Ret (after x (dv_size x <? dv_size y) (comb so (s_add so) (dv_elems x) (dv_elems y))).
  Proof. apply add_inplace_eq. Qed.

  Lemma exp_loop (x : dvec S) md (a : S) is : dv_size x <= 1 ->
    for_each is (fun r i =>
      r1 <- alg_mul_rat_rdiv so p n r x (s_from_degree so i) (Some md) ;;
      vr_add_inplace vo r1 (dv_from [s_one so])) (dv_from [a])
    = Ret (dv_from [Nat.iter (length is) (fun a => s_add so a (s_one so)) a]).
  Proof.
    intros Hx. revert a. induction is as [|i is IH]; intros a; [reflexivity|]. cbn [for_each].
    unfold alg_mul_rat_rdiv at 1. rewrite into_degree_zero; [|cbn; lia|exact Hx]. cbn [bind].
    rewrite add_inplace_vo. cbn [bind].
    change (after (dv_from [a]) (dv_size (dv_from [a]) <? dv_size (dv_from [s_one so]))
             (comb so (s_add so) (dv_elems (dv_from [a])) (dv_elems (dv_from [s_one so]))))
      with (dv_from [s_add so a (s_one so)]).
    rewrite IH. cbn [length]. rewrite <- (iter_shift (fun a => s_add so a (s_one so))). reflexivity.
  Qed.
  Lemma exp_degree_zero md (x : dvec S) : dv_size x <= 1 ->
    ft_exp so p n md x = Ret (dv_from [Nat.iter (N.to_nat (md - 1)) (fun a => s_add so a (s_one so)) (s_one so)]).
  Proof.
    intros Hx. unfold ft_exp, trait_exp. rewrite !from_key_new by exact Hn. cbn [bind]. rewrite exp_loop by exact Hx.
    rewrite countdown_length. reflexivity.
  Qed.
  Lemma exp_short md (x : dvec S) : md <= 1 -> ft_exp so p n md x = Ret (dv_from [s_one so]).
  Proof. intros H. unfold ft_exp, trait_exp. rewrite !from_key_new by exact Hn. cbn [bind]. rewrite countdown_nil by exact H. reflexivity. Qed.
  Lemma exp_never md (x : dvec S) d : overflow_checks p = true -> 2 <= md -> 1 <= d -> filled n x d -> n ^ (d + 1) < 2 ^ 64 ->
    ~ returns (ft_exp so p n md x).
  Proof.
    intros Hp Hmd Hd Hx Pd [z E]. unfold ft_exp, trait_exp in E. rewrite !from_key_new in E by exact Hn. cbn [bind] in E.
    replace md with (md - 1 + 1) in E at 1 by lia. rewrite countdown_cons in E by lia. cbn [for_each] in E.
    assert (U : filled n (dv_from [s_one so]) 0) by reflexivity.
    assert (Pm : n ^ (N.min md (0 + d) + 1) < 2 ^ 64) by (apply (pow_fits n Hn2 _ (d + 1)); [lia|exact Pd]).
    match type of E with (r <- (r1 <- ?m ;; _) ;; _) = _ => assert (NR : ~ returns m) end.
    2: { match type of E with (r <- (r1 <- ?m ;; _) ;; _) = _ => destruct m eqn:Em; cbn [bind] in E; try discriminate E end.
         apply NR. eexists. reflexivity. }
    unfold alg_mul_rat_rdiv. destruct (N.eq_dec d 1) as [->|Hd1].
    - destruct (c63_degree_one S R so p n md 0 (fun v => s_mul so v (s_from_degree so (md - 1))) (dv_from [s_one so]) x)
        as (H1 & H2); try assumption; try exact Hn2; try exact P1; try lia.
      destruct (s_eqb so (coef so x 0) (s_zero so)) eqn:E0; [rewrite H1 by (left; reflexivity); intros [? ?]; discriminate|].
      destruct (s_eqb so (coef so x 0) (s_one so)) eqn:E1; [rewrite H1 by (right; reflexivity); intros [? ?]; discriminate|].
      destruct (H2 eq_refl eq_refl) as (G & _). rewrite G by reflexivity. intros [? ?]; discriminate.
    - eapply (c63_degree_two_and_more S R so p n md 0 d); try eassumption; try exact Hn2; try exact P1; lia.
  Qed.

  (** fmexp *)
  Lemma clear_unit_eq (x : dvec S) : clear_unit so p n x = Ret (
    match dv_elems x with [] => dv_as_mut x | _ :: e => after x false (s_zero so :: e) end).
  Proof.
    unfold clear_unit, trait_clear_unit.
    assert (E : ob_key_to_index (tensor_basis p n) tk_new = Ret 0).
    { change tk_new with (key_of n []). cbn [tensor_basis ob_key_to_index].
      rewrite key_to_index_ok; [reflexivity|lia|]. split; [constructor|]. apply N.le_0_l. }
    change (vr_get_mut vo x tk_new) with (dv_get_mut (tensor_basis p n) x tk_new).
    rewrite (get_mut_eq (tensor_basis p n) x tk_new 0 E). cbn [bind].
    destruct (dv_elems x) as [|v e] eqn:Ex; cbn; reflexivity.
  Qed.
  Lemma to_owned_vo (x : dvec S) : vr_to_owned vo x = Ret (dv_from (dv_elems x)).
  Proof. reflexivity. Qed.
  Lemma clear_unit_from (e : list S) : trait_clear_unit so vo (dv_from e)
    = Ret (dv_from (match e with [] => [] | _ :: e0 => s_zero so :: e0 end)).
  Proof. change (trait_clear_unit so vo) with (clear_unit so p n). rewrite clear_unit_eq. destruct e; reflexivity. Qed.
  Local Notation cleared e := (match e with nil => nil | cons _ e0 => cons (s_zero so) e0 end).
  Lemma cleared_len (e : list S) : len (cleared e) = len e.
  Proof. destruct e; reflexivity. Qed.

  Lemma fmexp_loop (x : dvec S) md (old a : list S) v is : dv_size x <= 1 -> md < 2 ^ 32 -> Forall (fun i => 1 <= i < md) is ->
    len old <= 1 -> dv_elems v = a -> len a = len old ->
    exists z, for_each is (fun r i =>
      t0 <- usub 32 p md i ;; t <- uadd 32 p t0 1 ;;
      r1 <- alg_mul_rat_rdiv so p n r x (s_from_degree so i) (Some t) ;;
      vr_add_inplace vo r1 (dv_from old)) v = Ret z
    /\ dv_elems z = Nat.iter (length is) (fun a => comb so (s_add so) a old) a.
  Proof.
    intros Hx Hmd Hi Ho. revert v a. induction is as [|i is IH]; intros v a Hv Ha; [exists v; split; [reflexivity|exact Hv]|].
    inversion Hi as [|? ? Hi1 Hi2]; subst i is. cbn [for_each]. rewrite usub_ok by lia. cbn [bind]. rewrite uadd_ok by lia. cbn [bind].
    unfold alg_mul_rat_rdiv at 1. rewrite into_degree_zero; [|unfold dv_size; rewrite Hv; lia|exact Hx]. cbn [bind].
    rewrite add_inplace_vo. cbn [bind].
    destruct (IH Hi2 (after v (dv_size v <? dv_size (dv_from old)) (comb so (s_add so) (dv_elems v) (dv_elems (dv_from old))))
                 (comb so (s_add so) a old)) as (z & E & Ez).
    { cbn [after dv_elems dv_from]. rewrite Hv. reflexivity. }
    { rewrite comb_len. lia. }
    exists z. split; [exact E|]. rewrite Ez. cbn [length]. rewrite <- (iter_shift (fun a => comb so (s_add so) a old)). reflexivity.
  Qed.
  Lemma fmexp_eq md (x y : dvec S) : ft_fmexp so p n md x y =
    for_each (countdown md) (fun r i =>
      t0 <- usub 32 p md i ;; t <- uadd 32 p t0 1 ;;
      r1 <- alg_mul_rat_rdiv so p n r (dv_from (cleared (dv_elems y))) (s_from_degree so i) (Some t) ;;
      vr_add_inplace vo r1 (dv_from (dv_elems x))) x.
  Proof.
    unfold ft_fmexp, trait_fmexp. rewrite (to_owned_vo x). rewrite (to_owned_vo y).
    rewrite (bind_ret (dv_from (dv_elems x))), (bind_ret (dv_from (dv_elems y))), clear_unit_from, bind_ret. reflexivity.
  Qed.
  Lemma fmexp_degree_zero md (x y : dvec S) : md < 2 ^ 32 -> dv_size x <= 1 -> dv_size y <= 1 ->
    exists z, ft_fmexp so p n md x y = Ret z
      /\ dv_elems z = map (fun v => Nat.iter (N.to_nat (md - 1)) (fun a => s_add so a v) v) (dv_elems x).
  Proof.
    intros Hmd Hx Hy. rewrite fmexp_eq.
    destruct (fmexp_loop (dv_from (cleared (dv_elems y))) md (dv_elems x) (dv_elems x) x (countdown md))
      as (z & E & Ez); try assumption; try reflexivity.
    { unfold dv_size. cbn [dv_from dv_elems]. rewrite cleared_len. exact Hy. }
    { apply Forall_forall. intros i Hi. apply in_countdown in Hi. exact Hi. }
    exists z. split; [exact E|]. rewrite Ez, countdown_length. clear Ez E.
    unfold dv_size in Hx. destruct (dv_elems x) as [|v [|w e]]; [| |unfold len in Hx; cbn [length] in Hx; lia].
    - induction (N.to_nat (md - 1)) as [|k IH]; [reflexivity|]. cbn [Nat.iter nat_rect]. unfold Nat.iter in IH. rewrite IH. reflexivity.
    - induction (N.to_nat (md - 1)) as [|k IH]; [reflexivity|]. cbn [Nat.iter nat_rect]. unfold Nat.iter in IH. rewrite IH. reflexivity.
  Qed.
  Lemma fmexp_short md (x y : dvec S) : md <= 1 -> ft_fmexp so p n md x y = Ret x.
  Proof.
    intros H. rewrite fmexp_eq.
    rewrite countdown_nil by exact H. reflexivity.
  Qed.
  Lemma fmexp_never md (x y : dvec S) l d : overflow_checks p = true -> s_eqb so (s_zero so) (s_zero so) = true ->
    2 <= md < 2 ^ 32 -> filled n x l -> filled n y d -> 1 <= l + d ->
    n ^ (l + 1) < 2 ^ 64 -> n ^ (d + 1) < 2 ^ 64 -> n ^ (N.min 2 (l + d) + 1) < 2 ^ 64 ->
    ~ returns (ft_fmexp so p n md x y).
  Proof.
    intros Hp H00 Hmd Hx Hy Hld Pl Pd Pm [z E]. rewrite fmexp_eq in E.
    replace md with (md - 1 + 1) in E at 1 by lia. rewrite countdown_cons in E by lia. cbn [for_each] in E.
    rewrite usub_ok in E by lia. cbn [bind] in E. rewrite uadd_ok in E by lia. cbn [bind] in E.
    replace (md - (md - 1) + 1) with 2 in E by lia.
    assert (F : filled n (dv_from (cleared (dv_elems y))) d).
    { unfold filled, dv_size in *. cbn [dv_from dv_elems]. rewrite cleared_len. exact Hy. }
    assert (C : coef so (dv_from (cleared (dv_elems y))) 0 = s_zero so).
    { unfold coef, dv_as_slice. cbn [dv_from dv_elems]. destruct (dv_elems y); reflexivity. }
    set (y' := dv_from (cleared (dv_elems y))) in *. clearbody y'.
    match type of E with (r <- (r1 <- ?m ;; _) ;; _) = _ => assert (NR : ~ returns m) end.
    2: { match type of E with (r <- (r1 <- ?m ;; _) ;; _) = _ => destruct m eqn:Em; cbn [bind] in E; try discriminate E end.
         apply NR. eexists. reflexivity. }
    unfold alg_mul_rat_rdiv. destruct (N.le_gt_cases 2 d) as [Hd|Hd].
    - eapply (c63_degree_two_and_more S R so p n 2 l d); try eassumption; try exact Hn2; lia.
    - rewrite (run_c0 so p n Hn2 _ x y' l d 2 F Hx Pl Pd Pm); [intros [? ?]; discriminate|lia|lia|rewrite C; exact H00].
  Qed.
  Lemma fmexp_empty_arg md (x y : dvec S) l : 2 <= md < 2 ^ 32 -> filled n x l -> 1 <= l -> n ^ (l + 1) < 2 ^ 64 ->
    dv_elems y = [] -> ft_fmexp so p n md x y = UB.
  Proof.
    intros Hmd Hx Hl Pl Hy. rewrite fmexp_eq, Hy.
    replace md with (md - 1 + 1) at 1 by lia. rewrite countdown_cons by lia. cbn [for_each].
    rewrite usub_ok by lia. cbn [bind]. rewrite uadd_ok by lia. cbn [bind]. replace (md - (md - 1) + 1) with 2 by lia.
    unfold alg_mul_rat_rdiv, multiply_into_impl.
    rewrite (degree_ok p n Hn2 x l (filled_degree n Hn2 x l Hx) Pl), (degree_ok p n Hn2 (dv_from []) 0 (small_degree (dv_from []) ltac:(cbn; lia)) P1).
    cbn [bind]. pose proof (pow_u64_exp n _ Hn2 Pl). rewrite product_degree_ok by lia. cbn [bind].
    rewrite N.add_0_r. unfold grow_to_degree. rewrite (degree_ok p n Hn2 x l (filled_degree n Hn2 x l Hx) Pl). cbn [bind].
    destruct (N.ltb_spec l (N.min 2 l)); [lia|]. cbn [bind]. change (offset_assign so (dv_from [])) with (0, true). cbv iota beta.
    destruct (rev_range_incl_head 1 (N.min 2 l)) as [tl ->]; [lia|]. cbn [for_each]. set (out := N.min 2 l).
    unfold mul_into_body. rewrite !usub_ok by lia. cbn [bind]. rewrite usub_ok by lia. cbn [bind].
    replace (out - N.min (out - 0) l) with 0 by lia.
    assert (Po : n ^ (out + 1) < 2 ^ 64) by (apply (pow_fits n Hn2 _ (l + 1)); [lia|exact Pl]).
    rewrite !degree_range_ok; try exact Hn2; try exact P1; try (apply (pow_fits n Hn2 _ (l + 1)); [lia|exact Pl]).
    cbn [bind fst snd].
    change (0 =? 1) with false. cbv iota zeta. rewrite as_mut_elems.
    destruct (slice_unchecked_ok (dv_elems x) (count_below n (N.to_nat out)) (count_below n (Datatypes.S (N.to_nat out))))
      as (o & -> & _ & _).
    { apply count_below_mono. lia. }
    { change (len (dv_elems x)) with (dv_size x). rewrite Hx. apply count_below_mono. lia. }
    reflexivity.
  Qed.

  (** log *)
  Notation logstep := (fun a i => if i mod 2 =? 0 then s_sub so a (s_div so (s_one so) (r_from_degree so i))
                                  else s_add so a (s_div so (s_one so) (r_from_degree so i))).
  Lemma log_rv (rv : dvec S) i : rv = dv_new \/ (exists a, rv = dv_from [a]) ->
    (if i mod 2 =? 0 then vd_sub_scalar_rdivide vo rv (dv_from [s_one so]) (r_from_degree so i)
     else vd_add_scalar_rdivide vo rv (dv_from [s_one so]) (r_from_degree so i))
    = Ret (dv_from [logstep (coef so rv 0) i]).
  Proof.
    change (vd_sub_scalar_rdivide vo) with (dflt_sub_scalar_rdivide (dense_required so (tensor_basis p n))).
    change (vd_add_scalar_rdivide vo) with (dflt_add_scalar_rdivide (dense_required so (tensor_basis p n))).
    rewrite fused_sub_div_eq, fused_add_div_eq.
    intros [->|[a ->]]; destruct (i mod 2 =? 0); reflexivity.
  Qed.
  Lemma log_loop md (x : dvec S) d is rv : 1 <= md -> 1 <= d -> filled n x d -> n ^ (d + 1) < 2 ^ 64 ->
    rv = dv_new \/ (exists a, rv = dv_from [a]) ->
    for_each is (fun rv i =>
      rv1 <- (if i mod 2 =? 0 then vd_sub_scalar_rdivide vo rv (dv_from [s_one so]) (r_from_degree so i)
              else vd_add_scalar_rdivide vo rv (dv_from [s_one so]) (r_from_degree so i)) ;;
      _ <- alg_multiply so p n rv1 x (Some md) ;;
      Ret rv1) rv
    = Ret (match is with [] => rv | _ => dv_from [fold_left logstep is (coef so rv 0)] end).
  Proof.
    intros Hmd Hd Hx Pd. revert rv. induction is as [|i is IH]; intros rv Hrv; [reflexivity|]. cbn [for_each].
    rewrite (log_rv rv i Hrv). cbn [bind]. set (v := logstep (coef so rv 0) i).
    destruct (multiply_elems so p n (dv_from [v]) x 0 d md Hn2) as (e & -> & _ & _).
    { lia. }
    { apply filled_degree; [exact Hn2|reflexivity]. }
    { apply filled_degree; [exact Hn2|exact Hx]. }
    { exact P1. }
    { exact Pd. }
    { apply (pow_fits n Hn2 _ (d + 1)); [lia|exact Pd]. }
    { replace (N.min (N.min md (0 + d)) 0) with 0 by lia. unfold stored_to. cbn. lia. }
    { unfold stored_to. rewrite Hx. apply count_below_mono. lia. }
    cbn [bind]. rewrite IH by (right; eexists; reflexivity). cbn [fold_left].
    change (coef so (dv_from [v]) 0) with v. destruct is; reflexivity.
  Qed.
  Lemma log_ok md (x : dvec S) d : 1 <= d -> filled n x d -> n ^ (d + 1) < 2 ^ 64 ->
    ft_log so p n md x = Ret (if md <=? 1 then dv_new else dv_from [fold_left logstep (countdown md) (s_zero so)]).
  Proof.
    intros Hd Hx Pd. unfold ft_log, trait_log. rewrite from_key_new by exact Hn. cbn [bind]. rewrite to_owned_vo. cbn [bind].
    rewrite clear_unit_from. cbn [bind]. destruct (N.leb_spec md 1) as [Hm|Hm].
    - rewrite countdown_nil by exact Hm. reflexivity.
    - rewrite (log_loop md _ d); [|lia|exact Hd| |exact Pd|left; reflexivity].
      + replace md with (md - 1 + 1) by lia. rewrite countdown_cons by lia. reflexivity.
      + unfold filled, dv_size in *. cbn [dv_from dv_elems]. rewrite cleared_len. exact Hx.
  Qed.
  Lemma log_degree_zero md (x : dvec S) : 2 <= md -> dv_size x <= 1 -> ft_log so p n md x = UB.
  Proof.
    intros Hm Hx. unfold ft_log, trait_log. rewrite from_key_new by exact Hn. cbn [bind]. rewrite to_owned_vo. cbn [bind].
    rewrite clear_unit_from. cbn [bind].
    replace md with (md - 1 + 1) at 1 by lia. rewrite countdown_cons by lia. cbn [for_each].
    rewrite (log_rv (vr_new vo)) by (left; reflexivity). cbn [bind].
    assert (Pm : n ^ (N.min md (0 + 0) + 1) < 2 ^ 64) by (replace (N.min md (0 + 0)) with 0 by lia; exact P1).
    destruct (c30_multiply_exact S R so p n (dv_from [logstep (coef so dv_new 0) (md - 1)])
                (dv_from (cleared (dv_elems x))) 0 0 md Hn2) as (_ & G); try exact P1; try exact Pm.
    { apply small_degree. cbn. lia. }
    { apply small_degree. unfold dv_size in *. cbn [dv_from dv_elems]. rewrite cleared_len. exact Hx. }
    change (vr_new vo) with (@dv_new S). rewrite G; [reflexivity|]. intros (H & _). lia.
  Qed.
End FreeTensor.
