(** Property lemmas C58-C60 (restated as theorems in P_Safe.v). *)
From Coq Require Import QArith Qcanon String.
From Verif Require Import Machine MachineLemmas S_Words L_Words M_TensorKey L_TensorKey M_TensorBasis
  L_TensorBasis M_Scalar M_Vector M_Dense M_Display S_Vector I_Scalars L_Dense L_PropKey L_BasisIter.
Local Open Scope N_scope.

(** * C58 *)
Lemma c58_from_key_exact : forall (K S R : Type) (so : scalar_ops S R) (ob : obasis K) (k : K) (s : S) (d i : N),
  ob_dim_for_key ob k = Ret d -> ob_key_to_index ob k = Ret i ->
  (i < d -> exists v, vr_from_key_scalar (dense_ops so ob) k s = Ret v /\ dv_size v = d)
  /\ (d <= i -> vr_from_key_scalar (dense_ops so ob) k s = UB).
Proof.
  intros K S R so ob k s d i Hd Hi. cbn [dense_ops with_defaults v_req dense_required vr_from_key_scalar].
  unfold dv_from_key_scalar. rewrite Hd. cbn [bind]. rewrite Hi. cbn [bind].
  cbn [dv_from_dimension dv_from dv_as_mut dv_kind dv_elems]. unfold set_unchecked. rewrite len_repeat, N2Nat.id.
  split; intros H; destruct (N.ltb_spec i d); try lia.
  - cbn [bind]. eexists. split; [reflexivity|]. unfold dv_size. cbn. rewrite len_list_set, len_repeat. lia.
  - reflexivity.
Qed.
Lemma add_all_ub {S R} (so : scalar_ops S R) (es : list (N * S)) (l : list S) e :
  In e es -> len l <= fst e -> for_each es (dv_add_at_unchecked so) (dv_from l) = UB.
Proof.
  revert l; induction es as [|e1 es IH]; intros l Hin Hle; [destruct Hin|]. cbn [for_each].
  destruct (N.lt_ge_cases (fst e1) (len l)) as [H|H].
  - destruct Hin as [->|Hin]; [lia|]. rewrite add_at_ok by exact H. cbn [bind]. apply IH; [exact Hin|].
    rewrite len_list_set. exact Hle.
  - unfold dv_add_at_unchecked. cbn. rewrite slice_get_none by exact H. reflexivity.
Qed.
Lemma c58_from_iterator_exact : forall (K S R : Type) (so : scalar_ops S R) (ob : obasis K)
    (items : list (K * S)) (f : K -> N) (k : K) (s : S) (d : N),
  (forall e, In e items -> ob_key_to_index ob (fst e) = Ret (f (fst e)) /\ f (fst e) <= f k) ->
  In (k, s) items -> ob_dim_for_index ob (f k) = Ret d ->
  (f k < d -> exists v, vr_from_iterator (dense_ops so ob) items = Ret v /\ dv_size v = d)
  /\ (d <= f k -> vr_from_iterator (dense_ops so ob) items = UB).
Proof.
  intros K S R so ob items f k s d Hall Hin Hd. cbn [dense_ops with_defaults v_req dense_required vr_from_iterator].
  assert (HF : Forall (fun e => ob_key_to_index ob (fst e) = Ret (f (fst e))) items).
  { apply Forall_forall. intros e He. apply Hall, He. }
  split; intros H.
  - destruct (from_iterator_ok so ob items f HF) as [[-> _]|(k' & s' & Hin' & Hmax & Hok)]; [destruct Hin|].
    assert (E : f k' = f k).
    { pose proof (Hmax _ Hin) as H1. pose proof (proj2 (Hall _ Hin')) as H2. cbn in *. lia. }
    rewrite E in Hok. destruct (Hok d Hd H) as (l & El & Hl & _). exists (dv_from l). split; [exact El|]. exact Hl.
  - unfold dv_from_iterator. rewrite (mapM_index ob items f HF). cbn [bind].
    set (vec := map _ items).
    assert (Hv : In (f k, s) vec) by (apply (in_map (fun e : K * S => (f (fst e), snd e)) items (k, s)); exact Hin).
    destruct (rev (sort_by_index vec)) as [|[j t] r] eqn:E.
    { apply sort_nil in E. rewrite E in Hv. destruct Hv. }
    apply sort_last in E. destruct E as [Hj Hmax]. cbn [fst] in *.
    assert (j = f k) as ->.
    { pose proof (Hmax _ Hv) as H1. cbn in H1. unfold vec in Hj. apply in_map_iff in Hj.
      destruct Hj as ([k' s'] & E1 & Hk'). injection E1 as <- <-. pose proof (proj2 (Hall _ Hk')) as H2. cbn in *. lia. }
    rewrite Hd. cbn [bind]. apply (add_all_ub so _ _ (f k, s)); [apply in_sort; exact Hv|].
    rewrite len_repeat, N2Nat.id. exact H.
Qed.
(** safe code, any build: the letter after the last one of the alphabet *)
Lemma c58_memory_safety_refuted : forall (S R : Type) (so : scalar_ops S R) (p : profile) (n : N),
  2 <= n -> n + 1 < 2 ^ 32 ->
  exists k, tk_from_letter p (n + 1) = Ret k
    /\ vr_from_key (dense_ops so (tensor_basis p n)) k = UB.
Proof.
  intros S R so p n H2 Hn. exists (mk_tkey 1 n). split.
  { unfold tk_from_letter. rewrite usub_ok by lia. cbn [bind]. do 2 f_equal. lia. }
  assert (Hb := bpl_upper n). assert (Hb32 := bpl_le_32 n ltac:(lia)).
  assert (Hbig : n * n < 2 ^ 64) by (change (2 ^ 64) with (2 ^ 32 * 2 ^ 32); apply N.mul_lt_mono; lia).
  assert (H64 : 2 ^ 32 < 2 ^ 64) by reflexivity.
  assert (D : tb_vector_dimension_for_key p n (mk_tkey 1 n) = Ret (1 + n)).
  { pose proof (dim_for_key_ok p n [1] H2) as D. change (len [1] + 1) with 2 in D. rewrite N.pow_2_r in D.
    specialize (D Hbig). unfold tb_vector_dimension_for_key, tb_degree in *. cbn [tk_size key_of] in *.
    change (len [1]) with 1 in D. rewrite D. f_equal. cbn [length]. rewrite !count_below_S_l. change (count_below n 0) with 0. lia. }
  assert (I : tb_key_to_index p n (mk_tkey 1 n) = Ret (n + 1)).
  { unfold tb_key_to_index. cbn [tk_size]. change (N.to_nat 1) with 1%nat.
    cbn [tb_key_to_index_loop]. rewrite umul_ok by (rewrite N.mul_0_l; reflexivity). cbn [bind].
    unfold tk_get_letter. rewrite get_letter_unadjusted_ok; [|lia|change (N.of_nat 0) with 0; lia]. cbn [bind tk_data].
    change (N.of_nat 0) with 0. rewrite N.mul_0_l, N.pow_0_r, N.div_1_r, N.mod_small by exact Hb.
    rewrite uadd_ok by exact Hn. cbn [bind]. rewrite N.mul_0_l, uadd_ok by lia. cbn [bind]. f_equal. }
  apply (proj2 (c58_from_key_exact tkey S R so (tensor_basis p n) (mk_tkey 1 n) (s_one so) _ _ D I)). lia.
Qed.
(** without overflow checks even a valid word can do it: the dimension 2^64+... wraps to 3 *)
Lemma c58_wrapped_dimension_refuted : forall (S R : Type) (so : scalar_ops S R),
  exists k, word_ok (2 ^ 32 - 1) [1; 1] /\ tk_from_letters release (2 ^ 32 - 1) [1; 1] = Ret k
    /\ vr_from_key (dense_ops so (tensor_basis release (2 ^ 32 - 1))) k = UB.
Proof.
  intros S R so. exists (mk_tkey 2 0). split; [repeat constructor; cbn; lia|]. split; [vm_compute; reflexivity|].
  apply (proj2 (c58_from_key_exact tkey S R so (tensor_basis release (2 ^ 32 - 1)) (mk_tkey 2 0) (s_one so) 3 (2 ^ 32)
    ltac:(vm_compute; reflexivity) ltac:(vm_compute; reflexivity))). cbn; lia.
Qed.
(** with overflow checks, keys of words are safe *)
Lemma c58_words_checked_partial : forall (S R : Type) (so : scalar_ops S R) (p : profile) (n : N) (w : word)
    (k : tkey) (s : S),
  overflow_checks p = true -> n < 2 ^ 32 -> word_ok n w -> tk_from_letters p n w = Ret k ->
  vr_from_key_scalar (dense_ops so (tensor_basis p n)) k s <> UB.
Proof.
  intros S R so p n w k s Hp Hn Hw E HU.
  cbn [dense_ops with_defaults v_req dense_required vr_from_key_scalar] in HU. unfold dv_from_key_scalar in HU.
  cbn [tensor_basis ob_dim_for_key ob_key_to_index] in HU.
  pose proof E as E0. apply from_letters_inv in E; try assumption. destruct E as [F ->].
  assert (Hlen : tk_size (key_of n w) < 2 ^ 32).
  { cbn [tk_size key_of]. destruct F as [_ F]. pose proof (max_depth_le_59 n Hn).
    change (2 ^ 32) with 4294967296. lia. }
  destruct (N.lt_ge_cases n 2) as [H1|H1].
  - assert (D : tb_vector_dimension_for_key p n (key_of n w) = Panic).
    { unfold tb_vector_dimension_for_key, tb_degree.
      destruct (N.lt_ge_cases (tk_size (key_of n w) + 1) (2 ^ 32)) as [Ha|Ha];
        [rewrite uadd_ok by exact Ha|rewrite uadd_panic by assumption; reflexivity]. cbn [bind].
      assert (n = 0 \/ n = 1) as [->| ->] by lia; [apply start_of_degree_zero, Hp|apply start_of_degree_one]. }
    rewrite D in HU. discriminate.
  - destruct (N.lt_ge_cases (n ^ (len w + 1)) (2 ^ 64)) as [H2|H2].
    + pose proof (dim_for_key_ok p n w H1 H2) as D. pose proof (key_to_index_ok p n w Hn F) as I.
      destruct (c58_from_key_exact tkey S R so (tensor_basis p n) (key_of n w) s _ _ D I) as [A _].
      destruct A as (v & Ev & _); [apply windex_upper; apply F|].
      cbn [dense_ops with_defaults v_req dense_required vr_from_key_scalar] in Ev. unfold dv_from_key_scalar in Ev.
      cbn [tensor_basis ob_dim_for_key ob_key_to_index] in Ev. congruence.
    + assert (D : tb_vector_dimension_for_key p n (key_of n w) = Panic).
      { unfold tb_vector_dimension_for_key, tb_degree.
        destruct (N.lt_ge_cases (tk_size (key_of n w) + 1) (2 ^ 32)) as [Ha|Ha];
          [rewrite uadd_ok by exact Ha|rewrite uadd_panic by assumption; reflexivity]. cbn [bind].
        apply start_of_degree_overflow; assumption. }
      rewrite D in HU. discriminate.
Qed.
(** the crate's own IntegerBasis of the tests (simple_dense_vector.rs:403-440): indices 0..255, dimension 255 *)
Definition integer_basis : obasis N := {|
  ob_key_to_index := fun k => Ret k;
  ob_dim_for_key := fun _ => Ret 255;
  ob_dim_for_index := fun _ => Ret 255;
  ob_index_to_degree := fun _ => Panic;
  ob_start_of_degree := fun _ => Panic |}.
Example c58_example :
  vr_from_key (dense_ops qc_ops integer_basis) 255 = UB
  /\ vr_from_iterator (dense_ops qc_ops integer_basis) [(0, q 1); (255, q 1)] = UB
  /\ (v <- vr_from_key (dense_ops qc_ops integer_basis) 254 ;; Ret (dv_size v)) = Ret 255
  /\ (k <- tk_from_letter dev 4 ;; vr_from_key (dense_ops qc_ops (tensor_basis dev 3)) k) = UB.
Proof. repeat split; vm_compute; reflexivity. Qed.

(** * C59 *)
Lemma c59_degree : forall (S R : Type) (so : scalar_ops S R) (p : profile) (n : N) (v : dvec S) (w : word) (k : tkey),
  2 <= n < 2 ^ 32 -> word_ok n w -> tk_from_letters p n w = Ret k ->
  tb_key_to_index p n k = Ret (dv_size v - 1) -> 0 < dv_size v -> n ^ (len w + 1) < 2 ^ 64 ->
  dv_degree (tensor_basis p n) v = Ret (len w)
  /\ forall w' k', word_ok n w' -> tk_from_letters p n w' = Ret k' ->
       (exists x, vr_get (dense_ops so (tensor_basis p n)) v k' = Ret (Some x)) -> len w' <= len w.
Proof.
  intros S R so p n v w k Hn Hw E Ei Hv Hp. apply from_letters_inv in E; try assumption; try lia. destruct E as [F ->].
  rewrite key_to_index_ok in Ei by (assumption || lia). injection Ei as Ei. split.
  - unfold dv_degree. destruct (N.eqb_spec (dv_size v) 0); [lia|]. cbn [tensor_basis ob_index_to_degree].
    rewrite <- Ei. apply index_to_degree_ok; (assumption || lia).
  - intros w' k' Hw' E' [x Hx]. apply from_letters_inv in E'; try assumption; try lia. destruct E' as [F' ->].
    cbn [dense_ops with_defaults v_req dense_required vr_get] in Hx. unfold dv_get in Hx.
    cbn [tensor_basis ob_key_to_index] in Hx. rewrite key_to_index_ok in Hx by (assumption || lia). cbn [bind] in Hx.
    injection Hx as Hx. apply slice_get_lt in Hx. change (len (dv_as_slice v)) with (dv_size v) in Hx.
    pose proof (windex_lower n w' Hw'). pose proof (windex_upper n w Hw).
    destruct (N.le_gt_cases (len w') (len w)) as [|Hlt]; [assumption|].
    pose proof (count_below_mono n (Datatypes.S (length w)) (length w') ltac:(unfold len in Hlt; lia)). lia.
Qed.
Lemma c59_empty : forall (S K : Type) (ob : obasis K) (v : dvec S), dv_size v = 0 -> dv_degree ob v = Ret 0.
Proof. intros S K ob v H. unfold dv_degree. rewrite H. reflexivity. Qed.
Lemma last_word n d : 1 <= n -> word_ok n (repeat n d) /\ windex n (repeat n d) + 1 = count_below n (Datatypes.S d).
Proof.
  intros Hn. induction d as [|d [IHw IH]]; [split; [constructor|reflexivity]|]. split; [constructor; [lia|exact IHw]|].
  replace (repeat n (Datatypes.S d)) with (repeat n d ++ [n]) by (rewrite <- repeat_cons; reflexivity).
  rewrite windex_snoc. rewrite (count_below_S_l n (Datatypes.S d)), <- IH. lia.
Qed.
(** the size start_of_degree(d+1) is the full vector of degree d *)
Lemma c59_resized : forall (S R : Type) (so : scalar_ops S R) (p : profile) (n d s : N) (v : dvec S),
  2 <= n < 2 ^ 32 -> n ^ (d + 1) < 2 ^ 64 -> tb_start_of_degree p n (d + 1) = Ret s ->
  exists z, dv_resize so v s = Ret z /\ dv_degree (tensor_basis p n) z = Ret d.
Proof.
  intros S R so p n d s v Hn Hp Es. rewrite start_of_degree_ok in Es by (assumption || lia). injection Es as <-.
  rewrite resize_eq. eexists. split; [reflexivity|]. unfold dv_degree, dv_size. cbn [after dv_elems].
  rewrite len_vec_resize. destruct (last_word n (N.to_nat d) ltac:(lia)) as [Hw Hi].
  replace (N.to_nat (d + 1)) with (Datatypes.S (N.to_nat d)) by lia.
  destruct (N.eqb_spec (count_below n (Datatypes.S (N.to_nat d))) 0); [lia|].
  replace (count_below n (Datatypes.S (N.to_nat d)) - 1) with (windex n (repeat n (N.to_nat d))) by lia.
  cbn [tensor_basis ob_index_to_degree].
  assert (Hl : len (repeat n (N.to_nat d)) = d) by (rewrite len_repeat; lia).
  rewrite index_to_degree_ok; [rewrite Hl; reflexivity|lia|exact Hw|right; rewrite Hl; split; [lia|exact Hp]].
Qed.
Example c59_example : dv_degree (tensor_basis dev 3) (dv_from (repeat (q 0) 13)) = Ret 2
  /\ dv_degree (tensor_basis dev 3) (dv_from [q 1; q 1]) = Ret 1.
Proof. split; vm_compute; reflexivity. Qed.

(** * C60 *)
Lemma c60_display_refuted : forall (S : Type) (p : profile) (n : N) (fuel : nat) (show : S -> string) (v : dvec S),
  1 <= n < 2 ^ 32 -> 0 < dv_size v -> dv_display p n fuel show v = Diverge.
Proof.
  intros S p n fuel show v Hn Hv. unfold dv_display, dv_size, dv_as_slice in *.
  destruct (dv_elems v) as [|x l]; [cbn in Hv; lia|]. cbn [display_loop].
  change (tb_iter_keys n) with (bi_of n (Some (key_of n []))). rewrite bi_next_empty by exact Hn. cbn [bind].
  rewrite c08_display_refuted. reflexivity.
Qed.
Lemma c60_display_empty_partial : forall (S : Type) (p : profile) (n : N) (fuel : nat) (show : S -> string) (v : dvec S),
  1 <= n < 2 ^ 32 -> dv_size v = 0 -> dv_display p n fuel show v = Ret EmptyString.
Proof.
  intros S p n fuel show v Hn Hv. unfold dv_display, dv_size, dv_as_slice in *.
  destruct (dv_elems v) as [|x l]; [|unfold len in Hv; cbn in Hv; lia]. cbn [display_loop].
  change (tb_iter_keys n) with (bi_of n (Some (key_of n []))). rewrite bi_next_empty by exact Hn. reflexivity.
Qed.
Example c60_example : dv_display dev 2 10 (fun _ : Qc => "1"%string) (dv_from [q 1]) = Diverge
  /\ dv_display dev 2 10 (fun _ : Qc => "1"%string) dv_new = Ret EmptyString.
Proof. split; vm_compute; reflexivity. Qed.
