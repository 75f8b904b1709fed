(** Property lemmas C103 and C104 (restated as theorems in P_Degree.v). *)
From Coq Require Import QArith Qcanon.
From Verif Require Import Machine MachineLemmas S_Words L_Words M_TensorKey L_TensorKey M_TensorBasis
  L_TensorBasis M_Scalar M_Vector M_Dense S_Degree L_DegreeWrap L_PropKey M_Algebra M_FreeTensor I_Scalars.
Local Open Scope N_scope.

(** helper lemmas *)
Lemma fits_pow n w : n < 2 ^ 32 -> fits n w -> n ^ len w < 2 ^ 64 \/ len w = 0.
Proof.
  intros Hn Hf. destruct (N.eq_dec (len w) 0) as [E|E]; [right; exact E|left].
  pose proof (fits_bits n w Hn Hf) as Hb.
  assert (Hlt : n < 2 ^ bits_per_letter n) by apply bpl_upper.
  apply N.lt_le_trans with ((2 ^ bits_per_letter n) ^ len w).
  - apply N.pow_lt_mono_l; [exact E|exact Hlt].
  - rewrite <- N.pow_mul_r. apply N.pow_le_mono_r; lia.
Qed.

(** * C103: sizes of degrees in builds without overflow checks *)
(** the exact 64-bit value, for every alphabet *)
Lemma c103_start_of_degree : forall (p : profile) (n d : N), overflow_checks p = false -> n < 2 ^ 32 ->
  tb_start_of_degree p n d = (if n =? 1 then Panic else Ret (wrapped_start n d))
  /\ (2 <= n -> n ^ d < 2 ^ 64 -> wrapped_start n d = count_below n (N.to_nat d)).
Proof.
  intros p n d Hp Hn. split.
  - destruct (N.eqb_spec n 1) as [->|H1]; [apply start_of_degree_one|]. apply start_unchecked; (assumption || lia).
  - intros H2 Hd. apply wrapped_exact; assumption.
Qed.
(** the degree given to an index is the one before the first boundary above the index; if there is none, the search
    never ends *)
Lemma c103_index_to_degree : forall (p : profile) (n i : N), overflow_checks p = false -> n < 2 ^ 32 -> n <> 1 ->
  (exists d, d + 1 < 2 ^ 32 /\ i < wrapped_start n (d + 1) /\ (forall e, e <= d -> wrapped_start n e <= i)
     /\ tb_index_to_degree p n i = Ret d)
  \/ ((forall e, e < 2 ^ 32 -> wrapped_start n e <= i) /\ tb_index_to_degree p n i = Diverge).
Proof.
  intros p n i Hp Hn H1. destruct (first_boundary p n i Hp Hn H1) as [(d & Hd & Hi & He)|He].
  - left. exists d. repeat apply conj; try assumption. apply index_to_degree_w; assumption.
  - right. split; [exact He|]. apply index_to_degree_diverges; assumption.
Qed.
(** exactly when the degree of a word comes out right *)
Lemma c103_right_iff : forall (p : profile) (n : N) (w : word) (k : tkey) (i : N), overflow_checks p = false ->
  2 <= n < 2 ^ 32 -> word_ok n w -> tk_from_letters p n w = Ret k -> tb_key_to_index p n k = Ret i ->
  tb_index_to_degree p n i = Ret (len w) <-> i < wrapped_start n (len w + 1).
Proof.
  intros p n w k i Hp Hn Hw E Ei. apply from_letters_inv in E; try assumption; try lia. destruct E as [F ->].
  rewrite key_to_index_ok in Ei by (assumption || lia). injection Ei as <-.
  assert (H32 : len w + 1 < 2 ^ 32).
  { pose proof (fits_bits n w ltac:(lia) F) as Hb. pose proof (bpl_pos n). nia. }
  assert (Hlow : forall e, e <= len w -> wrapped_start n e <= windex n w).
  { intros e He. assert (Hpe : n ^ e < 2 ^ 64).
    { destruct (fits_pow n w ltac:(lia) F) as [Hl|Hl].
      - eapply N.le_lt_trans; [apply pow_le; [lia|exact He]|exact Hl].
      - replace e with 0 by lia. rewrite N.pow_0_r. lia. }
    rewrite wrapped_exact by (assumption || lia).
    eapply N.le_trans; [apply (count_below_mono n (N.to_nat e) (length w)); unfold len in He; lia|].
    apply windex_lower. assumption. }
  split.
  - intros E. destruct (c103_index_to_degree p n (windex n w) Hp ltac:(lia) ltac:(lia)) as [(d & Hd & Hi & He & E')|[He E']].
    + rewrite E in E'. injection E' as ->. exact Hi.
    + rewrite E in E'. discriminate.
  - intros Hi. apply index_to_degree_w; try assumption; lia.
Qed.
(** the number of coefficients reserved for a key *)
Lemma c103_dimension : forall (p : profile) (n : N) (k : tkey), overflow_checks p = false -> n < 2 ^ 32 -> n <> 1 ->
  tk_size k < 2 ^ 32 - 1 -> tb_vector_dimension_for_key p n k = Ret (wrapped_start n (tk_size k + 1)).
Proof.
  intros p n k Hp Hn H1 Hk. unfold tb_vector_dimension_for_key, tb_degree. rewrite uadd_ok by lia. cbn [bind].
  apply start_unchecked; (assumption || lia).
Qed.
(** valid words whose degree comes out wrong: 31 letters, and 2^22 letters, where it never comes out *)
Lemma c103_wrong_degree : forall (p : profile), overflow_checks p = false ->
  (exists w k i, word_ok 31 w /\ len w = 12 /\ tk_from_letters p 31 w = Ret k /\ tb_key_to_index p 31 k = Ret i
     /\ tb_index_to_degree p 31 i = Ret 15)
  /\ (exists w k i, word_ok 4194304 w /\ len w = 2 /\ tk_from_letters p 4194304 w = Ret k
     /\ tb_key_to_index p 4194304 k = Ret i /\ tb_index_to_degree p 4194304 i = Diverge).
Proof.
  intros p Hp. split.
  - set (w := [7; 25; 25; 18; 12; 25; 14; 10; 4; 15; 6; 31]).
    assert (Hw : word_ok 31 w) by (unfold w, word_ok; repeat constructor; lia).
    assert (F : fits 31 w) by (split; [exact Hw|vm_compute; discriminate]).
    exists w, (key_of 31 w), (windex 31 w). repeat apply conj.
    + exact Hw.
    + reflexivity.
    + apply from_letters_ok; [lia|exact F].
    + apply key_to_index_ok; [lia|exact F].
    + apply index_to_degree_w; [exact Hp|lia|lia|lia|vm_compute; reflexivity|].
      intros e He. assert (A : forallb (fun e => wrapped_start 31 e <=? windex 31 w) (range_incl 0 15) = true)
        by (vm_compute; reflexivity).
      rewrite forallb_forall in A. apply N.leb_le, A, in_range_incl. lia.
  - set (w := [4194304; 4194304]).
    assert (Hw : word_ok 4194304 w) by (unfold w, word_ok; repeat constructor; lia).
    assert (F : fits 4194304 w) by (split; [exact Hw|vm_compute; discriminate]).
    exists w, (key_of 4194304 w), (windex 4194304 w). repeat apply conj.
    + exact Hw.
    + reflexivity.
    + apply from_letters_ok; [lia|exact F].
    + apply key_to_index_ok; [lia|exact F].
    + apply index_to_degree_diverges; [exact Hp|lia|lia|]. intros e He.
      destruct (N.lt_ge_cases e 3) as [H3|H3].
      * assert (A : forallb (fun e => wrapped_start 4194304 e <=? windex 4194304 w) (range_incl 0 2) = true)
          by (vm_compute; reflexivity).
        rewrite forallb_forall in A. apply N.leb_le, A, in_range_incl. lia.
      * assert (wrapped_start 4194304 e = wrapped_start 4194304 3) as ->; [|vm_compute; discriminate].
        unfold wrapped_start. f_equal. rewrite <- !N2Z.inj_pow, !low64_pred. do 2 f_equal.
        replace e with (3 + (e - 3)) by lia. rewrite N.pow_add_r.
        change (4194304 ^ 3) with (4 * 2 ^ 64). rewrite <- N.mul_assoc, (N.mul_comm (2 ^ 64)), N.mul_assoc, !N.mod_mul by lia.
        reflexivity.
Qed.
Example c103_example : wrapped_start 31 12 = 26255426126284992 /\ wrapped_start 31 13 = 199026740791183032
  /\ count_below 31 13 = 813918209914834753 /\ wrapped_start 4194304 3 = 4398047559680
  /\ tb_index_to_degree release 31 199026740791183031 = Ret 12
  /\ tb_vector_dimension_for_key release 31 (mk_tkey 12 0) = Ret 199026740791183032.
Proof. repeat apply conj; vm_compute; reflexivity. Qed.

(** * C104: dense tensors over alphabets with at most one letter *)
Lemma ret_or_panic_uadd w p a b : exists z, uadd w p a b = Ret z \/ uadd w p a b = Panic.
Proof. unfold uadd, overflowed. destruct (_ <? _); [eauto|]. destruct (overflow_checks p); [exists 0|]; eauto. Qed.
Lemma dim_key_one p k : tb_vector_dimension_for_key p 1 k = Panic.
Proof.
  unfold tb_vector_dimension_for_key. destruct (ret_or_panic_uadd 32 p (tb_degree k) 1) as (z & [->| ->]); [|reflexivity].
  cbn [bind]. apply start_of_degree_one.
Qed.
Lemma degree_one S p (x : dvec S) : dv_degree (tensor_basis p 1) x = if dv_size x <=? 2 then Ret (dv_size x - 1) else Panic.
Proof.
  unfold dv_degree. destruct (N.eqb_spec (dv_size x) 0) as [->|H0]; [reflexivity|].
  cbn [ob_index_to_degree tensor_basis]. destruct (N.leb_spec (dv_size x) 2) as [H|H].
  - assert (Hs : dv_size x = 1 \/ dv_size x = 2) by lia. destruct Hs as [-> | ->]; reflexivity.
  - apply index_to_degree_one. lia.
Qed.
Lemma rev_range_first a b : a <= b -> exists l, rev_range_incl a b = b :: l.
Proof.
  intros H. unfold rev_range_incl, range_incl. replace (N.to_nat (b + 1 - a)) with (Datatypes.S (N.to_nat (b - a))) by lia.
  rewrite seqN_snoc, rev_app_distr. cbn [rev app]. eexists. f_equal. lia.
Qed.
(** over one letter nothing can be built from keys or multiplied: a division by zero *)
Lemma c104_one_letter : forall (S R : Type) (so : scalar_ops S R) (p : profile),
  (forall k s, dv_from_key_scalar so (tensor_basis p 1) k s = Panic)
  /\ (forall k, dv_from_key so (tensor_basis p 1) k = Panic)
  /\ (forall d, dv_from_degree so (tensor_basis p 1) d = Panic)
  /\ (forall self x y func t, multiply_and_add_into_impl so p 1 self x y func t = Panic)
  /\ (forall x y t, alg_multiply so p 1 x y t = Panic)
  /\ (forall self x y t, alg_add_mul so p 1 self x y t = Panic)
  /\ (forall self x y t, alg_sub_mul so p 1 self x y t = Panic)
  /\ (forall x y t, alg_commutator so p 1 x y t = Panic)
  /\ (forall md x, ft_exp so p 1 md x = Panic)
  /\ (forall md x, ft_log so p 1 md x = Panic).
Proof.
  intros S R so p.
  assert (K : forall k s, dv_from_key_scalar so (tensor_basis p 1) k s = Panic).
  { intros k s. unfold dv_from_key_scalar. cbn [ob_dim_for_key tensor_basis]. rewrite dim_key_one. reflexivity. }
  assert (M : forall self x y func t, multiply_and_add_into_impl so p 1 self x y func t = Panic).
  { intros self x y func t. unfold multiply_and_add_into_impl. rewrite !degree_one.
    destruct (N.leb_spec (dv_size x) 2) as [Hx|Hx]; [|reflexivity]. cbn [bind].
    destruct (N.leb_spec (dv_size y) 2) as [Hy|Hy]; [|reflexivity]. cbn [bind].
    destruct t as [t|]; [|reflexivity]. unfold product_degree. rewrite uadd_ok by lia. cbn [bind].
    set (l := dv_size x - 1) in *. set (r := dv_size y - 1) in *. set (m := N.min t (l + r)).
    unfold grow_to_degree. rewrite degree_one. destruct (N.leb_spec (dv_size self) 2) as [Hs|Hs]; [|reflexivity]. cbn [bind].
    destruct (N.ltb_spec (dv_size self - 1) m) as [Hm|Hm].
    { rewrite uadd_ok by lia. cbn [bind]. rewrite start_of_degree_one. reflexivity. }
    cbn [bind]. destruct (rev_range_first 0 m ltac:(lia)) as [ls ->]. cbn [for_each].
    destruct (rev_range_first (if r <? m then m - r else 0) (N.min m l)) as [ls2 ->].
    { destruct (N.ltb_spec r m); lia. }
    cbn [for_each]. unfold mul_add_body at 1. unfold tb_degree_range at 1. rewrite start_of_degree_one. reflexivity. }
  assert (F : forall k, dv_from_key so (tensor_basis p 1) k = Panic) by (intros; apply K).
  repeat apply conj; try exact K; try exact F; try exact M.
  - intros d. unfold dv_from_degree. cbn [ob_start_of_degree tensor_basis]. rewrite start_of_degree_one. reflexivity.
  - intros. apply M.
  - intros. apply M.
  - intros. apply M.
  - intros. unfold alg_commutator, alg_add_mul. rewrite M. reflexivity.
  - intros. unfold ft_exp, trait_exp. change (vr_from_key (dense_ops so (tensor_basis p 1))) with (dv_from_key so (tensor_basis p 1)).
    rewrite F. reflexivity.
  - intros. unfold ft_log, trait_log. change (vr_from_key (dense_ops so (tensor_basis p 1))) with (dv_from_key so (tensor_basis p 1)).
    rewrite F. reflexivity.
Qed.
(** the degree of a vector over one letter *)
Lemma c104_one_letter_degree : forall (S : Type) (p : profile) (x : dvec S),
  dv_degree (tensor_basis p 1) x = if dv_size x <=? 2 then Ret (dv_size x - 1) else Panic.
Proof. exact degree_one. Qed.
(** over no letters everything depends on the build *)
Lemma c104_no_letters : forall (S R : Type) (so : scalar_ops S R) (p : profile),
  (overflow_checks p = true ->
     (forall k s, dv_from_key_scalar so (tensor_basis p 0) k s = Panic)
     /\ (forall self x y func t, multiply_and_add_into_impl so p 0 self x y func t = Panic)
     /\ (forall x y t, alg_multiply so p 0 x y t = Panic)
     /\ (forall self x y t, alg_add_mul so p 0 self x y t = Panic)
     /\ (forall self x y t, alg_sub_mul so p 0 self x y t = Panic)
     /\ (forall x y t, alg_commutator so p 0 x y t = Panic))
  /\ (overflow_checks p = false ->
     (forall d, tb_start_of_degree p 0 d = Ret (N.of_nat (length (words_below 0 (N.to_nat d)))))
     /\ (forall s, dv_from_key_scalar so (tensor_basis p 0) tk_new s = Ret (dv_from [s]))
     /\ (forall x y t, dv_size x <= 1 -> dv_size y <= 1 -> alg_multiply so p 0 x y (Some t) = UB)).
Proof.
  intros S R so p.
  assert (D : forall x : dvec S, dv_size x <= 1 -> dv_degree (tensor_basis p 0) x = Ret 0).
  { intros x Hx. unfold dv_degree. destruct (N.eqb_spec (dv_size x) 0); [reflexivity|].
    replace (dv_size x) with 1 by lia. reflexivity. }
  split; intros Hp.
  - assert (D2 : forall x : dvec S, 1 < dv_size x -> dv_degree (tensor_basis p 0) x = Panic).
    { intros x Hx. unfold dv_degree. destruct (N.eqb_spec (dv_size x) 0); [lia|]. cbn [ob_index_to_degree tensor_basis].
      unfold tb_index_to_degree, tb_index_to_degree_calling. destruct (N.eqb_spec (dv_size x - 1) 0); [lia|].
      destruct ((1 <=? dv_size x - 1) && (dv_size x - 1 <=? 0)) eqn:E; [lia|].
      rewrite start_of_degree_zero by assumption. reflexivity. }
    assert (M : forall self x y func t, multiply_and_add_into_impl so p 0 self x y func t = Panic).
    { intros self x y func t. unfold multiply_and_add_into_impl.
      destruct (N.le_gt_cases (dv_size x) 1) as [Hx|Hx]; [|rewrite D2 by assumption; reflexivity]. rewrite (D x) by assumption.
      destruct (N.le_gt_cases (dv_size y) 1) as [Hy|Hy]; [|rewrite D2 by assumption; reflexivity]. rewrite (D y) by assumption.
      destruct t as [t|]; [|reflexivity]. cbn [bind product_degree]. rewrite uadd_ok by lia. cbn [bind]. rewrite N.min_0_r.
      unfold grow_to_degree.
      destruct (N.le_gt_cases (dv_size self) 1) as [Hs|Hs]; [|rewrite D2 by assumption; reflexivity]. rewrite (D self) by assumption.
      cbn [bind]. change (0 <? 0) with false. cbn [bind].
      change (rev_range_incl 0 0) with [0]. cbn [for_each]. change (0 <? 0) with false. cbn iota.
      change (rev_range_incl 0 (N.min 0 0)) with [0]. cbn [for_each]. unfold mul_add_body, tb_degree_range.
      rewrite start_of_degree_zero by assumption. reflexivity. }
    split; [|split; [exact M|repeat split; intros]].
    + intros k s. unfold dv_from_key_scalar. cbn [ob_dim_for_key tensor_basis]. unfold tb_vector_dimension_for_key.
      destruct (ret_or_panic_uadd 32 p (tb_degree k) 1) as (z & [->| ->]); [|reflexivity]. cbn [bind].
      rewrite start_of_degree_zero by assumption. reflexivity.
    + unfold alg_multiply. apply M.
    + unfold alg_add_mul. apply M.
    + unfold alg_sub_mul. apply M.
    + unfold alg_commutator, alg_add_mul. rewrite M. reflexivity.
  - assert (Ws : forall d, wrapped_start 0 d = N.of_nat (length (words_below 0 (N.to_nat d)))).
    { intros d. destruct (N.eq_dec d 0) as [->|Hd]; [vm_compute; reflexivity|].
      assert (length (words_below 0 (N.to_nat d)) = 1%nat) as ->.
      { replace (N.to_nat d) with (Datatypes.S (N.to_nat (d - 1))) by lia.
        induction (N.to_nat (d - 1)) as [|m IH]; [reflexivity|].
        change (words_below 0 (Datatypes.S (Datatypes.S m))) with (words_below 0 (Datatypes.S m) ++ words_of_length 0 (Datatypes.S m)).
        change (words_of_length 0 (Datatypes.S m)) with (@nil word). rewrite app_nil_r. exact IH. }
      unfold wrapped_start. rewrite Z.pow_0_l by lia. vm_compute. reflexivity. }
    assert (St : forall d, tb_start_of_degree p 0 d = Ret (N.of_nat (length (words_below 0 (N.to_nat d))))).
    { intros d. rewrite <- Ws. apply start_unchecked; (assumption || lia). }
    repeat apply conj.
    + exact St.
    + intros s. unfold dv_from_key_scalar. cbn [ob_dim_for_key ob_key_to_index tensor_basis].
      unfold tb_vector_dimension_for_key. rewrite uadd_ok by (cbn; lia). cbn [bind]. rewrite St. reflexivity.
    + intros x y t Hx Hy. unfold alg_multiply, multiply_and_add_into_impl; rewrite !D by assumption.
      cbn [bind product_degree]. rewrite uadd_ok by lia. cbn [bind]. rewrite N.min_0_r.
      unfold grow_to_degree. rewrite D by (cbn; lia). cbn [bind]. change (0 <? 0) with false. cbn [bind].
      change (rev_range_incl 0 0) with [0]. cbn [for_each]. change (0 <? 0) with false. cbn iota.
      change (rev_range_incl 0 (N.min 0 0)) with [0]. cbn [for_each]. unfold mul_add_body, tb_degree_range.
      rewrite uadd_ok by lia. rewrite !St. cbn [bind]. rewrite !St. reflexivity.
Qed.
Example c104_example :
  dv_from_key qc_ops (tensor_basis dev 1) tk_new = Panic
  /\ alg_multiply qc_ops release 1 (dv_from [1; 1]%Qc) (dv_from [1; 1]%Qc) (Some 2) = Panic
  /\ tk_from_letters dev 1 [1; 1; 1] = Ret (mk_tkey 3 0) /\ tb_key_to_index dev 1 (mk_tkey 3 0) = Ret 3
  /\ dv_from_key qc_ops (tensor_basis release 0) tk_new = Ret (dv_from [1%Qc])
  /\ alg_multiply qc_ops release 0 (dv_from [1%Qc]) (dv_from [1%Qc]) (Some 2) = UB.
Proof. repeat apply conj; vm_compute; reflexivity. Qed.
