(** Lemmas about the model of the tensor basis. *)
From Verif Require Import Machine MachineLemmas S_Words L_Words M_TensorKey L_TensorKey M_TensorBasis.

(** ** Indices *)
Lemma windex_bits n w : word_ok n w -> windex n w < 2 ^ (bits_per_letter n * len w).
Proof.
  pose proof (bpl_upper n) as Hb. set (b := bits_per_letter n) in *.
  induction w as [|a w IH] using rev_ind; intros Hw.
  - change (len (@nil N)) with 0. rewrite N.mul_0_r. reflexivity.
  - apply Forall_app in Hw. destruct Hw as [Hw Ha]. apply Forall_cons_iff in Ha. destruct Ha as [Ha _].
    specialize (IH Hw). rewrite windex_snoc, len_app, len_cons, N.add_0_l.
    rewrite N.mul_add_distr_l, N.mul_1_r, N.pow_add_r.
    set (X := windex n w) in *. set (Y := 2 ^ (b * len w)) in *. set (Z := 2 ^ b) in *.
    assert (X * n + n <= Y * n) by nia. assert (Y * n < Y * Z) by nia. lia.
Qed.
Lemma windex_u64 n w : n < 2 ^ 32 -> fits n w -> windex n w < 2 ^ 64.
Proof.
  intros Hn Hf. pose proof (fits_bits n w Hn Hf) as Hb. destruct Hf as [Hw _].
  eapply N.lt_le_trans; [apply windex_bits; exact Hw|]. apply pow2_le_64. exact Hb.
Qed.

Lemma key_to_index_loop_ok p n u v : n < 2 ^ 32 -> fits n (u ++ v) ->
  tb_key_to_index_loop p n (key_of n (u ++ v)) (length v) (windex n u) = Ret (windex n (u ++ v)).
Proof.
  intros Hn. revert u; induction v as [|a v IH]; intros u Hf; cbn [length tb_key_to_index_loop].
  - rewrite app_nil_r. reflexivity.
  - assert (Hf1 : fits n (u ++ [a])).
    { replace (u ++ a :: v) with ((u ++ [a]) ++ v) in Hf by (rewrite <- app_assoc; reflexivity).
      eapply fits_app_l. exact Hf. }
    pose proof (windex_u64 n _ Hn Hf1) as Hb. rewrite windex_snoc in Hb.
    rewrite umul_ok by lia. cbn [bind].
    change (N.of_nat (length v)) with (len v). rewrite get_letter_key by assumption. cbn [bind].
    rewrite uadd_ok by lia. cbn [bind]. rewrite <- windex_snoc.
    replace (u ++ a :: v) with ((u ++ [a]) ++ v) in * by (rewrite <- app_assoc; reflexivity).
    apply IH. exact Hf.
Qed.
Lemma key_to_index_ok p n w : n < 2 ^ 32 -> fits n w ->
  tb_key_to_index p n (key_of n w) = Ret (windex n w).
Proof.
  intros Hn Hf. unfold tb_key_to_index. cbn [tk_size key_of].
  replace (N.to_nat (len w)) with (length w) by (unfold len; lia).
  exact (key_to_index_loop_ok p n [] w Hn Hf).
Qed.

Lemma index_to_key_steps p n u v : n < 2 ^ 32 -> fits n (u ++ v) ->
  steps (S (length u)) (tb_index_to_key_step p n) (windex n u, key_of n v)
  = inr (Ret (key_of n (u ++ v))).
Proof.
  intros Hn. revert v; induction u as [|a u IH] using rev_ind; intros v Hf.
  - reflexivity.
  - rewrite app_length. cbn [length]. rewrite Nat.add_1_r. cbn [steps].
    pose proof Hf as Hf0. rewrite <- app_assoc in Hf. cbn [app] in Hf.
    pose proof (fits_app_r _ _ _ Hf) as Hfr. pose proof (fits_bits n _ Hn Hfr) as Hb.
    destruct Hfr as [Hwr Hlr]. pose proof Hwr as Hwr0. apply Forall_cons_iff in Hwr. destruct Hwr as [Ha Hv].
    rewrite windex_snoc. cbn [tb_index_to_key_step].
    destruct (N.eqb_spec (windex n u * n + a) 0) as [H0|H0]; [lia|].
    rewrite urem_ok by lia. cbn [bind].
    replace (windex n u * n + a - 1) with ((a - 1) + windex n u * n) by lia.
    rewrite N.mod_add by lia. rewrite N.mod_small by lia.
    rewrite trunc_small by lia. rewrite push_front_raw_ok by assumption. cbn [bind].
    rewrite udiv_ok by lia. cbn [bind]. rewrite N.div_add by lia. rewrite N.div_small by lia.
    rewrite N.add_0_l, <- app_assoc. cbn [app]. apply IH. exact Hf.
Qed.

Lemma index_to_key_ok p n w : n < 2 ^ 32 -> fits n w ->
  tb_index_to_key p n (windex n w) = Ret (key_of n w).
Proof.
  intros Hn Hf. unfold tb_index_to_key.
  destruct (N.eqb_spec (windex n w) 0) as [H0|H0].
  - assert (w = []) as ->; [|reflexivity].
    apply (windex_inj n); [apply Hf|constructor|exact H0].
  - destruct (N.leb_spec (windex n w) n) as [H1|H1].
    + assert (w = [windex n w]) as Hw.
      { apply (windex_inj n); [apply Hf| |].
        - repeat constructor; lia.
        - rewrite windex_cons. change (windex n []) with 0. change (len (@nil N)) with 0.
          rewrite N.pow_0_r. lia. }
      rewrite trunc_small by lia. rewrite (from_letter_ok p n) by lia.
      rewrite <- Hw. reflexivity.
    + pose proof (max_depth_le_59 n Hn) as H59. destruct Hf as [Hw Hl].
      eapply (run_loop_steps (S (length w))); cycle 1.
      * assert (N.of_nat (S (length w)) <= 2 ^ 6) by (change (2 ^ 6) with 64; unfold len in Hl; lia).
        eapply N.le_trans; [eassumption|]. apply N.pow_le_mono_r; lia.
      * change tk_new with (key_of n []).
        rewrite index_to_key_steps; rewrite ?app_nil_r; try assumption; [reflexivity|].
        split; assumption.
Qed.

(** ** Degrees *)
Lemma start_of_degree_ok p n d : 2 <= n -> n ^ d < 2 ^ 64 ->
  tb_start_of_degree p n d = Ret (count_below n (N.to_nat d)).
Proof.
  intros Hn Hd. unfold tb_start_of_degree. rewrite upow_ok by exact Hd. cbn [bind].
  pose proof (pow_pos n d ltac:(lia)). rewrite usub_ok by lia. cbn [bind].
  rewrite usub_ok by lia. cbn [bind]. rewrite udiv_ok by lia.
  f_equal. rewrite <- (N2Nat.id d) at 1. apply count_below_div. exact Hn.
Qed.
Lemma start_of_degree_overflow p n d : overflow_checks p = true -> 2 ^ 64 <= n ^ d ->
  tb_start_of_degree p n d = Panic.
Proof. intros Hp H. unfold tb_start_of_degree. rewrite upow_panic by assumption. reflexivity. Qed.
Lemma start_of_degree_one p d : tb_start_of_degree p 1 d = Panic.
Proof. unfold tb_start_of_degree. rewrite upow_ok; rewrite N.pow_1_l; reflexivity. Qed.
Lemma start_of_degree_zero p d : overflow_checks p = true -> tb_start_of_degree p 0 d = Panic.
Proof.
  intros Hp. unfold tb_start_of_degree. destruct (N.eq_dec d 0) as [->|Hd].
  - rewrite upow_ok by (rewrite N.pow_0_r; reflexivity). rewrite N.pow_0_r. cbn [bind].
    rewrite usub_ok by lia. cbn [bind]. rewrite usub_panic by (assumption || lia). reflexivity.
  - rewrite upow_ok by (rewrite N.pow_0_l by exact Hd; reflexivity). rewrite N.pow_0_l by exact Hd.
    cbn [bind]. rewrite usub_panic by (assumption || lia). reflexivity.
Qed.

Lemma pow_u64_exp n d : 2 <= n -> n ^ d < 2 ^ 64 -> d < 64.
Proof.
  intros Hn H. destruct (N.lt_ge_cases d 64) as [|H1]; [assumption|].
  assert (2 ^ 64 <= n ^ d); [|lia].
  eapply N.le_trans; [apply (N.pow_le_mono_l 2 n 64); lia|]. apply N.pow_le_mono_r; lia.
Qed.
Lemma pow_le n d e : 1 <= n -> d <= e -> n ^ d <= n ^ e.
Proof. intros. apply N.pow_le_mono_r; lia. Qed.

Lemma degree_range_ok p n d : 2 <= n -> n ^ (d + 1) < 2 ^ 64 ->
  tb_degree_range p n d = Ret (count_below n (N.to_nat d), count_below n (S (N.to_nat d))).
Proof.
  intros Hn H. pose proof (pow_u64_exp n _ Hn H). pose proof (pow_le n d (d + 1) ltac:(lia) ltac:(lia)).
  unfold tb_degree_range. rewrite start_of_degree_ok by lia. cbn [bind].
  rewrite uadd_ok by lia. cbn [bind]. rewrite start_of_degree_ok by lia. cbn [bind].
  do 3 f_equal. lia.
Qed.

(** the recursion of index_to_degree, started at any degree not above the right one *)
Lemma index_to_degree_steps p n w (k : nat) d0 : 2 <= n -> word_ok n w -> n ^ (len w + 1) < 2 ^ 64 ->
  d0 + N.of_nat k = len w ->
  steps (S k) (tb_index_to_degree_step p n (windex n w)) d0 = inr (Ret (len w)).
Proof.
  intros Hn Hw Hp. revert d0; induction k as [|k IH]; intros d0 Hd.
  - replace d0 with (len w) by lia. cbn [steps]. unfold tb_index_to_degree_step.
    pose proof (pow_u64_exp n _ Hn Hp). pose proof (pow_le n (len w) (len w + 1) ltac:(lia) ltac:(lia)).
    rewrite start_of_degree_ok by lia. rewrite uadd_ok by lia. cbn [bind].
    rewrite start_of_degree_ok by lia.
    replace (N.to_nat (len w)) with (length w) by (unfold len; lia).
    replace (N.to_nat (len w + 1)) with (S (length w)) by (unfold len; lia).
    pose proof (windex_lower n w Hw). pose proof (windex_upper n w Hw).
    destruct (N.leb_spec (count_below n (length w)) (windex n w)); [|lia].
    destruct (N.ltb_spec (windex n w) (count_below n (S (length w)))); [reflexivity|lia].
  - change (steps (S (S k)) ?f d0) with
      (match f d0 with inl s => steps (S k) f s | inr r => inr r end).
    pose proof (pow_u64_exp n _ Hn Hp).
    pose proof (pow_le n d0 (len w + 1) ltac:(lia) ltac:(lia)).
    pose proof (pow_le n (d0 + 1) (len w + 1) ltac:(lia) ltac:(lia)).
    assert (E : tb_index_to_degree_step p n (windex n w) d0 = inl (d0 + 1)).
    { unfold tb_index_to_degree_step.
      rewrite start_of_degree_ok by lia. rewrite uadd_ok by lia. cbn [bind].
      rewrite start_of_degree_ok by lia.
      pose proof (windex_lower n w Hw).
      pose proof (count_below_mono n (N.to_nat (d0 + 1)) (length w) ltac:(unfold len in *; lia)).
      destruct (N.leb_spec (count_below n (N.to_nat d0)) (windex n w)); [|reflexivity].
      destruct (N.ltb_spec (windex n w) (count_below n (N.to_nat (d0 + 1)))); [lia|reflexivity]. }
    rewrite E. apply IH. lia.
Qed.

Lemma len2 {A} (w : list A) : len w = N.of_nat (length w). Proof. reflexivity. Qed.

Lemma windex_letter n a : windex n [a] = a.
Proof. rewrite windex_cons. change (windex n []) with 0. change (len (@nil N)) with 0. rewrite N.pow_0_r. lia. Qed.

Lemma index_to_degree_ok p n w : 1 <= n -> word_ok n w ->
  (len w <= 1 \/ (2 <= n /\ n ^ (len w + 1) < 2 ^ 64)) ->
  tb_index_to_degree p n (windex n w) = Ret (len w).
Proof.
  intros Hn Hw Hc. unfold tb_index_to_degree, tb_index_to_degree_calling.
  destruct w as [|a [|b w]].
  - reflexivity.
  - rewrite windex_letter. apply Forall_cons_iff in Hw. destruct Hw as [Ha _].
    destruct (N.eqb_spec a 0); [lia|].
    destruct (N.leb_spec 1 a); [|lia]. destruct (N.leb_spec a n); [|lia]. reflexivity.
  - remember (a :: b :: w) as v eqn:Ev.
    assert (Hlv : 2 <= len v) by (subst v; rewrite !len_cons; lia).
    assert (Hc2 : 2 <= n /\ n ^ (len v + 1) < 2 ^ 64) by (destruct Hc as [Hc|Hc]; [lia|exact Hc]).
    clear Hc. destruct Hc2 as [Hn2 Hp].
    pose proof (windex_lower n v Hw) as Hlo. pose proof (windex_upper n v Hw) as Hup.
    pose proof (count_below_mono n 2 (length v) ltac:(unfold len in *; lia)) as Hm.
    assert (H2 : count_below n 2 = 1 + n).
    { cbn [count_below]. change (N.of_nat 0) with 0. change (N.of_nat 1) with 1.
      rewrite N.pow_0_r, N.pow_1_r. lia. }
    destruct (N.eqb_spec (windex n v) 0); [lia|].
    destruct (N.leb_spec (windex n v) n); [lia|].
    rewrite andb_false_r.
    pose proof (pow_u64_exp n _ Hn2 Hp) as H64.
    pose proof (pow_le n 2 (len v + 1) ltac:(lia) ltac:(lia)).
    pose proof (pow_le n 3 (len v + 1) ltac:(lia) ltac:(lia)).
    rewrite start_of_degree_ok by lia. cbn [bind]. change (N.to_nat 2) with 2%nat.
    destruct (N.leb_spec (count_below n 2) (windex n v)); [|lia].
    rewrite start_of_degree_ok by lia. cbn [bind]. change (N.to_nat 3) with 3%nat.
    destruct (N.ltb_spec (windex n v) (count_below n 3)) as [Hc3|Hc3].
    + f_equal. destruct (N.eq_dec (len v) 2) as [|Hne]; [lia|].
      pose proof (count_below_mono n 3 (length v) ltac:(unfold len in *; lia)). lia.
    + assert (3 <= len v).
      { destruct (N.eq_dec (len v) 2) as [He|Hne]; [|lia].
        replace (S (length v)) with 3%nat in Hup by (unfold len in He; lia). lia. }
      unfold tb_index_to_degree_impl.
      apply (run_loop_steps (S (N.to_nat (len v - 3)))); cycle 1.
      * assert (N.of_nat (S (N.to_nat (len v - 3))) <= 2 ^ 6) by (change (2 ^ 6) with 64; lia).
        eapply N.le_trans; [eassumption|]. apply N.pow_le_mono_r; lia.
      * apply index_to_degree_steps; try assumption. lia.
Qed.

(** with overflow checks it panics exactly in the remaining cases *)
Lemma index_to_degree_steps_panic p n w (k : nat) d0 : overflow_checks p = true ->
  2 <= n -> word_ok n w -> 2 ^ 64 <= n ^ (len w + 1) ->
  d0 + N.of_nat k = len w -> len w < 2 ^ 31 ->
  steps (S k) (tb_index_to_degree_step p n (windex n w)) d0 = inr Panic.
Proof.
  intros Hoc Hn Hw Hp. revert d0; induction k as [|k IH]; intros d0 Hd H31.
  - replace d0 with (len w) by lia. cbn [steps]. unfold tb_index_to_degree_step.
    destruct (N.lt_ge_cases (n ^ len w) (2 ^ 64)) as [Hlt|Hge].
    + rewrite start_of_degree_ok by lia. rewrite uadd_ok by lia. cbn [bind].
      rewrite (start_of_degree_overflow p n (len w + 1)) by assumption.
      replace (N.to_nat (len w)) with (length w) by (unfold len; lia).
      pose proof (windex_lower n w Hw).
      destruct (N.leb_spec (count_below n (length w)) (windex n w)); [reflexivity|lia].
    + rewrite start_of_degree_overflow by assumption. reflexivity.
  - change (steps (S (S k)) ?f d0) with
      (match f d0 with inl s => steps (S k) f s | inr r => inr r end).
    destruct (N.lt_ge_cases (n ^ d0) (2 ^ 64)) as [H0|H0].
    2:{ unfold tb_index_to_degree_step at 1. rewrite start_of_degree_overflow by assumption. reflexivity. }
    destruct (N.lt_ge_cases (n ^ (d0 + 1)) (2 ^ 64)) as [H1|H1].
    + assert (E : tb_index_to_degree_step p n (windex n w) d0 = inl (d0 + 1)).
      { unfold tb_index_to_degree_step.
        rewrite start_of_degree_ok by lia. rewrite uadd_ok by lia. cbn [bind].
        rewrite start_of_degree_ok by lia.
        pose proof (windex_lower n w Hw).
        pose proof (count_below_mono n (N.to_nat (d0 + 1)) (length w) ltac:(unfold len in *; lia)).
        destruct (N.leb_spec (count_below n (N.to_nat d0)) (windex n w)); [|reflexivity].
        destruct (N.ltb_spec (windex n w) (count_below n (N.to_nat (d0 + 1)))); [lia|reflexivity]. }
      rewrite E. apply IH; lia.
    + unfold tb_index_to_degree_step at 1. rewrite start_of_degree_ok by lia.
      pose proof (windex_lower n w Hw).
      pose proof (count_below_mono n (N.to_nat d0) (length w) ltac:(unfold len in *; lia)).
      destruct (N.leb_spec (count_below n (N.to_nat d0)) (windex n w)); [|lia].
      rewrite uadd_ok by lia. cbn [bind]. rewrite start_of_degree_overflow by assumption. reflexivity.
Qed.

Lemma index_to_degree_panic p n w : overflow_checks p = true -> 2 <= n < 2 ^ 32 -> word_ok n w ->
  2 <= len w < 2 ^ 31 -> 2 ^ 64 <= n ^ (len w + 1) ->
  tb_index_to_degree p n (windex n w) = Panic.
Proof.
  intros Hoc Hn Hw Hlv Hp. unfold tb_index_to_degree, tb_index_to_degree_calling.
  pose proof (windex_lower n w Hw) as Hlo. pose proof (windex_upper n w Hw) as Hup.
  pose proof (count_below_mono n 2 (length w) ltac:(unfold len in *; lia)) as Hm.
  assert (H2 : count_below n 2 = 1 + n).
  { cbn [count_below]. change (N.of_nat 0) with 0. change (N.of_nat 1) with 1.
    rewrite N.pow_0_r, N.pow_1_r. lia. }
  destruct (N.eqb_spec (windex n w) 0); [lia|].
  destruct (N.leb_spec (windex n w) n); [lia|].
  rewrite andb_false_r.
  assert (Hn2 : n ^ 2 < 2 ^ 64).
  { replace (n ^ 2) with (n * n) by (rewrite N.pow_2_r; reflexivity). nia. }
  rewrite start_of_degree_ok by lia. cbn [bind]. change (N.to_nat 2) with 2%nat.
  destruct (N.leb_spec (count_below n 2) (windex n w)); [|lia].
  destruct (N.lt_ge_cases (n ^ 3) (2 ^ 64)) as [H3|H3].
  2:{ rewrite start_of_degree_overflow by assumption. reflexivity. }
  rewrite start_of_degree_ok by lia. cbn [bind]. change (N.to_nat 3) with 3%nat.
  assert (3 <= len w).
  { destruct (N.eq_dec (len w) 2) as [He|Hne]; [|lia]. rewrite He in Hp. change (2 + 1) with 3 in Hp. lia. }
  pose proof (count_below_mono n 3 (length w) ltac:(unfold len in *; lia)).
  destruct (N.ltb_spec (windex n w) (count_below n 3)); [lia|].
  unfold tb_index_to_degree_impl.
  apply (run_loop_steps (S (N.to_nat (len w - 3)))); cycle 1.
  - assert (N.of_nat (S (N.to_nat (len w - 3))) <= 2 ^ 31) by lia.
    eapply N.le_trans; [eassumption|]. apply N.pow_le_mono_r; lia.
  - apply index_to_degree_steps_panic; try assumption; lia.
Qed.

Lemma index_to_degree_one p index : 2 <= index -> tb_index_to_degree p 1 index = Panic.
Proof.
  intros H. unfold tb_index_to_degree, tb_index_to_degree_calling. destruct (N.eqb_spec index 0); [lia|].
  destruct (N.leb_spec index 1); [lia|]. rewrite andb_false_r, start_of_degree_one. reflexivity.
Qed.

Lemma dim_for_key_ok p n w : 2 <= n -> n ^ (len w + 1) < 2 ^ 64 ->
  tb_vector_dimension_for_key p n (key_of n w) = Ret (count_below n (S (length w))).
Proof.
  intros Hn Hp. pose proof (pow_u64_exp n _ Hn Hp). unfold tb_vector_dimension_for_key, tb_degree.
  cbn [tk_size key_of]. rewrite uadd_ok by lia. cbn [bind]. rewrite start_of_degree_ok by lia.
  do 2 f_equal. unfold len. lia.
Qed.
Lemma dim_for_index_ok p n w : 2 <= n -> word_ok n w -> n ^ (len w + 1) < 2 ^ 64 ->
  tb_vector_dimension_for_index p n (windex n w) = Ret (count_below n (S (length w))).
Proof.
  intros Hn Hw Hp. pose proof (pow_u64_exp n _ Hn Hp). unfold tb_vector_dimension_for_index.
  rewrite index_to_degree_ok; [|lia|assumption|right; split; assumption]. cbn [bind].
  rewrite uadd_ok by lia. cbn [bind]. rewrite start_of_degree_ok by lia.
  do 2 f_equal. unfold len. lia.
Qed.

(** ** compare *)
Lemma enc_lex b u v : letters_below b u -> letters_below b v -> len u = len v ->
  N.compare (enc b u) (enc b v) = lex u v.
Proof.
  revert v; induction u as [|a u IH]; intros [|c v] Hu Hv Hl; rewrite ?len_cons, ?len_nil in Hl; try lia;
    [reflexivity|].
  apply Forall_cons_iff in Hu, Hv. destruct Hu as [Ha Hu], Hv as [Hc Hv].
  assert (Hl' : len u = len v) by lia.
  rewrite !enc_cons, Hl'. cbn [lex].
  pose proof (enc_bound b u Hu) as B1. pose proof (enc_bound b v Hv) as B2. rewrite Hl' in B1.
  destruct (N.compare_spec a c) as [H|H|H].
  - subst c. rewrite <- (IH v Hu Hv Hl').
    destruct (N.compare_spec (enc b u) (enc b v)); [apply N.compare_eq_iff|apply N.compare_lt_iff|apply N.compare_gt_iff]; lia.
  - apply N.compare_lt_iff. nia.
  - apply N.compare_gt_iff. nia.
Qed.
Lemma enc_pad b m u : enc b (repeat 1 m ++ u) = enc b u.
Proof.
  rewrite enc_app. assert (enc b (repeat 1 m) = 0) as ->; [|lia].
  induction m as [|m IH]; [reflexivity|]. cbn [repeat]. rewrite enc_cons, IH. lia.
Qed.
Lemma pad_below n m u : 1 <= n -> word_ok n u -> word_ok n (repeat 1 m ++ u).
Proof.
  intros Hn Hu. apply Forall_app. split; [|exact Hu].
  apply Forall_forall. intros x Hx. apply repeat_spec in Hx. lia.
Qed.
Lemma compare_pad n u v : 1 <= n -> word_ok n u -> word_ok n v ->
  tb_compare (key_of n u) (key_of n v)
  = lex (repeat 1 (length v - length u) ++ u) (repeat 1 (length u - length v) ++ v).
Proof.
  intros Hn Hu Hv. unfold tb_compare. cbn [tk_data key_of].
  rewrite <- (enc_pad _ (length v - length u) u), <- (enc_pad _ (length u - length v) v).
  apply enc_lex.
  - apply word_ok_below, pad_below; assumption.
  - apply word_ok_below, pad_below; assumption.
  - unfold len. rewrite !app_length, !repeat_length. lia.
Qed.
Lemma compare_same_length n u v : word_ok n u -> word_ok n v -> len u = len v ->
  tb_compare (key_of n u) (key_of n v) = N.compare (windex n u) (windex n v)
  /\ tb_compare (key_of n u) (key_of n v) = lex u v.
Proof.
  intros Hu Hv Hl. unfold tb_compare. cbn [tk_data key_of].
  rewrite (enc_lex _ u v (word_ok_below n u Hu) (word_ok_below n v Hv) Hl).
  split; [|reflexivity]. rewrite (windex_rank n u Hu), (windex_rank n v Hv).
  replace (length v) with (length u) by (unfold len in Hl; lia).
  rewrite <- (rank_lex n u v Hu Hv Hl).
  destruct (N.compare_spec (rank n u) (rank n v)); symmetry;
    [apply N.compare_eq_iff|apply N.compare_lt_iff|apply N.compare_gt_iff]; lia.
Qed.
