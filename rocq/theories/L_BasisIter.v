(** Lemmas about the basis iterator. *)
From Verif Require Import Machine MachineLemmas S_Words L_Words M_TensorKey L_TensorKey
  M_TensorBasis L_TensorBasis S_TensorApi.

Lemma land_not64 x m : x < 2 ^ 64 -> N.land x (unot 64 m) = N.ldiff x m.
Proof.
  intros Hx. unfold unot. apply N.bits_inj. intros i.
  rewrite N.land_spec, N.lxor_spec, N.ldiff_spec.
  destruct (N.lt_ge_cases i 64) as [H|H].
  - rewrite N.ones_spec_low by exact H. destruct (N.testbit x i), (N.testbit m i); reflexivity.
  - assert (N.testbit x i = false) as ->; [|reflexivity].
    destruct (N.eq_dec x 0) as [->|H0]; [apply N.bits_0|].
    apply N.bits_above_log2. apply N.log2_lt_pow2 in Hx; lia.
Qed.
Lemma ldiff_low x b : N.ldiff x (N.ones b) = (x / 2 ^ b) * 2 ^ b.
Proof. rewrite N.ldiff_ones_r, N.shiftl_mul_pow2, N.shiftr_div_pow2. reflexivity. Qed.
(** clearing bits 1..b of a number whose bits 0..b-1 are zero *)
Lemma ldiff_shifted y b : 1 <= b ->
  N.ldiff (y * 2 ^ b) (N.shiftl (N.ones b) 1) = (y / 2 * 2) * 2 ^ b.
Proof.
  intros Hb. rewrite <- !N.shiftl_mul_pow2.
  apply N.bits_inj. intros i. rewrite N.ldiff_spec.
  destruct (N.lt_ge_cases i b) as [H|H].
  - rewrite (N.shiftl_spec_low _ _ _ H), (N.shiftl_spec_low _ _ _ H). reflexivity.
  - rewrite !(N.shiftl_spec_high _ b) by lia. rewrite N.shiftl_spec_high by lia.
    replace (y / 2 * 2) with (N.shiftl (N.shiftr y 1) 1)
      by (rewrite N.shiftl_mul_pow2, N.shiftr_div_pow2; reflexivity).
    destruct (N.eq_dec i b) as [->|Hne].
    + rewrite N.sub_diag. rewrite N.shiftl_spec_low by lia. rewrite N.ones_spec_low by lia.
      apply andb_false_r.
    + rewrite N.ones_spec_high by lia. rewrite (N.shiftl_spec_high _ 1) by lia.
      rewrite N.shiftr_spec by lia. replace (i - b - 1 + 1) with (i - b) by lia.
      apply andb_true_r.
Qed.

Lemma set_letter_0 p n u a c : n < 2 ^ 32 -> fits n (u ++ [a]) -> 1 <= c <= n ->
  tk_set_letter p n (key_of n (u ++ [a])) 0 c = Ret (key_of n (u ++ [c])).
Proof.
  intros Hn Hf Hc. pose proof (bpl_pos n). pose proof (bpl_le_32 n Hn). pose proof (bpl_upper n).
  pose proof (key_data_bound n _ Hn Hf) as Hd.
  assert (Hfc : fits n (u ++ [c])).
  { destruct Hf as [Hw Hl]. apply Forall_app in Hw. split.
    - apply Forall_app. split; [apply Hw|]. repeat constructor; lia.
    - rewrite len_app, len_cons in *. exact Hl. }
  pose proof (key_data_bound n _ Hn Hfc) as Hdc.
  destruct Hf as [Hw _]. apply Forall_app in Hw. destruct Hw as [_ Ha]. apply Forall_cons_iff in Ha.
  destruct Ha as [Ha _].
  unfold tk_set_letter. cbn [tk_size tk_data key_of].
  destruct (N.leb_spec (len (u ++ [a])) 0) as [Hz|_].
  { rewrite len_app, len_cons in Hz. lia. }
  rewrite make_mask_ok by lia. cbn [bind]. rewrite N.shiftl_0_r.
  rewrite land_not64, ldiff_low by exact Hd.
  rewrite usub_ok by lia. cbn [bind]. rewrite umul_ok by (rewrite N.mul_0_r; reflexivity). cbn [bind].
  rewrite N.mul_0_r. rewrite ushl_ok by (rewrite ?N.pow_0_r; lia). cbn [bind]. rewrite N.pow_0_r, N.mul_1_r.
  rewrite !enc_snoc in *.
  rewrite (N.add_comm _ (a - 1)), N.div_add by lia. rewrite N.div_small by lia. rewrite N.add_0_l.
  rewrite uadd_ok by exact Hdc. cbn [bind].
  unfold key_of. rewrite enc_snoc. f_equal. f_equal. rewrite !len_app, !len_cons. reflexivity.
Qed.

(** what set_letter does at position 1 when the last letter is 1 *)
Lemma set_letter_1_gen p n u c v : n < 2 ^ 32 -> fits n (u ++ [c; 1]) -> 1 <= v ->
  let b := bits_per_letter n in
  (enc b u * 2 ^ b + (c - 1) / 2 * 2 + (v - 1)) * 2 ^ b < 2 ^ 64 ->
  tk_set_letter p n (key_of n (u ++ [c; 1])) 1 v =
  Ret (mk_tkey (len u + 2) ((enc b u * 2 ^ b + (c - 1) / 2 * 2 + (v - 1)) * 2 ^ b)).
Proof.
  intros Hn Hf Hv b Hfin. pose proof (bpl_pos n). pose proof (bpl_le_32 n Hn). pose proof (bpl_upper n).
  fold b in H, H0, H1.
  pose proof (key_data_bound n _ Hn Hf) as Hd. fold b in Hd.
  unfold tk_set_letter. cbn [tk_size tk_data key_of]. fold b.
  destruct (N.leb_spec (len (u ++ [c; 1])) 1) as [H2|_].
  { rewrite len_app, !len_cons in H2. lia. }
  rewrite make_mask_ok by lia. cbn [bind].
  rewrite land_not64 by exact Hd.
  assert (E : enc b (u ++ [c; 1]) = enc b (u ++ [c]) * 2 ^ b).
  { replace (u ++ [c; 1]) with ((u ++ [c]) ++ [1]) by (rewrite <- app_assoc; reflexivity).
    rewrite (enc_snoc b (u ++ [c]) 1). lia. }
  rewrite E, ldiff_shifted by assumption. rewrite usub_ok by lia. cbn [bind].
  rewrite umul_ok by lia. cbn [bind]. rewrite N.mul_1_r.
  assert (E2 : enc b (u ++ [c]) / 2 * 2 = enc b u * 2 ^ b + (c - 1) / 2 * 2).
  { rewrite enc_snoc. replace (2 ^ b) with (2 * 2 ^ (b - 1)).
    - replace (enc b u * (2 * 2 ^ (b - 1)) + (c - 1)) with ((c - 1) + enc b u * 2 ^ (b - 1) * 2) by lia.
      rewrite N.div_add by lia. lia.
    - rewrite <- N.pow_succ_r'. f_equal. lia. }
  rewrite E2. rewrite ushl_ok; [|lia|]. 2:{ nia. } cbn [bind].
  rewrite uadd_ok by nia. cbn [bind]. f_equal. f_equal.
  - rewrite len_app, !len_cons. change (len (@nil N)) with 0. lia.
  - lia.
Qed.

Lemma set_letter_1 p n u c : n < 2 ^ 32 -> fits n (u ++ [c; 1]) -> c <= 2 -> c < n ->
  tk_set_letter p n (key_of n (u ++ [c; 1])) 1 (c + 1) = Ret (key_of n (u ++ [c + 1; 1])).
Proof.
  intros Hn Hf Hc Hcn. pose proof Hf as [Hw Hl].
  apply Forall_app in Hw. destruct Hw as [Hu Hv]. apply Forall_cons_iff in Hv. destruct Hv as [Hc1 _].
  assert (Hf' : fits n (u ++ [c + 1; 1])).
  { split.
    - apply Forall_app. split; [exact Hu|]. repeat constructor; lia.
    - rewrite len_app, !len_cons in *. exact Hl. }
  pose proof (key_data_bound n _ Hn Hf') as Hd.
  assert (E : enc (bits_per_letter n) (u ++ [c + 1; 1]) =
    (enc (bits_per_letter n) u * 2 ^ bits_per_letter n + (c - 1) / 2 * 2 + (c + 1 - 1)) * 2 ^ bits_per_letter n).
  { replace (u ++ [c + 1; 1]) with ((u ++ [c + 1]) ++ [1]) by (rewrite <- app_assoc; reflexivity).
    rewrite (enc_snoc _ (u ++ [c + 1]) 1), enc_snoc.
    assert ((c - 1) / 2 = 0) as -> by (apply N.div_small; lia). lia. }
  rewrite set_letter_1_gen; [|assumption|assumption|lia|rewrite <- E; exact Hd].
  unfold key_of. rewrite E. f_equal. f_equal. rewrite len_app, !len_cons. change (len (@nil N)) with 0. lia.
Qed.

(** ** one call of next *)
Definition bi_of (n : N) (k : option tkey) : tbiter := mk_tbiter k (max_depth n).

Lemma get_letter_0 p n u a : n < 2 ^ 32 -> fits n (u ++ [a]) ->
  tk_get_letter p n (key_of n (u ++ [a])) 0 = Ret a.
Proof. intros Hn Hf. change 0 with (len (@nil N)). apply get_letter_key; assumption. Qed.
Lemma bi_next_last p n u a : n < 2 ^ 32 -> fits n (u ++ [a]) -> a < n ->
  bi_next p n (bi_of n (Some (key_of n (u ++ [a]))))
  = Ret (bi_of n (Some (key_of n (u ++ [a + 1]))), Some (key_of n (u ++ [a]))).
Proof.
  intros Hn Hf Ha. unfold bi_next. cbn [bi_current bi_of bi_max_depth].
  rewrite (run_loop_steps 1 _ _ (Ret (Some (key_of n (u ++ [a + 1]))))); [reflexivity| |cbn; lia].
  cbn [steps]. unfold bi_next_step.
  destruct (N.eqb_spec 0 (tk_size (key_of n (u ++ [a])))) as [H0|_].
  { cbn [tk_size key_of] in H0. rewrite len_app, len_cons in H0. lia. }
  rewrite get_letter_0 by assumption.
  destruct (N.eqb_spec a n); [lia|]. rewrite uadd_ok by lia. cbn [bind].
  destruct Hf as [Hw Hl]. rewrite set_letter_0; [reflexivity|assumption|split; assumption|lia].
Qed.
Lemma bi_next_empty p n : 1 <= n < 2 ^ 32 ->
  bi_next p n (bi_of n (Some (key_of n [])))
  = Ret (bi_of n (Some (key_of n [1])), Some (key_of n [])).
Proof.
  intros Hn. unfold bi_next. cbn [bi_current bi_of bi_max_depth].
  pose proof (max_depth_ge_2 n ltac:(lia)).
  rewrite (run_loop_steps 1 _ _ (Ret (Some (key_of n [1])))); [reflexivity| |cbn; lia].
  cbn [steps]. unfold bi_next_step. change (tk_size (key_of n [])) with 0. rewrite N.eqb_refl.
  destruct (N.eqb_spec 0 (max_depth n)); [lia|].
  rewrite push_front_ok; [reflexivity|lia|]. split; [repeat constructor; lia|cbn; lia].
Qed.
Lemma bi_next_n p n : 1 <= n < 2 ^ 32 ->
  bi_next p n (bi_of n (Some (key_of n [n])))
  = Ret (bi_of n (Some (key_of n [1; 1])), Some (key_of n [n])).
Proof.
  intros Hn. unfold bi_next. cbn [bi_current bi_of bi_max_depth].
  pose proof (max_depth_ge_2 n ltac:(lia)).
  rewrite (run_loop_steps 2 _ _ (Ret (Some (key_of n [1; 1])))); [reflexivity| |cbn; lia].
  assert (Hf : fits n ([] ++ [n])). { split; [repeat constructor; lia|cbn; lia]. }
  assert (E : bi_next_step p n (max_depth n) (key_of n [n], 0) = inl (key_of n [1], 1)).
  { unfold bi_next_step. change (tk_size (key_of n [n])) with 1. change (0 =? 1) with false.
    change (key_of n [n]) with (key_of n ([] ++ [n])). cbv iota.
    rewrite get_letter_0 by (assumption || lia).
    rewrite N.eqb_refl. rewrite set_letter_0 by (assumption || lia). cbn [bind app].
    reflexivity. }
  cbn [steps]. rewrite E. unfold bi_next_step. change (tk_size (key_of n [1])) with 1.
  rewrite N.eqb_refl. destruct (N.eqb_spec 1 (max_depth n)); [lia|].
  rewrite push_front_ok; [reflexivity|lia|]. split; [repeat constructor; lia|cbn; lia].
Qed.
(** the first iteration from [... c n]: the last letter is reset *)
Lemma bi_step_reset p n u c : 1 <= n < 2 ^ 32 -> fits n (u ++ [c; n]) ->
  bi_next_step p n (max_depth n) (key_of n (u ++ [c; n]), 0) = inl (key_of n (u ++ [c; 1]), 1).
Proof.
  intros Hn Hf. replace (u ++ [c; n]) with ((u ++ [c]) ++ [n]) in * by (rewrite <- app_assoc; reflexivity).
  unfold bi_next_step.
  destruct (N.eqb_spec 0 (tk_size (key_of n ((u ++ [c]) ++ [n])))) as [H0|_].
  { cbn [tk_size key_of] in H0. rewrite len_app, len_cons in H0. lia. }
  rewrite get_letter_0 by (assumption || lia).
  rewrite N.eqb_refl. rewrite set_letter_0 by (assumption || lia). cbn [bind app].
  rewrite <- app_assoc. reflexivity.
Qed.
Lemma fits_set_last n u c : 1 <= n -> fits n (u ++ [c; n]) -> fits n (u ++ [c; 1]).
Proof.
  intros Hn [Hw Hl]. apply Forall_app in Hw. destruct Hw as [Hu Hv]. apply Forall_cons_iff in Hv.
  split.
  - apply Forall_app. split; [exact Hu|]. constructor; [apply Hv|]. repeat constructor; lia.
  - rewrite len_app, !len_cons in *. exact Hl.
Qed.
Lemma get_letter_1 p n u c a : n < 2 ^ 32 -> fits n (u ++ [c; a]) ->
  tk_get_letter p n (key_of n (u ++ [c; a])) 1 = Ret c.
Proof. intros Hn Hf. change 1 with (len [a]). apply get_letter_key; assumption. Qed.
Lemma bi_next_carry p n u c : n < 2 ^ 32 -> fits n (u ++ [c; n]) -> c < n -> c <= 2 ->
  bi_next p n (bi_of n (Some (key_of n (u ++ [c; n]))))
  = Ret (bi_of n (Some (key_of n (u ++ [c + 1; 1]))), Some (key_of n (u ++ [c; n]))).
Proof.
  intros Hn Hf Hcn Hc. unfold bi_next. cbn [bi_current bi_of bi_max_depth].
  rewrite (run_loop_steps 2 _ _ (Ret (Some (key_of n (u ++ [c + 1; 1]))))); [reflexivity| |cbn; lia].
  cbn [steps]. rewrite bi_step_reset by (assumption || lia).
  assert (Hf1 : fits n (u ++ [c; 1])) by (apply fits_set_last; [lia|assumption]).
  unfold bi_next_step.
  destruct (N.eqb_spec 1 (tk_size (key_of n (u ++ [c; 1])))) as [H0|_].
  { cbn [tk_size key_of] in H0. rewrite len_app, !len_cons in H0. lia. }
  rewrite get_letter_1 by assumption.
  destruct (N.eqb_spec c n); [lia|]. rewrite uadd_ok by lia. cbn [bind].
  rewrite set_letter_1 by assumption. reflexivity.
Qed.
(** the first carry that goes wrong: [3; n] with n >= 4 *)
Lemma bi_next_bad p n : 4 <= n < 2 ^ 32 ->
  exists it', bi_next p n (bi_of n (Some (key_of n [3; n])))
  = Ret (it', Some (key_of n [3; n])) /\
  bi_current it' = Some (mk_tkey 2 (5 * 2 ^ bits_per_letter n)).
Proof.
  intros Hn. pose proof (max_depth_ge_2 n ltac:(lia)) as Hmd.
  exists (bi_of n (Some (mk_tkey 2 (5 * 2 ^ bits_per_letter n)))). split; [|reflexivity].
  unfold bi_next. cbn [bi_current bi_of bi_max_depth].
  rewrite (run_loop_steps 2 _ _ (Ret (Some (mk_tkey 2 (5 * 2 ^ bits_per_letter n))))); [reflexivity| |cbn; lia].
  assert (Hf : fits n ([] ++ [3; n])) by (split; [repeat constructor; lia|exact Hmd]).
  cbn [steps]. change [3; n] with ([] ++ [3; n]). rewrite bi_step_reset by (assumption || lia).
  assert (Hf1 : fits n ([] ++ [3; 1])) by (apply fits_set_last; [lia|assumption]).
  unfold bi_next_step.
  change (tk_size (key_of n ([] ++ [3; 1]))) with 2. change (1 =? 2) with false.
  rewrite get_letter_1 by (assumption || lia).
  destruct (N.eqb_spec 3 n); [lia|]. rewrite uadd_ok by lia. cbn [bind].
  pose proof (bpl_le_32 n ltac:(lia)).
  assert (2 ^ bits_per_letter n <= 2 ^ 32) by (apply N.pow_le_mono_r; lia).
  rewrite set_letter_1_gen; try assumption; try lia; change (enc (bits_per_letter n) []) with 0;
    change ((3 - 1) / 2 * 2) with 2.
  - cbn [bind]. f_equal.
  - change (2 ^ 32) with 4294967296 in *. change (2 ^ 64) with 18446744073709551616. lia.
Qed.

(** ** all the calls *)
Definition word_at (n i : N) : word :=
  if i =? 0 then [] else if i <=? n then [i]
  else [(i - 1 - n) / n + 1; (i - 1 - n) mod n + 1].

Lemma word_at_spec n i : 3 <= n < 2 ^ 32 -> i < prefix_len n ->
  fits n (word_at n i) /\ windex n (word_at n i) = i.
Proof.
  intros Hn Hi. unfold prefix_len in Hi. pose proof (max_depth_ge_2 n ltac:(lia)) as Hmd.
  unfold word_at. destruct (N.eqb_spec i 0) as [->|H0].
  { split; [split; [constructor|cbn; lia]|reflexivity]. }
  destruct (N.leb_spec i n) as [H1|H1].
  { split; [split; [repeat constructor; lia|cbn; lia]|apply windex_letter]. }
  pose proof (N.mod_lt (i - 1 - n) n ltac:(lia)) as Hm.
  pose proof (N.div_mod (i - 1 - n) n ltac:(lia)) as Hdm.
  set (q := (i - 1 - n) / n) in *. set (r := (i - 1 - n) mod n) in *.
  assert (q < 3) by nia.
  split.
  - split; [|cbn; lia]. repeat constructor; lia.
  - rewrite windex_cons, windex_letter. change (len [r + 1]) with 1. rewrite N.pow_1_r. nia.
Qed.

Lemma bi_next_prefix p n i : 3 <= n < 2 ^ 32 -> i + 1 < prefix_len n ->
  bi_next p n (bi_of n (Some (key_of n (word_at n i))))
  = Ret (bi_of n (Some (key_of n (word_at n (i + 1)))), Some (key_of n (word_at n i))).
Proof.
  intros Hn Hi. destruct (word_at_spec n i Hn ltac:(lia)) as [Hf Hx].
  destruct (word_at_spec n (i + 1) Hn Hi) as [Hf' Hx'].
  assert (E : forall w, word_ok n w -> windex n w = i + 1 -> word_at n (i + 1) = w).
  { intros w Hw Hxw. apply (windex_inj n); [apply Hf'|exact Hw|congruence]. }
  unfold prefix_len in Hi. unfold word_at at 1 3. unfold word_at in Hf, Hx.
  destruct (N.eqb_spec i 0) as [->|H0].
  { rewrite (E [1]); [apply bi_next_empty; lia|repeat constructor; lia|apply windex_letter]. }
  destruct (N.leb_spec i n) as [H1|H1].
  { destruct (N.eq_dec i n) as [->|Hne].
    - rewrite (E [1; 1]); [apply bi_next_n; lia|repeat constructor; lia|].
      rewrite windex_cons, windex_letter. change (len [1]) with 1. rewrite N.pow_1_r. lia.
    - rewrite (E [i + 1]); [|repeat constructor; lia|apply windex_letter].
      apply (bi_next_last p n [] i); try assumption; lia. }
  pose proof (N.mod_lt (i - 1 - n) n ltac:(lia)) as Hm.
  pose proof (N.div_mod (i - 1 - n) n ltac:(lia)) as Hdm.
  set (q := (i - 1 - n) / n) in *. set (r := (i - 1 - n) mod n) in *.
  assert (q < 3) by nia.
  destruct (N.eq_dec (r + 1) n) as [Hr|Hr].
  - rewrite Hr in *. assert (q < 2) by nia.
    rewrite (E [q + 1 + 1; 1]); [|repeat constructor; lia|].
    + apply (bi_next_carry p n [] (q + 1)); try assumption; lia.
    + rewrite windex_cons, windex_letter. change (len [1]) with 1. rewrite N.pow_1_r. nia.
  - rewrite (E [q + 1; r + 1 + 1]); [|repeat constructor; lia|].
    + apply (bi_next_last p n [q + 1] (r + 1)); try assumption; lia.
    + rewrite windex_cons, windex_letter. change (len [r + 1 + 1]) with 1. rewrite N.pow_1_r. nia.
Qed.

Lemma bi_take_prefix p n i m : 3 <= n < 2 ^ 32 -> i + N.of_nat m <= prefix_len n ->
  (0 < m)%nat ->
  bi_take p n (bi_of n (Some (key_of n (word_at n i)))) m
  = Ret (map (fun j => Some (key_of n (word_at n j))) (seqN i m)).
Proof.
  intros Hn. revert i; induction m as [|m IH]; intros i Hi H0; [lia|]. cbn [bi_take seqN map].
  destruct m as [|m].
  - (* last item: only the returned item matters *)
    destruct (N.lt_ge_cases (i + 1) (prefix_len n)) as [Hlt|Hge].
    + rewrite bi_next_prefix by assumption. reflexivity.
    + assert (Hie : i = prefix_len n - 1) by lia. unfold prefix_len in *.
      assert (Ew : word_at n i = [3; n]).
      { destruct (word_at_spec n i Hn ltac:(unfold prefix_len; lia)) as [Hf Hx].
        apply (windex_inj n); [apply Hf|repeat constructor; lia|].
        rewrite Hx, windex_cons, windex_letter. change (len [n]) with 1. rewrite N.pow_1_r. nia. }
      rewrite Ew. destruct (N.eq_dec n 3) as [->|Hn3].
      * destruct p as [[] []]; reflexivity.
      * destruct (bi_next_bad p n ltac:(lia)) as (it' & E & _). rewrite E. reflexivity.
  - rewrite bi_next_prefix by (assumption || lia). cbn [bind]. rewrite IH by lia. reflexivity.
Qed.

Lemma items_by_index_ok p n i m : 3 <= n < 2 ^ 32 -> i + N.of_nat m <= prefix_len n ->
  items_by_index p n i m = Ret (map (fun j => Some (key_of n (word_at n j))) (seqN i m)).
Proof.
  intros Hn Hi. unfold items_by_index. apply mapM_pure. intros j Hj. apply in_seqN in Hj.
  destruct (word_at_spec n j Hn ltac:(lia)) as [Hf Hx].
  rewrite <- Hx at 1. rewrite index_to_key_ok by (assumption || lia). reflexivity.
Qed.

Lemma iter_prefix p n m : 3 <= n < 2 ^ 32 -> N.of_nat m <= prefix_len n ->
  bi_take p n (tb_iter_keys n) m = items_by_index p n 0 m.
Proof.
  intros Hn Hm. destruct m as [|m]; [reflexivity|].
  rewrite items_by_index_ok by (assumption || lia).
  change (tb_iter_keys n) with (bi_of n (Some (key_of n (word_at n 0)))).
  apply bi_take_prefix; try assumption; lia.
Qed.

(** ** the first wrong item *)
Lemma bi_take_bad p n i m : 4 <= n < 2 ^ 32 -> i + N.of_nat m = prefix_len n -> (0 < m)%nat ->
  bi_take p n (bi_of n (Some (key_of n (word_at n i)))) (m + 1)
  = (xs <- items_by_index p n i m ;; Ret (xs ++ [Some (mk_tkey 2 (5 * 2 ^ bits_per_letter n))])).
Proof.
  intros Hn. revert i; induction m as [|m IH]; intros i Hi H0; [lia|].
  rewrite items_by_index_ok by lia. cbn [Nat.add bi_take seqN map bind app].
  destruct m as [|m].
  - assert (Ew : word_at n i = [3; n]).
    { unfold prefix_len in *.
      destruct (word_at_spec n i ltac:(lia) ltac:(unfold prefix_len; lia)) as [Hf Hx].
      apply (windex_inj n); [apply Hf|repeat constructor; lia|].
      rewrite Hx, windex_cons, windex_letter. change (len [n]) with 1. rewrite N.pow_1_r. nia. }
    rewrite Ew. destruct (bi_next_bad p n Hn) as (it' & E & Ec). rewrite E. cbn [bind Nat.add bi_take].
    unfold bi_next. rewrite Ec. cbn [bind].
    assert (Hnext : exists o, run_loop (bi_next_step p n (bi_max_depth it')) (mk_tkey 2 (5 * 2 ^ bits_per_letter n), 0) = Ret o).
    { assert (Hg : tk_get_letter p n (mk_tkey 2 (5 * 2 ^ bits_per_letter n)) 0 = Ret 1).
      { unfold tk_get_letter. pose proof (bpl_le_32 n ltac:(lia)).
        rewrite get_letter_unadjusted_ok by lia. cbn [tk_data bind]. rewrite N.mul_0_l, N.pow_0_r, N.div_1_r.
        rewrite N.mod_mul by (pose proof (pow2_pos (bits_per_letter n)); lia). reflexivity. }
      eexists. eapply (run_loop_steps 1); [|cbn; lia]. cbn [steps]. unfold bi_next_step. cbn [tk_size].
      change (0 =? 2) with false. cbv iota. rewrite Hg.
      destruct (N.eqb_spec 1 n); [lia|]. rewrite uadd_ok by (cbn; lia). cbn [bind].
      unfold tk_set_letter. cbn [tk_size tk_data]. change (2 <=? 0) with false. cbv iota.
      pose proof (bpl_le_32 n ltac:(lia)). pose proof (bpl_pos n).
      assert (Hp32 : 2 ^ bits_per_letter n <= 2 ^ 32) by (apply N.pow_le_mono_r; lia).
      rewrite make_mask_ok by lia. cbn [bind]. rewrite N.shiftl_0_r.
      rewrite land_not64, ldiff_low by (change (2 ^ 32) with 4294967296 in *; change (2 ^ 64) with 18446744073709551616; lia).
      rewrite N.div_mul by lia.
      rewrite usub_ok by lia. cbn [bind]. rewrite umul_ok by (rewrite N.mul_0_r; reflexivity). cbn [bind].
      rewrite N.mul_0_r. rewrite ushl_ok by (reflexivity || (cbn; lia)). cbn [bind].
      rewrite uadd_ok; [cbn [bind]; reflexivity|]. rewrite N.pow_0_r.
      change (2 ^ 32) with 4294967296 in *; change (2 ^ 64) with 18446744073709551616; lia. }
    destruct Hnext as [o ->]. reflexivity.
  - rewrite bi_next_prefix by lia. cbn [bind]. change (S m + 1)%nat with (S (m + 1)) in IH.
    rewrite IH by lia.
    rewrite items_by_index_ok by lia. reflexivity.
Qed.

Lemma items_snoc p n i m : items_by_index p n i (m + 1) =
  (xs <- items_by_index p n i m ;; k <- tb_index_to_key p n (i + N.of_nat m) ;; Ret (xs ++ [Some k])).
Proof.
  unfold items_by_index. revert i; induction m as [|m IH]; intros i.
  - cbn [Nat.add seqN mapM bind N.of_nat]. rewrite N.add_0_r.
    destruct (tb_index_to_key p n i); reflexivity.
  - cbn [Nat.add seqN mapM bind]. rewrite IH. replace (i + 1 + N.of_nat m) with (i + N.of_nat (S m)) by lia.
    destruct (tb_index_to_key p n i); cbn [bind]; try reflexivity.
    destruct (mapM _ _); cbn [bind]; try reflexivity.
    destruct (tb_index_to_key p n (i + N.of_nat (S m))); reflexivity.
Qed.

(** item number [first_wrong n] is returned and is not the key with that index *)
Lemma iter_first_wrong p n : 2 <= n < 2 ^ 32 ->
  exists xs k k', bi_take p n (tb_iter_keys n) (N.to_nat (first_wrong n) + 1) = Ret (xs ++ [Some k])
  /\ length xs = N.to_nat (first_wrong n)
  /\ tb_index_to_key p n (first_wrong n) = Ret k' /\ k <> k'.
Proof.
  intros Hn. destruct (N.eq_dec n 2) as [->|H2].
  { exists (map (fun w => Some (key_of 2 w)) (words_below 2 4)), (key_of 2 [1; 2; 1; 1]), (key_of 2 [1; 1; 1; 1]).
    split; [|split; [|split]].
    - destruct p as [[] []]; vm_compute; reflexivity.
    - vm_compute. reflexivity.
    - destruct p as [[] []]; vm_compute; reflexivity.
    - discriminate. }
  destruct (N.eq_dec n 3) as [->|H3].
  { exists (map (fun w => Some (key_of 3 w)) (words_below 3 3)), (key_of 3 [1; 3; 1]), (key_of 3 [1; 1; 1]).
    split; [|split; [|split]].
    - destruct p as [[] []]; vm_compute; reflexivity.
    - vm_compute. reflexivity.
    - destruct p as [[] []]; vm_compute; reflexivity.
    - discriminate. }
  unfold first_wrong. destruct (N.eqb_spec n 2) as [|_]; [lia|].
  pose proof (bi_take_bad p n 0 (N.to_nat (prefix_len n)) ltac:(lia) ltac:(lia)) as H.
  rewrite items_by_index_ok in H by lia. cbn [bind] in H.
  assert (Hf : fits n [4; 1]).
  { split; [repeat constructor; lia|]. pose proof (max_depth_ge_2 n ltac:(lia)). exact H0. }
  exists (map (fun j => Some (key_of n (word_at n j))) (seqN 0 (N.to_nat (prefix_len n)))),
    (mk_tkey 2 (5 * 2 ^ bits_per_letter n)), (key_of n [4; 1]).
  split; [|split; [|split]].
  - apply H. unfold prefix_len. lia.
  - rewrite map_length, seqN_length. reflexivity.
  - replace (prefix_len n) with (windex n [4; 1]); [apply index_to_key_ok; [lia|exact Hf]|].
    rewrite windex_cons, windex_letter. change (len [1]) with 1. rewrite N.pow_1_r. unfold prefix_len. lia.
  - intros E. apply (f_equal tk_data) in E. unfold key_of in E. cbn [tk_data] in E.
    rewrite !enc_cons, enc_nil in E. change (len [1]) with 1 in E. rewrite N.mul_1_r in E.
    pose proof (pow2_pos (bits_per_letter n)). nia.
Qed.

Lemma iter_two p m : (m <= 15)%nat ->
  bi_take p 2 (tb_iter_keys 2) m = items_by_index p 2 0 m.
Proof.
  intros Hm. do 16 (destruct m as [|m]; [destruct p as [[] []]; vm_compute; reflexivity|]). lia.
Qed.
Lemma iter_correct_until p n m : 2 <= n < 2 ^ 32 -> N.of_nat m <= first_wrong n ->
  bi_take p n (tb_iter_keys n) m = items_by_index p n 0 m /\ returns (items_by_index p n 0 m).
Proof.
  unfold first_wrong. intros Hn Hm. destruct (N.eqb_spec n 2) as [->|H2].
  - rewrite iter_two by lia. split; [reflexivity|]. exists (map (fun j => Some (key_of 2 (nth (N.to_nat j) (words_below 2 4) []))) (seqN 0 m)).
    unfold items_by_index. apply mapM_pure. intros j Hj. apply in_seqN in Hj.
    assert (Hj15 : (N.to_nat j < 15)%nat) by lia. clear Hj Hm.
    remember (N.to_nat j) as i eqn:Ei. assert (j = N.of_nat i) as -> by lia. clear Ei.
    do 15 (destruct i as [|i]; [destruct p as [[] []]; vm_compute; reflexivity|]). lia.
  - split; [apply iter_prefix; lia|]. eexists. apply items_by_index_ok; lia.
Qed.

Lemma bi_take_none p n d m : bi_take p n (mk_tbiter None d) m = Ret (repeat None m).
Proof. induction m as [|m IH]; [reflexivity|]. cbn [bi_take bi_next bi_current bind]. rewrite IH. reflexivity. Qed.

(** ** one letter: all the items *)
Lemma bi_next_one p k : (k < 59)%nat ->
  bi_next p 1 (bi_of 1 (Some (mk_tkey (N.of_nat k) 0)))
  = Ret (bi_of 1 (Some (mk_tkey (N.of_nat k + 1) 0)), Some (mk_tkey (N.of_nat k) 0)).
Proof.
  intros Hk. do 59 (destruct k as [|k]; [destruct p as [[] []]; vm_compute; reflexivity|]). lia.
Qed.
Lemma bi_next_one_last p :
  bi_next p 1 (bi_of 1 (Some (mk_tkey 59 0))) = Ret (bi_of 1 None, Some (mk_tkey 59 0)).
Proof. destruct p as [[] []]; vm_compute; reflexivity. Qed.
Lemma bi_take_one p j k m : (k + j = 59)%nat ->
  bi_take p 1 (bi_of 1 (Some (mk_tkey (N.of_nat k) 0))) (j + (1 + m))
  = Ret (map (fun i => Some (mk_tkey i 0)) (seqN (N.of_nat k) (j + 1)) ++ repeat None m).
Proof.
  revert k; induction j as [|j IH]; intros k Hk.
  - replace k with 59%nat by lia. cbn [Nat.add bi_take seqN map app]. change (N.of_nat 59) with 59.
    rewrite bi_next_one_last. cbn [bind]. unfold bi_of. rewrite bi_take_none. reflexivity.
  - cbn [Nat.add bi_take seqN map app]. rewrite bi_next_one by lia. cbn [bind].
    specialize (IH (S k) ltac:(lia)). rewrite Nat2N.inj_succ, <- N.add_1_r in IH.
    cbn [Nat.add] in IH. rewrite IH. reflexivity.
Qed.
Lemma iter_one p m : bi_take p 1 (tb_iter_keys 1) (60 + m)
  = (xs <- items_by_index p 1 0 60 ;; Ret (xs ++ repeat None m)).
Proof.
  assert (E : items_by_index p 1 0 60 = Ret (map (fun i => Some (mk_tkey i 0)) (seqN 0 60))).
  { destruct p as [[] []]; vm_compute; reflexivity. }
  rewrite E. cbn [bind]. exact (bi_take_one p 59 0 m eq_refl).
Qed.

(** starting_from a key: exact as long as only the last letter changes *)
Lemma starting_from_last p n u a m : n < 2 ^ 32 -> fits n (u ++ [a]) -> (0 < m)%nat -> a + N.of_nat m <= n ->
  bi_take p n (bi_starting_from n (key_of n (u ++ [a]))) m
  = Ret (map (fun j => Some (key_of n (u ++ [j]))) (seqN a m)).
Proof.
  intros Hn. revert a; induction m as [|m IH]; intros a Hf H0 H1; [lia|].
  cbn [bi_take seqN map]. change (bi_starting_from n ?k) with (bi_of n (Some k)).
  rewrite bi_next_last by (assumption || lia). cbn [bind].
  destruct m as [|m]; [reflexivity|].
  change (bi_of n (Some (key_of n (u ++ [a + 1])))) with (bi_starting_from n (key_of n (u ++ [a + 1]))).
  rewrite IH; [reflexivity|destruct Hf as [Hw Hl]; split|lia|lia].
  - apply Forall_app in Hw. apply Forall_app. split; [apply Hw|repeat constructor; lia].
  - rewrite len_app, len_cons in *. exact Hl.
Qed.
