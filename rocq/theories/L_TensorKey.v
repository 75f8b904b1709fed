(** Lemmas about M_TensorKey.v *)
From Verif Require Import Machine MachineLemmas M_TensorKey S_Words.

Definition two64 : N := 18446744073709551616.
Definition two32 : N := 4294967296.
Lemma two64_eq : 2 ^ 64 = two64. Proof. reflexivity. Qed.
Lemma two32_eq : 2 ^ 32 = two32. Proof. reflexivity. Qed.

(** ** The size parameters *)
Lemma const_logn_log2 n : const_logn n = N.log2 n.
Proof.
  destruct n as [|m]; [reflexivity|]. cbn [const_logn].
  induction m as [m IH|m IH|]; cbn [const_logn_pos].
  - rewrite IH. change (N.pos m~1) with (2 * N.pos m + 1).
    rewrite N.log2_succ_double by lia. lia.
  - rewrite IH. change (N.pos m~0) with (2 * N.pos m).
    rewrite N.log2_double by lia. lia.
  - reflexivity.
Qed.

Lemma bpl_pos n : 1 <= bits_per_letter n.
Proof. unfold bits_per_letter. lia. Qed.
Lemma bpl_upper n : n < 2 ^ bits_per_letter n.
Proof.
  unfold bits_per_letter. rewrite const_logn_log2.
  destruct (N.eq_dec n 0) as [->|H]; [reflexivity|].
  rewrite N.add_1_r. apply N.log2_spec. lia.
Qed.
Lemma bpl_lower n : 0 < n -> 2 ^ (bits_per_letter n - 1) <= n.
Proof.
  intros H. unfold bits_per_letter. rewrite const_logn_log2.
  rewrite N.add_sub. apply N.log2_spec. exact H.
Qed.
Lemma bpl_le_32 n : n < 2 ^ 32 -> bits_per_letter n <= 32.
Proof.
  intros H. unfold bits_per_letter. rewrite const_logn_log2.
  destruct (N.eq_dec n 0) as [->|H0]; [cbn; lia|].
  apply N.log2_lt_pow2 in H; lia.
Qed.

Definition depth_of_bits (b : N) : N := (64 - const_logn (63 / b)) / b.
Lemma max_depth_bits n : max_depth n = depth_of_bits (bits_per_letter n).
Proof. reflexivity. Qed.

Lemma in_1_32 b : 1 <= b -> b <= 32 -> In b (range_incl 1 32).
Proof. intros. apply in_range_incl. lia. Qed.
Lemma depth_table b : 1 <= b -> b <= 32 ->
  b * depth_of_bits b <= 64 /\ 2 <= depth_of_bits b /\ depth_of_bits b <= 59.
Proof.
  intros H1 H2.
  assert (H : forallb (fun b => (b * depth_of_bits b <=? 64) && (2 <=? depth_of_bits b)
                         && (depth_of_bits b <=? 59)) (range_incl 1 32) = true)
    by (vm_compute; reflexivity).
  rewrite forallb_forall in H. specialize (H b (in_1_32 b H1 H2)). lia.
Qed.

Lemma max_depth_fits n : n < 2 ^ 32 -> bits_per_letter n * max_depth n <= 64.
Proof. intros H. rewrite max_depth_bits. apply depth_table; [apply bpl_pos|apply bpl_le_32; exact H]. Qed.
Lemma max_depth_ge_2 n : n < 2 ^ 32 -> 2 <= max_depth n.
Proof. intros H. rewrite max_depth_bits. apply depth_table; [apply bpl_pos|apply bpl_le_32; exact H]. Qed.
Lemma max_depth_le_59 n : n < 2 ^ 32 -> max_depth n <= 59.
Proof. intros H. rewrite max_depth_bits. apply depth_table; [apply bpl_pos|apply bpl_le_32; exact H]. Qed.

(** ** Positional encoding of a word *)
Definition enc_step (b acc a : N) : N := acc * 2 ^ b + (a - 1).
Definition enc (b : N) (w : word) : N := fold_left (enc_step b) w 0.

Lemma enc_fold b w acc : fold_left (enc_step b) w acc = acc * 2 ^ (b * len w) + enc b w.
Proof.
  unfold enc. revert acc; induction w as [|a w IH]; intros acc.
  - cbn. rewrite N.mul_0_r. cbn. lia.
  - cbn [fold_left]. rewrite IH, (IH (enc_step b 0 a)). unfold enc_step.
    rewrite len_cons, N.mul_add_distr_l, N.mul_1_r, N.pow_add_r. nia.
Qed.
Lemma enc_cons b a w : enc b (a :: w) = (a - 1) * 2 ^ (b * len w) + enc b w.
Proof. unfold enc at 1. cbn [fold_left]. rewrite enc_fold. unfold enc_step. nia. Qed.
Lemma enc_app b u v : enc b (u ++ v) = enc b u * 2 ^ (b * len v) + enc b v.
Proof. unfold enc at 1. rewrite fold_left_app, enc_fold. reflexivity. Qed.
Lemma enc_snoc b u a : enc b (u ++ [a]) = enc b u * 2 ^ b + (a - 1).
Proof. rewrite enc_app. cbn. rewrite N.mul_1_r. reflexivity. Qed.
Lemma enc_nil b : enc b [] = 0. Proof. reflexivity. Qed.

Definition letters_below (b : N) (w : word) : Prop := Forall (fun a => 1 <= a <= 2 ^ b) w.
Lemma word_ok_below n w : word_ok n w -> letters_below (bits_per_letter n) w.
Proof.
  intros H. eapply Forall_impl; [|exact H]. cbn. intros a Ha.
  pose proof (bpl_upper n). lia.
Qed.
Lemma enc_bound b w : letters_below b w -> enc b w < 2 ^ (b * len w).
Proof.
  induction w as [|a w IH]; intros H.
  - cbn. rewrite N.mul_0_r. reflexivity.
  - apply Forall_cons_iff in H. destruct H as [Ha Hw]. rewrite enc_cons, len_cons.
    rewrite N.mul_add_distr_l, N.mul_1_r, N.pow_add_r.
    specialize (IH Hw). nia.
Qed.

Lemma enc_digit b u a v :
  letters_below b (a :: v) -> (enc b (u ++ a :: v) / 2 ^ (b * len v)) mod 2 ^ b = a - 1.
Proof.
  intros H. apply Forall_cons_iff in H. destruct H as [Ha Hv].
  rewrite enc_app, enc_cons, len_cons, N.mul_add_distr_l, N.mul_1_r, N.pow_add_r.
  pose proof (enc_bound b v Hv) as Hb. pose proof (pow2_pos (b * len v)) as Hp.
  replace (enc b u * (2 ^ (b * len v) * 2 ^ b) + ((a - 1) * 2 ^ (b * len v) + enc b v))
    with (enc b v + (enc b u * 2 ^ b + (a - 1)) * 2 ^ (b * len v)) by nia.
  rewrite N.div_add by lia. rewrite N.div_small by exact Hb.
  rewrite N.add_0_l, N.add_comm, N.mod_add by (pose proof (pow2_pos b); lia).
  apply N.mod_small. lia.
Qed.

Lemma enc_inj b u v :
  letters_below b u -> letters_below b v -> len u = len v -> enc b u = enc b v -> u = v.
Proof.
  revert v; induction u as [|a u IH]; intros [|c v] Hu Hv Hl He; try reflexivity;
    rewrite ?len_cons, ?len_nil in Hl; try lia.
  apply Forall_cons_iff in Hu, Hv. destruct Hu as [Ha Hu], Hv as [Hc Hv].
  rewrite !enc_cons in He. assert (Hl' : len u = len v) by lia. rewrite Hl' in He.
  pose proof (enc_bound b u Hu) as B1. pose proof (enc_bound b v Hv) as B2. rewrite Hl' in B1.
  assert (Hac : a - 1 = c - 1) by nia.
  assert (a = c) by lia. subst c. f_equal. apply IH; try assumption. nia.
Qed.

(** ** Keys of words *)
Definition key_of (n : N) (w : word) : tkey := mk_tkey (len w) (enc (bits_per_letter n) w).
Definition fits (n : N) (w : word) : Prop := word_ok n w /\ len w <= max_depth n.

Lemma key_of_inj n u v : word_ok n u -> word_ok n v -> key_of n u = key_of n v -> u = v.
Proof.
  intros Hu Hv H. injection H as Hl He.
  eapply enc_inj; try eassumption; apply word_ok_below; assumption.
Qed.

Lemma fits_bits n w : n < 2 ^ 32 -> fits n w -> bits_per_letter n * len w <= 64.
Proof. intros Hn [_ Hl]. pose proof (max_depth_fits n Hn). nia. Qed.

Lemma pow2_le_64 e : e <= 64 -> 2 ^ e <= 2 ^ 64.
Proof. intros. apply N.pow_le_mono_r; lia. Qed.

Lemma key_data_bound n w : n < 2 ^ 32 -> fits n w -> enc (bits_per_letter n) w < 2 ^ 64.
Proof.
  intros Hn Hf. pose proof (fits_bits n w Hn Hf). destruct Hf as [Hw Hl].
  pose proof (enc_bound _ _ (word_ok_below n w Hw)).
  eapply N.lt_le_trans; [eassumption|]. apply pow2_le_64. assumption.
Qed.

Lemma make_mask_ok p nb sh : nb < 64 -> sh < 64 -> nb + sh <= 64 ->
  make_mask p nb sh = Ret (N.shiftl (N.ones nb) sh).
Proof.
  intros H1 H2 H3. unfold make_mask.
  rewrite ushl_ok; [|exact H1|rewrite N.mul_1_l; apply N.pow_lt_mono_r; lia].
  cbn [bind]. rewrite N.mul_1_l. pose proof (pow2_pos nb) as Hp.
  rewrite usub_ok by lia. cbn [bind].
  assert (Hb : (2 ^ nb - 1) * 2 ^ sh < 2 ^ 64).
  { apply N.lt_le_trans with (2 ^ nb * 2 ^ sh); [pose proof (pow2_pos sh); nia|].
    rewrite <- N.pow_add_r. apply pow2_le_64. exact H3. }
  rewrite ushl_ok by assumption.
  rewrite N.shiftl_mul_pow2, N.ones_equiv, N.sub_1_r. reflexivity.
Qed.

Lemma land_mask_shift a nb sh : N.land a (N.shiftl (N.ones nb) sh) / 2 ^ sh = (a / 2 ^ sh) mod 2 ^ nb.
Proof.
  rewrite <- !N.shiftr_div_pow2, N.shiftr_land.
  replace (N.shiftr (N.shiftl (N.ones nb) sh) sh) with (N.ones nb).
  - apply N.land_ones.
  - rewrite N.shiftr_shiftl_l by lia. rewrite N.sub_diag, N.shiftl_0_r. reflexivity.
Qed.

(** get_letter reads the digit, whatever the rest of the data is *)
Lemma get_letter_unadjusted_ok p n k i : n < 2 ^ 32 ->
  i * bits_per_letter n + bits_per_letter n <= 64 ->
  tk_get_letter_unadjusted p n k i =
  Ret ((tk_data k / 2 ^ (i * bits_per_letter n)) mod 2 ^ bits_per_letter n).
Proof.
  intros Hn Hi. pose proof (bpl_pos n). pose proof (bpl_le_32 n Hn) as H32.
  unfold tk_get_letter_unadjusted.
  rewrite umul_ok by (rewrite two32_eq; unfold two32; lia). cbn [bind].
  rewrite make_mask_ok by lia. cbn [bind].
  rewrite ushr_ok by lia. cbn [bind]. rewrite land_mask_shift.
  rewrite trunc_small; [reflexivity|].
  eapply N.lt_le_trans; [apply N.mod_lt; pose proof (pow2_pos (bits_per_letter n)); lia|].
  apply N.pow_le_mono_r; lia.
Qed.

Lemma get_letter_key p n u a v : n < 2 ^ 32 -> fits n (u ++ a :: v) ->
  tk_get_letter p n (key_of n (u ++ a :: v)) (len v) = Ret a.
Proof.
  intros Hn Hf. pose proof (fits_bits _ _ Hn Hf) as Hb.
  rewrite len_app, len_cons in Hb. destruct Hf as [Hw _].
  unfold tk_get_letter. rewrite get_letter_unadjusted_ok; [|exact Hn|nia]. cbn [bind tk_data key_of].
  apply Forall_app in Hw. destruct Hw as [Hu Hv].
  pose proof (word_ok_below n _ Hv) as Hbl.
  rewrite (N.mul_comm (len v)), enc_digit by exact Hbl.
  apply Forall_cons_iff in Hv. destruct Hv as [Ha _].
  rewrite uadd_ok by lia. f_equal. lia.
Qed.

(** every position of a word *)
Lemma split_at_end (w : word) (i : nat) : (i < length w)%nat ->
  exists u a v, w = u ++ a :: v /\ length v = i /\ nth_error (rev w) i = Some a.
Proof.
  intros Hi.
  assert (Hi' : (length w - 1 - i < length w)%nat) by lia.
  destruct (nth_error w (length w - 1 - i)) as [a|] eqn:E;
    [|apply nth_error_None in E; lia].
  apply nth_error_split in E. destruct E as (u & v & Hw & Hu).
  exists u, a, v. assert (Hv : length v = i).
  { rewrite Hw in Hi. rewrite Hw in Hu at 1. rewrite app_length in Hi, Hu. cbn in Hi, Hu. lia. }
  split; [exact Hw|]. split; [exact Hv|].
  rewrite Hw, rev_app_distr. cbn [rev]. rewrite <- app_assoc.
  rewrite nth_error_app2 by (rewrite rev_length; lia).
  rewrite rev_length, Hv, Nat.sub_diag. reflexivity.
Qed.

Lemma get_letter_rev p n w i : n < 2 ^ 32 -> fits n w -> i < len w ->
  exists a, nth_error (rev w) (N.to_nat i) = Some a /\ tk_get_letter p n (key_of n w) i = Ret a.
Proof.
  intros Hn Hf Hi. destruct (split_at_end w (N.to_nat i)) as (u & a & v & Hw & Hv & Hr).
  { unfold len in Hi. lia. }
  exists a. split; [exact Hr|]. subst w.
  replace i with (len v) by (unfold len; lia). apply get_letter_key; assumption.
Qed.

(** ** Constructors *)
Lemma from_letters_step_ok p n data a : n < 2 ^ 32 -> 1 <= a <= n ->
  enc_step (bits_per_letter n) data a < 2 ^ 64 ->
  from_letters_step p n data a = Ret (enc_step (bits_per_letter n) data a).
Proof.
  intros Hn Ha Hb. unfold from_letters_step, enc_step in *.
  rewrite debug_assert_ok by lia. cbn [bind].
  pose proof (bpl_le_32 n Hn).
  rewrite ushl_ok by lia. cbn [bind]. rewrite usub_ok by lia. cbn [bind].
  apply uadd_ok. exact Hb.
Qed.

Lemma from_letters_loop p n w v : n < 2 ^ 32 -> word_ok n (v ++ w) ->
  bits_per_letter n * len (v ++ w) <= 64 ->
  for_each w (from_letters_step p n) (enc (bits_per_letter n) v)
  = Ret (enc (bits_per_letter n) (v ++ w)).
Proof.
  revert v; induction w as [|a w IH]; intros v Hn Hw Hb; cbn [for_each].
  - rewrite app_nil_r. reflexivity.
  - assert (Hva : word_ok n (v ++ [a])).
    { apply Forall_app in Hw. destruct Hw as [H1 H2]. apply Forall_app. split; [exact H1|].
      apply Forall_cons_iff in H2. constructor; [tauto|constructor]. }
    assert (Ha : 1 <= a <= n).
    { apply Forall_app in Hva. destruct Hva as [_ H]. apply Forall_cons_iff in H. tauto. }
    assert (E : enc_step (bits_per_letter n) (enc (bits_per_letter n) v) a
                = enc (bits_per_letter n) (v ++ [a])) by (rewrite enc_snoc; reflexivity).
    rewrite from_letters_step_ok; try assumption.
    + cbn [bind]. rewrite E.
      replace (v ++ a :: w) with ((v ++ [a]) ++ w) by (rewrite <- app_assoc; reflexivity).
      apply IH; try assumption; rewrite <- app_assoc; assumption.
    + rewrite E. eapply N.lt_le_trans; [apply enc_bound, word_ok_below; exact Hva|].
      apply pow2_le_64. rewrite !len_app, ?len_cons, ?len_nil in *. nia.
Qed.

Lemma from_letters_ok p n w : n < 2 ^ 32 -> fits n w -> tk_from_letters p n w = Ret (key_of n w).
Proof.
  intros Hn Hf. pose proof (fits_bits n w Hn Hf) as Hb. destruct Hf as [Hw Hl].
  pose proof (max_depth_le_59 n Hn).
  unfold tk_from_letters. destruct (N.ltb_spec (max_depth n) (len w)); [lia|].
  change 0 with (enc (bits_per_letter n) []). rewrite from_letters_loop; try assumption.
  cbn [bind app]. rewrite trunc_small by (rewrite two32_eq; unfold two32; lia). reflexivity.
Qed.

Lemma from_letter_ok p n a : 1 <= a <= n -> tk_from_letter p a = Ret (key_of n [a]).
Proof.
  intros Ha. unfold tk_from_letter. rewrite usub_ok by lia. cbn [bind].
  unfold key_of. rewrite enc_cons, enc_nil. cbn. rewrite N.mul_0_r. cbn. do 2 f_equal. lia.
Qed.

Lemma fits_app_l n u v : fits n (u ++ v) -> fits n u.
Proof. intros [H1 H2]. apply Forall_app in H1. rewrite len_app in H2. split; [tauto|lia]. Qed.
Lemma fits_app_r n u v : fits n (u ++ v) -> fits n v.
Proof. intros [H1 H2]. apply Forall_app in H1. rewrite len_app in H2. split; [tauto|lia]. Qed.

Lemma land_letter_mask p n l : n < 2 ^ 32 -> l < 2 ^ bits_per_letter n ->
  exists m, letter_mask p n = Ret m /\ N.land l m = l.
Proof.
  intros Hn Hl. pose proof (bpl_le_32 n Hn). unfold letter_mask.
  exists (N.shiftl (N.ones (bits_per_letter n)) 0). split.
  - apply make_mask_ok; lia.
  - rewrite N.shiftl_0_r, N.land_ones. apply N.mod_small. exact Hl.
Qed.

(** the word [a :: w] needs room for its last shift: holds whenever its length is <= 64/b *)
Lemma push_front_raw_ok p n a w : n < 2 ^ 32 -> word_ok n (a :: w) ->
  bits_per_letter n * len (a :: w) <= 64 ->
  tk_push_front_raw p n (key_of n w) (a - 1) = Ret (key_of n (a :: w)).
Proof.
  intros Hn Hw Hb. pose proof (bpl_pos n). pose proof (bpl_upper n). pose proof (bpl_le_32 n Hn).
  rewrite len_cons in Hb.
  pose proof Hw as Hw0. apply Forall_cons_iff in Hw. destruct Hw as [Ha Hw].
  unfold tk_push_front_raw. destruct (land_letter_mask p n (a - 1)) as (m & -> & Hm);
    [exact Hn|lia|]. cbn [bind key_of tk_size tk_data]. rewrite Hm.
  rewrite umul_ok by (rewrite two32_eq; unfold two32; nia). cbn [bind].
  pose proof (enc_bound _ _ (word_ok_below n (a :: w) Hw0)) as Hbound.
  assert (Hle : 2 ^ (bits_per_letter n * len (a :: w)) <= 2 ^ 64)
    by (apply pow2_le_64; rewrite len_cons; exact Hb).
  rewrite enc_cons in Hbound.
  rewrite ushl_ok; [|nia|rewrite (N.mul_comm (len w)); lia].
  cbn [bind]. rewrite (N.mul_comm (len w)).
  rewrite uadd_ok by lia. cbn [bind].
  rewrite uadd_ok by (rewrite two32_eq; unfold two32; nia). cbn [bind].
  unfold key_of. rewrite enc_cons, len_cons. do 2 f_equal. lia.
Qed.

Lemma push_front_ok p n a w : n < 2 ^ 32 -> fits n (a :: w) ->
  tk_push_front p n (key_of n w) a = Ret (key_of n (a :: w)).
Proof.
  intros Hn Hf. pose proof (fits_bits n _ Hn Hf) as Hb. destruct Hf as [Hw Hl].
  pose proof Hw as Hw0. apply Forall_cons_iff in Hw. destruct Hw as [Ha Hw].
  rewrite len_cons in Hl. unfold tk_push_front. cbn [tk_size key_of].
  rewrite debug_assert_ok by lia. cbn [bind]. rewrite debug_assert_ok by lia. cbn [bind].
  rewrite usub_ok by lia. cbn [bind]. apply push_front_raw_ok; assumption.
Qed.

(** With 32-bit letters (n >= 2^31) two letters fill all 64 bits; below, one bit stays free. *)
Lemma depth_table_31 b : 1 <= b -> b <= 31 -> b * depth_of_bits b < 64.
Proof.
  intros H1 H2.
  assert (H : forallb (fun b => b * depth_of_bits b <? 64) (range_incl 1 31) = true)
    by (vm_compute; reflexivity).
  rewrite forallb_forall in H.
  assert (Hin : In b (range_incl 1 31)) by (apply in_range_incl; lia).
  specialize (H b Hin). lia.
Qed.
Lemma bpl_le_31 n : n < 2 ^ 31 -> bits_per_letter n <= 31.
Proof.
  intros H. unfold bits_per_letter. rewrite const_logn_log2.
  destruct (N.eq_dec n 0) as [->|H0]; [cbn; lia|].
  apply N.log2_lt_pow2 in H; lia.
Qed.
Lemma max_depth_fits_31 n : n < 2 ^ 31 -> bits_per_letter n * max_depth n < 64.
Proof. intros H. rewrite max_depth_bits. apply depth_table_31; [apply bpl_pos|apply bpl_le_31; exact H]. Qed.

Lemma concatenate_gen p n u v : n < 2 ^ 32 -> fits n (u ++ v) ->
  bits_per_letter n * len v < 64 ->
  tk_concatenate p n (key_of n u) (key_of n v) = Ret (key_of n (u ++ v)).
Proof.
  intros Hn Hf Hs. pose proof (key_data_bound n _ Hn Hf) as Hd. pose proof (bpl_pos n).
  pose proof (fits_bits n _ Hn Hf) as Hb. destruct Hf as [Hw Hl].
  pose proof (max_depth_le_59 n Hn). rewrite enc_app in Hd. rewrite len_app in Hb, Hl.
  pose proof (bpl_le_32 n Hn).
  unfold tk_concatenate. cbn [tk_size tk_data key_of].
  rewrite uadd_ok by (rewrite two32_eq; unfold two32; lia). cbn [bind].
  rewrite umul_ok by (rewrite two32_eq; unfold two32; nia). cbn [bind].
  rewrite ushl_ok; [|nia|rewrite (N.mul_comm (len v)); lia]. cbn [bind].
  rewrite (N.mul_comm (len v)). rewrite uadd_ok by lia. cbn [bind].
  unfold key_of. rewrite enc_app, len_app. reflexivity.
Qed.

Lemma concatenate_ok p n u v : n < 2 ^ 32 -> fits n (u ++ v) -> (n < 2 ^ 31 \/ u <> []) ->
  tk_concatenate p n (key_of n u) (key_of n v) = Ret (key_of n (u ++ v)).
Proof.
  intros Hn Hf Hc. apply concatenate_gen; try assumption.
  pose proof (bpl_pos n). pose proof (fits_bits n _ Hn Hf) as Hb. rewrite len_app in Hb.
  destruct Hc as [H31|Hu].
  - pose proof (max_depth_fits_31 n H31). destruct Hf as [_ Hl]. rewrite len_app in Hl. nia.
  - destruct u as [|a u]; [congruence|]. rewrite len_cons in Hb. nia.
Qed.

(** ** Iterating and converting *)
Lemma mapM_seqN_rev {A} (f : N -> outcome A) (l : list A) a :
  (forall i x, nth_error l i = Some x -> f (a + N.of_nat i) = Ret x) ->
  mapM f (seqN a (length l)) = Ret l.
Proof.
  revert a; induction l as [|x l IH]; intros a H; cbn; [reflexivity|].
  pose proof (H O x eq_refl) as H0. rewrite N.add_0_r in H0. rewrite H0. cbn.
  rewrite IH; [reflexivity|]. intros i y Hi. specialize (H (S i) y Hi).
  replace (a + 1 + N.of_nat i) with (a + N.of_nat (S i)) by lia. exact H.
Qed.

Lemma to_letters_ok p n w : n < 2 ^ 32 -> fits n w ->
  tk_to_letters p n (key_of n w) = Ret (rev w).
Proof.
  intros Hn Hf. unfold tk_to_letters, range. cbn [tk_size key_of].
  replace (N.to_nat (len w - 0)) with (length (rev w))
    by (rewrite rev_length; unfold len; lia).
  apply mapM_seqN_rev. intros i x Hi.
  assert (Hlt : (i < length w)%nat).
  { rewrite <- rev_length. apply nth_error_Some. congruence. }
  destruct (get_letter_rev p n w (N.of_nat i)) as (a & Ha & Hg); try assumption.
  { unfold len. lia. }
  rewrite N.add_0_l, Hg. rewrite Nat2N.id in Ha. congruence.
Qed.

Lemma ti_take_end p n k m :
  ti_take p n (mk_tkiter (tk_size k) k) m = Ret (repeat None m).
Proof.
  induction m as [|m IH]; cbn [ti_take repeat]; [reflexivity|].
  unfold ti_next. cbn [ti_index ti_key]. rewrite N.eqb_refl. cbn [bind]. rewrite IH. reflexivity.
Qed.

Lemma ti_take_mid p n u v m : n < 2 ^ 32 -> fits n (u ++ v) ->
  ti_take p n (mk_tkiter (len u) (key_of n (u ++ v))) (length v + m)
  = Ret (map Some v ++ repeat None m).
Proof.
  intros Hn. revert u; induction v as [|a v IH]; intros u Hf.
  - cbn [length Nat.add map app]. rewrite app_nil_r.
    apply (ti_take_end p n (key_of n u)).
  - cbn [length Nat.add ti_take map app].
    unfold ti_next at 1. cbn [ti_index ti_key]. pose proof Hf as Hf0.
    destruct Hf as [Hw Hl]. pose proof (max_depth_le_59 n Hn).
    assert (Hs : tk_size (key_of n (u ++ a :: v)) = len u + (len v + 1))
      by (cbn [tk_size key_of]; rewrite len_app, len_cons; reflexivity).
    rewrite Hs. rewrite len_app, len_cons in Hl.
    destruct (N.eqb_spec (len u) (len u + (len v + 1))); [lia|].
    rewrite uadd_ok by (rewrite two32_eq; unfold two32; lia). cbn [bind].
    rewrite usub_ok by lia. cbn [bind].
    replace (len u + (len v + 1) - (len u + 1)) with (len v) by lia.
    rewrite get_letter_key by assumption. cbn [bind].
    replace (u ++ a :: v) with ((u ++ [a]) ++ v) in * by (rewrite <- app_assoc; reflexivity).
    replace (len u + 1) with (len (u ++ [a])) by (rewrite len_app, len_cons, len_nil; lia).
    rewrite IH by exact Hf0. reflexivity.
Qed.
