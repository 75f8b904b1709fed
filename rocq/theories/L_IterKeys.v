(** What iter_keys yields over three and more letters. *)
From Verif Require Import Machine MachineLemmas S_Words L_Words M_TensorKey L_TensorKey M_TensorBasis L_TensorBasis S_TensorApi
  L_BasisIter S_KeyRaw L_KeyRaw S_IterKeys.
Local Open Scope N_scope.

(** clearing [b] bits at [s] of a number whose last [b] bits are zero *)
Lemma ldiff_shift y b s : s <= b -> N.ldiff (y * 2 ^ b) (N.shiftl (N.ones b) s) = y / 2 ^ s * 2 ^ s * 2 ^ b.
Proof.
  intros Hs. rewrite <- N.shiftr_div_pow2, <- !N.shiftl_mul_pow2. apply N.bits_inj. intros i. rewrite N.ldiff_spec.
  destruct (N.lt_ge_cases i b) as [H|H].
  - rewrite (N.shiftl_spec_low _ _ _ H), (N.shiftl_spec_low _ _ _ H). reflexivity.
  - rewrite !(N.shiftl_spec_high _ b) by lia. rewrite N.shiftl_spec_high by lia.
    destruct (N.lt_ge_cases (i - b) s) as [H1|H1].
    + rewrite (N.shiftl_spec_low _ s) by exact H1. rewrite N.ones_spec_low by lia. apply andb_false_r.
    + rewrite (N.shiftl_spec_high _ s) by lia. rewrite N.shiftr_spec by lia. rewrite N.ones_spec_high by lia.
      replace (i - b - s + s) with (i - b) by lia. apply andb_true_r.
Qed.
Lemma even_part y : y / 2 * 2 <= y. Proof. pose proof (N.mul_div_le y 2 ltac:(lia)). lia. Qed.
Lemma four_part y : y / 4 * 4 <= y. Proof. pose proof (N.mul_div_le y 4 ltac:(lia)). lia. Qed.

Section Next.
  Context (p : profile) (n : N) (Hn : 3 <= n < 2 ^ 32).
  Notation b := (letter_bits n).
  Notation B := (2 ^ b).
  Lemma b_low : 2 <= b.
  Proof. unfold letter_bits. assert (1 <= N.log2 n); [|lia]. apply N.log2_le_pow2; [lia|]. change (2 ^ 1) with 2. lia. Qed.
  Lemma b_high : b <= 32. Proof. apply lbits_le. lia. Qed.
  Lemma n_lt_B : n < B. Proof. pose proof (bpl_upper n) as H. rewrite bits_eq in H. exact H. Qed.
  Lemma B_le_n : B <= 2 * n.
  Proof. unfold letter_bits. rewrite N.add_1_r, N.pow_succ_r'. pose proof (N.log2_spec n ltac:(lia)). lia. Qed.
  Lemma two64 : 2 ^ 64 = 2 ^ (64 - b) * B.
  Proof. pose proof b_high. rewrite <- N.pow_add_r. f_equal. lia. Qed.
  Lemma room i y : y * B + i < 2 ^ 64 -> i < B -> forall i', i' < B -> y * B + i' < 2 ^ 64.
  Proof. rewrite two64. intros H Hi i' Hi'. assert (y < 2 ^ (64 - b)) by nia. nia. Qed.

  Definition next_key (k : tkey) : outcome (option tkey) := run_loop (bi_next_step p n (max_depth n)) (k, 0).
  Lemma bi_next_key k : bi_next p n (bi_of n (Some k)) = (nc <- next_key k ;; Ret (bi_of n nc, Some k)).
  Proof. unfold bi_next, next_key. cbn [bi_current bi_of bi_max_depth]. unfold bi_of. reflexivity. Qed.

  Lemma get_0 s y i : i < n -> y * B + i < 2 ^ 64 -> tk_get_letter p n (mk_tkey s (y * B + i)) 0 = Ret (i + 1).
  Proof.
    intros Hi Hd. pose proof b_low. pose proof b_high. pose proof n_lt_B.
    unfold tk_get_letter, tk_get_letter_unadjusted. cbn [tk_data]. rewrite bits_eq. rewrite umul_ok by lia. cbn [bind].
    rewrite mask_any by lia. cbn [bind]. rewrite ushr_ok by lia. cbn [bind]. rewrite read_mask by exact Hd.
    unfold bits_at. rewrite N.mul_0_l, N.pow_0_r, N.div_1_r.
    replace (y * B + i) with (i + y * B) by lia. rewrite N.mod_add by lia. rewrite N.mod_small by lia.
    rewrite trunc_small by lia. apply uadd_ok. lia.
  Qed.
  Lemma get_at s y i : y * B < 2 ^ 64 -> 1 <= i -> i * b < 64 -> y / 2 ^ ((i - 1) * b) mod B + 1 < 2 ^ 32 ->
    tk_get_letter p n (mk_tkey s (y * B)) i = Ret (y / 2 ^ ((i - 1) * b) mod B + 1).
  Proof.
    intros Hd Hi Hs Hc. pose proof b_low. pose proof b_high.
    unfold tk_get_letter, tk_get_letter_unadjusted. cbn [tk_data]. rewrite bits_eq. rewrite umul_ok by lia. cbn [bind].
    rewrite mask_any by lia. cbn [bind]. rewrite ushr_ok by lia. cbn [bind]. rewrite read_mask by exact Hd.
    unfold bits_at. assert (Ei : i * b = b + (i - 1) * b).
    { set (j := i - 1). replace i with (j + 1) by (unfold j; lia). clearbody j. lia. }
    rewrite Ei, N.pow_add_r.
    rewrite <- N.div_div by (apply N.pow_nonzero; lia). rewrite N.div_mul by (apply N.pow_nonzero; lia).
    rewrite trunc_small by lia. apply uadd_ok. exact Hc.
  Qed.
  Lemma set_0 s y i c : 1 <= s -> i < n -> 1 <= c <= n -> y * B + i < 2 ^ 64 ->
    tk_set_letter p n (mk_tkey s (y * B + i)) 0 c = Ret (mk_tkey s (y * B + (c - 1))).
  Proof.
    intros Hs Hi Hc Hd. pose proof b_low. pose proof b_high. pose proof n_lt_B.
    unfold tk_set_letter. cbn [tk_size tk_data]. destruct (N.leb_spec s 0); [lia|]. rewrite bits_eq.
    rewrite make_mask_ok by lia. cbn [bind]. rewrite N.shiftl_0_r, land_not64, ldiff_low by exact Hd.
    rewrite usub_ok by lia. cbn [bind]. rewrite umul_ok by lia. cbn [bind].
    rewrite N.mul_0_r. rewrite ushl_ok by (rewrite ?N.pow_0_r; lia). cbn [bind]. rewrite N.pow_0_r, N.mul_1_r.
    replace (y * B + i) with (i + y * B) by lia. rewrite N.div_add by lia. rewrite N.div_small by lia. rewrite N.add_0_l.
    rewrite uadd_ok by (apply (room i); lia). reflexivity.
  Qed.
  Lemma set_at s y i c : 1 <= i < s -> i <= b -> i * b < 64 -> i * b + b <= 64 -> 1 <= c -> (c - 1) * 2 ^ (i * b) < 2 ^ 64 -> y * B < 2 ^ 64 ->
    tk_set_letter p n (mk_tkey s (y * B)) i c
    = (d <- uadd 64 p (y / 2 ^ i * 2 ^ i * B) ((c - 1) * 2 ^ (i * b)) ;; Ret (mk_tkey s d)).
  Proof.
    intros Hs Hib Hi Hi2 Hc Hf Hd. pose proof b_low. pose proof b_high.
    unfold tk_set_letter. cbn [tk_size tk_data]. destruct (N.leb_spec s i); [lia|]. rewrite bits_eq.
    rewrite make_mask_ok by nia. cbn [bind]. rewrite land_not64, ldiff_shift by assumption.
    assert (Hc64 : c < 2 ^ 64 + 1). { pose proof (pow2_pos (i * b)). nia. }
    rewrite usub_ok by lia. cbn [bind]. rewrite umul_ok by lia. cbn [bind]. rewrite (N.mul_comm b i).
    rewrite ushl_ok by assumption. reflexivity.
  Qed.

  (** the last letter grows *)
  Lemma next_inc s y i : 1 <= s -> i + 1 < n -> y * B + i < 2 ^ 64 ->
    next_key (mk_tkey s (y * B + i)) = Ret (Some (mk_tkey s (y * B + (i + 1)))).
  Proof.
    intros Hs Hi Hd. unfold next_key.
    apply (run_loop_steps 1); [|cbn; lia]. cbn [steps]. unfold bi_next_step. cbn [tk_size].
    destruct (N.eqb_spec 0 s); [lia|]. rewrite get_0 by (assumption || lia). destruct (N.eqb_spec (i + 1) n); [lia|].
    rewrite uadd_ok by lia. cbn [bind]. rewrite set_0 by (assumption || lia). cbn [bind].
    do 4 f_equal. lia.
  Qed.
  Lemma step_reset md s y : 1 <= s -> y * B + (n - 1) < 2 ^ 64 ->
    bi_next_step p n md (mk_tkey s (y * B + (n - 1)), 0) = inl (mk_tkey s (y * B), 1).
  Proof.
    intros Hs Hd. unfold bi_next_step. cbn [tk_size]. destruct (N.eqb_spec 0 s); [lia|].
    rewrite get_0 by (assumption || lia). destruct (N.eqb_spec (n - 1 + 1) n); [|lia].
    rewrite set_0 by (assumption || lia). cbn [bind]. rewrite uadd_ok by lia. cbn [bind]. do 3 f_equal. lia.
  Qed.
  (** all letters are used up: a longer word *)
  Lemma next_1 : next_key (mk_tkey 1 (n - 1)) = Ret (Some (mk_tkey 2 0)).
  Proof.
    pose proof (max_depth_ge_2 n ltac:(lia)). pose proof b_low. pose proof b_high. pose proof n_lt_B. unfold next_key. apply (run_loop_steps 2); [|cbn; lia].
    cbn [steps]. replace (n - 1) with (0 * B + (n - 1)) by lia. rewrite step_reset by (lia || (change (2 ^ 64) with (2 ^ 32 * 2 ^ 32); lia)).
    unfold bi_next_step. cbn [tk_size]. change (1 =? 1) with true. cbv iota. destruct (N.eqb_spec 1 (max_depth n)); [lia|].
    rewrite N.mul_0_l. change (mk_tkey 1 0) with (key_of n [1]). rewrite push_front_ok; [reflexivity|lia|].
    split; [repeat constructor; lia|cbn; lia].
  Qed.
  Lemma push_1 s d : s < max_depth n -> d < 2 ^ 64 -> tk_push_front p n (mk_tkey s d) 1 = Ret (mk_tkey (s + 1) d).
  Proof.
    intros Hs Hd. pose proof b_low. pose proof b_high. pose proof (fits_bits n (repeat 1 (N.to_nat (max_depth n))) ltac:(lia)) as F.
    assert (F' : b * max_depth n <= 64).
    { rewrite <- bits_eq. replace (max_depth n) with (len (repeat 1 (N.to_nat (max_depth n)))) at 1 by (unfold len; rewrite repeat_length; lia).
      apply F. split; [|unfold len; rewrite repeat_length; lia]. apply Forall_forall. intros x Hx. apply repeat_spec in Hx. lia. }
    unfold tk_push_front. cbn [tk_size]. rewrite debug_assert_ok by lia. cbn [bind]. rewrite debug_assert_ok by lia. cbn [bind].
    rewrite usub_ok by lia. cbn [bind]. unfold tk_push_front_raw. unfold letter_mask. rewrite bits_eq. rewrite make_mask_ok by lia. cbn [bind tk_size tk_data].
    change (N.land (1 - 1) _) with 0. rewrite umul_ok by nia. cbn [bind]. rewrite ushl_ok by nia. cbn [bind]. rewrite N.mul_0_l.
    rewrite uadd_ok by lia. cbn [bind]. rewrite uadd_ok by nia. cbn [bind]. rewrite N.add_0_r. reflexivity.
  Qed.
  (** the letter before the last one *)
  Lemma next_2 y : y * B + (n - 1) < 2 ^ 64 -> let c := y mod B in c + 1 < B -> c + 2 < 2 ^ 32 ->
    next_key (mk_tkey 2 (y * B + (n - 1))) =
    if c + 1 =? n then (if max_depth n =? 2 then Ret None else Ret (Some (mk_tkey 3 (y / 2 * 2 * B))))
    else (d <- uadd 64 p (y / 2 * 2 * B) ((c + 1) * B) ;; Ret (Some (mk_tkey 2 d))).
  Proof.
    intros Hd c Hc Hc2. pose proof (max_depth_ge_2 n ltac:(lia)). pose proof b_low. pose proof b_high. pose proof n_lt_B.
    assert (HB : B <= 2 ^ 32) by (apply N.pow_le_mono_r; lia).
    assert (HyB : y * B < 2 ^ 64) by lia.
    assert (G : tk_get_letter p n (mk_tkey 2 (y * B)) 1 = Ret (c + 1)).
    { rewrite get_at; replace ((1 - 1) * b) with 0 by lia; rewrite ?N.pow_0_r, ?N.div_1_r; fold c; try lia. reflexivity. }
    assert (St : forall v, 1 <= v <= B -> tk_set_letter p n (mk_tkey 2 (y * B)) 1 v
      = (d <- uadd 64 p (y / 2 * 2 * B) ((v - 1) * B) ;; Ret (mk_tkey 2 d))).
    { intros v Hv. rewrite set_at; rewrite ?N.mul_1_l, ?N.pow_1_r; try lia; [reflexivity|].
      change (2 ^ 64) with (2 ^ 32 * 2 ^ 32). nia. }
    unfold next_key. destruct (N.eqb_spec (c + 1) n) as [E|E].
    - pose proof (even_part y).
      assert (S1 : bi_next_step p n (max_depth n) (mk_tkey 2 (y * B), 1) = inl (mk_tkey 2 (y / 2 * 2 * B), 2)).
      { unfold bi_next_step. cbn [tk_size]. change (1 =? 2) with false. cbv iota. rewrite G. destruct (N.eqb_spec (c + 1) n); [|lia].
        rewrite St by lia. rewrite uadd_ok by nia. cbn [bind]. rewrite uadd_ok by lia. cbn [bind]. do 3 f_equal. lia. }
      apply (run_loop_steps 3); [|cbn; lia]. cbn [steps]. rewrite step_reset by lia. rewrite S1.
      unfold bi_next_step. cbn [tk_size]. change (2 =? 2) with true. cbv iota. rewrite (N.eqb_sym 2).
      destruct (N.eqb_spec (max_depth n) 2); [reflexivity|].
      rewrite push_1 by (lia || nia). reflexivity.
    - apply (run_loop_steps 2); [|cbn; lia]. cbn [steps]. rewrite step_reset by lia.
      unfold bi_next_step. cbn [tk_size]. change (1 =? 2) with false. cbv iota. rewrite G. destruct (N.eqb_spec (c + 1) n); [lia|].
      rewrite uadd_ok by lia. cbn [bind]. rewrite St by lia. replace (c + 1 + 1 - 1) with (c + 1) by lia.
      destruct (uadd 64 p (y / 2 * 2 * B) ((c + 1) * B)); reflexivity.
  Qed.
  (** words of length three *)
  Lemma get_1 s y : b <= 31 -> y * B < 2 ^ 64 -> tk_get_letter p n (mk_tkey s (y * B)) 1 = Ret (y mod B + 1).
  Proof.
    intros Hb Hd. assert (E : y / 2 ^ ((1 - 1) * b) = y) by (change ((1 - 1) * b) with 0; rewrite N.pow_0_r, N.div_1_r; reflexivity).
    assert (Hm : y mod B + 1 < 2 ^ 32).
    { assert (HB : B <= 2 ^ 31) by (apply N.pow_le_mono_r; [discriminate|exact Hb]).
      pose proof (N.mod_lt y B (N.pow_nonzero 2 b ltac:(discriminate))) as H. revert H HB. generalize (y mod B) B. clear. intros. lia. }
    rewrite <- E at 2. apply get_at; [exact Hd|reflexivity| |rewrite E; exact Hm].
    rewrite N.mul_1_l. clear - Hb. lia.
  Qed.
  Lemma get_2 s y : b <= 31 -> y * B < 2 ^ 64 -> tk_get_letter p n (mk_tkey s (y * B)) 2 = Ret (y / B mod B + 1).
  Proof.
    intros Hb Hd. assert (E : (2 - 1) * b = b) by (change (2 - 1) with 1; apply N.mul_1_l).
    assert (Hm : y / B mod B + 1 < 2 ^ 32).
    { assert (HB : B <= 2 ^ 31) by (apply N.pow_le_mono_r; [discriminate|exact Hb]).
      pose proof (N.mod_lt (y / B) B (N.pow_nonzero 2 b ltac:(discriminate))) as H. revert H HB. generalize (y / B mod B) B. clear. intros. lia. }
    pose proof (get_at s y 2 Hd) as G. rewrite E in G. apply G; [discriminate|clear - Hb; lia|exact Hm].
  Qed.
  Lemma even_front y : y / 2 * 2 / B = y / B.
  Proof.
    pose proof b_low. replace B with (2 * 2 ^ (b - 1)) by (rewrite <- N.pow_succ_r'; f_equal; lia).
    rewrite <- !N.div_div by (try apply N.pow_nonzero; discriminate). rewrite N.div_mul by discriminate. reflexivity.
  Qed.
  Lemma next_3 y : b <= 21 -> y * B + (n - 1) < 2 ^ 64 -> let c1 := y mod B in let c2 := y / B mod B in
    (c1 + 1 = n -> c2 + 1 <> n) ->
    next_key (mk_tkey 3 (y * B + (n - 1))) =
    if c1 + 1 =? n then (d <- uadd 64 p (y / 4 * 4 * B) ((c2 + 1) * (B * B)) ;; Ret (Some (mk_tkey 3 d)))
    else (d <- uadd 64 p (y / 2 * 2 * B) ((c1 + 1) * B) ;; Ret (Some (mk_tkey 3 d))).
  Proof.
    intros H21 Hd. cbv zeta.
    assert (HyB : y * B < 2 ^ 64) by (eapply N.le_lt_trans; [apply N.le_add_r|exact Hd]).
    assert (Hz : y / 2 * 2 * B < 2 ^ 64) by (eapply N.le_lt_trans; [apply N.mul_le_mono_r; apply even_part|exact HyB]).
    assert (H31 : b <= 31) by (clear - H21; lia).
    pose proof (get_1 3 y H31 HyB) as G. pose proof (get_2 3 _ H31 Hz) as G2. rewrite even_front in G2.
    pose proof (N.mod_lt y B (N.pow_nonzero 2 b ltac:(discriminate))) as Hc1.
    pose proof (N.mod_lt (y / B) B (N.pow_nonzero 2 b ltac:(discriminate))) as Hc2.
    revert G G2 Hc1 Hc2. generalize (y mod B) (y / B mod B). intros c1 c2 G G2 Hc1 Hc2 Hno.
    pose proof b_low as H. pose proof n_lt_B as H0.
    assert (HB : B <= 2 ^ 21) by (apply N.pow_le_mono_r; [discriminate|exact H21]).
    assert (HBB : B * B < 2 ^ 64) by (eapply N.le_lt_trans; [apply N.mul_le_mono; exact HB|reflexivity]).
    assert (HBBB : B * (B * B) < 2 ^ 64) by (eapply N.le_lt_trans; [apply N.mul_le_mono; [exact HB|apply N.mul_le_mono; exact HB]|reflexivity]).
    assert (St : forall v, 1 <= v <= B + 1 -> tk_set_letter p n (mk_tkey 3 (y * B)) 1 v
      = (d <- uadd 64 p (y / 2 * 2 * B) ((v - 1) * B) ;; Ret (mk_tkey 3 d))).
    { intros v Hv. pose proof (set_at 3 y 1 v) as G1. rewrite N.mul_1_l, N.pow_1_r in G1. apply G1; try assumption; try (clear - H H21 Hv; lia).
      eapply N.le_lt_trans; [apply N.mul_le_mono_r|exact HBB]. clear - Hv. lia. }
    assert (St2 : forall v, 1 <= v <= B + 1 -> tk_set_letter p n (mk_tkey 3 (y / 2 * 2 * B)) 2 v
      = (d <- uadd 64 p (y / 4 * 4 * B) ((v - 1) * (B * B)) ;; Ret (mk_tkey 3 d))).
    { intros v Hv. assert (E2 : 2 ^ (2 * b) = B * B) by (replace (2 * b) with (b + b) by (clear; lia); apply N.pow_add_r).
      pose proof (set_at 3 (y / 2 * 2) 2 v) as G1. rewrite E2 in G1.
      replace (y / 2 * 2 / 2 ^ 2 * 2 ^ 2) with (y / 4 * 4) in G1.
      - apply G1; try assumption; try (clear - H H21 Hv; lia). eapply N.le_lt_trans; [apply N.mul_le_mono_r|exact HBBB]. clear - Hv. lia.
      - change (2 ^ 2) with (2 * 2). rewrite <- N.div_div, N.div_mul, N.div_div by discriminate. reflexivity. }
    assert (U1 : forall c, c < B -> uadd 32 p (c + 1) 1 = Ret (c + 1 + 1)).
    { intros c Hc. apply uadd_ok. revert Hc HB. generalize B. clear. intros. lia. }
    unfold next_key. destruct (N.eqb_spec (c1 + 1) n) as [E|E].
    - assert (S1 : bi_next_step p n (max_depth n) (mk_tkey 3 (y * B), 1) = inl (mk_tkey 3 (y / 2 * 2 * B), 2)).
      { unfold bi_next_step. cbn [tk_size]. change (1 =? 3) with false. cbv iota. rewrite G. rewrite (proj2 (N.eqb_eq _ _) E).
        rewrite St by (clear; lia). rewrite uadd_ok by (rewrite N.mul_0_l, N.add_0_r; exact Hz). cbn [bind]. rewrite uadd_ok by reflexivity. cbn [bind].
        rewrite N.mul_0_l, N.add_0_r. reflexivity. }
      apply (run_loop_steps 3); [|cbn; lia]. cbn [steps]. rewrite step_reset by (exact Hd || discriminate). rewrite S1.
      unfold bi_next_step. cbn [tk_size]. change (2 =? 3) with false. cbv iota. rewrite G2.
      rewrite (proj2 (N.eqb_neq _ _) (Hno E)).
      rewrite (U1 c2 Hc2). cbn [bind]. rewrite St2 by (clear - Hc2; lia). rewrite N.add_sub.
      destruct (uadd 64 p (y / 4 * 4 * B) ((c2 + 1) * (B * B))); reflexivity.
    - apply (run_loop_steps 2); [|cbn; lia]. cbn [steps]. rewrite step_reset by (exact Hd || discriminate).
      unfold bi_next_step. cbn [tk_size]. change (1 =? 3) with false. cbv iota. rewrite G. rewrite (proj2 (N.eqb_neq _ _) E).
      rewrite (U1 c1 Hc1). cbn [bind]. rewrite St by (clear - Hc1; lia). rewrite N.add_sub.
      destruct (uadd 64 p (y / 2 * 2 * B) ((c1 + 1) * B)); reflexivity.
  Qed.
End Next.

(** ** Alternating binary digits *)
Lemma alt_S j : alternating (j + 1) = alternating j / 2 * 2 + (alternating j + 1).
Proof.
  unfold alternating. replace (j + 1 + 1) with (N.succ (j + 1)) by lia. rewrite N.pow_succ_r'. replace (j + 1) with (N.succ j) by lia.
  rewrite N.pow_succ_r'. set (h := 2 ^ j).
  pose proof (N.div_mod (2 * h) 3 ltac:(lia)) as E. pose proof (N.mod_lt (2 * h) 3 ltac:(lia)) as R.
  set (q := 2 * h / 3) in *. set (r := (2 * h) mod 3) in *.
  assert (R0 : r <> 0).
  { unfold r. intros E0. assert (G : forall k, 2 ^ k mod 3 <> 0).
    { intros k. induction k as [|k IH] using N.peano_ind; [discriminate|]. rewrite N.pow_succ_r', N.mul_mod by lia.
      pose proof (N.mod_lt (2 ^ k) 3 ltac:(lia)). assert (2 ^ k mod 3 = 1 \/ 2 ^ k mod 3 = 2) as [-> | ->] by lia; discriminate. }
    apply (G (N.succ j)). rewrite N.pow_succ_r'. exact E0. }
  pose proof (N.div_mod q 2 ltac:(lia)) as Eq. pose proof (N.mod_lt q 2 ltac:(lia)) as Rq.
  assert (r = 1 \/ r = 2) as [E1|E1] by lia; rewrite E1 in E.
  - assert (q mod 2 = 1) by lia. symmetry. apply (N.div_unique _ 3 _ 2); lia.
  - assert (q mod 2 = 0) by lia. symmetry. apply (N.div_unique _ 3 _ 1); lia.
Qed.
Lemma alt_0 : alternating 0 = 0. Proof. reflexivity. Qed.
Lemma alt_mono i j : i <= j -> alternating i <= alternating j.
Proof. intros H. unfold alternating. apply N.div_le_mono; [lia|]. apply N.pow_le_mono_r; lia. Qed.
Lemma alt_bound j : 3 * alternating j <= 2 * 2 ^ j.
Proof.
  unfold alternating. rewrite N.add_1_r, N.pow_succ_r'. apply N.mul_div_le. lia.
Qed.
Lemma alt_wrap j : alternating (j + 2) = 2 ^ (j + 1) + alternating j.
Proof.
  unfold alternating. replace (j + 2 + 1) with (j + 1 + 2) by lia. rewrite (N.pow_add_r 2 (j + 1) 2). change (2 ^ 2) with 4.
  replace (2 ^ (j + 1) * 4) with (2 ^ (j + 1) + 2 ^ (j + 1) * 3) by lia. rewrite N.div_add by lia. lia.
Qed.

(** ** The two letters before the last one, modulo what follows *)
Definition orbit3 (b n Y : N) : option N :=
  let B := 2 ^ b in
  if Y mod B + 1 =? n then
    (if Y / B mod B + 1 =? n then None else Some ((Y / 4 * 4 + (Y / B mod B + 1) * B) mod (B * B)))
  else Some ((Y / 2 * 2 + (Y mod B + 1)) mod (B * B)).
Fixpoint comes_back (fuel : nat) (seen : list N) (b n Y : N) : bool :=
  match fuel with
  | O => false
  | S f => if existsb (N.eqb Y) seen then true
           else match orbit3 b n Y with None => false | Some Y' => comes_back f (Y :: seen) b n Y' end
  end.
Lemma comes_back_sound fuel seen b n Y : comes_back fuel seen b n Y = true ->
  (forall Z, In Z seen -> exists Z', orbit3 b n Z = Some Z' /\ (In Z' seen \/ Z' = Y)) ->
  exists all, In Y all /\ forall Z, In Z all -> exists Z', orbit3 b n Z = Some Z' /\ In Z' all.
Proof.
  revert seen Y. induction fuel as [|f IH]; intros seen Y H Hs; [discriminate|]. cbn [comes_back] in H.
  destruct (existsb (N.eqb Y) seen) eqn:E.
  - apply existsb_exists in E. destruct E as (Y1 & Hin & E). apply N.eqb_eq in E. subst Y1. exists seen. split; [exact Hin|].
    intros Z HZ. destruct (Hs Z HZ) as (Z' & E & H1). exists Z'. split; [exact E|]. destruct H1 as [H1|H1]; [exact H1|rewrite H1; exact Hin].
  - destruct (orbit3 b n Y) as [Y'|] eqn:EY; [|discriminate].
    destruct (IH (Y :: seen) Y' H) as (all & H1 & H2).
    + intros Z [<-|HZ].
      * exists Y'. split; [exact EY|right; reflexivity].
      * destruct (Hs Z HZ) as (Z' & E1 & H1). exists Z'. split; [exact E1|]. left. destruct H1 as [H1|H1]; [right; exact H1|left; symmetry; exact H1].
    + exists (Y :: seen ++ all). split; [left; reflexivity|]. intros Z [<-|HZ].
      * exists Y'. split; [exact EY|right; apply in_or_app; right; exact H1].
      * apply in_app_or in HZ. destruct HZ as [HZ|HZ].
        -- destruct (Hs Z HZ) as (Z' & E1 & H3). exists Z'. split; [exact E1|].
           destruct H3 as [H3|H3]; [right; apply in_or_app; left; exact H3|left; symmetry; exact H3].
        -- destruct (H2 Z HZ) as (Z' & E1 & H3). exists Z'. split; [exact E1|right; apply in_or_app; right; exact H3].
Qed.
Inductive orbit (b n : N) : N -> Prop :=
| orbit_start : orbit b n (alternating b / 2 * 2)
| orbit_next Z Z' : orbit b n Z -> orbit3 b n Z = Some Z' -> orbit b n Z'.
Lemma orbit_table : forallb (fun b => comes_back (N.to_nat 1000) [] b (alternating b + 1) (alternating b / 2 * 2)) (range_incl 2 21) = true.
Proof. vm_compute. reflexivity. Qed.
Lemma orbit_goes_on b n Z : 2 <= b <= 21 -> n = alternating b + 1 -> orbit b n Z -> exists Z', orbit3 b n Z = Some Z'.
Proof.
  intros Hb -> HZ. pose proof orbit_table as T. rewrite forallb_forall in T. specialize (T b ltac:(apply in_range_incl; lia)).
  apply comes_back_sound in T; [|intros ? []]. destruct T as (all & H1 & H2).
  assert (In Z all).
  { induction HZ as [|Z Z' _ IH E]; [exact H1|]. destruct (H2 Z IH) as (Z1 & E1 & H3). rewrite E in E1. injection E1 as <-. exact H3. }
  destruct (H2 Z H) as (Z' & E & _). exists Z'. exact E.
Qed.

(** ** What every item looks like *)
Section Good.
  Context (p : profile) (n : N) (Hn : 3 <= n < 2 ^ 32).
  Notation b := (letter_bits n).
  Notation B := (2 ^ b).
  Definition potential (k : tkey) : N := tk_size k * 2 ^ 64 + tk_data k.
  Inductive good : tkey -> Prop :=
  | good_0 : good (mk_tkey 0 0)
  | good_1 i : i < n -> good (mk_tkey 1 i)
  | good_2 y i j : i < n -> y * B + i < 2 ^ 64 -> j <= b -> y mod B = alternating j -> (special n -> y = alternating j) ->
      good (mk_tkey 2 (y * B + i))
  | good_3 y i : special n -> b <= 21 -> i < n -> y * B + i < 2 ^ 64 -> orbit b n (y mod (B * B)) -> good (mk_tkey 3 (y * B + i)).

  Lemma alt_small j : j <= b -> alternating j + 1 < B.
  Proof.
    intros Hj. pose proof (alt_mono j b Hj). pose proof (alt_bound b). pose proof (b_low n Hn).
    assert (2 ^ 2 <= B) by (apply N.pow_le_mono_r; lia). change (2 ^ 2) with 4 in *. lia.
  Qed.
  Lemma hit_special j : j <= b -> alternating j + 1 = n -> special n /\ j = b.
  Proof.
    intros Hj E. destruct (N.eq_dec j b) as [->|Hne]; [split; [unfold special; lia|reflexivity]|]. exfalso.
    pose proof (b_low n Hn) as H0. pose proof (B_le_n n Hn) as H1.
    pose proof (alt_mono j (b - 1) ltac:(lia)) as H2. pose proof (alt_bound (b - 1)) as H3.
    assert (E2 : 2 * 2 ^ (b - 1) = B) by (rewrite <- N.pow_succ_r'; f_equal; lia). rewrite E2 in H3.
    assert (E3 : n = 3) by lia. rewrite E3 in H2. change (alternating (letter_bits 3 - 1)) with 1 in H2. lia.
  Qed.
  Lemma depth_special : b <= 21 -> 3 <= max_depth n.
  Proof.
    intros Hb. rewrite max_depth_bits, bits_eq.
    assert (H : forallb (fun b => 3 <=? depth_of_bits b) (range_incl 2 21) = true) by (vm_compute; reflexivity).
    rewrite forallb_forall in H. apply N.leb_le. apply H. apply in_range_incl. pose proof (b_low n Hn). lia.
  Qed.
  Lemma depth_large : 22 <= b -> max_depth n = 2.
  Proof.
    intros Hb. rewrite max_depth_bits, bits_eq. pose proof (b_high n Hn).
    assert (H1 : forallb (fun b => depth_of_bits b =? 2) (range_incl 22 32) = true) by (vm_compute; reflexivity).
    rewrite forallb_forall in H1. apply N.eqb_eq. apply H1. apply in_range_incl. lia.
  Qed.
  Lemma mod_tower x k : k + b <= 64 -> (x mod 2 ^ (64 - b)) mod 2 ^ k = x mod 2 ^ k.
  Proof.
    intros Hk. replace (2 ^ (64 - b)) with (2 ^ k * 2 ^ (64 - b - k)) by (rewrite <- N.pow_add_r; f_equal; lia).
    rewrite N.mod_mul_r by (apply N.pow_nonzero; lia). rewrite N.mul_comm, N.mod_add, N.mod_mod by (apply N.pow_nonzero; lia). reflexivity.
  Qed.
  (** an addition of multiples of B *)
  Lemma sum_cases u v : let x := u + v in
    (uadd 64 p (u * B) (v * B) = Panic /\ overflow_checks p = true /\ 2 ^ 64 <= x * B)
    \/ (uadd 64 p (u * B) (v * B) = Ret ((x mod 2 ^ (64 - b)) * B) /\ (overflow_checks p = true -> x mod 2 ^ (64 - b) = x /\ x * B < 2 ^ 64)).
  Proof.
    cbv zeta. assert (E : u * B + v * B = (u + v) * B) by lia. pose proof (two64 n Hn) as T. pose proof (pow2_pos (64 - b)).
    unfold uadd, overflowed. rewrite E.
    destruct (N.ltb_spec ((u + v) * B) (2 ^ 64)) as [H1|H1].
    - right. assert (u + v < 2 ^ (64 - b)) by (rewrite T in H1; nia). rewrite N.mod_small by assumption. split; [reflexivity|]. split; [reflexivity|assumption].
    - destruct (overflow_checks p) eqn:Hp; [left; repeat split; lia|]. right. split; [|discriminate]. f_equal.
      rewrite T. rewrite N.mul_mod_distr_r by (try apply N.pow_nonzero; lia). reflexivity.
  Qed.
  Lemma wrapped_room x i : i < B -> (x mod 2 ^ (64 - b)) * B + i < 2 ^ 64.
  Proof. intros Hi. rewrite (two64 n Hn). pose proof (N.mod_lt x (2 ^ (64 - b)) ltac:(apply N.pow_nonzero; lia)). nia. Qed.
  (** one step of the second letter *)
  Lemma front_mod y : (y / 2 * 2 + (y mod B + 1)) mod B = ((y mod B) / 2 * 2 + (y mod B + 1)) mod B.
  Proof.
    pose proof (b_low n Hn). assert (HB : B = 2 * 2 ^ (b - 1)) by (rewrite <- N.pow_succ_r'; f_equal; lia). pose proof (pow2_pos (b - 1)).
    pose proof (N.div_mod y B ltac:(lia)) as E. set (c := y mod B) in *. set (q := y / B) in *.
    assert (E2 : y / 2 = c / 2 + q * 2 ^ (b - 1)).
    { rewrite E, HB. replace (2 * 2 ^ (b - 1) * q + c) with (c + q * 2 ^ (b - 1) * 2) by lia. apply N.div_add. lia. }
    rewrite E2. replace ((c / 2 + q * 2 ^ (b - 1)) * 2 + (c + 1)) with (c / 2 * 2 + (c + 1) + q * B) by (rewrite HB; lia).
    apply N.mod_add. lia.
  Qed.
  Lemma alt_step j : j < b -> (alternating j / 2 * 2 + (alternating j + 1)) mod B = alternating (j + 1).
  Proof.
    intros Hj. rewrite <- alt_S. apply N.mod_small. pose proof (alt_small (j + 1) ltac:(lia)). lia.
  Qed.
  Lemma alt_turn : (alternating b / 2 * 2 + (alternating b + 1)) mod B = alternating (b - 1).
  Proof.
    rewrite <- alt_S. pose proof (b_low n Hn). replace (b + 1) with (b - 1 + 2) by lia. rewrite alt_wrap.
    replace (b - 1 + 1) with b by lia. replace (B + alternating (b - 1)) with (alternating (b - 1) + 1 * B) by lia.
    rewrite N.mod_add by (apply N.pow_nonzero; discriminate). apply N.mod_small. pose proof (alt_small (b - 1) ltac:(lia)). lia.
  Qed.
  Lemma front_grows y : y < y / 2 * 2 + (y mod B + 1).
  Proof.
    pose proof (b_low n Hn). assert (HB : B = 2 * 2 ^ (b - 1)) by (rewrite <- N.pow_succ_r'; f_equal; lia). pose proof (pow2_pos (b - 1)).
    pose proof (N.div_mod y 2 ltac:(lia)) as E. pose proof (N.mod_lt y 2 ltac:(lia)).
    assert (y mod 2 <= y mod B); [|lia].
    replace (y mod 2) with ((y mod B) mod 2).
    - apply N.mod_le. lia.
    - rewrite HB, N.mod_mul_r by lia. rewrite N.mul_comm, N.mod_add, N.mod_mod by lia. reflexivity.
  Qed.
  Lemma alt_32 j : j <= b -> alternating j + 2 < 2 ^ 32.
  Proof.
    intros Hj. pose proof (alt_mono j 32) as H. pose proof (b_high n Hn) as H1. change (alternating 32) with 2863311530 in H.
    specialize (H ltac:(lia)). lia.
  Qed.
  (** the last letter *)
  Lemma good_inc s y i : 1 <= s -> i + 1 < n -> y * B + i < 2 ^ 64 -> good (mk_tkey s (y * B + (i + 1))) ->
    exists k', next_key p n (mk_tkey s (y * B + i)) = Ret (Some k') /\ good k' /\ potential (mk_tkey s (y * B + i)) < potential k'.
  Proof.
    intros Hs Hi Hd G. exists (mk_tkey s (y * B + (i + 1))). split; [apply next_inc; assumption|]. split; [exact G|].
    unfold potential. cbn [tk_size tk_data]. clear. generalize (y * B) (s * 2 ^ 64). intros. lia.
  Qed.
  Lemma grows y y' i s : i < B -> y < y' -> potential (mk_tkey s (y * B + i)) < potential (mk_tkey s (y' * B)).
  Proof. intros Hi Hy. unfold potential. cbn [tk_size tk_data]. nia. Qed.
  Lemma longer s d d' : d < 2 ^ 64 -> potential (mk_tkey s d) < potential (mk_tkey (s + 1) d').
  Proof. intros Hd. unfold potential. cbn [tk_size tk_data]. lia. Qed.

  Lemma orbit3_mod y : orbit3 b n (y mod (B * B)) = orbit3 b n y.
  Proof.
    pose proof (b_low n Hn) as Hb. assert (HB : B <> 0) by (apply N.pow_nonzero; discriminate).
    assert (HBB : B * B <> 0) by (apply N.neq_mul_0; split; exact HB).
    assert (H4 : B * B = 4 * (2 ^ (b - 2) * B)).
    { rewrite N.mul_assoc. f_equal. change 4 with (2 ^ 2). rewrite <- N.pow_add_r. f_equal. lia. }
    assert (E1 : (y mod (B * B)) mod B = y mod B).
    { rewrite N.mod_mul_r by exact HB. rewrite N.mul_comm, N.mod_add, N.mod_mod by exact HB. reflexivity. }
    assert (E2 : (y mod (B * B)) / B mod B = y / B mod B).
    { rewrite N.mod_mul_r by exact HB. rewrite N.mul_comm, N.div_add by exact HB. rewrite (N.div_small (y mod B)) by (apply N.mod_lt; exact HB).
      rewrite N.add_0_l, N.mod_mod by exact HB. reflexivity. }
    assert (E3 : forall m v, m <> 0 -> (exists q, B * B = m * q) -> ((y mod (B * B)) / m * m + v) mod (B * B) = (y / m * m + v) mod (B * B)).
    { intros m v Hm (q & Eq). pose proof (N.div_mod y (B * B) HBB) as E. set (r := y mod (B * B)) in *. set (t := y / (B * B)) in *.
      assert (Ed : y / m = r / m + t * q).
      { rewrite E, Eq. replace (m * q * t + r) with (r + t * q * m) by (clear; lia). apply N.div_add. exact Hm. }
      rewrite Ed. replace ((r / m + t * q) * m + v) with (r / m * m + v + t * (B * B)) by (rewrite Eq; generalize (r / m); clear; intros; lia).
      symmetry. apply N.mod_add. exact HBB. }
    unfold orbit3. rewrite E1, E2. rewrite (E3 2), (E3 4).
    - reflexivity.
    - discriminate.
    - eexists. exact H4.
    - discriminate.
    - exists (2 * (2 ^ (b - 2) * B)). rewrite N.mul_assoc. exact H4.
  Qed.
  Lemma four_grows y c : y < y / 4 * 4 + (c + 1) * B.
  Proof.
    pose proof (b_low n Hn) as Hb. assert (HB : 2 ^ 2 <= B) by (apply N.pow_le_mono_r; [discriminate|exact Hb]). change (2 ^ 2) with 4 in HB.
    pose proof (N.div_mod y 4 ltac:(discriminate)) as E. pose proof (N.mod_lt y 4 ltac:(discriminate)) as R.
    revert E R HB. generalize (y / 4) (y mod 4) B. clear. intros. nia.
  Qed.

  Lemma good_next k : good k ->
    (next_key p n k = Ret None /\ special n /\ 22 <= b) \/
    (overflow_checks p = true /\ next_key p n k = Panic) \/
    (exists k', next_key p n k = Ret (Some k') /\ good k' /\ (overflow_checks p = true -> potential k < potential k')).
  Proof.
    pose proof (b_low n Hn) as Hbl. pose proof (b_high n Hn) as Hbh. pose proof (n_lt_B n) as HnB.
    assert (HB32 : B <= 2 ^ 32) by (apply N.pow_le_mono_r; [discriminate|exact Hbh]).
    intros G. destruct G as [|i Hi|y i j Hi Hd Hj Hy Hsp|y i Hsp Hb21 Hi Hd Horb].
    - right. right. exists (mk_tkey 1 0). split; [|split].
      + pose proof (max_depth_ge_2 n ltac:(lia)). unfold next_key. apply (run_loop_steps 1); [|cbn; lia]. cbn [steps]. unfold bi_next_step.
        cbn [tk_size]. change (0 =? 0) with true. cbv iota. destruct (N.eqb_spec 0 (max_depth n)); [lia|].
        rewrite push_1 by (exact Hn || lia). reflexivity.
      + apply good_1. lia.
      + intros _. reflexivity.
    - right. right. destruct (N.eq_dec (i + 1) n) as [E|E].
      + exists (mk_tkey 2 0). split; [|split].
        * replace i with (n - 1) by lia. apply next_1. exact Hn.
        * apply (good_2 0 0 0); try (clear - Hn; lia); try reflexivity.
        * intros _. apply (longer 1 i 0). lia.
      + destruct (good_inc 1 0 i) as (k' & E1 & E2 & E3); try lia.
        * rewrite N.mul_0_l, N.add_0_l. apply good_1. lia.
        * exists k'. rewrite N.mul_0_l, N.add_0_l in *. auto.
    - destruct (N.eq_dec (i + 1) n) as [E|E].
      2:{ right. right. destruct (good_inc 2 y i) as (k' & E1 & E2 & E3).
          - discriminate.
          - clear - Hi E. lia.
          - exact Hd.
          - apply (good_2 y (i + 1) j); try assumption; [clear - Hi E; lia|]. apply (room n Hn i); try assumption; clear - Hi E HnB; lia.
          - exists k'. auto. }
      replace i with (n - 1) in * by (clear - E; lia). clear i E Hi.
      pose proof (alt_small j Hj) as Hs. pose proof (alt_32 j Hj) as H32.
      pose proof (next_2 p n Hn y Hd) as N2. cbv zeta in N2. pose proof (front_mod y) as Fm. pose proof (front_grows y) as Fg.
      rewrite Hy in N2, Fm, Fg. specialize (N2 Hs H32).
      destruct (N.eqb_spec (alternating j + 1) n) as [E|E].
      + destruct (hit_special j Hj E) as (Hsp' & ->). destruct (N.lt_ge_cases 21 b) as [Hb|Hb].
        * left. rewrite depth_large in N2 by (clear - Hb; lia). split; [exact N2|]. split; [exact Hsp'|]. clear - Hb. lia.
        * right. right. pose proof (depth_special Hb) as Hd3. destruct (N.eqb_spec (max_depth n) 2) as [Em|_]; [rewrite Em in Hd3; exfalso; apply Hd3; reflexivity|].
          eexists. split; [exact N2|]. split.
          -- rewrite <- (N.add_0_r (y / 2 * 2 * B)). apply good_3; try assumption.
             ++ clear - Hn. lia.
             ++ rewrite N.add_0_r. pose proof (even_part y) as He. revert He Hd. generalize (y / 2 * 2). clear. intros. nia.
             ++ rewrite (Hsp Hsp'). pose proof (even_part (alternating b)) as He. rewrite N.mod_small; [apply orbit_start|].
                revert He Hs. generalize (alternating b / 2 * 2) (alternating b) B. clear. intros. nia.
          -- intros _. apply (longer 2). exact Hd.
      + destruct (sum_cases (y / 2 * 2) (alternating j + 1)) as [(E1 & E2 & _)|(E1 & E2)]; rewrite E1 in N2; cbn [bind] in N2.
        * right. left. split; assumption.
        * right. right. eexists. split; [exact N2|]. split.
          -- rewrite <- (N.add_0_r (_ * B)).
             assert (Gs : forall j', j' <= b -> (y / 2 * 2 + (alternating j + 1)) mod B = alternating j' ->
               (special n -> (y / 2 * 2 + (alternating j + 1)) mod 2 ^ (64 - b) = alternating j') ->
               good (mk_tkey 2 ((y / 2 * 2 + (alternating j + 1)) mod 2 ^ (64 - b) * B + 0))).
             { intros j' Hj' Em Es. apply (good_2 _ 0 j').
               - clear - Hn. lia.
               - apply wrapped_room. clear - HnB. lia.
               - exact Hj'.
               - rewrite mod_tower by (clear - Hbh; lia). exact Em.
               - exact Es. }
             destruct (N.eq_dec j b) as [Ej|Ej].
             ++ subst j. apply (Gs (b - 1)); [clear; lia|rewrite Fm; apply alt_turn|]. intros Hsp'. exfalso. apply E. symmetry. exact Hsp'.
             ++ assert (Hlt : j < b) by (clear - Hj Ej; lia). apply (Gs (j + 1)); [clear - Hlt; lia|rewrite Fm; apply alt_step; exact Hlt|].
                intros Hsp'. rewrite (Hsp Hsp'), <- alt_S. apply N.mod_small. pose proof (alt_small (j + 1) ltac:(clear - Hlt; lia)) as Ha.
                assert (HBm : B <= 2 ^ (64 - b)) by (apply N.pow_le_mono_r; [discriminate|clear - Hbh; lia]).
                revert Ha HBm. generalize (alternating (j + 1)) B (2 ^ (64 - b)). clear. intros. lia.
          -- intros Hp. destruct (E2 Hp) as (-> & _). apply grows; [clear - HnB Hn; lia|exact Fg].
    - destruct (N.eq_dec (i + 1) n) as [E|E].
      2:{ right. right. destruct (good_inc 3 y i) as (k' & E1 & E2 & E3).
          - discriminate.
          - clear - Hi E. lia.
          - exact Hd.
          - apply (good_3 y (i + 1)); try assumption; [clear - Hi E; lia|]. apply (room n Hn i); try assumption; clear - Hi E HnB; lia.
          - exists k'. auto. }
      replace i with (n - 1) in * by (clear - E; lia). clear i E Hi.
      destruct (orbit_goes_on b n _ ltac:(clear - Hbl Hb21; lia) Hsp Horb) as (Z' & EZ). pose proof (orbit_next _ _ _ _ Horb EZ) as Horb'.
      rewrite orbit3_mod in EZ. unfold orbit3 in EZ. pose proof (next_3 p n Hn y Hb21 Hd) as N3. cbv zeta in N3.
      pose proof (front_grows y) as Fg. pose proof (four_grows y (y / B mod B)) as F4.
      assert (Gs : forall x, x mod (B * B) = Z' -> good (mk_tkey 3 (x mod 2 ^ (64 - b) * B))).
      { intros x Ex. rewrite <- (N.add_0_r (_ * B)). apply good_3; try assumption.
        - clear - Hn. lia.
        - apply wrapped_room. clear - HnB. lia.
        - rewrite <- N.pow_add_r. rewrite mod_tower by (clear - Hb21; lia). rewrite N.pow_add_r, Ex. exact Horb'. }
      revert N3 EZ Fg F4. generalize (y mod B) (y / B mod B). intros c1 c2 N3 EZ Fg F4.
      destruct (N.eqb_spec (c1 + 1) n) as [E|E].
      + destruct (N.eqb_spec (c2 + 1) n) as [E'|E']; [discriminate|]. injection EZ as EZ. specialize (N3 (fun _ => E')).
        rewrite N.mul_assoc in N3.
        destruct (sum_cases (y / 4 * 4) ((c2 + 1) * B)) as [(E1 & E2 & _)|(E1 & E2)]; rewrite E1 in N3; cbn [bind] in N3.
        * right. left. split; assumption.
        * right. right. eexists. split; [exact N3|]. split; [apply Gs; exact EZ|].
          intros Hp. destruct (E2 Hp) as (-> & _). apply grows; [clear - HnB Hn; lia|exact F4].
      + injection EZ as EZ. specialize (N3 (fun H => False_ind _ (E H))).
        destruct (sum_cases (y / 2 * 2) (c1 + 1)) as [(E1 & E2 & _)|(E1 & E2)]; rewrite E1 in N3; cbn [bind] in N3.
        * right. left. split; assumption.
        * right. right. eexists. split; [exact N3|]. split; [apply Gs; exact EZ|].
          intros Hp. destruct (E2 Hp) as (-> & _). apply grows; [clear - HnB Hn; lia|exact Fg].
  Qed.
End Good.

(** ** Runs of the iterator *)
Section Runs.
  Context (p : profile) (n : N) (Hn : 3 <= n < 2 ^ 32).
  Notation b := (letter_bits n).
  Notation B := (2 ^ b).
  Lemma take_step k m : bi_take p n (bi_of n (Some k)) (S m)
    = (nc <- next_key p n k ;; xs <- bi_take p n (bi_of n nc) m ;; Ret (Some k :: xs)).
  Proof. cbn [bi_take]. rewrite bi_next_key. destruct (next_key p n k); reflexivity. Qed.
  Definition fine (x : option tkey) : Prop :=
    match x with None => special n /\ 22 <= b | Some k => good n k end.
  Lemma take_good m k : good n k ->
    (exists xs, bi_take p n (bi_of n (Some k)) m = Ret xs /\ length xs = m /\ Forall fine xs)
    \/ (overflow_checks p = true /\ bi_take p n (bi_of n (Some k)) m = Panic).
  Proof.
    revert k. induction m as [|m IH]; intros k G.
    - left. exists []. repeat split. constructor.
    - rewrite take_step. destruct (good_next p n Hn k G) as [(-> & H1 & H2)|[(H1 & ->)|(k' & -> & G' & _)]]; cbn [bind].
      + left. unfold bi_of. rewrite bi_take_none. cbn [bind]. exists (Some k :: repeat None m). split; [reflexivity|].
        split; [cbn; rewrite repeat_length; reflexivity|]. constructor; [exact G|]. apply Forall_forall. intros x Hx.
        apply repeat_spec in Hx. subst x. split; assumption.
      + right. split; [exact H1|reflexivity].
      + destruct (IH k' G') as [(xs & -> & H1 & H2)|(H1 & ->)]; cbn [bind].
        * left. exists (Some k :: xs). split; [reflexivity|]. split; [cbn; congruence|]. constructor; assumption.
        * right. split; [exact H1|reflexivity].
  Qed.
  Lemma good_bound k : good n k -> potential k < 4 * 2 ^ 64.
  Proof.
    unfold potential. intros [|i Hi|y i j Hi Hd Hj Hy Hsp|y i Hsp Hb21 Hi Hd Horb]; cbn [tk_size tk_data]; lia.
  Qed.
  Lemma take_panics : overflow_checks p = true -> ~ (special n /\ 22 <= b) -> forall k, good n k ->
    exists m, bi_take p n (bi_of n (Some k)) m = Panic.
  Proof.
    intros Hp Hno k G. remember (4 * 2 ^ 64 - potential k) as f eqn:Ef. revert k G Ef.
    induction f as [f IH] using (well_founded_induction N.lt_wf_0). intros k G ->.
    destruct (good_next p n Hn k G) as [(_ & H1)|[(H1 & H2)|(k' & H1 & G' & H2)]].
    - exfalso. apply Hno. exact H1.
    - exists 1%nat. rewrite take_step, H2. reflexivity.
    - specialize (H2 Hp). pose proof (good_bound k' G') as H3. destruct (IH (4 * 2 ^ 64 - potential k') ltac:(lia) k' G' eq_refl) as (m & Em).
      exists (S m). rewrite take_step, H1. cbn [bind]. rewrite Em. reflexivity.
  Qed.

  (** from one key to another *)
  Definition reach (k : tkey) (m : nat) (k' : tkey) : Prop :=
    exists xs, length xs = m /\ ~ In None xs /\ forall r, bi_take p n (bi_of n (Some k)) (m + r) = (ys <- bi_take p n (bi_of n (Some k')) r ;; Ret (xs ++ ys)).
  Lemma reach_0 k : reach k 0 k.
  Proof. exists []. split; [reflexivity|]. split; [intros []|]. intros r. cbn [Nat.add app]. destruct (bi_take p n (bi_of n (Some k)) r); reflexivity. Qed.
  Lemma reach_1 k k' : next_key p n k = Ret (Some k') -> reach k 1 k'.
  Proof. intros E. exists [Some k]. split; [reflexivity|]. split; [intros [H|[]]; discriminate|]. intros r. cbn [Nat.add]. rewrite take_step, E. reflexivity. Qed.
  Lemma reach_trans k1 k2 k3 m1 m2 : reach k1 m1 k2 -> reach k2 m2 k3 -> reach k1 (m1 + m2) k3.
  Proof.
    intros (xs & L1 & N1 & H1) (ys & L2 & N2 & H2). exists (xs ++ ys). split; [rewrite app_length; congruence|].
    split; [intros H; apply in_app_or in H; destruct H; auto|]. intros r.
    rewrite <- Nat.add_assoc, H1, H2. destruct (bi_take p n (bi_of n (Some k3)) r); cbn [bind]; rewrite <- ?app_assoc; reflexivity.
  Qed.
  Lemma reach_inc s y i : 1 <= s -> y * B + (n - 1) < 2 ^ 64 -> N.of_nat i < n -> reach (mk_tkey s (y * B)) i (mk_tkey s (y * B + N.of_nat i)).
  Proof.
    intros Hs Hd. induction i as [|i IH]; intros Hi.
    - rewrite N.add_0_r. apply reach_0.
    - rewrite <- Nat.add_1_r. eapply reach_trans; [apply IH; lia|]. apply reach_1.
      replace (N.of_nat (i + 1)) with (N.of_nat i + 1) by lia. apply next_inc; try assumption; lia.
  Qed.
  Lemma fronts_mod j : exists i, i <= b /\ fronts b j mod B = alternating i.
  Proof.
    induction j as [|j (i & Hi & E)].
    - exists 0. split; [clear; lia|]. apply N.mod_small. apply pow2_pos.
    - cbn [fronts]. cbv zeta. rewrite (front_mod n Hn), E. destruct (N.eq_dec i b) as [->|Hne].
      + exists (b - 1). split; [clear; lia|apply (alt_turn n Hn)].
      + exists (i + 1). split; [clear - Hi Hne; lia|apply alt_step; [exact Hn|clear - Hi Hne; lia]].
  Qed.
  Lemma fronts_alt j : N.of_nat j <= b + 1 -> fronts b j = alternating (N.of_nat j).
  Proof.
    induction j as [|j IH]; [reflexivity|]. intros Hj. cbn [fronts]. cbv zeta. rewrite IH by lia.
    pose proof (alt_small n Hn (N.of_nat j) ltac:(lia)) as Ha. rewrite N.mod_small by lia. rewrite <- alt_S. f_equal. lia.
  Qed.
  Lemma fronts_grow j : fronts b j < fronts b (S j).
  Proof. cbn [fronts]. cbv zeta. apply front_grows. exact Hn. Qed.
  Lemma fronts_outside j : b < N.of_nat j -> B <= fronts b j.
  Proof.
    intros Hj. induction j as [|j IH]; [lia|]. destruct (N.eq_dec (N.of_nat j) b) as [E|E].
    - rewrite fronts_alt by lia. replace (N.of_nat (S j)) with (b - 1 + 2) by (pose proof (b_low n Hn); lia). rewrite alt_wrap.
      replace (b - 1 + 1) with b by (pose proof (b_low n Hn); lia). apply N.le_add_r.
    - pose proof (fronts_grow j). specialize (IH ltac:(lia)). eapply N.le_trans; [exact IH|]. apply N.lt_le_incl. exact H.
  Qed.
  (** the second letters, one after the other *)
  Lemma next_front j : (special n -> N.of_nat j < b) -> fronts b (S j) * B < 2 ^ 64 ->
    next_key p n (mk_tkey 2 (fronts b j * B + (n - 1))) = Ret (Some (mk_tkey 2 (fronts b (S j) * B))).
  Proof.
    intros Hsp Hd. destruct (fronts_mod j) as (i & Hi & E). pose proof (fronts_grow j) as Hg.
    pose proof (alt_small n Hn i Hi) as Hs. pose proof (alt_32 n Hn i Hi) as H32. pose proof (n_lt_B n) as HnB.
    assert (Hd' : fronts b j * B + (n - 1) < 2 ^ 64).
    { revert Hd Hg HnB. generalize (fronts b j) (fronts b (S j)) B. clear. intros. nia. }
    pose proof (next_2 p n Hn (fronts b j) Hd') as N2. cbv zeta in N2. rewrite E in N2. rewrite N2 by assumption.
    destruct (N.eqb_spec (alternating i + 1) n) as [En|En].
    - exfalso. destruct (hit_special n Hn i Hi En) as (Hs' & ->). specialize (Hsp Hs'). rewrite fronts_alt in E by lia.
      pose proof (alt_small n Hn (N.of_nat j) ltac:(lia)) as Ha. rewrite N.mod_small in E by lia.
      assert (alternating (N.of_nat j) < alternating b); [|lia].
      apply N.lt_le_trans with (alternating (N.of_nat j + 1)); [rewrite alt_S; generalize (alternating (N.of_nat j) / 2 * 2); lia|apply alt_mono; lia].
    - cbn [fronts] in *. cbv zeta in *. rewrite E in *. rewrite N.mul_add_distr_r in Hd. rewrite uadd_ok by exact Hd. cbn [bind].
      rewrite <- N.mul_add_distr_r. reflexivity.
  Qed.
  Lemma reach_front j : (special n -> N.of_nat j <= b) -> fronts b j * B < 2 ^ 64 ->
    reach (mk_tkey 0 0) (1 + N.to_nat n + N.to_nat n * j) (mk_tkey 2 (fronts b j * B)).
  Proof.
    pose proof (n_lt_B n) as HnB. induction j as [|j IH]; intros Hsp Hd.
    - rewrite Nat.mul_0_r, Nat.add_0_r. cbn [fronts]. rewrite N.mul_0_l. eapply reach_trans.
      + apply reach_1.
        pose proof (max_depth_ge_2 n ltac:(lia)); unfold next_key; apply (run_loop_steps 1); [|cbn; lia]; cbn [steps]; unfold bi_next_step;
          cbn [tk_size]; change (0 =? 0) with true; cbv iota; destruct (N.eqb_spec 0 (max_depth n)); [lia|];
          rewrite push_1 by (exact Hn || lia); reflexivity.
      + replace (N.to_nat n) with (N.to_nat (n - 1) + 1)%nat by lia. eapply reach_trans.
        * pose proof (reach_inc 1 0 (N.to_nat (n - 1))) as R. rewrite N.mul_0_l, N.add_0_l, N2Nat.id in R. apply R; lia.
        * apply reach_1. apply next_1. exact Hn.
    - pose proof (fronts_grow j) as Hg.
      assert (Hd' : fronts b j * B + (n - 1) < 2 ^ 64).
      { revert Hd Hg HnB. generalize (fronts b j) (fronts b (S j)) B. clear. intros. nia. }
      replace (1 + N.to_nat n + N.to_nat n * S j)%nat with (1 + N.to_nat n + N.to_nat n * j + (N.to_nat (n - 1) + 1))%nat by (clear - Hn; lia).
      eapply reach_trans; [apply IH; [intros H; specialize (Hsp H); lia|]|].
      + eapply N.le_lt_trans; [apply N.le_add_r|exact Hd'].
      + eapply reach_trans.
        * apply reach_inc; [discriminate|exact Hd'|]. rewrite N2Nat.id. clear - Hn. lia.
        * rewrite N2Nat.id. apply reach_1. apply next_front; [intros H; specialize (Hsp H); lia|exact Hd].
  Qed.
  Lemma reach_item k m k' nc : reach k m k' -> next_key p n k' = Ret nc ->
    exists xs, length xs = m /\ bi_take p n (bi_of n (Some k)) (m + 1) = Ret (xs ++ [Some k']).
  Proof. intros (xs & L & _ & H) E. exists xs. split; [exact L|]. rewrite H. rewrite take_step, E. reflexivity. Qed.
  Lemma reach_end k m k' : reach k m k' -> next_key p n k' = Ret None ->
    exists xs, length xs = (m + 1)%nat /\ ~ In None xs /\ forall r, bi_take p n (bi_of n (Some k)) (m + 1 + r) = Ret (xs ++ repeat None r).
  Proof.
    intros (xs & L & Nx & H) E. exists (xs ++ [Some k']). split; [rewrite app_length, L; reflexivity|]. split.
    - intros Hi. apply in_app_or in Hi. destruct Hi as [Hi|[Hi|[]]]; [auto|discriminate].
    - intros r. rewrite <- Nat.add_assoc, H. cbn [Nat.add]. rewrite take_step, E. cbn [bind]. unfold bi_of. rewrite bi_take_none. cbn [bind].
      rewrite <- app_assoc. reflexivity.
  Qed.
  Lemma special_end : special n -> 22 <= b -> exists xs, len xs = 1 + n + n * (b + 1) /\ ~ In None xs
    /\ forall r, bi_take p n (tb_iter_keys n) (length xs + r) = Ret (xs ++ repeat None r).
  Proof.
    intros Hs Hb. pose proof (n_lt_B n) as HnB. pose proof (b_high n Hn) as Hbh. pose proof (alt_small n Hn b ltac:(clear; lia)) as Ha.
    assert (HB : B <= 2 ^ 32) by (apply N.pow_le_mono_r; [discriminate|exact Hbh]).
    set (j := N.to_nat b). assert (Hj : N.of_nat j = b) by apply N2Nat.id.
    assert (Ef : fronts b j = alternating b) by (rewrite fronts_alt; rewrite Hj; [reflexivity|clear; lia]).
    assert (Hd : fronts b j * B + (n - 1) < 2 ^ 64).
    { rewrite Ef. change (2 ^ 64) with (2 ^ 32 * 2 ^ 32). revert Ha HB HnB Hn. generalize (alternating b) B. clear. intros. nia. }
    assert (R : reach (mk_tkey 0 0) (1 + N.to_nat n + N.to_nat n * j + N.to_nat (n - 1)) (mk_tkey 2 (fronts b j * B + (n - 1)))).
    { eapply reach_trans; [apply reach_front|].
      - intros _. rewrite Hj. clear. lia.
      - eapply N.le_lt_trans; [apply N.le_add_r|exact Hd].
      - pose proof (reach_inc 2 (fronts b j) (N.to_nat (n - 1))) as R. rewrite N2Nat.id in R. apply R; [discriminate|exact Hd|clear - Hn; lia]. }
    destruct (reach_end _ _ _ R) as (xs & L & Nx & E).
    - pose proof (next_2 p n Hn (fronts b j) Hd) as N2. cbv zeta in N2. rewrite Ef in N2. rewrite N.mod_small in N2 by (clear - Ha; lia).
      rewrite Ef. rewrite N2; [|exact Ha|apply (alt_32 n Hn); clear; lia]. rewrite <- Hs, N.eqb_refl. rewrite (depth_large n Hn Hb). reflexivity.
    - exists xs. split; [unfold len; rewrite L; clear - Hj Hn; lia|]. split; [exact Nx|]. intros r. rewrite L. apply E.
  Qed.
End Runs.

(** ** Two letters *)
Fixpoint bi_run (p : profile) (n : N) (it : tbiter) (m : nat) : outcome (list (option tkey) * tbiter) :=
  match m with
  | O => Ret ([], it)
  | S m' => r <- bi_next p n it ;; r' <- bi_run p n (fst r) m' ;; Ret (snd r :: fst r', snd r')
  end.
Lemma bi_take_run p n it m xs it' r : bi_run p n it m = Ret (xs, it') ->
  length xs = m /\ bi_take p n it (m + r) = (ys <- bi_take p n it' r ;; Ret (xs ++ ys)).
Proof.
  revert it xs. induction m as [|m IH]; intros it xs E; cbn [bi_run Nat.add bi_take] in *.
  - injection E as <- <-. split; [reflexivity|]. destruct (bi_take p n it r); reflexivity.
  - destruct (bi_next p n it) as [[it1 x]| | |]; try discriminate. cbn [bind fst snd] in *.
    destruct (bi_run p n it1 m) as [[xs1 it2]| | |] eqn:E1; try discriminate. cbn [bind fst snd] in E. injection E as <- <-.
    destruct (IH _ _ E1) as (L & ->). split; [cbn; congruence|]. destruct (bi_take p n it2 r); reflexivity.
Qed.
Definition two_ends (p : profile) : bool :=
  match bi_run p 2 (tb_iter_keys 2) (N.to_nat 8675) with
  | Ret (xs, it) => forallb (fun x => match x with Some _ => true | None => false end) xs
                    && match bi_current it with None => true | Some _ => false end
  | _ => false
  end.
Lemma two_ends_ok p : two_ends p = true.
Proof. destruct p as [[] []]; vm_compute; reflexivity. Qed.
Lemma iter_two p m : exists xs, len xs = 8675 /\ ~ In None xs
  /\ bi_take p 2 (tb_iter_keys 2) (length xs + m) = Ret (xs ++ repeat None m).
Proof.
  pose proof (two_ends_ok p) as T. unfold two_ends in T.
  destruct (bi_run p 2 (tb_iter_keys 2) (N.to_nat 8675)) as [[xs it]| | |] eqn:E; try discriminate.
  apply andb_prop in T. destruct T as (T1 & T2). destruct it as [[k|] d]; [discriminate|].
  destruct (bi_take_run _ _ _ _ _ _ m E) as (L & Ex). exists xs. split; [unfold len; rewrite L; apply N2Nat.id|]. split.
  - intros H. rewrite forallb_forall in T1. specialize (T1 _ H). discriminate.
  - rewrite L, Ex, bi_take_none. reflexivity.
Qed.
