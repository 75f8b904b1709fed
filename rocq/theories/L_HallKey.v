(** Lemmas on the model of hall_key.rs. *)
From Verif Require Import Machine MachineLemmas S_Hall M_HallKey.
Local Open Scope N_scope.

Section Key.
  Context (p : profile).
  Lemma mask_ok b s : b < 64 -> s < 64 -> b + s <= 64 -> make_mask p b s = Ret (N.ones b * 2 ^ s).
  Proof.
    intros Hb Hs Hbs. unfold make_mask, ushl. rewrite (proj2 (N.ltb_lt b 64)), (proj2 (N.ltb_lt s 64)) by assumption. cbn [bind].
    assert (P : 2 ^ b < 2 ^ 64) by (apply N.pow_lt_mono_r; lia). assert (P1 : 2 ^ b <> 0) by (apply N.pow_nonzero; lia).
    rewrite N.mul_1_l, N.mod_small by exact P. unfold usub. rewrite (proj2 (N.leb_le 1 (2 ^ b))) by lia. cbn [bind]. f_equal.
    rewrite N.ones_equiv, <- N.sub_1_r. apply N.mod_small.
    assert (2 ^ (b + s) <= 2 ^ 64) by (apply N.pow_le_mono_r; lia). rewrite N.pow_add_r in *.
    assert (2 ^ s <> 0) by (apply N.pow_nonzero; lia). nia.
  Qed.
  Lemma land_shift k b s : N.land k (N.ones b * 2 ^ s) / 2 ^ s = field k s b.
  Proof.
    unfold field. rewrite <- N.shiftl_mul_pow2, <- !N.shiftr_div_pow2, N.shiftr_land, N.shiftr_shiftl_l, N.sub_diag, N.shiftl_0_r by lia.
    apply N.land_ones.
  Qed.
  Lemma field_small k s b : b <= 32 -> trunc 32 (field k s b) = field k s b.
  Proof.
    intros Hb. unfold trunc, field. apply N.mod_small. assert (2 ^ b <> 0) by (apply N.pow_nonzero; lia).
    assert (2 ^ b <= 2 ^ 32) by (apply N.pow_le_mono_r; lia). pose proof (N.mod_upper_bound (k / 2 ^ s) (2 ^ b) ltac:(lia)). lia.
  Qed.
  Lemma get_key_ok k : hk_get_key p k = Ret (field k 0 18).
  Proof.
    unfold hk_get_key, KEY_BITS. rewrite mask_ok by lia. cbn [bind]. f_equal.
    pose proof (land_shift k 18 0) as L. rewrite N.pow_0_r, N.mul_1_r, N.div_1_r in L. rewrite N.pow_0_r, N.mul_1_r, L. apply field_small. lia.
  Qed.
  Lemma get_lparent_ok k : hk_get_lparent p k = Ret (field k 18 18).
  Proof.
    unfold hk_get_lparent, PARENT_BITS, LPARENT_SHIFT, KEY_BITS. rewrite mask_ok by lia. cbn [bind]. unfold ushr.
    rewrite (proj2 (N.ltb_lt 18 64)) by lia. cbn [bind]. rewrite land_shift, field_small by lia. reflexivity.
  Qed.
  Lemma get_rparent_ok k : hk_get_rparent p k = Ret (field k 36 18).
  Proof.
    unfold hk_get_rparent, RPARENT_SHIFT, PARENT_BITS, KEY_BITS. change (18 + 18) with 36. rewrite mask_ok by lia. cbn [bind]. unfold ushr.
    rewrite (proj2 (N.ltb_lt 36 64)) by lia. cbn [bind]. rewrite land_shift, field_small by lia. reflexivity.
  Qed.
  Lemma size_ok k : hk_size p k = Ret (field k 54 10).
  Proof.
    unfold hk_size, SIZE_SHIFT, SIZE_BITS, PARENT_BITS, KEY_BITS. change (18 + 2 * 18) with 54. rewrite mask_ok by lia. cbn [bind]. unfold ushr.
    rewrite (proj2 (N.ltb_lt 54 64)) by lia. cbn [bind]. rewrite land_shift, field_small by lia. reflexivity.
  Qed.

  Lemma shl_ok a s : s < 64 -> ushl 64 p a s = Ret ((a * 2 ^ s) mod 2 ^ 64).
  Proof. intros H. unfold ushl. rewrite (proj2 (N.ltb_lt s 64)) by exact H. reflexivity. Qed.
  Lemma add_ok a b : a + b < 2 ^ 64 -> uadd 64 p a b = Ret (a + b).
  Proof. intros H. unfold uadd. rewrite (proj2 (N.ltb_lt _ _)) by exact H. reflexivity. Qed.
  Lemma make_ok key lp rp sz (A := 2 ^ 18) : key < 2 ^ 18 -> lp < 2 ^ 18 -> rp < 2 ^ 18 -> sz < 2 ^ 10 ->
    hk_make_key_data p key lp rp sz = Ret (key + lp * 2 ^ 18 + rp * 2 ^ 36 + sz * 2 ^ 54).
  Proof.
    intros H1 H2 H3 H4. unfold hk_make_key_data, SIZE_SHIFT, RPARENT_SHIFT, LPARENT_SHIFT, PARENT_BITS, KEY_BITS.
    change (18 + 2 * 18) with 54. change (18 + 18) with 36. rewrite !shl_ok by lia. cbn [bind]. rewrite !N.mod_small by lia.
    rewrite add_ok by lia. cbn [bind]. rewrite add_ok by lia. cbn [bind]. apply add_ok. lia.
  Qed.
  Lemma fields_ok key lp rp sz : key < 2 ^ 18 -> lp < 2 ^ 18 -> rp < 2 ^ 18 -> sz < 2 ^ 10 ->
    let k := key + lp * 2 ^ 18 + rp * 2 ^ 36 + sz * 2 ^ 54 in
    field k 0 18 = key /\ field k 18 18 = lp /\ field k 36 18 = rp /\ field k 54 10 = sz.
  Proof.
    intros H1 H2 H3 H4 k. unfold field. subst k. repeat split.
    - rewrite N.pow_0_r, N.div_1_r. symmetry. apply (N.mod_unique _ _ (lp + rp * 2 ^ 18 + sz * 2 ^ 36)); lia.
    - rewrite <- (N.div_unique _ (2 ^ 18) (lp + rp * 2 ^ 18 + sz * 2 ^ 36) key) by lia.
      symmetry. apply (N.mod_unique _ _ (rp + sz * 2 ^ 18)); lia.
    - rewrite <- (N.div_unique _ (2 ^ 36) (rp + sz * 2 ^ 18) (key + lp * 2 ^ 18)) by lia.
      symmetry. apply (N.mod_unique _ _ sz); lia.
    - rewrite <- (N.div_unique _ (2 ^ 54) sz (key + lp * 2 ^ 18 + rp * 2 ^ 36)) by lia. apply N.mod_small. lia.
  Qed.
  (** from_letter for every u32 *)
  Lemma letter_data a (c := a mod 2 ^ 28) : a < 2 ^ 32 -> c < 2 ^ 28 - 2 ^ 18 ->
    hk_make_key_data p a 0 a 1 = Ret (a + c * 2 ^ 36 + 2 ^ 54).
  Proof.
    intros Ha Hc. unfold hk_make_key_data, SIZE_SHIFT, RPARENT_SHIFT, LPARENT_SHIFT, PARENT_BITS, KEY_BITS.
    change (18 + 2 * 18) with 54. change (18 + 18) with 36. rewrite !shl_ok by lia. cbn [bind].
    rewrite N.mul_0_l, N.mod_0_l by lia. rewrite N.mul_1_l, (N.mod_small (2 ^ 54)) by lia.
    assert (E : (a * 2 ^ 36) mod 2 ^ 64 = c * 2 ^ 36).
    { change (2 ^ 64) with (2 ^ 28 * 2 ^ 36). rewrite N.mul_mod_distr_r by lia. reflexivity. }
    rewrite E. clearbody c. rewrite add_ok by lia. cbn [bind]. rewrite N.add_0_r, add_ok by lia. cbn [bind]. apply add_ok. lia.
  Qed.
  Lemma letter_data_overflow a (c := a mod 2 ^ 28) : overflow_checks p = true -> a < 2 ^ 32 -> 2 ^ 28 - 2 ^ 18 <= c ->
    hk_make_key_data p a 0 a 1 = Panic.
  Proof.
    intros Ho Ha Hc. unfold hk_make_key_data, SIZE_SHIFT, RPARENT_SHIFT, LPARENT_SHIFT, PARENT_BITS, KEY_BITS.
    change (18 + 2 * 18) with 54. change (18 + 18) with 36. rewrite !shl_ok by lia. cbn [bind].
    rewrite N.mul_0_l, N.mod_0_l by lia. rewrite N.mul_1_l, (N.mod_small (2 ^ 54)) by lia.
    assert (E : (a * 2 ^ 36) mod 2 ^ 64 = c * 2 ^ 36).
    { change (2 ^ 64) with (2 ^ 28 * 2 ^ 36). rewrite N.mul_mod_distr_r by lia. reflexivity. }
    assert (Hc2 : c < 2 ^ 28) by (subst c; apply N.mod_upper_bound; lia).
    rewrite E. clearbody c. rewrite add_ok by lia. cbn [bind]. rewrite N.add_0_r.
    unfold uadd at 2. unfold uadd, overflowed. rewrite Ho. destruct (N.ltb_spec (a + c * 2 ^ 36) (2 ^ 64)); [|reflexivity]. cbn [bind].
    destruct (N.ltb_spec (a + c * 2 ^ 36 + 2 ^ 54) (2 ^ 64)); [lia|reflexivity].
  Qed.
  Lemma low_field a c : a < 2 ^ 32 -> ((a + c * 2 ^ 36 + 2 ^ 54) / 2 ^ 18) mod 2 ^ 18 = a / 2 ^ 18.
  Proof.
    intros Ha. pose proof (N.div_mod a (2 ^ 18) ltac:(lia)) as Da. pose proof (N.mod_upper_bound a (2 ^ 18) ltac:(lia)) as Ua.
    rewrite <- (N.div_unique _ (2 ^ 18) (a / 2 ^ 18 + (c + 2 ^ 18) * 2 ^ 18) (a mod 2 ^ 18)) by lia. rewrite N.mod_add by lia. apply N.mod_small. lia.
  Qed.
  Lemma letter_fields a (c := a mod 2 ^ 28) : a < 2 ^ 32 -> c < 2 ^ 28 - 2 ^ 18 ->
    let k := a + c * 2 ^ 36 + 2 ^ 54 in
    field k 0 18 = a mod 2 ^ 18 /\ field k 54 10 = 1 + c / 2 ^ 18 /\ field k 36 18 = a mod 2 ^ 18 /\ field k 18 18 = a / 2 ^ 18.
  Proof.
    intros Ha Hc k. unfold field. subst k. assert (Hcm : c mod 2 ^ 18 = a mod 2 ^ 18).
    { subst c. change (2 ^ 28) with (2 ^ 18 * 2 ^ 10). rewrite N.mod_mul_r by lia. rewrite N.mul_comm, N.mod_add by lia. apply N.mod_mod. lia. }
    pose proof (N.div_mod c (2 ^ 18) ltac:(lia)) as Dc. pose proof (N.mod_upper_bound c (2 ^ 18) ltac:(lia)) as Uc.
    clearbody c. repeat split.
    - rewrite N.pow_0_r, N.div_1_r. replace (a + c * 2 ^ 36 + 2 ^ 54) with (a + (c * 2 ^ 18 + 2 ^ 36) * 2 ^ 18) by lia. apply N.mod_add. lia.
    - rewrite <- (N.div_unique _ (2 ^ 54) (1 + c / 2 ^ 18) (a + (c mod 2 ^ 18) * 2 ^ 36)) by lia. apply N.mod_small. lia.
    - rewrite <- (N.div_unique _ (2 ^ 36) (c + 2 ^ 18) a) by lia. replace (c + 2 ^ 18) with (c + 1 * 2 ^ 18) by lia. rewrite N.mod_add by lia. exact Hcm.
    - apply low_field; assumption.
  Qed.
  (** the overflowing letters in a build without overflow checks *)
  Lemma letter_data_wraps a (c := a mod 2 ^ 28) : overflow_checks p = false -> a < 2 ^ 32 -> 2 ^ 28 - 2 ^ 18 <= c ->
    exists k, hk_make_key_data p a 0 a 1 = Ret k /\ k = a + (c - (2 ^ 28 - 2 ^ 18)) * 2 ^ 36.
  Proof.
    intros Ho Ha Hc. unfold hk_make_key_data, SIZE_SHIFT, RPARENT_SHIFT, LPARENT_SHIFT, PARENT_BITS, KEY_BITS.
    change (18 + 2 * 18) with 54. change (18 + 18) with 36. rewrite !shl_ok by lia. cbn [bind].
    rewrite N.mul_0_l, N.mod_0_l by lia. rewrite N.mul_1_l, (N.mod_small (2 ^ 54)) by lia.
    assert (E : (a * 2 ^ 36) mod 2 ^ 64 = c * 2 ^ 36).
    { change (2 ^ 64) with (2 ^ 28 * 2 ^ 36). rewrite N.mul_mod_distr_r by lia. reflexivity. }
    assert (Hc2 : c < 2 ^ 28) by (subst c; apply N.mod_upper_bound; lia).
    rewrite E. clearbody c. rewrite add_ok by lia. cbn [bind]. rewrite N.add_0_r. rewrite add_ok by lia. cbn [bind].
    unfold uadd, overflowed. rewrite Ho. destruct (N.ltb_spec (a + c * 2 ^ 36 + 2 ^ 54) (2 ^ 64)); [lia|].
    eexists. split; [reflexivity|]. symmetry. apply (N.mod_unique _ _ 1); lia.
  Qed.
  Lemma letter_fields_wraps a c : a < 2 ^ 32 -> 2 ^ 28 - 2 ^ 18 <= c < 2 ^ 28 -> c mod 2 ^ 18 = a mod 2 ^ 18 ->
    let k := a + (c - (2 ^ 28 - 2 ^ 18)) * 2 ^ 36 in
    field k 0 18 = a mod 2 ^ 18 /\ field k 54 10 = 0 /\ field k 36 18 = a mod 2 ^ 18 /\ field k 18 18 = a / 2 ^ 18.
  Proof.
    intros Ha Hc Hm k. unfold field. subst k. set (e := c - (2 ^ 28 - 2 ^ 18)).
    assert (Ee : e = a mod 2 ^ 18).
    { rewrite <- Hm. apply (N.mod_unique _ _ (2 ^ 10 - 1)); subst e; lia. }
    assert (He : e < 2 ^ 18) by (subst e; lia). clearbody e. repeat split.
    - rewrite N.pow_0_r, N.div_1_r. replace (a + e * 2 ^ 36) with (a + (e * 2 ^ 18) * 2 ^ 18) by lia. apply N.mod_add. lia.
    - rewrite N.div_small by lia. reflexivity.
    - rewrite <- (N.div_unique _ (2 ^ 36) e a) by lia. rewrite N.mod_small by lia. exact Ee.
    - pose proof (N.div_mod a (2 ^ 18) ltac:(lia)) as Da. pose proof (N.mod_upper_bound a (2 ^ 18) ltac:(lia)) as Ua.
      rewrite <- (N.div_unique _ (2 ^ 18) (a / 2 ^ 18 + e * 2 ^ 18) (a mod 2 ^ 18)) by lia. rewrite N.mod_add by lia. apply N.mod_small. lia.
  Qed.
End Key.
