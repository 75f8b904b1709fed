(** Lemmas about from_degree of f32 and f64: the conversion rounds to a nearest number of the format. *)
From Coq Require Import ZArith Lia Bool QArith Qabs Qpower Floats.SpecFloat.
From Verif Require Import Machine M_Scalar M_Float S_Float L_Float.
Local Open Scope Z_scope.

Lemma Qpow2_Z e : 0 <= e -> (inject_Z (2 ^ e) == 2 ^ e)%Q.
Proof. intros H. rewrite Zpower_Qpower by assumption. reflexivity. Qed.

Lemma value_scaled m e k z : 0 <= k -> 0 <= e + k -> Zpos m * 2 ^ (e + k) = z * 2 ^ k ->
  has_value (S754_finite false m e) (inject_Z z).
Proof.
  intros Hk He H. eexists. split; [reflexivity|]. cbn beta iota.
  assert (N0 : ~ (2 == 0)%Q) by (intros X; discriminate X).
  assert (NZ : ~ (2 ^ k == 0)%Q) by (apply Qpower_not_0; assumption).
  apply (Qmult_inj_r _ _ (2 ^ k)%Q NZ). rewrite <- Qmult_assoc, <- Qpower_plus by assumption.
  rewrite <- (Qpow2_Z (e + k)), <- (Qpow2_Z k) by assumption. rewrite <- !inject_Z_mult. rewrite H. reflexivity.
Qed.

Section Format.
Context (prec emax : Z) (Hp : 1 < prec) (He : 32 <= emax - prec).

Lemma from_small d : 0 < d -> Zdigits2 d <= prec ->
  has_value (binary_normalize prec emax d 0 false) (inject_Z d).
Proof.
  intros Hd Hs. destruct d as [|d|d]; [lia| |lia]. cbn [binary_normalize]. rewrite round_unfold. cbn zeta.
  rewrite Z.add_0_r. set (e0 := fexp prec emax (Zdigits2 (Zpos d))).
  pose proof (digits_pos (Zpos d) Hd) as P.
  assert (E0 : e0 <= 0) by (subst e0; unfold fexp, emin; lia).
  replace (Z.max 0 (0 - e0)) with (- e0) by lia. replace (Z.min 0 e0) with (e0 - 0) by lia.
  assert (P2 : 0 < 2 ^ (- e0)) by (apply Z.pow_pos_nonneg; lia).
  assert (E1 : Zpos d * 2 ^ (- e0) = Zpos (Z.to_pos (Zpos d * 2 ^ (- e0))) * 2 ^ 0).
  { rewrite Z2Pos.id by (apply Z.mul_pos_pos; lia). lia. }
  set (m := Z.to_pos (Zpos d * 2 ^ (- e0))) in *.
  assert (Em : Zpos m = Zpos d * 2 ^ (- e0)) by lia. rewrite E1.
  rewrite round_aux_exact.
  - apply (value_scaled m e0 (- e0)); [lia|lia|]. rewrite Em. replace (e0 + - e0) with 0 by lia. lia.
  - lia.
  - cbn [valid_binary]. unfold bounded. rewrite andb_true_iff, Z.leb_le. split; [|lia].
    unfold canonical_mantissa. apply Zeq_is_eq_bool. change (Zpos (digits2_pos m)) with (Zdigits2 (Zpos m)).
    rewrite Em, digits_shl by lia. unfold e0 at 3. symmetry. f_equal. lia.
Qed.

Lemma from_large d : 0 < d < 2 ^ 32 -> prec < Zdigits2 d ->
  exists q, near q d (Zdigits2 d - prec) /\
    has_value (binary_normalize prec emax d 0 false) (inject_Z (q * 2 ^ (Zdigits2 d - prec))).
Proof.
  intros [Hd Hb] Hl. pose proof (digits_bounds d Hd) as [B1 B2].
  assert (D32 : Zdigits2 d <= 32).
  { destruct (Z.le_gt_cases (Zdigits2 d) 32); [assumption|].
    assert (2 ^ 32 <= 2 ^ (Zdigits2 d - 1)) by (apply Z.pow_le_mono_r; lia). lia. }
  set (n := Zdigits2 d - prec). assert (Hn : 0 < n) by (subst n; lia).
  destruct d as [|d|d]; [lia| |lia]. cbn [binary_normalize]. rewrite round_unfold. cbn zeta.
  rewrite Z.add_0_r. replace (fexp prec emax (Zdigits2 (Zpos d))) with n by (subst n; unfold fexp, emin; lia).
  replace (Z.max 0 (0 - n)) with 0 by lia. replace (Z.min 0 n) with 0 by lia.
  rewrite Z.pow_0_r, Z.mul_1_r. unfold binary_round_aux.
  assert (F : fexp prec emax (Zdigits2 (Zpos d) + 0) = n) by (subst n; unfold fexp, emin; lia).
  rewrite shr_fexp_exact by (rewrite ?F; lia). rewrite F. rewrite Z.sub_0_r.
  destruct (round_nearest (Zpos d) (Z.to_nat n) ltac:(lia)) as [N1 N2]. rewrite Z2Nat.id in N1, N2 by lia.
  set (m2 := round_nearest_even _ _) in *. clearbody m2. exists m2. split; [exact N1|].
  assert (Q1 : 2 ^ (prec - 1) <= Zpos d / 2 ^ n < 2 ^ prec).
  { split.
    - apply Z.div_le_lower_bound; [apply Z.pow_pos_nonneg; lia|]. rewrite <- Z.pow_add_r by lia.
      replace (n + (prec - 1)) with (Zdigits2 (Zpos d) - 1) by (subst n; lia). exact B1.
    - apply Z.div_lt_upper_bound; [apply Z.pow_pos_nonneg; lia|]. rewrite <- Z.pow_add_r by lia.
      replace (n + prec) with (Zdigits2 (Zpos d)) by (subst n; lia). exact B2. }
  assert (P1 : 0 < 2 ^ (prec - 1)) by (apply Z.pow_pos_nonneg; lia).
  assert (m2 < 2 ^ prec \/ m2 = 2 ^ prec) as [L|L] by lia.
  - assert (D2 : Zdigits2 m2 = prec) by (apply digits_unique; lia).
    assert (F2 : fexp prec emax (Zdigits2 m2 + n) = n) by (rewrite D2; unfold fexp, emin; lia).
    rewrite shr_fexp_exact by (rewrite ?F2; lia). rewrite F2. replace (n - n) with 0 by lia. cbn [Z.to_nat shifted shr_m].
    destruct m2 as [|m2|m2]; [lia| |lia].
    replace (n <=? emax - prec) with true by (symmetry; apply Z.leb_le; lia).
    apply (value_scaled m2 n 0); [lia|lia|]. rewrite Z.add_0_r, Z.pow_0_r. lia.
  - assert (Dd : 2 ^ prec = 2 * 2 ^ (prec - 1)) by (rewrite <- Z.pow_succ_r by lia; f_equal; lia).
    assert (D2 : Zdigits2 m2 = prec + 1).
    { apply digits_unique; [|lia]. subst m2. split; [apply Z.pow_le_mono_r; lia|apply Z.pow_lt_mono_r; lia]. }
    assert (F2 : fexp prec emax (Zdigits2 m2 + n) = n + 1) by (rewrite D2; unfold fexp, emin; lia).
    rewrite shr_fexp_exact by (rewrite ?F2; lia). rewrite F2. replace (n + 1 - n) with 1 by lia.
    cbn [Z.to_nat]. change (Pos.to_nat 1) with 1%nat. cbn [shifted shr_m]. change (2 ^ Z.of_nat 1) with 2.
    replace (m2 / 2) with (2 ^ (prec - 1)) by (apply Z.div_unique_exact; lia).
    destruct (2 ^ (prec - 1)) as [|m3|m3] eqn:E3; [lia| |lia].
    replace (n + 1 <=? emax - prec) with true by (symmetry; apply Z.leb_le; lia).
    apply (value_scaled m3 (n + 1) 0); [lia|lia|]. rewrite Z.add_0_r, Z.pow_0_r.
    rewrite L, Dd, Z.pow_add_r by lia. lia.
Qed.

Lemma from_nearest d : 0 <= d < 2 ^ 32 ->
  exists v, has_value (binary_normalize prec emax d 0 false) v /\
    forall x w, valid_binary prec emax x = true -> has_value x w ->
      (Qabs (v - inject_Z d) <= Qabs (w - inject_Z d))%Q.
Proof.
  intros Hd. destruct (Z.eq_dec d 0) as [->|Nd].
  { exists 0%Q. split; [exists 0%Q; split; reflexivity|]. intros x w _ _.
    change (Qabs (0 - inject_Z 0)) with 0%Q. apply Qabs_nonneg. }
  destruct (Z.le_gt_cases (Zdigits2 d) prec) as [L|L].
  { exists (inject_Z d). split; [apply from_small; lia|]. intros x w _ _.
    setoid_replace (inject_Z d - inject_Z d)%Q with 0%Q by ring. apply Qabs_nonneg. }
  destruct (from_large d ltac:(lia) ltac:(lia)) as (q0 & Hq & Hv).
  set (n := Zdigits2 d - prec) in *. exists (inject_Z (q0 * 2 ^ n)). split; [exact Hv|].
  assert (Pn : 0 < 2 ^ n) by (apply Z.pow_pos_nonneg; subst n; lia).
  assert (K : forall c, (Qabs (inject_Z (q0 * 2 ^ n) - inject_Z d) <= Qabs (inject_Z (c * 2 ^ n) - inject_Z d))%Q).
  { intros c. unfold Qminus. rewrite <- !inject_Z_opp, <- !inject_Z_plus.
    assert (A : forall z, (Qabs (inject_Z z) == inject_Z (Z.abs z))%Q) by (intros z; reflexivity).
    rewrite !A, <- Zle_Qle. specialize (Hq c). lia. }
  intros x w Hx (w' & Ew & Eq). rewrite <- Eq. clear w Eq.
  pose proof (digits_bounds d ltac:(lia)) as [B1 _].
  assert (EA : 2 ^ (Zdigits2 d - 1) = 2 ^ (prec - 1) * 2 ^ n) by (rewrite <- Z.pow_add_r by (subst n; lia); f_equal; subst n; lia).
  assert (Low : (w' <= inject_Z (2 ^ (prec - 1) * 2 ^ n))%Q ->
    (Qabs (inject_Z (q0 * 2 ^ n) - inject_Z d) <= Qabs (w' - inject_Z d))%Q).
  { intros H. eapply Qle_trans; [apply (K (2 ^ (prec - 1)))|].
    assert (H2 : (inject_Z (2 ^ (prec - 1) * 2 ^ n) <= inject_Z d)%Q) by (rewrite <- Zle_Qle; lia).
    rewrite !Qabs_neg; [| |].
    - apply Qopp_le_compat. apply Qplus_le_compat; [assumption|apply Qle_refl].
    - apply Qle_minus_iff. apply Qle_minus_iff in H, H2.
      setoid_replace (0 + - (w' - inject_Z d))%Q with ((inject_Z d + - inject_Z (2 ^ (prec - 1) * 2 ^ n)) + (inject_Z (2 ^ (prec - 1) * 2 ^ n) + - w'))%Q by ring.
      rewrite <- (Qplus_0_l 0). apply Qplus_le_compat; assumption.
    - apply Qle_minus_iff. apply Qle_minus_iff in H2.
      setoid_replace (0 + - (inject_Z (2 ^ (prec - 1) * 2 ^ n) - inject_Z d))%Q with (inject_Z d + - inject_Z (2 ^ (prec - 1) * 2 ^ n))%Q by ring.
      assumption. }
  assert (PA : 0 < 2 ^ (prec - 1) * 2 ^ n) by (apply Z.mul_pos_pos; [apply Z.pow_pos_nonneg|]; lia).
  destruct x as [s|s| |s m e]; cbn in Ew; try discriminate; injection Ew as <-.
  { apply Low. change 0%Q with (inject_Z 0). rewrite <- Zle_Qle. lia. }
  assert (Pe : (0 <= 2 ^ e)%Q) by (apply Qpower_0_le; discriminate).
  destruct s.
  { apply Low. apply Qle_trans with (0%Q).
    - rewrite <- (Qmult_0_l (2 ^ e)). apply Qmult_le_compat_r; [|assumption]. discriminate.
    - change 0%Q with (inject_Z 0). rewrite <- Zle_Qle. lia. }
  assert (Hx' : valid_binary prec emax (S754_finite false m e) = true) by exact Hx.
  destruct (canonical_cases prec emax m e Hx') as [C1 C2].
  assert (Dm : Zdigits2 (Zpos m) <= prec) by (unfold fexp in C1; lia).
  pose proof (digits_bounds (Zpos m) ltac:(lia)) as [_ M2].
  assert (M3 : Zpos m < 2 ^ prec) by (assert (2 ^ Zdigits2 (Zpos m) <= 2 ^ prec) by (apply Z.pow_le_mono_r; lia); lia).
  destruct (Z.le_gt_cases n e) as [G|G].
  - setoid_replace (inject_Z (Zpos m) * 2 ^ e)%Q with (inject_Z (Zpos m * 2 ^ (e - n) * 2 ^ n)); [apply K|].
    rewrite <- Z.mul_assoc, <- Z.pow_add_r by (subst n; lia). replace (e - n + n) with e by lia.
    rewrite inject_Z_mult, Qpow2_Z by (subst n; lia). reflexivity.
  - apply Low. apply Qle_trans with (inject_Z (2 ^ prec) * 2 ^ (n - 1))%Q.
    + apply Qle_trans with (inject_Z (2 ^ prec) * 2 ^ e)%Q.
      * apply Qmult_le_compat_r; [|assumption]. rewrite <- Zle_Qle. lia.
      * rewrite !(Qmult_comm (inject_Z (2 ^ prec))). apply Qmult_le_compat_r.
        -- apply Qpower_le_compat_l; [lia|discriminate].
        -- change 0%Q with (inject_Z 0). rewrite <- Zle_Qle. apply Z.pow_nonneg. lia.
    + rewrite <- Qpow2_Z by (subst n; lia). rewrite <- inject_Z_mult, <- Zle_Qle.
      rewrite <- !Z.pow_add_r by (subst n; lia). apply Z.pow_le_mono_r; lia.
Qed.
End Format.
