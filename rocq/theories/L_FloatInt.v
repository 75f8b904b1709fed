(** Lemmas: additions and multiplications of floats whose values are integers are exact as long as the
    results are below 2^precision. *)
From Coq Require Import ZArith Lia Bool QArith Qabs Qpower Floats.SpecFloat.
From Verif Require Import Machine M_Scalar M_Float S_Float L_Float L_FloatDegree.
Local Open Scope Z_scope.

Lemma has_value_fun x v w : has_value x v -> has_value x w -> (v == w)%Q.
Proof. intros (a & A1 & A2) (b & B1 & B2). rewrite A1 in B1. injection B1 as ->. rewrite <- A2. exact B2. Qed.

Lemma q2_nonzero e : ~ (2 ^ e == 0)%Q.
Proof. apply Qpower_not_0. intros X. discriminate X. Qed.
(** (m, e) stands for the integer c, in integers *)
Lemma scaled_int m e c k : 0 <= k -> 0 <= e + k ->
  ((inject_Z m * 2 ^ e == inject_Z c)%Q <-> m * 2 ^ (e + k) = c * 2 ^ k).
Proof.
  intros Hk He. rewrite <- (Qmult_inj_r _ _ (2 ^ k)%Q (q2_nonzero k)).
  rewrite <- Qmult_assoc, <- Qpower_plus by (intros X; discriminate X).
  rewrite <- (Qpow2_Z (e + k)), <- (Qpow2_Z k) by assumption. rewrite <- !inject_Z_mult.
  split; [intros H; apply inject_Z_injective; exact H|intros ->; reflexivity].
Qed.

Section Format.
Context (prec emax : Z) (Hp : 1 < prec < emax) (He : 32 <= emax - prec).

Lemma digits_of_value m e c : 0 < m -> 0 < c -> (inject_Z m * 2 ^ e == inject_Z c)%Q -> Zdigits2 m + e = Zdigits2 c.
Proof.
  intros Hm Hc H. apply (scaled_int m e c (Z.max 0 (- e)) ltac:(lia) ltac:(lia)) in H.
  apply (f_equal Zdigits2) in H. rewrite !digits_shl in H by lia. lia.
Qed.
Lemma round_aux_int sx m e c : 0 < m -> 0 < c -> (inject_Z m * 2 ^ e == inject_Z c)%Q -> Zdigits2 c <= prec ->
  e <= fexp prec emax (Zdigits2 m + e) ->
  has_value (binary_round_aux prec emax sx m e loc_Exact) (inject_Z (cond_Zopp sx c)).
Proof.
  intros Hm Hc H Hd Hf. pose proof (digits_of_value m e c Hm Hc H) as D. rewrite D in Hf.
  set (e0 := fexp prec emax (Zdigits2 c)) in *. pose proof (digits_pos c Hc) as P.
  assert (E0 : e0 <= 0) by (subst e0; unfold fexp, emin; lia).
  assert (P2 : 0 < 2 ^ (- e0)) by (apply Z.pow_pos_nonneg; lia).
  assert (Pm : 0 < c * 2 ^ (- e0)) by (apply Z.mul_pos_pos; lia).
  set (m0 := Z.to_pos (c * 2 ^ (- e0))).
  assert (E1 : Zpos m0 = c * 2 ^ (- e0)) by (apply Z2Pos.id; assumption).
  assert (Em : m = Zpos m0 * 2 ^ (e0 - e)).
  { rewrite E1. apply (scaled_int m e c (- e) ltac:(lia) ltac:(lia)) in H.
    replace (e + - e) with 0 in H by lia. rewrite Z.pow_0_r, Z.mul_1_r in H. rewrite H.
    rewrite <- Z.mul_assoc, <- Z.pow_add_r by lia. f_equal. f_equal. lia. }
  replace e with (e0 - (e0 - e)) by lia. rewrite Em at 1.
  rewrite round_aux_exact.
  - eexists. split; [reflexivity|].
    assert (A : (inject_Z (Zpos m0) * 2 ^ e0 == inject_Z c)%Q).
    { apply (scaled_int (Zpos m0) e0 c (- e0) ltac:(lia) ltac:(lia)). rewrite E1. replace (e0 + - e0) with 0 by lia. lia. }
    destruct sx; cbn [cond_Zopp].
    + change (Zneg m0) with (- Zpos m0). rewrite !inject_Z_opp. rewrite <- A. ring.
    + exact A.
  - lia.
  - cbn [valid_binary]. unfold bounded. rewrite andb_true_iff, Z.leb_le. split; [|lia].
    unfold canonical_mantissa. apply Zeq_is_eq_bool. change (Zpos (digits2_pos m0)) with (Zdigits2 (Zpos m0)).
    rewrite E1, digits_shl by lia. unfold e0 at 3. symmetry. f_equal. lia.
Qed.
Lemma digits_lt c : 0 < c < 2 ^ prec -> Zdigits2 c <= prec.
Proof.
  intros Hc. destruct (digits_bounds c ltac:(lia)) as [B _].
  destruct (Z.le_gt_cases (Zdigits2 c) prec); [assumption|].
  assert (2 ^ prec <= 2 ^ (Zdigits2 c - 1)) by (apply Z.pow_le_mono_r; lia). lia.
Qed.
Lemma round_int sx m e c : 0 < c < 2 ^ prec -> (inject_Z (Zpos m) * 2 ^ e == inject_Z c)%Q ->
  has_value (binary_round prec emax sx m e) (inject_Z (cond_Zopp sx c)).
Proof.
  intros Hc H. rewrite round_unfold. cbn zeta. set (e0 := fexp prec emax (Zdigits2 (Zpos m) + e)).
  assert (P : 0 < 2 ^ Z.max 0 (e - e0)) by (apply Z.pow_pos_nonneg; lia).
  apply round_aux_int; [apply Z.mul_pos_pos; lia|lia| |apply digits_lt; assumption|].
  - rewrite <- H. rewrite inject_Z_mult, Qpow2_Z by lia. rewrite <- Qmult_assoc, <- Qpower_plus by (intros X; discriminate X).
    replace (Z.max 0 (e - e0) + Z.min e e0) with e by lia. reflexivity.
  - rewrite digits_shl by lia. replace (Zdigits2 (Zpos m) + Z.max 0 (e - e0) + Z.min e e0)
      with (Zdigits2 (Zpos m) + e) by lia. fold e0. lia.
Qed.
Lemma normalize_int m e c : Z.abs c < 2 ^ prec -> (inject_Z m * 2 ^ e == inject_Z c)%Q ->
  has_value (binary_normalize prec emax m e false) (inject_Z c).
Proof.
  intros Hc H. destruct m as [|m|m]; cbn [binary_normalize].
  - exists 0%Q. split; [reflexivity|]. rewrite <- H. ring.
  - assert (0 < c).
    { pose proof (proj1 (scaled_int (Zpos m) e c (Z.max 0 (- e)) ltac:(lia) ltac:(lia)) H) as G.
      assert (0 < 2 ^ (e + Z.max 0 (- e))) by (apply Z.pow_pos_nonneg; lia).
      assert (0 < 2 ^ Z.max 0 (- e)) by (apply Z.pow_pos_nonneg; lia). nia. }
    apply (round_int false m e c ltac:(lia) H).
  - assert (c < 0).
    { pose proof (proj1 (scaled_int (Zneg m) e c (Z.max 0 (- e)) ltac:(lia) ltac:(lia)) H) as G.
      assert (0 < 2 ^ (e + Z.max 0 (- e))) by (apply Z.pow_pos_nonneg; lia).
      assert (0 < 2 ^ Z.max 0 (- e)) by (apply Z.pow_pos_nonneg; lia). nia. }
    replace c with (cond_Zopp true (- c)) by (cbn; lia). apply round_int; [lia|].
    rewrite inject_Z_opp, <- H. change (Zneg m) with (- Zpos m). rewrite inject_Z_opp. ring.
Qed.

Definition is_int (x : spec_float) (a : Z) : Prop := valid_binary prec emax x = true /\ has_value x (inject_Z a).

Lemma value_finite s m e v : has_value (S754_finite s m e) v -> (inject_Z (cond_Zopp s (Zpos m)) * 2 ^ e == v)%Q.
Proof. intros (w & E & H). injection E as <-. destruct s; exact H. Qed.
Lemma value_zero s v : has_value (S754_zero s) v -> (v == 0)%Q.
Proof. intros (w & E & H). injection E as <-. rewrite <- H. reflexivity. Qed.
Lemma int_not_inf s a : ~ is_int (S754_infinity s) a.
Proof. intros (_ & w & E & _). discriminate. Qed.
Lemma int_not_nan a : ~ is_int S754_nan a.
Proof. intros (_ & w & E & _). discriminate. Qed.
Lemma has_value_compat x v w : (v == w)%Q -> has_value x v -> has_value x w.
Proof. intros H (a & A1 & A2). exists a. split; [exact A1|]. rewrite A2. exact H. Qed.

Lemma add_int x y a b : is_int x a -> is_int y b -> Z.abs (a + b) < 2 ^ prec ->
  is_int (SFadd prec emax x y) (a + b).
Proof.
  intros [Vx Hx] [Vy Hy] Hc. split; [apply add_valid; [lia|assumption..]|].
  destruct x as [sx|sx| |sx mx ex]; try (exfalso; destruct Hx as (w & E & _); discriminate);
  destruct y as [sy|sy| |sy my ey]; try (exfalso; destruct Hy as (w & E & _); discriminate).
  - apply value_zero in Hx, Hy. cbn [SFadd]. rewrite inject_Z_plus.
    destruct (Bool.eqb sx sy); exists 0%Q; (split; [reflexivity|]); rewrite Hx, Hy; reflexivity.
  - cbn [SFadd]. apply value_zero in Hx. eapply has_value_compat; [|exact Hy]. rewrite inject_Z_plus, Hx. ring.
  - cbn [SFadd]. apply value_zero in Hy. eapply has_value_compat; [|exact Hx]. rewrite inject_Z_plus, Hy. ring.
  - cbn [SFadd]. apply value_finite in Hx, Hy.
    apply normalize_int; [exact Hc|]. rewrite (inject_Z_plus a b), <- Hx, <- Hy.
    set (ez := Z.min ex ey).
    assert (A : forall s m e, ez <= e ->
      (inject_Z (cond_Zopp s (Zpos (fst (shl_align m e ez)))) * 2 ^ ez == inject_Z (cond_Zopp s (Zpos m)) * 2 ^ e)%Q).
    { intros s m e Hle. rewrite shl_align_eq. replace (Z.max 0 (e - ez)) with (e - ez) by lia.
      replace (cond_Zopp s (Zpos m * 2 ^ (e - ez))) with (cond_Zopp s (Zpos m) * 2 ^ (e - ez)) by (destruct s; cbn [cond_Zopp]; lia).
      rewrite inject_Z_mult, Qpow2_Z by lia. rewrite <- Qmult_assoc, <- Qpower_plus by (intros X; discriminate X).
      replace (e - ez + ez) with e by lia. reflexivity. }
    rewrite inject_Z_plus, Qmult_plus_distr_l, !A by (subst ez; lia). reflexivity.
Qed.
Lemma mul_int x y a b : is_int x a -> is_int y b -> Z.abs (a * b) < 2 ^ prec ->
  is_int (SFmul prec emax x y) (a * b).
Proof.
  intros [Vx Hx] [Vy Hy] Hc. split; [apply mul_valid; [lia|assumption..]|].
  destruct x as [sx|sx| |sx mx ex]; try (exfalso; destruct Hx as (w & E & _); discriminate);
  destruct y as [sy|sy| |sy my ey]; try (exfalso; destruct Hy as (w & E & _); discriminate).
  1-3: cbn [SFmul]; exists 0%Q; (split; [reflexivity|]); rewrite inject_Z_mult.
  - apply value_zero in Hx. rewrite Hx. ring.
  - apply value_zero in Hx. rewrite Hx. ring.
  - apply value_zero in Hy. rewrite Hy. ring.
  - cbn [SFmul]. apply value_finite in Hx, Hy.
    assert (V : (inject_Z (cond_Zopp (xorb sx sy) (Zpos (mx * my))) * 2 ^ (ex + ey) == inject_Z (a * b))%Q).
    { rewrite inject_Z_mult, <- Hx, <- Hy. rewrite Qpower_plus by (intros X; discriminate X).
      replace (cond_Zopp (xorb sx sy) (Zpos (mx * my))) with (cond_Zopp sx (Zpos mx) * cond_Zopp sy (Zpos my))
        by (destruct sx, sy; cbn [cond_Zopp xorb]; lia).
      rewrite inject_Z_mult. ring. }
    destruct (canonical_cases prec emax mx ex Vx) as [X1 X2]. destruct (canonical_cases prec emax my ey Vy) as [Y1 Y2].
    replace (a * b) with (cond_Zopp (xorb sx sy) (cond_Zopp (xorb sx sy) (a * b)))
      by (destruct (xorb sx sy); cbn [cond_Zopp]; lia).
    set (c := cond_Zopp (xorb sx sy) (a * b)).
    assert (V' : (inject_Z (Zpos (mx * my)) * 2 ^ (ex + ey) == inject_Z c)%Q).
    { subst c. destruct (xorb sx sy); cbn [cond_Zopp] in *; [|exact V].
      rewrite inject_Z_opp, <- V. rewrite inject_Z_opp. ring. }
    assert (Pc : 0 < c).
    { pose proof (proj1 (scaled_int (Zpos (mx * my)) (ex + ey) c (Z.max 0 (- (ex + ey))) ltac:(lia) ltac:(lia)) V') as G.
      assert (0 < 2 ^ (ex + ey + Z.max 0 (- (ex + ey)))) by (apply Z.pow_pos_nonneg; lia).
      assert (0 < 2 ^ Z.max 0 (- (ex + ey))) by (apply Z.pow_pos_nonneg; lia). nia. }
    assert (Ac : Z.abs c = Z.abs (a * b)) by (subst c; destruct (xorb sx sy); cbn [cond_Zopp]; lia).
    apply round_aux_int; [lia|exact Pc|exact V'|apply digits_lt; lia|].
    set (dx := Zdigits2 (Zpos mx)) in *. set (dy := Zdigits2 (Zpos my)) in *.
    assert (Px : 0 < dx) by (apply digits_pos; lia). assert (Py : 0 < dy) by (apply digits_pos; lia).
    assert (D : dx + dy - 1 <= Zdigits2 (Zpos (mx * my))).
    { rewrite Pos2Z.inj_mul.
      destruct (digits_bounds (Zpos mx) ltac:(lia)) as [G1 _]. destruct (digits_bounds (Zpos my) ltac:(lia)) as [G2 _].
      fold dx in G1. fold dy in G2.
      pose proof (digits_ge (Zpos mx * Zpos my) (dx - 1 + (dy - 1)) ltac:(lia)) as H.
      rewrite Z.pow_add_r in H by lia. specialize (H ltac:(apply Z.mul_le_mono_nonneg; try assumption; apply Z.pow_nonneg; lia)). lia. }
    unfold fexp, emin in *. lia.
Qed.
Lemma opp_int x a : is_int x a -> is_int (SFopp x) (- a).
Proof.
  intros [V H]. split; [apply opp_valid; exact V|].
  destruct x as [s|s| |s m e]; try (exfalso; destruct H as (w & E & _); discriminate).
  - apply value_zero in H. exists 0%Q. split; [reflexivity|]. rewrite inject_Z_opp, H. reflexivity.
  - apply value_finite in H. eexists. split; [reflexivity|]. rewrite inject_Z_opp, <- H.
    destruct s; cbn [negb cond_Zopp]; [change (Zpos m) with (- Zneg m) at 1|change (Zneg m) with (- Zpos m)];
      rewrite inject_Z_opp; cbn [Z.opp]; ring.
Qed.
End Format.
