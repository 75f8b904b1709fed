(** Lemmas about rounding: binary_round_aux returns the number of the format that is nearest to the exact value,
    ties to even. *)
From Coq Require Import ZArith Lia Lqa Bool QArith Qabs Qpower Floats.SpecFloat.
From Verif Require Import Machine M_Scalar M_Float S_Float L_Float L_FloatDegree L_FloatInt.
Local Open Scope Z_scope.

Lemma pw_pos e : (0 < 2 ^ e)%Q.
Proof. apply Qpower_0_lt. reflexivity. Qed.
Lemma pw_succ e : (2 ^ (e + 1) == 2 * 2 ^ e)%Q.
Proof. rewrite Qpower_plus by (intros X; discriminate X). change (2 ^ 1)%Q with (2 # 1)%Q. ring. Qed.
Lemma pw_pred e : (2 ^ e == 2 * 2 ^ (e - 1))%Q.
Proof. rewrite <- pw_succ. replace (e - 1 + 1) with e by lia. reflexivity. Qed.
Lemma pw_le a b : a <= b -> (2 ^ a <= 2 ^ b)%Q.
Proof.
  intros H. replace b with (a + (b - a)) by lia. rewrite Qpower_plus by (intros X; discriminate X).
  assert (1 <= 2 ^ (b - a))%Q.
  { rewrite <- Qpow2_Z by lia. change 1%Q with (inject_Z 1). rewrite <- Zle_Qle.
    assert (0 < 2 ^ (b - a)) by (apply Z.pow_pos_nonneg; lia). lia. }
  pose proof (pw_pos a). nra.
Qed.
Lemma pw_split a b : (2 ^ (a + b) == 2 ^ a * 2 ^ b)%Q.
Proof. apply Qpower_plus. intros X; discriminate X. Qed.
(** an integer times a power *)
Lemma pw_shift m e k : 0 <= k -> (inject_Z (m * 2 ^ k) * 2 ^ e == inject_Z m * 2 ^ (e + k))%Q.
Proof. intros H. rewrite inject_Z_mult, Qpow2_Z by assumption. rewrite pw_split. ring. Qed.

Lemma le_abs d x : (d <= x \/ d <= - x -> d <= Qabs x)%Q.
Proof. intros [H|H]; [|rewrite <- Qabs_opp]; (eapply Qle_trans; [exact H|apply Qle_Qabs]). Qed.
Lemma abs_le x d : (- d <= x <= d -> Qabs x <= d)%Q.
Proof. intros H. apply Qabs_Qle_condition. exact H. Qed.

(** ** shifting right keeps track of the exact value *)
Definition at_rec (q : Q) (e : Z) (r : shr_record) : Prop :=
  exists t, (q == inject_Z (shr_m r) * 2 ^ e + (if shr_r r then 2 ^ (e - 1) else 0) + t)%Q
    /\ (0 <= t)%Q /\ (t < 2 ^ (e - 1))%Q /\ (shr_s r = false <-> (t == 0)%Q).
Lemma at_shr_1 q e r : 0 <= shr_m r -> at_rec q e r -> at_rec q (e + 1) (shr_1 r).
Proof.
  destruct r as [m r s]. intros Hm (t & H1 & H2 & H3 & H4). cbn [shr_m shr_r shr_s] in *.
  rewrite shr_1_eq by assumption. exists ((if r then 2 ^ (e - 1) else 0) + t)%Q. cbn [shr_m shr_r shr_s].
  replace (e + 1 - 1) with e by lia. pose proof (pw_pos (e - 1)) as P. pose proof (pw_pred e) as Pp.
  split.
  - rewrite H1, pw_succ.
    assert (E : (inject_Z m == 2 * inject_Z (m / 2) + (if Z.odd m then 1 else 0))%Q).
    { rewrite (Zdiv2_odd_eqn m) at 1. rewrite Z.div2_div. rewrite inject_Z_plus, inject_Z_mult.
      destruct (Z.odd m); reflexivity. }
    rewrite E. destruct (Z.odd m), r; ring.
  - split; [destruct r; lra|]. split; [destruct r; lra|].
    destruct r, s; cbn [orb]; split; intros X; try discriminate; try reflexivity.
    + lra.
    + lra.
    + destruct H4 as [_ H4]. specialize (H4 ltac:(lra)). discriminate.
    + destruct H4 as [H4 _]. rewrite (H4 eq_refl). ring.
Qed.
Lemma shr_1_nonneg r : 0 <= shr_m r -> 0 <= shr_m (shr_1 r).
Proof. destruct r as [m r s]. intros H. rewrite shr_1_eq by assumption. cbn in *. apply Z.div_pos; lia. Qed.
Lemma at_iter n q e r : 0 <= shr_m r -> at_rec q e r -> at_rec q (e + Z.of_nat n) (Nat.iter n shr_1 r).
Proof.
  revert e r. induction n as [|n IH]; intros e r Hm H; [replace (e + Z.of_nat 0) with e by lia; exact H|].
  rewrite iter_succ_r. replace (e + Z.of_nat (Datatypes.S n)) with (e + 1 + Z.of_nat n) by lia.
  apply IH; [apply shr_1_nonneg; assumption|]. apply at_shr_1; assumption.
Qed.

(** the nearest multiple of 2^e *)
Lemma round_rec q e r : at_rec q e r ->
  let m1 := round_nearest_even (shr_m r) (loc_of_shr_record r) in
  (forall c, Qabs (inject_Z m1 * 2 ^ e - q) <= Qabs (inject_Z c * 2 ^ e - q))%Q
  /\ (Qabs (inject_Z m1 * 2 ^ e - q) <= 2 ^ (e - 1))%Q
  /\ shr_m r <= m1 <= shr_m r + 1
  /\ (forall c, Z.even m1 = false -> (Qabs (inject_Z m1 * 2 ^ e - q) == Qabs (inject_Z c * 2 ^ e - q))%Q -> c = m1).
Proof.
  destruct r as [m br bs]. intros (t & H1 & H2 & H3 & H4) m1. cbn [shr_m shr_r shr_s] in *. pose proof (pw_pos (e - 1)) as P. pose proof (pw_pred e) as Pp.
  set (h := (2 ^ (e - 1))%Q) in *. clearbody h. set (g := (2 ^ e)%Q) in *. clearbody g.
  assert (C : forall c, (c <= m -> (inject_Z c * g <= inject_Z m * g)%Q) /\ (m + 1 <= c -> (inject_Z m * g + g <= inject_Z c * g)%Q)
    /\ (c < m -> (inject_Z c * g <= inject_Z m * g - g)%Q) /\ (m + 1 < c -> (inject_Z m * g + 2 * g <= inject_Z c * g)%Q)).
  { intros c. repeat apply conj; intros Hc.
    - rewrite Zle_Qle in Hc. nra.
    - rewrite Zle_Qle, inject_Z_plus in Hc. change (inject_Z 1) with 1%Q in Hc. nra.
    - assert (Hc' : c + 1 <= m) by lia. rewrite Zle_Qle, inject_Z_plus in Hc'. change (inject_Z 1) with 1%Q in Hc'. nra.
    - assert (Hc' : m + 2 <= c) by lia. rewrite Zle_Qle, inject_Z_plus in Hc'. change (inject_Z 2) with 2%Q in Hc'. nra. }
  assert (M : m1 = m /\ (q - inject_Z m * g <= h)%Q \/ m1 = m + 1 /\ (h <= q - inject_Z m * g)%Q).
  { subst m1. destruct br, bs; cbn [loc_of_shr_record round_nearest_even] in *.
    - right. split; [reflexivity|lra].
    - assert (t == 0)%Q by tauto. destruct (Z.even m); [left|right]; (split; [reflexivity|lra]).
    - left. split; [reflexivity|lra].
    - left. split; [reflexivity|lra]. }
  assert (B : (0 <= q - inject_Z m * g)%Q /\ (q - inject_Z m * g < g)%Q) by (destruct br; split; lra).
  set (a := (inject_Z m * g)%Q) in *.
  assert (A1 : forall c, m + 1 <= c -> (a + g <= inject_Z c * g)%Q) by (intros c; apply C).
  assert (A0 : forall c, c <= m -> (inject_Z c * g <= a)%Q) by (intros c; apply C).
  assert (E1 : (inject_Z (m + 1) * g == a + g)%Q) by (rewrite inject_Z_plus; unfold a; change (inject_Z 1) with 1%Q; ring).
  split; [|split; [|split]].
  - intros c. destruct (Z.le_gt_cases c m) as [L|L]; [specialize (A0 c L)|specialize (A1 c ltac:(lia))];
      destruct M as [[-> M]|[-> M]]; rewrite ?E1; fold a; (apply Qle_trans with (Qabs (if Z.leb c m then q - a else a + g - q))%Q;
      [|apply le_abs]).
    + replace (c <=? m) with true by (symmetry; apply Z.leb_le; lia). rewrite Qabs_Qminus. apply Qle_refl.
    + replace (c <=? m) with true by (symmetry; apply Z.leb_le; lia). right. apply abs_le. split; lra.
    + replace (c <=? m) with true by (symmetry; apply Z.leb_le; lia). rewrite (Qabs_pos (q - a)) by lra. apply abs_le. split; lra.
    + replace (c <=? m) with true by (symmetry; apply Z.leb_le; lia). right. apply abs_le. split; lra.
    + replace (c <=? m) with false by (symmetry; apply Z.leb_gt; lia). rewrite (Qabs_pos (a + g - q)) by lra. apply abs_le. split; lra.
    + replace (c <=? m) with false by (symmetry; apply Z.leb_gt; lia). left. apply abs_le. split; lra.
    + replace (c <=? m) with false by (symmetry; apply Z.leb_gt; lia). apply Qle_refl.
    + replace (c <=? m) with false by (symmetry; apply Z.leb_gt; lia). left. apply abs_le. split; lra.
  - destruct M as [[-> M]|[-> M]]; rewrite ?E1; fold a; apply abs_le; split; lra.
  - destruct M as [[-> M]|[-> M]]; lia.
  - intros c Ho Hc.
    assert (M' : m1 = m /\ (q - a < h)%Q \/ m1 = m + 1 /\ (h < q - a)%Q).
    { subst m1. destruct br, bs; cbn [loc_of_shr_record round_nearest_even] in *.
      - right. split; [reflexivity|]. assert (~ (t == 0)%Q) by (intros X; destruct H4 as [_ H4]; specialize (H4 X); discriminate).
        assert (0 < t)%Q by (apply Qnot_le_lt; intros X; apply H; lra). lra.
      - exfalso. destruct (Z.even m) eqn:Ev; [congruence|].
        rewrite Z.even_add, Ev in Ho. discriminate.
      - left. split; [reflexivity|lra].
      - left. split; [reflexivity|lra]. }
    destruct M' as [[Em M']|[Em M']]; rewrite Em in *; rewrite ?E1 in Hc; fold a in Hc.
    + rewrite (Qabs_Qminus a q), (Qabs_pos (q - a)) in Hc by lra.
      destruct (Z.lt_trichotomy c m) as [L|[L|L]]; [exfalso| assumption|exfalso].
      * pose proof (proj1 (proj2 (proj2 (C c))) L) as X. fold a in X. rewrite Qabs_Qminus, Qabs_pos in Hc by lra. lra.
      * pose proof (A1 c ltac:(lia)) as X. rewrite Qabs_pos in Hc by lra. lra.
    + rewrite (Qabs_pos (a + g - q)) in Hc by lra.
      destruct (Z.lt_trichotomy c (m + 1)) as [L|[L|L]]; [exfalso| assumption|exfalso].
      * pose proof (A0 c ltac:(lia)) as X. rewrite Qabs_Qminus, Qabs_pos in Hc by lra. lra.
      * pose proof (proj2 (proj2 (proj2 (C c))) ltac:(lia)) as X. fold a in X. rewrite Qabs_pos in Hc by lra. lra.
Qed.

Section Format.
Context (prec emax : Z) (Hp : 1 < prec < emax).
Notation lowest := (emin prec emax).
Notation limit := (2 ^ emax - 2 ^ (emax - prec - 1))%Q.

Lemma loc_rec m l : shr_m (shr_record_of_loc m l) = m.
Proof. destruct l as [|[]]; reflexivity. Qed.
Lemma shr_fexp_at m e l : 0 <= m -> e <= fexp prec emax (Zdigits2 m + e) ->
  shr_fexp prec emax m e l =
    (Nat.iter (Z.to_nat (fexp prec emax (Zdigits2 m + e) - e)) shr_1 (shr_record_of_loc m l), fexp prec emax (Zdigits2 m + e)).
Proof.
  intros Hm He. unfold shr_fexp.
  destruct (fexp prec emax (Zdigits2 m + e) - e) as [|p|p] eqn:E; [| |lia]; cbn [shr].
  - cbn [Z.to_nat Nat.iter nat_rect]. f_equal. lia.
  - rewrite iter_pos_nat. cbn [Z.to_nat]. f_equal. lia.
Qed.
Lemma at_bounds q e r : at_rec q e r -> (inject_Z (shr_m r) * 2 ^ e <= q)%Q /\ (q < inject_Z (shr_m r + 1) * 2 ^ e)%Q.
Proof.
  intros (t & H1 & H2 & H3 & _). pose proof (pw_pos (e - 1)). pose proof (pw_pred e).
  rewrite inject_Z_plus. change (inject_Z 1) with 1%Q. destruct (shr_r r); split; lra.
Qed.

(** the two cases of the exponent that is rounded to *)
Lemma round_cases mx ex lx q : 0 <= mx -> ex <= fexp prec emax (Zdigits2 mx + ex) -> at_rec q ex (shr_record_of_loc mx lx) ->
  let d := Zdigits2 mx + ex in
  let e1 := fexp prec emax d in
  (0 <= q)%Q /\ (q < 2 ^ (e1 + prec))%Q /\ lowest <= e1
  /\ (e1 = lowest \/ (e1 = d - prec /\ (2 ^ (d - 1) <= q)%Q))
  /\ exists m1, 0 <= m1 <= 2 ^ prec /\ (e1 = lowest \/ 2 ^ (prec - 1) <= m1)
    /\ (forall c, Qabs (inject_Z m1 * 2 ^ e1 - q) <= Qabs (inject_Z c * 2 ^ e1 - q))%Q
    /\ (Qabs (inject_Z m1 * 2 ^ e1 - q) <= 2 ^ (e1 - 1))%Q
    /\ (forall c, Z.even m1 = false -> (Qabs (inject_Z m1 * 2 ^ e1 - q) == Qabs (inject_Z c * 2 ^ e1 - q))%Q -> c = m1)
    /\ forall sx, binary_round_aux prec emax sx mx ex lx =
        (if m1 =? 0 then S754_zero sx
         else if m1 =? 2 ^ prec
         then if e1 + 1 <=? emax - prec then S754_finite sx (Z.to_pos (2 ^ (prec - 1))) (e1 + 1) else S754_infinity sx
         else if e1 <=? emax - prec then S754_finite sx (Z.to_pos m1) e1 else S754_infinity sx).
Proof.
  intros Hm He Hat d e1. fold d e1 in He.
  assert (Hl : lowest <= e1) by (subst e1; unfold fexp; lia).
  pose proof (at_bounds _ _ _ Hat) as [L0 U0]. rewrite loc_rec in L0, U0.
  pose proof (digits_nonneg mx) as Dn.
  assert (Dm : mx + 1 <= 2 ^ Zdigits2 mx).
  { destruct (Z.eq_dec mx 0) as [->|]; [cbn; lia|]. pose proof (digits_bounds mx ltac:(lia)). lia. }
  assert (Q0 : (0 <= q)%Q).
  { eapply Qle_trans; [|exact L0]. pose proof (pw_pos ex).
    assert (0 <= inject_Z mx)%Q by (change 0%Q with (inject_Z 0); rewrite <- Zle_Qle; lia). nra. }
  assert (D1 : d <= e1 + prec) by (subst e1; unfold fexp; lia).
  assert (Qd : (q < 2 ^ d)%Q).
  { eapply Qlt_le_trans; [exact U0|]. subst d. rewrite (Z.add_comm (Zdigits2 mx)), pw_split, (Qmult_comm (2 ^ ex)).
    rewrite <- (Qpow2_Z (Zdigits2 mx)) by lia. apply Qmult_le_compat_r; [rewrite <- Zle_Qle; lia|]. apply Qlt_le_weak, pw_pos. }
  assert (Q1 : (q < 2 ^ (e1 + prec))%Q) by (eapply Qlt_le_trans; [exact Qd|apply pw_le; lia]).
  assert (Cs : e1 = lowest \/ (e1 = d - prec /\ (2 ^ (d - 1) <= q)%Q)).
  { destruct (Z.eq_dec e1 lowest) as [|Ne]; [left; assumption|right].
    assert (E1 : e1 = d - prec) by (subst e1; unfold fexp in *; lia). split; [assumption|].
    assert (Hm0 : 0 < mx). { destruct (Z.eq_dec mx 0) as [Z0|]; [|lia]. subst d. rewrite Z0 in *. cbn [Zdigits2] in *. lia. }
    eapply Qle_trans; [|exact L0]. subst d. replace (Zdigits2 mx + ex - 1) with (ex + (Zdigits2 mx - 1)) by lia.
    pose proof (digits_pos mx Hm0). pose proof (digits_bounds mx Hm0).
    rewrite pw_split, (Qmult_comm (2 ^ ex)), <- (Qpow2_Z (Zdigits2 mx - 1)) by lia.
    apply Qmult_le_compat_r; [rewrite <- Zle_Qle; lia|]. apply Qlt_le_weak, pw_pos. }
  split; [exact Q0|]. split; [exact Q1|]. split; [exact Hl|]. split; [exact Cs|].
  pose proof (shr_fexp_at mx ex lx Hm He) as E1. fold d e1 in E1.
  set (r1 := Nat.iter (Z.to_nat (e1 - ex)) shr_1 (shr_record_of_loc mx lx)) in E1.
  assert (At1 : at_rec q e1 r1).
  { replace e1 with (ex + Z.of_nat (Z.to_nat (e1 - ex))) at 1 by lia. apply at_iter; [rewrite loc_rec; assumption|assumption]. }
  assert (S1 : shr_m r1 = mx / 2 ^ (e1 - ex)).
  { destruct (shr_fexp_m prec emax mx ex lx Hm He) as [X _]. rewrite E1 in X. exact X. }
  destruct (round_rec q e1 r1 At1) as (N1 & N2 & N3 & N4).
  set (m1 := round_nearest_even (shr_m r1) (loc_of_shr_record r1)) in *. exists m1.
  assert (P1 : 0 < 2 ^ (e1 - ex)) by (apply Z.pow_pos_nonneg; lia).
  assert (S0 : 0 <= shr_m r1) by (rewrite S1; apply Z.div_pos; lia).
  assert (S2 : shr_m r1 < 2 ^ prec).
  { rewrite S1. apply Z.div_lt_upper_bound; [assumption|]. rewrite <- Z.pow_add_r by lia.
    assert (2 ^ Zdigits2 mx <= 2 ^ (e1 - ex + prec)) by (apply Z.pow_le_mono_r; lia). lia. }
  assert (S3 : e1 = lowest \/ 2 ^ (prec - 1) <= shr_m r1).
  { destruct Cs as [|[Ce Cq]]; [left; assumption|right]. pose proof (at_bounds _ _ _ At1) as [_ U1].
    assert (H : (inject_Z (2 ^ (prec - 1)) * 2 ^ e1 < inject_Z (shr_m r1 + 1) * 2 ^ e1)%Q).
    { eapply Qle_lt_trans; [|exact U1]. rewrite Qpow2_Z, <- pw_split by lia.
      replace (prec - 1 + e1) with (d - 1) by lia. exact Cq. }
    apply Qmult_lt_r in H; [|apply pw_pos]. rewrite <- Zlt_Qlt in H. lia. }
  split; [lia|]. split; [destruct S3; [left; assumption|right; lia]|]. split; [exact N1|]. split; [exact N2|]. split; [exact N4|].
  assert (P2 : 0 < 2 ^ (prec - 1)) by (apply Z.pow_pos_nonneg; lia).
  assert (P3 : 2 ^ prec = 2 * 2 ^ (prec - 1)) by (rewrite <- Z.pow_succ_r by lia; f_equal; lia).
  intros sx. unfold binary_round_aux. rewrite E1. fold m1.
  destruct (Z.eqb_spec m1 0) as [M0|M0].
  { rewrite M0. assert (F : fexp prec emax (Zdigits2 0 + e1) <= e1) by (cbn [Zdigits2]; unfold fexp; lia).
    unfold shr_fexp. replace (shr_record_of_loc 0 loc_Exact) with (Build_shr_record 0 false false) by reflexivity.
    destruct (fexp prec emax (Zdigits2 0 + e1) - e1) eqn:Ef; [reflexivity|lia|reflexivity]. }
  destruct (Z.eqb_spec m1 (2 ^ prec)) as [M1|M1].
  - assert (D2 : Zdigits2 m1 = prec + 1).
    { apply digits_unique; [|lia]. rewrite M1. split; [apply Z.pow_le_mono_r; lia|apply Z.pow_lt_mono_r; lia]. }
    assert (F2 : fexp prec emax (Zdigits2 m1 + e1) = e1 + 1) by (rewrite D2; unfold fexp; lia).
    rewrite shr_fexp_exact by (rewrite ?F2; lia). rewrite F2. replace (e1 + 1 - e1) with 1 by lia.
    cbn [Z.to_nat]. change (Pos.to_nat 1) with 1%nat. cbn [shifted shr_m]. change (2 ^ Z.of_nat 1) with 2.
    replace (m1 / 2) with (2 ^ (prec - 1)) by (apply Z.div_unique_exact; lia).
    destruct (2 ^ (prec - 1)) as [|m3|m3] eqn:E3; [lia| |lia]. reflexivity.
  - assert (F2 : fexp prec emax (Zdigits2 m1 + e1) = e1).
    { destruct (digits_bounds m1 ltac:(lia)) as [B1 B2].
      assert (Zdigits2 m1 <= prec).
      { destruct (Z.le_gt_cases (Zdigits2 m1) prec) as [|G]; [assumption|].
        assert (2 ^ prec <= 2 ^ (Zdigits2 m1 - 1)) by (apply Z.pow_le_mono_r; lia). lia. }
      destruct S3 as [S3|S3]; [unfold fexp; lia|].
      assert (Zdigits2 m1 = prec) by (apply digits_unique; lia). unfold fexp. lia. }
    rewrite shr_fexp_exact by (rewrite ?F2; lia). rewrite F2. replace (e1 - e1) with 0 by lia. cbn [Z.to_nat shifted shr_m].
    destruct m1 as [|m2|m2]; [lia|reflexivity|lia].
Qed.

(** a number of the format is a multiple of 2^e1, or smaller than 2^(e1 + prec - 1) *)
Lemma float_grid x w e1 : valid_binary prec emax x = true -> has_value x w -> lowest <= e1 ->
  (exists c, (w == inject_Z c * 2 ^ e1)%Q) \/ (lowest < e1 /\ (Qabs w < 2 ^ (e1 + prec - 1))%Q).
Proof.
  intros Hx Hw He. destruct x as [s|s| |s m e]; try (exfalso; destruct Hw as (? & E & _); discriminate).
  { left. exists 0. apply value_zero in Hw. rewrite Hw. ring. }
  apply value_finite in Hw. destruct (canonical_cases prec emax m e Hx) as [C1 C2].
  destruct (Z.le_gt_cases e1 e) as [G|G].
  - left. exists (cond_Zopp s (Zpos m) * 2 ^ (e - e1)). rewrite pw_shift by lia. replace (e1 + (e - e1)) with e by lia.
    symmetry. exact Hw.
  - right. split; [unfold fexp in C1; lia|].
    rewrite <- Hw, Qabs_Qmult. rewrite (Qabs_pos (2 ^ e)) by (apply Qlt_le_weak, pw_pos).
    assert (A : (Qabs (inject_Z (cond_Zopp s (Zpos m))) == inject_Z (Zpos m))%Q) by (destruct s; reflexivity).
    rewrite A. pose proof (digits_bounds (Zpos m) ltac:(lia)) as [_ B].
    assert (Dm : Zdigits2 (Zpos m) <= prec) by (unfold fexp in C1; lia).
    apply Qlt_le_trans with (inject_Z (2 ^ prec) * 2 ^ e)%Q.
    + apply Qmult_lt_r; [apply pw_pos|]. rewrite <- Zlt_Qlt.
      assert (2 ^ Zdigits2 (Zpos m) <= 2 ^ prec) by (apply Z.pow_le_mono_r; lia). lia.
    + rewrite Qpow2_Z, <- pw_split by lia. apply pw_le. lia.
Qed.

Definition sgn (s : bool) (v : Q) : Q := if s then (- v)%Q else v.
Lemma sgn_abs s v : Qabs (sgn s v) == Qabs v.
Proof. destruct s; [apply Qabs_opp|reflexivity]. Qed.
Lemma value_sgn s m e : has_value (S754_finite s (Z.to_pos m) e) (sgn s (inject_Z (Zpos (Z.to_pos m)) * 2 ^ e)).
Proof. eexists. split; [reflexivity|]. destruct s; cbn [sgn]; [|reflexivity]. change (Zneg ?x) with (- Zpos x). rewrite inject_Z_opp. ring. Qed.

Lemma round_aux_spec sx mx ex lx q : 0 <= mx -> ex <= fexp prec emax (Zdigits2 mx + ex) ->
  at_rec q ex (shr_record_of_loc mx lx) ->
  let r := binary_round_aux prec emax sx mx ex lx in
  ((q < limit)%Q -> exists v, has_value r (sgn sx v)
     /\ (forall x w, valid_binary prec emax x = true -> has_value x w ->
           (Qabs (v - q) <= Qabs (w - q))%Q /\ ((Qabs (v - q) == Qabs (w - q))%Q -> (w == v)%Q \/ even_significand r))
     /\ ((Qabs (v - q) <= 2 ^ (- prec) * q)%Q \/ (Qabs (v - q) <= 2 ^ (lowest - 1))%Q))
  /\ ((limit <= q)%Q -> r = S754_infinity sx).
Proof.
  intros Hm He Hat r.
  destruct (round_cases mx ex lx q Hm He Hat) as (Q0 & Q1 & Hl & Cs & m1 & M1 & M2 & N1 & N2 & N3 & R).
  specialize (R sx). fold r in R. set (d := Zdigits2 mx + ex) in *. set (e1 := fexp prec emax d) in *.
  set (v := (inject_Z m1 * 2 ^ e1)%Q) in *. clearbody r d e1.
  assert (Le : lowest < emax - prec) by (unfold emin; lia).
  assert (P2 : 0 < 2 ^ (prec - 1)) by (apply Z.pow_pos_nonneg; lia).
  assert (P3 : 2 ^ prec = 2 * 2 ^ (prec - 1)) by (rewrite <- Z.pow_succ_r by lia; f_equal; lia).
  (* the value and the parity of a finite result *)
  assert (V : (e1 + 1 <= emax - prec \/ (e1 = emax - prec /\ m1 < 2 ^ prec)) ->
     has_value r (sgn sx v) /\ (Z.even m1 = true -> even_significand r)).
  { intros Ho. rewrite R. destruct (Z.eqb_spec m1 0) as [E|E].
    { split; [|intros; exact I]. exists 0%Q. split; [reflexivity|]. unfold v. rewrite E. destruct sx; cbn [sgn]; ring. }
    destruct (Z.eqb_spec m1 (2 ^ prec)) as [E2|E2].
    - replace (e1 + 1 <=? emax - prec) with true by (symmetry; apply Z.leb_le; lia). split.
      + eapply has_value_compat; [|apply value_sgn]. rewrite Z2Pos.id by assumption.
        assert (X : (inject_Z (2 ^ (prec - 1)) * 2 ^ (e1 + 1) == v)%Q).
        { unfold v. rewrite E2, P3, inject_Z_mult, pw_succ. change (inject_Z 2) with 2%Q. ring. }
        destruct sx; cbn [sgn]; rewrite X; reflexivity.
      + intros _. cbn [even_significand]. rewrite Z2Pos.id by assumption.
        replace (prec - 1) with (1 + (prec - 2)) by lia. rewrite Z.pow_add_r by lia. rewrite Z.even_mul. reflexivity.
    - replace (e1 <=? emax - prec) with true by (symmetry; apply Z.leb_le; lia). split.
      + eapply has_value_compat; [|apply value_sgn]. rewrite Z2Pos.id by lia. destruct sx; reflexivity.
      + intros Ev. cbn [even_significand]. rewrite Z2Pos.id by lia. exact Ev. }
  (* overflow *)
  assert (O : (q < limit)%Q -> e1 + 1 <= emax - prec \/ (e1 = emax - prec /\ m1 < 2 ^ prec)).
  { intros Hq. destruct (Z.le_gt_cases (e1 + 1) (emax - prec)) as [|G]; [left; assumption|right].
    destruct Cs as [C|[C Cq]]; [lia|].
    assert (X : d - 1 < emax).
    { destruct (Z.lt_ge_cases (d - 1) emax) as [|X]; [assumption|exfalso]. pose proof (pw_le _ _ X).
      pose proof (pw_pos (emax - prec - 1)). lra. }
    split; [lia|]. destruct (Z.lt_ge_cases m1 (2 ^ prec)) as [|Y]; [assumption|exfalso].
    assert (E2 : m1 = 2 ^ prec) by lia. assert (Ee : e1 = emax - prec) by lia.
    assert (Ev : (v == 2 ^ emax)%Q).
    { unfold v. rewrite E2, Qpow2_Z, <- pw_split by lia. replace (prec + e1) with emax by lia. reflexivity. }
    rewrite Ev, Ee in N2. apply Qabs_Qle_condition in N2. lra. }
  split.
  - intros Hq. specialize (V (O Hq)). destruct V as [V1 V2]. exists v. split; [exact V1|]. split.
    + intros x w Hx Hw. destruct (float_grid x w e1 Hx Hw Hl) as [(c & Ec)|[G1 G2]].
      * rewrite Ec. split; [apply N1|]. intros T. destruct (Z.even m1) eqn:Ev; [right; auto|left].
        rewrite (N3 c eq_refl T). reflexivity.
      * destruct Cs as [C|[C Cq]]; [lia|]. replace (e1 + prec - 1) with (d - 1) in G2 by lia.
        assert (W : (w < 2 ^ (d - 1))%Q) by (eapply Qle_lt_trans; [apply Qle_Qabs|exact G2]).
        specialize (N1 (2 ^ (prec - 1))). rewrite Qpow2_Z, <- pw_split in N1 by lia.
        replace (prec - 1 + e1) with (d - 1) in N1 by lia.
        rewrite (Qabs_Qminus (2 ^ (d - 1)) q), (Qabs_pos (q - 2 ^ (d - 1))) in N1 by lra.
        rewrite (Qabs_Qminus w q), (Qabs_pos (q - w)) by lra. split; [lra|]. intros T. exfalso. lra.
    + destruct Cs as [C|[C Cq]]; [right; rewrite <- C; exact N2|left].
      eapply Qle_trans; [exact N2|]. replace (e1 - 1) with (- prec + (d - 1)) by lia. rewrite pw_split.
      rewrite !(Qmult_comm (2 ^ (- prec))). apply Qmult_le_compat_r; [assumption|apply Qlt_le_weak, pw_pos].
  - intros Hq. rewrite R.
    assert (Pl : (2 ^ (emax - 1) < limit)%Q).
    { rewrite (pw_pred emax). assert (2 ^ (emax - prec - 1) < 2 ^ (emax - 1))%Q; [|lra].
      eapply Qlt_le_trans; [|apply (pw_le (emax - prec)); lia]. rewrite (pw_pred (emax - prec)).
      replace (emax - prec - 1) with (emax - prec - 1) by lia. pose proof (pw_pos (emax - prec - 1)). lra. }
    assert (E1 : emax - prec <= e1).
    { destruct (Z.le_gt_cases (emax - prec) e1) as [|G]; [assumption|exfalso].
      pose proof (pw_le (e1 + prec) (emax - 1) ltac:(lia)). lra. }
    destruct M2 as [M2|M2]; [lia|].
    replace (m1 =? 0) with false by (symmetry; apply Z.eqb_neq; lia).
    destruct (Z.eqb_spec m1 (2 ^ prec)) as [E2|E2].
    { replace (e1 + 1 <=? emax - prec) with false by (symmetry; apply Z.leb_gt; lia). reflexivity. }
    destruct (Z.eq_dec e1 (emax - prec)) as [E3|E3].
    2: { replace (e1 <=? emax - prec) with false by (symmetry; apply Z.leb_gt; lia). reflexivity. }
    exfalso.
    assert (Ec : (inject_Z (2 ^ prec) * 2 ^ e1 == 2 ^ emax)%Q).
    { rewrite Qpow2_Z, <- pw_split by lia. replace (prec + e1) with emax by lia. reflexivity. }
    assert (Ed : (inject_Z (2 ^ prec - 1) * 2 ^ e1 == 2 ^ emax - 2 ^ e1)%Q).
    { unfold Z.sub. rewrite inject_Z_plus, Qmult_plus_distr_l, Ec. change (inject_Z (-(1))) with (- (1))%Q. ring. }
    assert (Lm : (v <= 2 ^ emax - 2 ^ e1)%Q).
    { unfold v. rewrite <- Ed. apply Qmult_le_compat_r; [rewrite <- Zle_Qle; lia|apply Qlt_le_weak, pw_pos]. }
    pose proof (N1 (2 ^ prec)) as T. rewrite Ec in T.
    replace (e1 + prec) with emax in Q1 by lia.
    rewrite (Qabs_Qminus v q), (Qabs_pos (q - v)), (Qabs_pos (2 ^ emax - q)) in T
      by (pose proof (pw_pos e1); pose proof (pw_pred (emax - prec)); rewrite ?E3 in *; lra).
    pose proof (pw_pred e1) as Pe. rewrite E3 in *.
    (* so q is the midpoint and m1 = 2^prec - 1 is odd *)
    assert (Ev : (v == 2 ^ emax - 2 ^ (emax - prec))%Q) by lra.
    assert (Em : m1 = 2 ^ prec - 1).
    { assert (X : (inject_Z m1 * 2 ^ (emax - prec) == inject_Z (2 ^ prec - 1) * 2 ^ (emax - prec))%Q) by (rewrite Ed; rewrite <- Ev; unfold v; rewrite E3; reflexivity).
      apply Qmult_inj_r in X; [|apply q2_nonzero]. exact (proj1 (inject_Z_injective _ _) X). }
    assert (Od : Z.even m1 = false).
    { rewrite Em, P3. rewrite Z.even_sub, Z.even_mul. reflexivity. }
    apply E2. symmetry. apply N3; [exact Od|]. rewrite Ec. fold v.
    rewrite (Qabs_Qminus v q), (Qabs_pos (q - v)), (Qabs_pos (2 ^ emax - q)) by (pose proof (pw_pos (emax - prec)); lra). lra.
Qed.
End Format.
