(** Lemmas about the floating-point operations: each returns the correctly rounded exact result, and its relative error. *)
From Coq Require Import ZArith Lia Lqa Bool QArith Qabs Qpower Qfield Floats.SpecFloat.
From Verif Require Import Machine M_Scalar M_Float S_Float L_Float L_FloatDegree L_FloatInt L_FloatRound.
Local Open Scope Z_scope.

Section Format.
Context (f : fmt) (Hf : 1 < f_prec f < f_emax f).
Notation prec := (f_prec f).
Notation emax := (f_emax f).
Notation lowest := (emin (f_prec f) (f_emax f)).

(** the rounding error *)
Definition small_error (q : Q) (r : spec_float) : Prop :=
  forall v, has_value r v -> (Qabs (v - q) <= 2 ^ (- prec) * Qabs q)%Q \/ (Qabs (v - q) <= 2 ^ (lowest - 1))%Q.
Definition rounded (q : Q) (r : spec_float) : Prop := rounds_to f q r /\ small_error q r.

Lemma limit_pos : (0 < fl_limit f)%Q.
Proof.
  unfold fl_limit. rewrite (pw_pred emax). pose proof (pw_pos (emax - prec - 1)).
  pose proof (pw_le (emax - prec - 1) (emax - 1) ltac:(lia)). pose proof (pw_pos (emax - 1)). lra.
Qed.
Lemma rounded_compat q q' r : (q == q')%Q -> rounded q r -> rounded q' r.
Proof.
  intros E [(V & N & I1 & I2) S]. split; [split; [exact V|split; [|split]]|].
  - intros H. rewrite <- E in H. destruct (N H) as (v & Hv & X). exists v. split; [exact Hv|].
    intros x w Hx Hw. rewrite <- E. exact (X x w Hx Hw).
  - intros H. rewrite <- E in H. auto.
  - intros H. rewrite <- E in H. auto.
  - intros v Hv. rewrite <- E. exact (S v Hv).
Qed.

Lemma round_signed sx mx ex lx q : 0 <= mx -> ex <= fexp prec emax (Zdigits2 mx + ex) ->
  at_rec q ex (shr_record_of_loc mx lx) -> rounded (sgn sx q) (binary_round_aux prec emax sx mx ex lx).
Proof.
  intros Hm He Hat. set (r := binary_round_aux prec emax sx mx ex lx).
  pose proof limit_pos as Lp.
  assert (Q0 : (0 <= q)%Q) by (destruct (round_cases prec emax ltac:(lia) mx ex lx q Hm He Hat) as [X _]; exact X).
  destruct (round_aux_spec prec emax ltac:(lia) sx mx ex lx q Hm He Hat) as [A B]. fold r in A, B.
  fold (fl_limit f) in A, B.
  split.
  - split; [apply round_aux_valid; [lia|assumption..]|]. split; [|split].
    + intros H. rewrite sgn_abs, Qabs_pos in H by assumption. destruct (A H) as (v & Hv & Hn & _).
      exists (sgn sx v). split; [exact Hv|]. intros x w Hx Hw. destruct sx; cbn [sgn].
      * assert (Hw' : has_value (SFopp x) (- w)).
        { destruct Hw as (w0 & E & W). destruct x as [s|s| |s m e]; cbn in E; try discriminate; injection E as <-.
          - exists 0%Q. split; [reflexivity|]. rewrite <- W. reflexivity.
          - eexists. split; [reflexivity|]. rewrite <- W. destruct s; cbn [negb];
              [change (Zneg m) with (- Zpos m)|change (Zneg m) with (- Zpos m)]; rewrite inject_Z_opp; ring. }
        assert (Hx' : is_float f (SFopp x)) by (apply opp_valid; exact Hx).
        destruct (Hn _ _ Hx' Hw') as [N1 N2].
        assert (X1 : (Qabs (- v - - q) == Qabs (v - q))%Q) by (rewrite <- Qabs_opp; apply Qabs_wd; ring).
        assert (X2 : (Qabs (w - - q) == Qabs (- w - q))%Q) by (rewrite <- Qabs_opp; apply Qabs_wd; ring).
        rewrite X1, X2. split; [exact N1|]. intros T. destruct (N2 T) as [E|E]; [left|right; exact E]. lra.
      * exact (Hn x w Hx Hw).
    + intros H. destruct sx; cbn [sgn] in H; [exfalso; lra|]. apply B. exact H.
    + intros H. destruct sx; cbn [sgn] in H; [|exfalso; lra]. apply B. lra.
  - intros v Hv. destruct (Qlt_le_dec q (fl_limit f)) as [L|L].
    + destruct (A L) as (v0 & Hv0 & _ & E). pose proof (has_value_fun _ _ _ Hv Hv0) as Ev. rewrite Ev, sgn_abs, (Qabs_pos q) by assumption.
      destruct sx; cbn [sgn]; [|exact E].
      assert (X1 : (Qabs (- v0 - - q) == Qabs (v0 - q))%Q) by (rewrite <- Qabs_opp; apply Qabs_wd; ring).
      rewrite X1. exact E.
    + exfalso. rewrite (B L) in Hv. destruct Hv as (? & E & _). discriminate.
Qed.

(** a number of the format rounds to itself *)
Lemma float_bound x v : is_float f x -> has_value x v -> (Qabs v < fl_limit f)%Q.
Proof.
  intros Hx Hv. pose proof limit_pos as Lp. destruct x as [s|s| |s m e]; try (exfalso; destruct Hv as (? & E & _); discriminate).
  { apply value_zero in Hv. rewrite Hv. exact Lp. }
  apply value_finite in Hv. destruct (canonical_cases prec emax m e Hx) as [C1 C2].
  rewrite <- Hv, Qabs_Qmult, (Qabs_pos (2 ^ e)) by (apply Qlt_le_weak, pw_pos).
  assert (A : (Qabs (inject_Z (cond_Zopp s (Zpos m))) == inject_Z (Zpos m))%Q) by (destruct s; reflexivity). rewrite A.
  pose proof (digits_bounds (Zpos m) ltac:(lia)) as [_ B].
  assert (Dm : Zdigits2 (Zpos m) <= prec) by (unfold fexp in C1; lia).
  assert (M : Zpos m <= 2 ^ prec - 1) by (assert (2 ^ Zdigits2 (Zpos m) <= 2 ^ prec) by (apply Z.pow_le_mono_r; lia); lia).
  apply Qle_lt_trans with (inject_Z (2 ^ prec - 1) * 2 ^ (emax - prec))%Q.
  - apply Qle_trans with (inject_Z (2 ^ prec - 1) * 2 ^ e)%Q.
    + apply Qmult_le_compat_r; [rewrite <- Zle_Qle; exact M|apply Qlt_le_weak, pw_pos].
    + assert (0 <= inject_Z (2 ^ prec - 1))%Q by (change 0%Q with (inject_Z 0); rewrite <- Zle_Qle; lia).
      pose proof (pw_le e (emax - prec) C2). nra.
  - unfold Z.sub at 1. rewrite inject_Z_plus, Qmult_plus_distr_l, Qpow2_Z, <- pw_split by lia.
    replace (prec + (emax - prec)) with emax by lia. unfold fl_limit. rewrite (pw_pred (emax - prec)).
    change (inject_Z (- (1))) with (- (1))%Q. pose proof (pw_pos (emax - prec - 1)). lra.
Qed.
Lemma rounded_exact x v : is_float f x -> has_value x v -> rounded v x.
Proof.
  intros Hx Hv. pose proof (float_bound x v Hx Hv) as B. pose proof limit_pos as Lp.
  assert (E0 : (v - v == 0)%Q) by ring.
  split; [split; [exact Hx|split; [|split]]|].
  - intros _. exists v. split; [exact Hv|]. intros y w _ _. rewrite E0. change (Qabs 0) with 0%Q.
    split; [apply Qabs_nonneg|]. intros T. left. symmetry in T.
    assert (X : (-(0) <= w - v <= 0)%Q) by (apply Qabs_Qle_condition; rewrite T; apply Qle_refl). lra.
  - intros H. exfalso. rewrite Qabs_pos in B by lra. lra.
  - intros H. exfalso. rewrite Qabs_neg in B by lra. lra.
  - intros w Hw. left. rewrite (has_value_fun _ _ _ Hw Hv), E0. change (Qabs 0) with 0%Q.
    pose proof (pw_pos (- prec)). pose proof (Qabs_nonneg v). nra.
Qed.
Lemma zero_value s : has_value (S754_zero s) 0.
Proof. exists 0%Q. split; reflexivity. Qed.

Lemma at_exact m e : at_rec (inject_Z m * 2 ^ e) e (shr_record_of_loc m loc_Exact).
Proof.
  exists 0%Q. cbn. split; [ring|]. split; [apply Qle_refl|]. split; [apply pw_pos|]. split; reflexivity.
Qed.
Lemma at_compat q q' e r : (q == q')%Q -> at_rec q e r -> at_rec q' e r.
Proof. intros E (t & H1 & H2). exists t. rewrite <- E. split; assumption. Qed.
Lemma round_rounded s m e : rounded (sgn s (inject_Z (Zpos m) * 2 ^ e)) (binary_round prec emax s m e).
Proof.
  rewrite round_unfold. cbn zeta. set (e0 := fexp prec emax (Zdigits2 (Zpos m) + e)).
  assert (P : 0 < 2 ^ Z.max 0 (e - e0)) by (apply Z.pow_pos_nonneg; lia).
  apply round_signed; [lia| |].
  - rewrite digits_shl by lia. destruct (Z.le_gt_cases e e0) as [L|L].
    + replace (Z.max 0 (e - e0)) with 0 by lia. replace (Z.min e e0) with e by lia. rewrite Z.add_0_r. exact L.
    + replace (Z.max 0 (e - e0)) with (e - e0) by lia. replace (Z.min e e0) with e0 by lia.
      replace (Zdigits2 (Zpos m) + (e - e0) + e0) with (Zdigits2 (Zpos m) + e) by lia. fold e0. lia.
  - eapply at_compat; [|apply at_exact]. rewrite pw_shift by lia.
    replace (Z.min e e0 + Z.max 0 (e - e0)) with e by lia. reflexivity.
Qed.
Lemma normalize_rounded m e sz : rounded (inject_Z m * 2 ^ e) (binary_normalize prec emax m e sz).
Proof.
  destruct m as [|m|m]; cbn [binary_normalize].
  - eapply rounded_compat; [|apply (rounded_exact (S754_zero sz) 0); [reflexivity|apply zero_value]]. ring.
  - apply (round_rounded false).
  - eapply rounded_compat; [|apply (round_rounded true)]. cbn [sgn]. change (Zneg m) with (- Zpos m). rewrite inject_Z_opp. ring.
Qed.

Lemma add_rounded x y a b : is_float f x -> is_float f y -> has_value x a -> has_value y b ->
  rounded (a + b) (SFadd prec emax x y).
Proof.
  intros Vx Vy Hx Hy.
  destruct x as [sx|sx| |sx mx ex]; try (exfalso; destruct Hx as (w & E & _); discriminate);
  destruct y as [sy|sy| |sy my ey]; try (exfalso; destruct Hy as (w & E & _); discriminate); cbn [SFadd].
  - apply value_zero in Hx, Hy. eapply (rounded_compat 0); [rewrite Hx, Hy; reflexivity|].
    destruct (Bool.eqb sx sy); apply rounded_exact; try reflexivity; apply zero_value.
  - apply value_zero in Hx. eapply (rounded_compat b); [rewrite Hx; ring|]. apply rounded_exact; assumption.
  - apply value_zero in Hy. eapply (rounded_compat a); [rewrite Hy; ring|]. apply rounded_exact; assumption.
  - apply value_finite in Hx, Hy. set (ez := Z.min ex ey).
    eapply rounded_compat; [|apply normalize_rounded]. rewrite <- Hx, <- Hy.
    assert (A : forall s m e, ez <= e ->
      (inject_Z (cond_Zopp s (Zpos (fst (shl_align m e ez)))) * 2 ^ ez == inject_Z (cond_Zopp s (Zpos m)) * 2 ^ e)%Q).
    { intros s m e Hle. rewrite shl_align_eq. replace (Z.max 0 (e - ez)) with (e - ez) by lia.
      replace (cond_Zopp s (Zpos m * 2 ^ (e - ez))) with (cond_Zopp s (Zpos m) * 2 ^ (e - ez)) by (destruct s; cbn [cond_Zopp]; lia).
      rewrite pw_shift by lia. replace (ez + (e - ez)) with e by lia. reflexivity. }
    rewrite inject_Z_plus, Qmult_plus_distr_l, !A by (subst ez; lia). reflexivity.
Qed.
Lemma opp_value x a : has_value x a -> has_value (SFopp x) (- a).
Proof.
  intros (w0 & E & W). destruct x as [s|s| |s m e]; cbn in E; try discriminate; injection E as <-.
  - exists 0%Q. split; [reflexivity|]. rewrite <- W. reflexivity.
  - eexists. split; [reflexivity|]. rewrite <- W. destruct s; cbn [negb]; change (Zneg m) with (- Zpos m); rewrite inject_Z_opp; ring.
Qed.
Lemma sub_rounded x y a b : is_float f x -> is_float f y -> has_value x a -> has_value y b ->
  rounded (a - b) (SFsub prec emax x y).
Proof.
  intros Vx Vy Hx Hy. rewrite sub_opp. apply add_rounded; [assumption|apply opp_valid; assumption|assumption|apply opp_value; assumption].
Qed.
Lemma sgn_wd s a b : (a == b)%Q -> (sgn s a == sgn s b)%Q.
Proof. intros E. destruct s; cbn [sgn]; rewrite E; reflexivity. Qed.
Lemma sgn_cond s m : (sgn s (inject_Z m) == inject_Z (cond_Zopp s m))%Q.
Proof. destruct s; cbn [sgn cond_Zopp]; [rewrite inject_Z_opp|]; reflexivity. Qed.
Lemma mul_rounded x y a b : is_float f x -> is_float f y -> has_value x a -> has_value y b ->
  rounded (a * b) (SFmul prec emax x y).
Proof.
  intros Vx Vy Hx Hy.
  destruct x as [sx|sx| |sx mx ex]; try (exfalso; destruct Hx as (w & E & _); discriminate);
  destruct y as [sy|sy| |sy my ey]; try (exfalso; destruct Hy as (w & E & _); discriminate); cbn [SFmul].
  1-3: (eapply (rounded_compat 0); [|apply rounded_exact; [reflexivity|apply zero_value]]).
  - apply value_zero in Hx. rewrite Hx. ring.
  - apply value_zero in Hx. rewrite Hx. ring.
  - apply value_zero in Hy. rewrite Hy. ring.
  - apply value_finite in Hx, Hy.
    destruct (canonical_cases prec emax mx ex Vx) as [X1 X2]. destruct (canonical_cases prec emax my ey Vy) as [Y1 Y2].
    eapply rounded_compat; [|apply (round_signed (xorb sx sy) (Zpos (mx * my)) (ex + ey) loc_Exact (inject_Z (Zpos (mx * my)) * 2 ^ (ex + ey)))];
      [|lia| |apply at_exact].
    + rewrite <- Hx, <- Hy, (sgn_wd _ _ (inject_Z (Zpos mx) * inject_Z (Zpos my) * (2 ^ ex * 2 ^ ey)))
        by (rewrite pw_split, Pos2Z.inj_mul, inject_Z_mult; reflexivity).
      rewrite <- !sgn_cond. destruct sx, sy; cbn [xorb sgn]; ring.
    + set (dx := Zdigits2 (Zpos mx)) in *. set (dy := Zdigits2 (Zpos my)) in *.
      assert (Px : 0 < dx) by (apply digits_pos; lia). assert (Py : 0 < dy) by (apply digits_pos; lia).
      assert (D : dx + dy - 1 <= Zdigits2 (Zpos (mx * my))).
      { rewrite Pos2Z.inj_mul.
        destruct (digits_bounds (Zpos mx) ltac:(lia)) as [G1 _]. destruct (digits_bounds (Zpos my) ltac:(lia)) as [G2 _].
        fold dx in G1. fold dy in G2.
        pose proof (digits_ge (Zpos mx * Zpos my) (dx - 1 + (dy - 1)) ltac:(lia)) as H.
        rewrite Z.pow_add_r in H by lia. specialize (H ltac:(apply Z.mul_le_mono_nonneg; try assumption; apply Z.pow_nonneg; lia)). lia. }
      unfold fexp, emin in *. lia.
Qed.

(** the quotient with remainder of the mantissas, and on which side of the middle the rest lies *)
Lemma at_quotient m2 qq rr e : 0 <= rr < Zpos m2 ->
  at_rec (inject_Z (qq * Zpos m2 + rr) / inject_Z (Zpos m2) * 2 ^ e) e (shr_record_of_loc qq (new_location (Zpos m2) rr)).
Proof.
  intros Hr. pose proof (pw_pos (e - 1)) as P. pose proof (pw_pred e) as Pp.
  assert (M0 : (0 < inject_Z (Zpos m2))%Q) by (change 0%Q with (inject_Z 0); rewrite <- Zlt_Qlt; lia).
  assert (C : forall c, (rr ?= c) = (inject_Z rr ?= inject_Z c)%Q).
  { intros c. unfold Qcompare. cbn. rewrite !Z.mul_1_r. reflexivity. }
  assert (E : (inject_Z (qq * Zpos m2 + rr) / inject_Z (Zpos m2) * 2 ^ e ==
    inject_Z qq * 2 ^ e + inject_Z rr / inject_Z (Zpos m2) * (2 * 2 ^ (e - 1)))%Q).
  { rewrite <- Pp. rewrite inject_Z_plus, inject_Z_mult. field. lra. }
  set (h := (2 ^ (e - 1))%Q) in *.
  set (u := (inject_Z rr / inject_Z (Zpos m2))%Q) in *.
  assert (U : (u * inject_Z (Zpos m2) == inject_Z rr)%Q) by (unfold u; field; lra).
  assert (Loc : match new_location (Zpos m2) rr with
    | loc_Exact => rr = 0 | loc_Inexact Lt => 0 < rr /\ 2 * rr < Zpos m2
    | loc_Inexact Eq => 2 * rr = Zpos m2 | loc_Inexact Gt => Zpos m2 < 2 * rr end).
  { unfold new_location, new_location_even, new_location_odd. destruct (Z.even (Zpos m2)) eqn:Ev.
    - destruct (Zeq_bool rr 0) eqn:Z0; [apply Zeq_bool_eq in Z0; exact Z0|]. apply Zeq_bool_neq in Z0.
      destruct (Z.compare_spec (2 * rr) (Zpos m2)); [assumption|split; lia|assumption].
    - destruct (Zeq_bool rr 0) eqn:Z0; [apply Zeq_bool_eq in Z0; exact Z0|]. apply Zeq_bool_neq in Z0.
      assert (Z.even (Zpos m2) = false) as Od by exact Ev.
      destruct (Z.compare_spec (2 * rr + 1) (Zpos m2)); [split; lia|split; lia|].
      destruct (Z.eq_dec (2 * rr) (Zpos m2)) as [X|X]; [rewrite <- X, Z.even_mul in Od; discriminate|lia]. }
  assert (T : forall a b, (inject_Z a * u <= inject_Z b)%Q <-> a * rr <= b * Zpos m2).
  { intros a b. rewrite (Zle_Qle (a * rr)), !inject_Z_mult, <- U. split; intros H; nra. }
  assert (T2 : forall a b, (inject_Z a * u < inject_Z b)%Q <-> a * rr < b * Zpos m2).
  { intros a b. rewrite (Zlt_Qlt (a * rr)), !inject_Z_mult, <- U. split; intros H; nra. }
  assert (U0 : (0 <= u)%Q).
  { unfold u. apply Qle_shift_div_l; [exact M0|]. rewrite Qmult_0_l. change 0%Q with (inject_Z 0). rewrite <- Zle_Qle. lia. }
  assert (U1 : (u < 1)%Q) by (pose proof (proj2 (T2 1 1) ltac:(lia)) as X; change (inject_Z 1) with 1%Q in X; lra).
  destruct (new_location (Zpos m2) rr) as [|[]]; cbn [shr_record_of_loc].
  - exists 0%Q. cbn [shr_m shr_r shr_s]. fold h. split; [|split; [lra|split; [exact P|split; reflexivity]]].
    rewrite E. unfold u. rewrite Loc. change (inject_Z 0) with 0%Q. field. lra.
  - exists 0%Q. cbn [shr_m shr_r shr_s]. fold h. split; [|split; [lra|split; [exact P|split; reflexivity]]].
    rewrite E. assert (Hu : (2 * u == 1)%Q).
    { rewrite <- (Qmult_inj_r _ _ (inject_Z (Zpos m2))) by lra. rewrite <- Qmult_assoc, U, <- Loc, inject_Z_mult. ring. }
    setoid_replace (u * (2 * h))%Q with (2 * u * h)%Q by ring. rewrite Hu. ring.
  - assert (Hu : (2 * u < 1)%Q) by (pose proof (proj2 (T2 2 1) ltac:(lia)) as X; change (inject_Z 1) with 1%Q in X; change (inject_Z 2) with 2%Q in X; lra).
    assert (Hu0 : (0 < u)%Q) by (pose proof (proj2 (T2 (-1) 0) ltac:(lia)) as X; change (inject_Z (-1)) with (-1)%Q in X; change (inject_Z 0) with 0%Q in X; lra).
    exists (u * (2 * h))%Q. cbn [shr_m shr_r shr_s]. fold h. split; [rewrite E; ring|]. split; [nra|]. split; [nra|].
    split; [discriminate|]. intros X. exfalso. nra.
  - assert (Hu : (1 < 2 * u)%Q) by (pose proof (proj2 (T2 (-2) (-1)) ltac:(lia)) as X; change (inject_Z (-2)) with (-2)%Q in X; change (inject_Z (-1)) with (-1)%Q in X; lra).
    exists ((2 * u - 1) * h)%Q. cbn [shr_m shr_r shr_s]. fold h. split; [rewrite E; ring|]. split; [nra|]. split; [nra|].
    split; [discriminate|]. intros X. exfalso. nra.
Qed.
Lemma div_rounded x y a b : is_float f x -> is_float f y -> has_value x a -> has_value y b -> ~ (b == 0)%Q ->
  rounded (a / b) (SFdiv prec emax x y).
Proof.
  intros Vx Vy Hx Hy Hb.
  destruct y as [sy|sy| |sy my ey]; try (exfalso; destruct Hy as (w & E & _); discriminate).
  { exfalso. apply value_zero in Hy. contradiction. }
  destruct x as [sx|sx| |sx mx ex]; try (exfalso; destruct Hx as (w & E & _); discriminate); cbn [SFdiv].
  { eapply (rounded_compat 0); [|apply rounded_exact; [reflexivity|apply zero_value]].
    apply value_zero in Hx. rewrite Hx. unfold Qdiv. ring. }
  apply value_finite in Hx, Hy. unfold SFdiv_core_binary.
  set (d1 := Zdigits2 (Zpos mx)). set (d2 := Zdigits2 (Zpos my)).
  set (e' := Z.min (fexp prec emax (d1 + ex - (d2 + ey))) (ex - ey)).
  assert (Hs : 0 <= ex - ey - e') by (subst e'; lia).
  set (m' := match ex - ey - e' with Z0 => Zpos mx | Zpos _ => Z.shiftl (Zpos mx) (ex - ey - e') | Zneg _ => 0 end).
  assert (Em : m' = Zpos mx * 2 ^ (ex - ey - e')).
  { subst m'. destruct (ex - ey - e') eqn:E; [lia| |lia]. rewrite <- E, Z.shiftl_mul_pow2 by lia. reflexivity. }
  clearbody m'. destruct (Z.div_eucl m' (Zpos my)) as [qq rr] eqn:EQ.
  assert (Q : qq = m' / Zpos my) by (unfold Z.div; rewrite EQ; reflexivity).
  assert (R : rr = m' mod Zpos my) by (unfold Z.modulo; rewrite EQ; reflexivity).
  assert (P : 0 < 2 ^ (ex - ey - e')) by (apply Z.pow_pos_nonneg; lia).
  assert (DM : m' = qq * Zpos my + rr) by (rewrite Q, R, (Z.mul_comm (m' / _)); apply Z.div_mod; lia).
  assert (RB : 0 <= rr < Zpos my) by (rewrite R; apply Z.mod_pos_bound; lia).
  eapply rounded_compat; [|apply (round_signed (xorb sx sy) qq e' (new_location (Zpos my) rr) (inject_Z (qq * Zpos my + rr) / inject_Z (Zpos my) * 2 ^ e'))];
    [|subst qq; apply Z.div_pos; lia| |apply at_quotient; exact RB].
  - rewrite <- DM, Em, <- Hx, <- Hy, <- !sgn_cond.
    assert (Py : ~ (inject_Z (Zpos my) == 0)%Q) by (intros X; discriminate X).
    assert (Pe : ~ (2 ^ ey == 0)%Q) by apply q2_nonzero.
    assert (S1 : (inject_Z (Zpos mx * 2 ^ (ex - ey - e')) / inject_Z (Zpos my) * 2 ^ e' == inject_Z (Zpos mx) * 2 ^ ex / (inject_Z (Zpos my) * 2 ^ ey))%Q).
    { setoid_replace (inject_Z (Zpos mx * 2 ^ (ex - ey - e')) / inject_Z (Zpos my) * 2 ^ e')%Q
        with (inject_Z (Zpos mx * 2 ^ (ex - ey - e')) * 2 ^ e' / inject_Z (Zpos my))%Q by (field; exact Py).
      rewrite pw_shift by lia. replace (e' + (ex - ey - e')) with (ex - ey) by lia.
      assert (X : (2 ^ ex == 2 ^ (ex - ey) * 2 ^ ey)%Q) by (rewrite <- pw_split; replace (ex - ey + ey) with ex by lia; reflexivity).
      rewrite X. field. split; assumption. }
    rewrite (sgn_wd _ _ _ S1). destruct sx, sy; cbn [xorb sgn]; field; repeat split; try assumption.
  - assert (D : d1 + (ex - ey - e') - d2 <= Zdigits2 qq).
    { destruct (Z.le_gt_cases (d1 + (ex - ey - e') - d2) 0); [pose proof (digits_nonneg qq); lia|].
      pose proof (digits_ge qq (d1 + (ex - ey - e') - d2 - 1) ltac:(lia)) as H1.
      enough (2 ^ (d1 + (ex - ey - e') - d2 - 1) <= qq) by lia. rewrite Q.
      apply Z.div_le_lower_bound; [lia|]. rewrite Em.
      destruct (digits_bounds (Zpos my) ltac:(lia)) as [_ G2]. fold d2 in G2.
      destruct (digits_bounds (Zpos mx) ltac:(lia)) as [G1 _]. fold d1 in G1.
      assert (0 < d1) by (apply digits_pos; lia). assert (0 < d2) by (apply digits_pos; lia).
      transitivity (2 ^ d2 * 2 ^ (d1 + (ex - ey - e') - d2 - 1)).
      - apply Z.mul_le_mono_nonneg_r; [apply Z.pow_nonneg; lia|lia].
      - rewrite <- Z.pow_add_r by lia. replace (d2 + (d1 + (ex - ey - e') - d2 - 1)) with (d1 - 1 + (ex - ey - e')) by lia.
        rewrite Z.pow_add_r by lia. apply Z.mul_le_mono_nonneg_r; lia. }
    transitivity (fexp prec emax (d1 + ex - (d2 + ey))); [subst e'; lia|]. apply fexp_mono. lia.
Qed.

(** addition has no underflow error *)
Lemma add_error x y a b v : is_float f x -> is_float f y -> has_value x a -> has_value y b ->
  has_value (SFadd prec emax x y) v -> (Qabs (v - (a + b)) <= 2 ^ (- prec) * Qabs (a + b))%Q.
Proof.
  intros Vx Vy Hx Hy Hv. destruct (add_rounded x y a b Vx Vy Hx Hy) as [[Vr _] S].
  assert (Pn : (0 <= 2 ^ (- prec) * Qabs (a + b))%Q) by (apply Qmult_le_0_compat; [apply Qlt_le_weak, pw_pos|apply Qabs_nonneg]).
  destruct (S v Hv) as [E|E]; [exact E|].
  assert (G : forall z w, is_float f z -> has_value z w -> exists c, (w == inject_Z c * 2 ^ lowest)%Q).
  { intros z w Hz Hw. destruct (float_grid prec emax ltac:(lia) z w lowest Hz Hw ltac:(lia)) as [C|[X _]]; [exact C|lia]. }
  destruct (G _ _ Vx Hx) as (ca & Ea). destruct (G _ _ Vy Hy) as (cb & Eb). destruct (G _ _ Vr Hv) as (cv & Ev).
  assert (D : (v - (a + b) == inject_Z (cv - (ca + cb)) * 2 ^ lowest)%Q).
  { rewrite Ev, Ea, Eb. unfold Z.sub. rewrite inject_Z_plus, inject_Z_opp, inject_Z_plus. ring. }
  rewrite D in E |- *. rewrite Qabs_Qmult, (Qabs_pos (2 ^ lowest)) in E |- * by (apply Qlt_le_weak, pw_pos).
  assert (Z0 : Z.abs (cv - (ca + cb)) < 1).
  { rewrite (pw_pred lowest) in E. pose proof (pw_pos (lowest - 1)) as P.
    assert (X : (inject_Z (Z.abs (cv - (ca + cb))) < inject_Z 1)%Q); [|rewrite <- Zlt_Qlt in X; exact X].
    change (inject_Z (Z.abs (cv - (ca + cb)))) with (Qabs (inject_Z (cv - (ca + cb)))). change (inject_Z 1) with 1%Q. nra. }
  replace (cv - (ca + cb)) with 0 by lia. change (Qabs (inject_Z 0)) with 0%Q. lra.
Qed.
(** once a sum is not finite it stays so *)
Lemma add_finite x y v : has_value (SFadd prec emax x y) v -> finite x /\ finite y.
Proof.
  intros (w & E & _). unfold finite, has_value.
  assert (Z0 : forall s, exists v, exists w, fl_value (S754_zero s) = Some w /\ (w == v)%Q) by (intros; exists 0%Q, 0%Q; split; reflexivity).
  assert (Fi : forall s m e, exists v, exists w, fl_value (S754_finite s m e) = Some w /\ (w == v)%Q)
    by (intros; eexists _, _; split; [reflexivity|reflexivity]).
  destruct x as [sx|sx| |sx mx ex], y as [sy|sy| |sy my ey]; cbn [SFadd] in E;
    try (cbn in E; discriminate); try (split; auto; fail).
  destruct (Bool.eqb sx sy); discriminate.
Qed.
End Format.
