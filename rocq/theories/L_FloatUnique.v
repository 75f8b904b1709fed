(** Lemma: correct rounding determines the number that results. *)
From Coq Require Import ZArith Lia Lqa Bool QArith Qabs Qpower Floats.SpecFloat.
From Verif Require Import Machine M_Scalar M_Float S_Float L_Float L_FloatDegree L_FloatInt L_FloatRound L_FloatOps.
Local Open Scope Z_scope.

Section Format.
Context (f : fmt) (Hf : 1 < f_prec f < f_emax f).
Notation prec := (f_prec f).
Notation emax := (f_emax f).
Notation lowest := (emin (f_prec f) (f_emax f)).

Lemma representable c e : 0 < c < 2 ^ prec -> lowest <= e <= emax - prec ->
  exists x, is_float f x /\ has_value x (inject_Z c * 2 ^ e).
Proof.
  intros Hc He. assert (D : Zdigits2 c <= prec) by (apply (digits_lt prec emax); lia).
  set (e0 := fexp prec emax (Zdigits2 c + e)).
  assert (E0 : e0 <= e) by (subst e0; unfold fexp; lia).
  assert (P : 0 < 2 ^ (e - e0)) by (apply Z.pow_pos_nonneg; lia).
  exists (S754_finite false (Z.to_pos (c * 2 ^ (e - e0))) e0). split.
  - unfold is_float, valid_binary, bounded, canonical_mantissa. apply andb_true_intro. split.
    + apply Zeq_is_eq_bool.
      assert (X : Zpos (digits2_pos (Z.to_pos (c * 2 ^ (e - e0)))) = Zdigits2 c + (e - e0)).
      { change (Zpos (digits2_pos (Z.to_pos (c * 2 ^ (e - e0))))) with (Zdigits2 (Zpos (Z.to_pos (c * 2 ^ (e - e0))))).
        rewrite Z2Pos.id by lia. apply digits_shl; lia. }
      rewrite X. replace (Zdigits2 c + (e - e0) + e0) with (Zdigits2 c + e) by lia. reflexivity.
    + apply Zle_imp_le_bool. lia.
  - eexists. split; [reflexivity|]. rewrite Z2Pos.id by lia. rewrite pw_shift by lia.
    replace (e0 + (e - e0)) with e by lia. reflexivity.
Qed.

(** two nearest floats, the second one larger *)
Lemma no_two_even q r r' v v' : (0 <= q)%Q -> is_float f r -> is_float f r' -> has_value r v -> has_value r' v' ->
  even_significand r -> even_significand r' -> (v < v')%Q -> (Qabs (v - q) == Qabs (v' - q))%Q ->
  (forall x w, is_float f x -> has_value x w -> Qabs (v - q) <= Qabs (w - q))%Q -> False.
Proof.
  intros Q0 Vr Vr' Hv Hv' Ev Ev' L T N.
  assert (B : forall x w, is_float f x -> has_value x w -> (w <= v \/ v' <= w)%Q).
  { intros x w Vx Hw. destruct (Qlt_le_dec v w) as [H1|H1]; [|left; exact H1].
    destruct (Qlt_le_dec w v') as [H2|H2]; [|right; exact H2]. exfalso.
    pose proof (N x w Vx Hw) as N1. pose proof (N x w Vx Hw) as N2. rewrite T in N2.
    revert N1 N2 T. apply (Qabs_case (v - q)); intros ?; apply (Qabs_case (v' - q)); intros ?;
      apply (Qabs_case (w - q)); intros ?; intros; lra. }
  assert (Z0 : has_value (S754_zero false) 0) by (exists 0%Q; split; reflexivity).
  (* both are not negative *)
  assert (V0 : (0 <= v)%Q).
  { destruct (B (S754_zero false) 0%Q eq_refl Z0) as [H|H]; [exact H|exfalso].
    pose proof (N _ _ (eq_refl : is_float f (S754_zero false)) Z0) as N1.
    revert N1 T. apply (Qabs_case (v - q)); intros ?; apply (Qabs_case (v' - q)); intros ?;
      apply (Qabs_case (0 - q)); intros ?; intros; lra. }
  destruct r' as [s|s| |s m' e']; try (destruct Hv' as (? & E & _); discriminate).
  { apply value_zero in Hv'. lra. }
  apply value_finite in Hv'. destruct (canonical_cases prec emax m' e' Vr') as [C1' C2'].
  assert (P' : (0 < 2 ^ e')%Q) by apply pw_pos.
  assert (Pm : forall k : positive, (0 < inject_Z (Zpos k))%Q) by reflexivity.
  assert (s = false) as ->.
  { destruct s; [exfalso|reflexivity]. cbn [cond_Zopp] in Hv'. rewrite inject_Z_opp in Hv'. pose proof (Pm m'). nra. }
  cbn [cond_Zopp] in Hv'. cbn [even_significand] in Ev'.
  assert (D' : Zpos m' < 2 ^ prec).
  { pose proof (digits_bounds (Zpos m') ltac:(lia)) as [_ X]. assert (Zdigits2 (Zpos m') <= prec) by (unfold fexp in C1'; lia).
    assert (2 ^ Zdigits2 (Zpos m') <= 2 ^ prec) by (apply Z.pow_le_mono_r; lia). lia. }
  assert (Le' : lowest <= e') by (unfold fexp in C1'; lia).
  destruct r as [s|s| |s m e]; try (destruct Hv as (? & E & _); discriminate).
  - apply value_zero in Hv.
    destruct (representable 1 lowest) as (x & Vx & Hx).
    { split; [lia|]. change 1 with (2 ^ 0). apply Z.pow_lt_mono_r; lia. }
    { unfold emin in *. lia. }
    destruct (B x _ Vx Hx) as [H|H].
    + pose proof (pw_pos lowest). change (inject_Z 1) with 1%Q in H. lra.
    + rewrite <- Hv' in H. change (inject_Z 1) with 1%Q in H. rewrite Qmult_1_l in H.
      pose proof (pw_le lowest e' Le') as Pl. pose proof (Pm m').
      assert (X : (inject_Z (Zpos m') <= 1)%Q).
      { destruct (Qlt_le_dec 1 (inject_Z (Zpos m'))) as [Y|Y]; [exfalso; nra|exact Y]. }
      change 1%Q with (inject_Z 1) in X. rewrite <- Zle_Qle in X. replace (Zpos m') with 1 in Ev' by lia. discriminate.
  - apply value_finite in Hv. destruct (canonical_cases prec emax m e Vr) as [C1 C2].
    assert (P : (0 < 2 ^ e)%Q) by apply pw_pos.
    assert (s = false) as ->.
    { destruct s; [exfalso|reflexivity]. cbn [cond_Zopp] in Hv. rewrite inject_Z_opp in Hv. pose proof (Pm m). nra. }
    cbn [cond_Zopp] in Hv. cbn [even_significand] in Ev.
    assert (D : Zpos m < 2 ^ prec).
    { pose proof (digits_bounds (Zpos m) ltac:(lia)) as [_ X]. assert (Zdigits2 (Zpos m) <= prec) by (unfold fexp in C1; lia).
      assert (2 ^ Zdigits2 (Zpos m) <= 2 ^ prec) by (apply Z.pow_le_mono_r; lia). lia. }
    assert (Le : lowest <= e) by (unfold fexp in C1; lia).
    assert (Pe : Z.even (2 ^ prec) = true) by (rewrite Z.even_pow by lia; reflexivity).
    destruct (Z.le_gt_cases e e') as [G|G].
    + assert (D1 : Zpos m + 1 < 2 ^ prec).
      { enough (Zpos m + 1 <> 2 ^ prec) by lia. intros X. rewrite <- X in Pe. rewrite Z.even_add, Ev in Pe. discriminate. }
      destruct (representable (Zpos m + 1) e ltac:(lia) ltac:(lia)) as (x & Vx & Hx).
      assert (S' : (v' == inject_Z (Zpos m' * 2 ^ (e' - e)) * 2 ^ e)%Q).
      { rewrite <- Hv', pw_shift by lia. replace (e + (e' - e)) with e' by lia. reflexivity. }
      assert (Lz : Zpos m < Zpos m' * 2 ^ (e' - e)).
      { rewrite Zlt_Qlt. rewrite <- Hv, S' in L. apply Qmult_lt_r in L; assumption. }
      destruct (B x _ Vx Hx) as [H|H].
      * rewrite <- Hv, inject_Z_plus in H. change (inject_Z 1) with 1%Q in H. nra.
      * rewrite S' in H. apply Qmult_le_r in H; [|exact P]. rewrite <- Zle_Qle in H.
        assert (E : Zpos m' * 2 ^ (e' - e) = Zpos m + 1) by lia.
        apply (f_equal Z.even) in E. rewrite Z.even_mul, Z.even_add, Ev, Ev' in E. discriminate.
    + assert (S' : (v == inject_Z (Zpos m * 2 ^ (e - e')) * 2 ^ e')%Q).
      { rewrite <- Hv, pw_shift by lia. replace (e' + (e - e')) with e by lia. reflexivity. }
      assert (Lz : Zpos m * 2 ^ (e - e') < Zpos m').
      { rewrite Zlt_Qlt. rewrite <- Hv', S' in L. apply Qmult_lt_r in L; assumption. }
      assert (Pz : 0 < 2 ^ (e - e')) by (apply Z.pow_pos_nonneg; lia).
      destruct (representable (Zpos m' - 1) e' ltac:(lia) ltac:(lia)) as (x & Vx & Hx).
      destruct (B x _ Vx Hx) as [H|H].
      * rewrite S' in H. apply Qmult_le_r in H; [|exact P']. rewrite <- Zle_Qle in H.
        assert (E : Zpos m * 2 ^ (e - e') = Zpos m' - 1) by lia.
        apply (f_equal Z.even) in E. rewrite Z.even_mul, Z.even_sub, Ev, Ev' in E. discriminate.
      * rewrite <- Hv' in H. apply Qmult_le_r in H; [|exact P']. rewrite <- Zle_Qle in H. lia.
Qed.
Lemma unique_nonneg q r r' v v' : (0 <= q)%Q -> is_float f r -> is_float f r' -> has_value r v -> has_value r' v' ->
  (forall x w, is_float f x -> has_value x w ->
     Qabs (v - q) <= Qabs (w - q) /\ (Qabs (v - q) == Qabs (w - q) -> w == v \/ even_significand r))%Q ->
  (forall x w, is_float f x -> has_value x w ->
     Qabs (v' - q) <= Qabs (w - q) /\ (Qabs (v' - q) == Qabs (w - q) -> w == v' \/ even_significand r'))%Q ->
  (v == v')%Q.
Proof.
  intros Q0 Vr Vr' Hv Hv' N N'. destruct (N _ _ Vr' Hv') as [N1 N2]. destruct (N' _ _ Vr Hv) as [N1' N2'].
  assert (T : (Qabs (v - q) == Qabs (v' - q))%Q) by (apply Qle_antisym; assumption).
  destruct (N2 T) as [E|Ev]; [symmetry; exact E|]. symmetry in T. destruct (N2' T) as [E|Ev']; [exact E|].
  destruct (Qlt_le_dec v v') as [L|L].
  { exfalso. symmetry in T. eapply (no_two_even q r r' v v'); eauto. intros x w Vx Hw. apply (N x w Vx Hw). }
  destruct (Qlt_le_dec v' v) as [L'|L'].
  { exfalso. eapply (no_two_even q r' r v' v); eauto. intros x w Vx Hw. apply (N' x w Vx Hw). }
  apply Qle_antisym; assumption.
Qed.
Lemma rounds_unique q r r' : rounds_to f q r -> rounds_to f q r' ->
  r = r' \/ exists v, has_value r v /\ has_value r' v.
Proof.
  intros (V & N & I1 & I2) (V' & N' & I1' & I2').
  destruct (Qlt_le_dec q (fl_limit f)) as [L1|L1]; [|left; rewrite I1, I1' by exact L1; reflexivity].
  destruct (Qlt_le_dec (- fl_limit f) q) as [L2|L2]; [|left; rewrite I2, I2' by exact L2; reflexivity].
  right. assert (L : (Qabs q < fl_limit f)%Q) by (apply Qabs_case; intros ?; lra).
  destruct (N L) as (v & Hv & X). destruct (N' L) as (v' & Hv' & X'). exists v. split; [exact Hv|].
  enough (E : (v == v')%Q) by (apply (has_value_compat _ v' v); [symmetry; exact E|exact Hv']).
  destruct (Qlt_le_dec q 0) as [Q0|Q0]; [|exact (unique_nonneg q r r' v v' Q0 V V' Hv Hv' X X')].
  assert (F : forall a b, (Qabs (- a - - b) == Qabs (a - b))%Q).
  { intros a b. rewrite <- Qabs_opp. apply Qabs_wd. ring. }
  assert (G : forall r v, is_float f r -> has_value r v ->
    (forall x w, is_float f x -> has_value x w ->
       Qabs (v - q) <= Qabs (w - q) /\ (Qabs (v - q) == Qabs (w - q) -> w == v \/ even_significand r))%Q ->
    (forall x w, is_float f x -> has_value x w ->
       Qabs (- v - - q) <= Qabs (w - - q) /\ (Qabs (- v - - q) == Qabs (w - - q) -> w == - v \/ even_significand (SFopp r)))%Q).
  { intros r0 v0 Vr Hr0 Y x w Vx Hw. destruct (Y (SFopp x) (- w)%Q (opp_valid _ _ _ Vx) (opp_value _ _ Hw)) as [Y1 Y2].
    assert (K : (Qabs (w - - q) == Qabs (- w - q))%Q) by (rewrite <- Qabs_opp; apply Qabs_wd; ring).
    rewrite F, K. split; [exact Y1|]. intros T. destruct (Y2 T) as [E|E]; [left; lra|right].
    destruct r0; exact E. }
  assert (- v == - v')%Q; [|lra].
  apply (unique_nonneg (- q) (SFopp r) (SFopp r') (- v) (- v')); try apply opp_valid; try apply opp_value; try assumption.
  - lra.
  - exact (G r v V Hv X).
  - exact (G r' v' V' Hv' X').
Qed.
End Format.
