(** Lemmas about the floating-point model: digits, shifts, rounding, validity. *)
From Coq Require Import ZArith Lia Bool Floats.SpecFloat.
From Verif Require Import Machine M_Scalar M_Float.
Local Open Scope Z_scope.

(** ** Digits *)
Lemma digits2_bounds m : 2 ^ (Zpos (digits2_pos m) - 1) <= Zpos m < 2 ^ Zpos (digits2_pos m).
Proof.
  induction m as [m IH|m IH|]; cbn [digits2_pos]; [| |cbn; lia].
  - rewrite Pos2Z.inj_succ, Z.pow_succ_r by lia.
    replace (Z.succ (Zpos (digits2_pos m)) - 1) with (Z.succ (Zpos (digits2_pos m) - 1)) by lia.
    rewrite Z.pow_succ_r by lia. rewrite (Pos2Z.inj_xI m). lia.
  - rewrite Pos2Z.inj_succ, Z.pow_succ_r by lia.
    replace (Z.succ (Zpos (digits2_pos m)) - 1) with (Z.succ (Zpos (digits2_pos m) - 1)) by lia.
    rewrite Z.pow_succ_r by lia. rewrite (Pos2Z.inj_xO m). lia.
Qed.
Lemma digits_bounds m : 0 < m -> 2 ^ (Zdigits2 m - 1) <= m < 2 ^ Zdigits2 m.
Proof. destruct m as [|m|m]; [lia| |lia]. intros _. apply digits2_bounds. Qed.
Lemma digits_pos m : 0 < m -> 0 < Zdigits2 m.
Proof. destruct m; cbn; lia. Qed.
Lemma digits_nonneg m : 0 <= Zdigits2 m.
Proof. destruct m; cbn; lia. Qed.
Lemma digits_unique m d : 2 ^ (d - 1) <= m < 2 ^ d -> 0 < m -> Zdigits2 m = d.
Proof.
  intros [H1 H2] Hm. destruct (digits_bounds m Hm) as [G1 G2]. pose proof (digits_pos m Hm).
  destruct (Z.lt_trichotomy (Zdigits2 m) d) as [L|[->|L]]; [|reflexivity|].
  - assert (2 ^ Zdigits2 m <= 2 ^ (d - 1)) by (apply Z.pow_le_mono_r; lia). lia.
  - assert (0 <= d) by (destruct (Z.le_gt_cases 0 d); [lia|]; rewrite (Z.pow_neg_r 2 d) in H2; lia).
    assert (2 ^ d <= 2 ^ (Zdigits2 m - 1)) by (apply Z.pow_le_mono_r; lia). lia.
Qed.
Lemma digits_ge m k : 0 <= k -> 2 ^ k <= m -> k + 1 <= Zdigits2 m.
Proof.
  intros Hk H. assert (0 < 2 ^ k) by (apply Z.pow_pos_nonneg; lia).
  destruct (digits_bounds m ltac:(lia)) as [G1 G2]. pose proof (digits_pos m ltac:(lia)).
  destruct (Z.le_gt_cases (k + 1) (Zdigits2 m)); [assumption|].
  assert (2 ^ Zdigits2 m <= 2 ^ k) by (apply Z.pow_le_mono_r; lia). lia.
Qed.
Lemma digits_mono a b : 0 <= a <= b -> Zdigits2 a <= Zdigits2 b.
Proof.
  intros [Ha H]. destruct (Z.eq_dec a 0) as [->|]; [apply digits_nonneg|].
  destruct (digits_bounds a ltac:(lia)) as [G1 _]. pose proof (digits_pos a ltac:(lia)).
  pose proof (digits_ge b (Zdigits2 a - 1) ltac:(lia) ltac:(lia)). lia.
Qed.
Lemma digits_shl m k : 0 < m -> 0 <= k -> Zdigits2 (m * 2 ^ k) = Zdigits2 m + k.
Proof.
  intros Hm Hk. destruct (digits_bounds m Hm) as [G1 G2]. pose proof (digits_pos m Hm).
  assert (0 < 2 ^ k) by (apply Z.pow_pos_nonneg; lia).
  apply digits_unique; [|nia].
  replace (Zdigits2 m + k - 1) with (Zdigits2 m - 1 + k) by lia. rewrite !Z.pow_add_r by lia. nia.
Qed.
Lemma digits_div m k : 0 < m -> 0 <= k < Zdigits2 m -> Zdigits2 (m / 2 ^ k) = Zdigits2 m - k.
Proof.
  intros Hm Hk. destruct (digits_bounds m Hm) as [G1 G2].
  assert (P : 0 < 2 ^ k) by (apply Z.pow_pos_nonneg; lia).
  assert (B : 2 ^ (Zdigits2 m - k - 1) <= m / 2 ^ k < 2 ^ (Zdigits2 m - k)).
  { split.
    - apply Z.div_le_lower_bound; [lia|]. rewrite <- Z.pow_add_r by lia.
      replace (k + (Zdigits2 m - k - 1)) with (Zdigits2 m - 1) by lia. assumption.
    - apply Z.div_lt_upper_bound; [lia|]. rewrite <- Z.pow_add_r by lia.
      replace (k + (Zdigits2 m - k)) with (Zdigits2 m) by lia. assumption. }
  apply digits_unique; [assumption|].
  assert (0 < 2 ^ (Zdigits2 m - k - 1)) by (apply Z.pow_pos_nonneg; lia). lia.
Qed.

(** ** Shifting right *)
Lemma iter_add {A} (f : A -> A) a b x : Nat.iter (a + b) f x = Nat.iter a f (Nat.iter b f x).
Proof. induction a as [|a IH]; [reflexivity|]. cbn. f_equal. exact IH. Qed.
Lemma iter_succ_r {A} (f : A -> A) n x : Nat.iter (Datatypes.S n) f x = Nat.iter n f (f x).
Proof. replace (Datatypes.S n) with (n + 1)%nat by lia. apply (iter_add f n 1). Qed.
Lemma iter_pos_nat {A} (f : A -> A) p x : SpecFloat.iter_pos f p x = Nat.iter (Pos.to_nat p) f x.
Proof.
  revert x. induction p as [p IH|p IH|]; intros x; cbn [SpecFloat.iter_pos]; [| |reflexivity].
  - rewrite !IH, <- iter_add. rewrite Pos2Nat.inj_xI.
    replace (Datatypes.S (2 * Pos.to_nat p)) with (Pos.to_nat p + Pos.to_nat p + 1)%nat by lia.
    rewrite (iter_add f _ 1). reflexivity.
  - rewrite !IH, <- iter_add. f_equal. lia.
Qed.

(** what [n] right shifts of [m] leave: the quotient, the first lost bit, and whether a later one was set *)
Definition shifted (m : Z) (n : nat) : shr_record :=
  match n with
  | O => Build_shr_record m false false
  | Datatypes.S k => Build_shr_record (m / 2 ^ Z.of_nat n) (Z.odd (m / 2 ^ Z.of_nat k))
                       (negb (m mod 2 ^ Z.of_nat k =? 0))
  end.
Lemma shr_1_eq m r s : 0 <= m -> shr_1 (Build_shr_record m r s) = Build_shr_record (m / 2) (Z.odd m) (r || s).
Proof.
  intros Hm. rewrite <- Z.div2_div. destruct m as [|p|p]; [reflexivity| |lia]. destruct p; reflexivity.
Qed.
Lemma shr_iter m n : 0 <= m -> Nat.iter n shr_1 (Build_shr_record m false false) = shifted m n.
Proof.
  intros Hm. induction n as [|n IH]; [reflexivity|]. cbn [Nat.iter nat_rect].
  change (nat_rect (fun _ => shr_record) (Build_shr_record m false false) (fun _ => shr_1) n)
    with (Nat.iter n shr_1 (Build_shr_record m false false)). rewrite IH.
  destruct n as [|n].
  - cbn [shifted]. rewrite shr_1_eq by assumption. change (Z.of_nat 1) with 1. change (Z.of_nat 0) with 0.
    rewrite Z.pow_1_r, Z.pow_0_r, Z.div_1_r, Z.mod_1_r. reflexivity.
  - unfold shifted. rewrite shr_1_eq by (apply Z.div_pos; [lia|apply Z.pow_pos_nonneg; lia]).
    rewrite Z.div_div by (try apply Z.pow_nonzero; lia).
    assert (Hp : 0 < 2 ^ Z.of_nat n) by (apply Z.pow_pos_nonneg; lia).
    f_equal.
    + f_equal. rewrite (Nat2Z.inj_succ (Datatypes.S n)), Z.pow_succ_r by lia. lia.
    + rewrite (Nat2Z.inj_succ n), Z.pow_succ_r by lia. rewrite (Z.mul_comm 2).
      rewrite Z.rem_mul_r by lia.
      pose proof (Z.mod_pos_bound m (2 ^ Z.of_nat n) Hp) as B.
      rewrite Zmod_odd. destruct (Z.odd (m / 2 ^ Z.of_nat n)); cbn [orb].
      * symmetry. apply negb_true_iff, Z.eqb_neq. lia.
      * rewrite Z.mul_0_r, Z.add_0_r. reflexivity.
Qed.
Lemma shr_m_iter m r s n : 0 <= m -> shr_m (Nat.iter n shr_1 (Build_shr_record m r s)) = m / 2 ^ Z.of_nat n.
Proof.
  intros Hm. revert m r s Hm. induction n as [|n IH]; intros m r s Hm.
  - cbn. rewrite Z.div_1_r. reflexivity.
  - rewrite iter_succ_r, shr_1_eq by assumption. rewrite IH by (apply Z.div_pos; lia).
    rewrite Nat2Z.inj_succ, Z.pow_succ_r by lia. rewrite Z.div_div by (try apply Z.pow_pos_nonneg; lia). reflexivity.
Qed.

Section Format.
Context (prec emax : Z).

Lemma shr_fexp_m m e l : 0 <= m -> e <= fexp prec emax (Zdigits2 m + e) ->
  shr_m (fst (shr_fexp prec emax m e l)) = m / 2 ^ (fexp prec emax (Zdigits2 m + e) - e) /\
  snd (shr_fexp prec emax m e l) = fexp prec emax (Zdigits2 m + e).
Proof.
  intros Hm He. unfold shr_fexp.
  assert (exists r s, shr_record_of_loc m l = Build_shr_record m r s) as (r & s & ->)
    by (destruct l as [|[]]; eexists _, _; reflexivity).
  destruct (fexp prec emax (Zdigits2 m + e) - e) as [|p|p] eqn:E; [| |lia]; cbn [shr fst snd shr_m].
  - rewrite Z.pow_0_r, Z.div_1_r. split; [reflexivity|lia].
  - rewrite iter_pos_nat, shr_m_iter by assumption. rewrite positive_nat_Z. split; [reflexivity|lia].
Qed.
Lemma shr_fexp_exact m e : 0 <= m -> e <= fexp prec emax (Zdigits2 m + e) ->
  shr_fexp prec emax m e loc_Exact =
    (shifted m (Z.to_nat (fexp prec emax (Zdigits2 m + e) - e)), fexp prec emax (Zdigits2 m + e)).
Proof.
  intros Hm He. unfold shr_fexp, shr_record_of_loc.
  destruct (fexp prec emax (Zdigits2 m + e) - e) as [|p|p] eqn:E; [| |lia]; cbn [shr].
  - cbn [Z.to_nat shifted]. f_equal. lia.
  - rewrite iter_pos_nat, shr_iter by assumption. cbn [Z.to_nat]. f_equal. lia.
Qed.

Lemma fexp_mono a b : a <= b -> fexp prec emax a <= fexp prec emax b.
Proof. unfold fexp. lia. Qed.

(** rounding gives a number of the format *)
Lemma round_aux_valid sx mx ex lx : 0 < prec -> 0 <= mx -> ex <= fexp prec emax (Zdigits2 mx + ex) ->
  valid_binary prec emax (binary_round_aux prec emax sx mx ex lx) = true.
Proof.
  intros Hp Hm He. unfold binary_round_aux.
  destruct (shr_fexp prec emax mx ex lx) as [r1 e1] eqn:E1.
  destruct (shr_fexp_m mx ex lx Hm He) as [A1 A2]. rewrite E1 in A1, A2. cbn [fst snd] in A1, A2.
  set (m2 := round_nearest_even (shr_m r1) (loc_of_shr_record r1)).
  assert (M1 : 0 <= shr_m r1) by (rewrite A1; apply Z.div_pos; [lia|apply Z.pow_pos_nonneg; lia]).
  assert (M2 : shr_m r1 <= m2) by (subst m2; unfold round_nearest_even; destruct (loc_of_shr_record r1) as [|[]];
    try destruct (Z.even (shr_m r1)); lia).
  clearbody m2.
  assert (G : e1 <= fexp prec emax (Zdigits2 m2 + e1)).
  { unfold fexp in *. destruct (Z.le_gt_cases (Zdigits2 mx + ex - prec) (emin prec emax)) as [L|L]; [lia|].
    assert (D : Zdigits2 (shr_m r1) = prec).
    { assert (N0 : mx <> 0) by (intros ->; cbn [Zdigits2] in *; lia).
      rewrite A1, digits_div by lia. lia. }
    pose proof (digits_mono (shr_m r1) m2 ltac:(lia)). lia. }
  destruct (shr_fexp prec emax m2 e1 loc_Exact) as [r2 e2] eqn:E2.
  destruct (shr_fexp_m m2 e1 loc_Exact ltac:(lia) G) as [B1 B2]. rewrite E2 in B1, B2. cbn [fst snd] in B1, B2.
  destruct (shr_m r2) as [|p|p] eqn:E3; [reflexivity| |reflexivity].
  destruct (Z.leb e2 (emax - prec)) eqn:E4; [|reflexivity].
  cbn [valid_binary]. unfold bounded. rewrite E4, andb_true_r. unfold canonical_mantissa.
  apply Zeq_is_eq_bool. change (Zpos (digits2_pos p)) with (Zdigits2 (Zpos p)).
  assert (P2 : 0 < m2).
  { destruct (Z.eq_dec m2 0) as [->|]; [|lia]. rewrite Z.div_0_l in B1 by (apply Z.pow_nonzero; lia). discriminate. }
  rewrite B1. pose proof (digits_pos m2 P2). subst e2.
  destruct (Z.eq_dec (fexp prec emax (Zdigits2 m2 + e1)) e1) as [Q|Q].
  { rewrite Q. replace (e1 - e1) with 0 by lia. rewrite Z.pow_0_r, Z.div_1_r. assumption. }
  rewrite digits_div; [| lia |].
  - f_equal. lia.
  - split; [lia|]. unfold fexp in *. lia.
Qed.

Lemma shift_pos_eq d m : Zpos (shift_pos d m) = Zpos m * 2 ^ Zpos d.
Proof. rewrite shift_pos_correct, Zpower_pos_nat. rewrite Zpower_nat_Z, positive_nat_Z. lia. Qed.

Lemma shl_align_eq mx ex e : Zpos (fst (shl_align mx ex e)) = Zpos mx * 2 ^ Z.max 0 (ex - e).
Proof.
  unfold shl_align. destruct (e - ex) as [|p|p] eqn:E; cbn [fst].
  - replace (Z.max 0 (ex - e)) with 0 by lia. lia.
  - replace (Z.max 0 (ex - e)) with 0 by lia. lia.
  - rewrite shift_pos_eq. do 2 f_equal. lia.
Qed.
Lemma shl_align_exp mx ex e : snd (shl_align mx ex e) = Z.min ex e.
Proof. unfold shl_align. destruct (e - ex) as [|p|p] eqn:E; cbn [snd]; lia. Qed.

Lemma round_unfold sx mx ex :
  binary_round prec emax sx mx ex =
  let e0 := fexp prec emax (Zdigits2 (Zpos mx) + ex) in
  binary_round_aux prec emax sx (Zpos mx * 2 ^ Z.max 0 (ex - e0)) (Z.min ex e0) loc_Exact.
Proof.
  unfold binary_round. cbn zeta. change (Zpos (digits2_pos mx)) with (Zdigits2 (Zpos mx)).
  pose proof (shl_align_eq mx ex (fexp prec emax (Zdigits2 (Zpos mx) + ex))) as A.
  pose proof (shl_align_exp mx ex (fexp prec emax (Zdigits2 (Zpos mx) + ex))) as B.
  destruct (shl_align _ _ _) as [mz ez]. cbn [fst snd] in *. rewrite A, B. reflexivity.
Qed.
Lemma round_valid sx mx ex : 0 < prec -> valid_binary prec emax (binary_round prec emax sx mx ex) = true.
Proof.
  intros Hp. rewrite round_unfold. cbn zeta. set (e0 := fexp prec emax (Zdigits2 (Zpos mx) + ex)).
  apply round_aux_valid; [assumption| |].
  - assert (0 < 2 ^ Z.max 0 (ex - e0)) by (apply Z.pow_pos_nonneg; lia). lia.
  - rewrite digits_shl by lia. replace (Zdigits2 (Zpos mx) + Z.max 0 (ex - e0) + Z.min ex e0)
      with (Zdigits2 (Zpos mx) + ex) by lia. fold e0. lia.
Qed.
Lemma normalize_valid m e sz : 0 < prec -> valid_binary prec emax (binary_normalize prec emax m e sz) = true.
Proof. intros Hp. destruct m; cbn [binary_normalize]; [reflexivity| |]; apply round_valid; assumption. Qed.

(** ** the operations stay in the format *)
Lemma opp_valid x : valid_binary prec emax x = true -> valid_binary prec emax (SFopp x) = true.
Proof. destruct x; cbn; trivial. Qed.
Lemma add_valid x y : 0 < prec -> valid_binary prec emax x = true -> valid_binary prec emax y = true ->
  valid_binary prec emax (SFadd prec emax x y) = true.
Proof.
  intros Hp Hx Hy. destruct x as [sx|sx| |sx mx ex], y as [sy|sy| |sy my ey]; cbn [SFadd]; trivial;
    try (destruct (eqb sx sy); reflexivity). apply normalize_valid. assumption.
Qed.
Lemma sub_opp x y : SFsub prec emax x y = SFadd prec emax x (SFopp y).
Proof.
  destruct x as [sx|sx| |sx mx ex], y as [sy|sy| |sy my ey]; try reflexivity.
  cbn [SFsub SFadd SFopp]. destruct sx, sy; cbn [cond_Zopp negb]; f_equal; lia.
Qed.
Lemma canonical_cases m e : valid_binary prec emax (S754_finite false m e) = true ->
  fexp prec emax (Zdigits2 (Zpos m) + e) = e /\ e <= emax - prec.
Proof.
  cbn [valid_binary]. unfold bounded. rewrite andb_true_iff. intros [H1 H2].
  unfold canonical_mantissa in H1. apply Zeq_bool_eq in H1. apply Z.leb_le in H2. split; assumption.
Qed.
Lemma mul_valid x y : 0 < prec < emax -> valid_binary prec emax x = true -> valid_binary prec emax y = true ->
  valid_binary prec emax (SFmul prec emax x y) = true.
Proof.
  intros Hp Hx Hy. destruct x as [sx|sx| |sx mx ex], y as [sy|sy| |sy my ey]; cbn [SFmul]; trivial.
  destruct (canonical_cases mx ex Hx) as [X1 X2]. destruct (canonical_cases my ey Hy) as [Y1 Y2].
  rewrite Pos2Z.inj_mul. apply round_aux_valid; [lia|lia|].
  set (dx := Zdigits2 (Zpos mx)) in *. set (dy := Zdigits2 (Zpos my)) in *.
  assert (Px : 0 < dx) by (apply digits_pos; lia). assert (Py : 0 < dy) by (apply digits_pos; lia).
  assert (D : dx + dy - 1 <= Zdigits2 (Zpos mx * Zpos my)).
  { destruct (digits_bounds (Zpos mx) ltac:(lia)) as [G1 _]. destruct (digits_bounds (Zpos my) ltac:(lia)) as [G2 _].
    fold dx in G1. fold dy in G2.
    pose proof (digits_ge (Zpos mx * Zpos my) (dx - 1 + (dy - 1)) ltac:(lia)) as H.
    rewrite Z.pow_add_r in H by lia. specialize (H ltac:(apply Z.mul_le_mono_nonneg; try assumption; apply Z.pow_nonneg; lia)). lia. }
  unfold fexp, emin in *. lia.
Qed.
Lemma div_valid x y : 0 < prec < emax -> valid_binary prec emax x = true -> valid_binary prec emax y = true ->
  valid_binary prec emax (SFdiv prec emax x y) = true.
Proof.
  intros Hp Hx Hy. destruct x as [sx|sx| |sx mx ex], y as [sy|sy| |sy my ey]; cbn [SFdiv]; trivial.
  unfold SFdiv_core_binary.
  set (d1 := Zdigits2 (Zpos mx)). set (d2 := Zdigits2 (Zpos my)).
  set (e' := Z.min (fexp prec emax (d1 + ex - (d2 + ey))) (ex - ey)).
  assert (Hs : 0 <= ex - ey - e') by (subst e'; lia).
  set (m' := match ex - ey - e' with Z0 => Zpos mx | Zpos _ => Z.shiftl (Zpos mx) (ex - ey - e') | Zneg _ => 0 end).
  assert (Em : m' = Zpos mx * 2 ^ (ex - ey - e')).
  { subst m'. destruct (ex - ey - e') eqn:E; [lia| |lia]. rewrite <- E, Z.shiftl_mul_pow2 by lia. reflexivity. }
  clearbody m'. destruct (Z.div_eucl m' (Zpos my)) as [qq rr] eqn:EQ.
  assert (Q : qq = m' / Zpos my) by (unfold Z.div; rewrite EQ; reflexivity).
  assert (P : 0 < 2 ^ (ex - ey - e')) by (apply Z.pow_pos_nonneg; lia).
  apply round_aux_valid; [lia|subst qq; apply Z.div_pos; lia|].
  assert (D : d1 + (ex - ey - e') - d2 <= Zdigits2 qq).
  { destruct (Z.le_gt_cases (d1 + (ex - ey - e') - d2) 0); [pose proof (digits_nonneg qq); lia|].
    pose proof (digits_ge qq (d1 + (ex - ey - e') - d2 - 1) ltac:(lia)) as H1.
    enough (2 ^ (d1 + (ex - ey - e') - d2 - 1) <= qq) by lia. subst qq.
    apply Z.div_le_lower_bound; [lia|]. rewrite Em.
    destruct (digits_bounds (Zpos my) ltac:(lia)) as [_ G2]. fold d2 in G2.
    destruct (digits_bounds (Zpos mx) ltac:(lia)) as [G1 _]. fold d1 in G1.
    assert (0 < d1) by (apply digits_pos; lia). assert (0 < d2) by (apply digits_pos; lia).
    transitivity (2 ^ d2 * 2 ^ (d1 + (ex - ey - e') - d2 - 1)).
    - apply Z.mul_le_mono_nonneg_r; [apply Z.pow_nonneg; lia|lia].
    - rewrite <- Z.pow_add_r by lia. replace (d2 + (d1 + (ex - ey - e') - d2 - 1)) with (d1 - 1 + (ex - ey - e')) by lia.
      rewrite Z.pow_add_r by lia. apply Z.mul_le_mono_nonneg_r; lia. }
  transitivity (fexp prec emax (d1 + ex - (d2 + ey))); [subst e'; lia|]. apply fexp_mono. lia.
Qed.

(** ** exact results *)
Lemma shifted_exact m n : 0 <= m -> shifted (m * 2 ^ Z.of_nat n) n = Build_shr_record m false false.
Proof.
  intros Hm. destruct n as [|n]; [cbn; rewrite Z.mul_1_r; reflexivity|]. unfold shifted.
  rewrite Z.div_mul by (apply Z.pow_nonzero; lia).
  rewrite Nat2Z.inj_succ, Z.pow_succ_r by lia. rewrite Z.mul_assoc, Z.div_mul by (apply Z.pow_nonzero; lia).
  rewrite Z.mod_mul by (apply Z.pow_nonzero; lia). rewrite Z.odd_mul. cbn. rewrite andb_false_r. reflexivity.
Qed.
Lemma round_aux_exact sx m e k : 0 <= k -> valid_binary prec emax (S754_finite false m e) = true ->
  binary_round_aux prec emax sx (Zpos m * 2 ^ k) (e - k) loc_Exact = S754_finite sx m e.
Proof.
  intros Hk Hv. destruct (canonical_cases m e Hv) as [C1 C2]. unfold binary_round_aux.
  assert (P : 0 < 2 ^ k) by (apply Z.pow_pos_nonneg; lia).
  assert (D : Zdigits2 (Zpos m * 2 ^ k) + (e - k) = Zdigits2 (Zpos m) + e) by (rewrite digits_shl by lia; lia).
  rewrite shr_fexp_exact by (try rewrite D, C1; try lia; apply Z.mul_nonneg_nonneg; lia). rewrite D, C1.
  replace (e - (e - k)) with k by lia.
  assert (Sh : shifted (Zpos m * 2 ^ k) (Z.to_nat k) = Build_shr_record (Zpos m) false false).
  { replace k with (Z.of_nat (Z.to_nat k)) at 1 by lia. apply shifted_exact. lia. }
  rewrite Sh.
  cbn [shr_m loc_of_shr_record round_nearest_even].
  rewrite shr_fexp_exact by (rewrite ?C1; lia). rewrite C1. replace (e - e) with 0 by lia. cbn [Z.to_nat shifted shr_m].
  apply Z.leb_le in C2. rewrite C2. reflexivity.
Qed.

Lemma mul_one x : 1 < prec < emax -> valid_binary prec emax x = true ->
  SFmul prec emax x (S754_finite false (Z.to_pos (2 ^ (prec - 1))) (1 - prec)) = x.
Proof.
  intros Hp Hx. assert (P : 0 < 2 ^ (prec - 1)) by (apply Z.pow_pos_nonneg; lia).
  destruct x as [s|s| |s m e]; cbn [SFmul]; rewrite ?xorb_false_r; try reflexivity.
  rewrite Pos2Z.inj_mul, Z2Pos.id by assumption.
  replace (e + (1 - prec)) with (e - (prec - 1)) by lia. apply round_aux_exact; [lia|exact Hx].
Qed.
Lemma div_one x : 1 < prec < emax -> valid_binary prec emax x = true ->
  SFdiv prec emax x (S754_finite false (Z.to_pos (2 ^ (prec - 1))) (1 - prec)) = x.
Proof.
  intros Hp Hx. assert (P : 0 < 2 ^ (prec - 1)) by (apply Z.pow_pos_nonneg; lia).
  destruct x as [s|s| |s m e]; cbn [SFdiv]; rewrite ?xorb_false_r; try reflexivity.
  unfold SFdiv_core_binary. rewrite Z2Pos.id by assumption.
  replace (Zdigits2 (2 ^ (prec - 1))) with prec
    by (symmetry; apply digits_unique; [|assumption]; split; [lia|apply Z.pow_lt_mono_r; lia]).
  destruct (canonical_cases m e Hx) as [C1 C2].
  set (d := Zdigits2 (Zpos m)) in *. assert (0 < d) by (apply digits_pos; lia).
  set (e' := Z.min (fexp prec emax (d + e - (prec + (1 - prec)))) (e - (1 - prec))).
  assert (E : e - 1 <= e' <= e) by (subst e'; unfold fexp in *; lia).
  assert (Es : e - (1 - prec) - e' = prec - 1 + (e - e')) by lia. rewrite Es.
  assert (S1 : match prec - 1 + (e - e') with
    Z0 => Zpos m | Zpos _ => Z.shiftl (Zpos m) (prec - 1 + (e - e')) | Zneg _ => 0 end = Zpos m * 2 ^ (e - e') * 2 ^ (prec - 1)).
  { destruct (prec - 1 + (e - e')) eqn:E1; [lia| |lia]. rewrite <- E1, Z.shiftl_mul_pow2 by lia.
    rewrite Z.pow_add_r by lia. lia. }
  rewrite S1. destruct (Z.div_eucl _ _) as [qq rr] eqn:EQ.
  assert (Q : qq = Zpos m * 2 ^ (e - e') * 2 ^ (prec - 1) / 2 ^ (prec - 1)) by (unfold Z.div; rewrite EQ; reflexivity).
  assert (R : rr = (Zpos m * 2 ^ (e - e') * 2 ^ (prec - 1)) mod 2 ^ (prec - 1)) by (unfold Z.modulo; rewrite EQ; reflexivity).
  rewrite Z.div_mul in Q by lia. rewrite Z.mod_mul in R by lia. subst qq rr.
  assert (L : new_location (2 ^ (prec - 1)) 0 = loc_Exact).
  { unfold new_location. destruct (Z.even _); reflexivity. }
  rewrite L. replace e' with (e - (e - e')) at 2 by lia. apply round_aux_exact; [lia|exact Hx].
Qed.

(** ** integers *)

(** the nearest multiple of [2^n] *)
Definition near (q : Z) (d n : Z) : Prop := forall c, Z.abs (q * 2 ^ n - d) <= Z.abs (c * 2 ^ n - d).
Lemma round_nearest d n : 0 <= d ->
  near (round_nearest_even (shr_m (shifted d n)) (loc_of_shr_record (shifted d n))) d (Z.of_nat n) /\
  d / 2 ^ Z.of_nat n <= round_nearest_even (shr_m (shifted d n)) (loc_of_shr_record (shifted d n)) <= d / 2 ^ Z.of_nat n + 1.
Proof.
  intros Hd. destruct n as [|k].
  { cbn. rewrite Z.div_1_r. split; [|lia]. intros c. change (2 ^ Z.of_nat 0) with 1. lia. }
  set (n := Z.of_nat (Datatypes.S k)). unfold near. unfold shifted. cbn [shr_m]. fold n.
  assert (P : 0 < 2 ^ Z.of_nat k) by (apply Z.pow_pos_nonneg; lia).
  assert (En : 2 ^ n = 2 * 2 ^ Z.of_nat k) by (subst n; rewrite Nat2Z.inj_succ, Z.pow_succ_r by lia; reflexivity).
  rewrite En. set (h := 2 ^ Z.of_nat k) in *.
  assert (D1 : d / (2 * h) = d / h / 2) by (rewrite Z.div_div by lia; f_equal; lia).
  rewrite D1. set (a := d / h).
  pose proof (Z.div_mod d h ltac:(lia)) as E1. fold a in E1.
  pose proof (Z.mod_pos_bound d h P) as E2.
  pose proof (Zdiv2_odd_eqn a) as E3. rewrite Z.div2_div in E3.
  set (b := a / 2) in *. set (r := d mod h) in *. clearbody a b r.
  assert (K : forall q, b <= q <= b + 1 -> (q = b -> Z.odd a = false \/ r = 0) -> (q = b + 1 -> Z.odd a = true) ->
     (forall c, Z.abs (q * (2 * h) - d) <= Z.abs (c * (2 * h) - d)) /\ b <= q <= b + 1).
  { intros q0 Hq H0 H1. split; [|assumption]. intros c.
    assert (q0 = b \/ q0 = b + 1) as [->| ->] by lia.
    - assert (A : d - b * (2 * h) = (if Z.odd a then h else 0) + r) by (destruct (Z.odd a); nia).
      assert (B : 0 <= d - b * (2 * h) <= h) by (destruct (H0 eq_refl) as [X|X]; rewrite X in A; [|destruct (Z.odd a)]; lia).
      destruct (Z.le_gt_cases c b); nia.
    - rewrite (H1 eq_refl) in E3. destruct (Z.le_gt_cases c b); nia. }
  destruct (Z.odd a) eqn:Oa; destruct (r =? 0) eqn:Er; cbn [negb loc_of_shr_record round_nearest_even].
  - apply Z.eqb_eq in Er. destruct (Z.even b); apply K; intros; try lia; auto.
  - apply K; intros; try lia; auto.
  - apply Z.eqb_eq in Er. apply K; intros; try lia; auto.
  - apply K; intros; try lia; auto.
Qed.

End Format.
