(** Property lemmas C53, C78-C81 (restated as theorems in P_Float.v). *)
From Coq Require Import ZArith QArith Qabs Qpower SpecFloat.
From Verif Require Import Machine MachineLemmas M_Scalar M_Vector M_Dense M_TensorBasis S_Vector L_Dense L_PropDense
  M_Float S_Float L_Float L_FloatDegree L_FloatInt S_Words L_Words L_TensorBasis S_Tensor M_Algebra L_Algebra
  L_PropAlgebra.
Local Open Scope N_scope.

(** ** both formats at once *)
Definition good_fmt (f : fmt) : Prop := (1 < f_prec f < f_emax f)%Z /\ (32 <= f_emax f - f_prec f)%Z.
Lemma two_good f : f = f32 \/ f = f64 -> good_fmt f.
Proof. intros [-> | ->]; unfold good_fmt; cbn; lia. Qed.

Lemma sf_add_comm prec emax x y : SFadd prec emax x y = SFadd prec emax y x.
Proof.
  destruct x as [sx|sx| |sx mx ex], y as [sy|sy| |sy my ey]; try reflexivity;
    try (destruct sx, sy; reflexivity).
  cbn [SFadd]. rewrite (Z.min_comm ey ex), Z.add_comm. reflexivity.
Qed.
Lemma sf_mul_comm prec emax x y : SFmul prec emax x y = SFmul prec emax y x.
Proof.
  destruct x as [sx|sx| |sx mx ex], y as [sy|sy| |sy my ey]; try reflexivity;
    cbn [SFmul]; rewrite (xorb_comm sy sx); try reflexivity.
  rewrite (Pos.mul_comm my mx), (Z.add_comm ey ex). reflexivity.
Qed.
Lemma sf_one f : f = f32 \/ f = f64 ->
  fl_one f = S754_finite false (Z.to_pos (2 ^ (f_prec f - 1))) (1 - f_prec f).
Proof. intros [-> | ->]; vm_compute; reflexivity. Qed.

(** * C53 *)
Lemma c53_laws : forall (f : fmt), f = f32 \/ f = f64 ->
  let so := fl_ops f in
  (forall x y, s_add so x y = s_add so y x)
  /\ (forall x y, s_mul so x y = s_mul so y x)
  /\ (forall x, s_uminus so (s_uminus so x) = x)
  /\ (forall x, is_float f x -> s_mul so x (s_one so) = x /\ s_mul so (s_one so) x = x /\ s_div so x (s_one so) = x)
  /\ (forall x y, s_sub so x y = s_add so x (s_uminus so y))
  /\ s_mone so = s_uminus so (s_one so).
Proof.
  intros f Hf so. pose proof (two_good f Hf) as [G1 G2]. subst so. cbn.
  split; [apply sf_add_comm|]. split; [apply sf_mul_comm|].
  split; [intros [[]|[]| |[] m e]; reflexivity|].
  split; [|split; [apply sub_opp|reflexivity]].
  intros x Hx. rewrite (sf_mul_comm _ _ (fl_one f)). rewrite (sf_one f Hf).
  rewrite mul_one, div_one by assumption. auto.
Qed.
(** every value the operations can produce is a number of the format, so the hypothesis [is_float] above
    is met by everything a program computes *)
Lemma c53_closed : forall (f : fmt), f = f32 \/ f = f64 ->
  let so := fl_ops f in
  is_float f (s_zero so) /\ is_float f (s_one so) /\ is_float f (s_mone so)
  /\ (forall d, is_float f (s_from_degree so d))
  /\ (forall x, is_float f x -> is_float f (s_uminus so x) /\ is_float f (s_inv so x))
  /\ (forall x y, is_float f x -> is_float f y ->
        is_float f (s_add so x y) /\ is_float f (s_sub so x y) /\ is_float f (s_mul so x y) /\ is_float f (s_div so x y)).
Proof.
  intros f Hf so. pose proof (two_good f Hf) as [G1 G2]. subst so. unfold is_float. cbn -[SFadd SFsub SFmul SFdiv].
  assert (H1 : valid_binary (f_prec f) (f_emax f) (fl_one f) = true) by (destruct Hf as [-> | ->]; reflexivity).
  split; [reflexivity|]. split; [exact H1|]. split; [apply opp_valid, H1|].
  split; [intros d; apply normalize_valid; lia|].
  split; [intros x Hx; split; [apply opp_valid, Hx|apply div_valid; [lia|exact H1|exact Hx]]|].
  intros x y Hx Hy. split; [apply add_valid; [lia|assumption..]|].
  split; [rewrite sub_opp; apply add_valid; [lia|assumption|apply opp_valid, Hy]|].
  split; [apply mul_valid; [lia|assumption..]|apply div_valid; [lia|assumption..]].
Qed.
Lemma from_degree_small f d : good_fmt f -> (Z.of_N d < 2 ^ f_prec f)%Z ->
  has_value (fl_from_degree f d) (Q_of_N d).
Proof.
  intros [G1 G2] Hd. unfold fl_from_degree, Q_of_N. destruct (Z.eq_dec (Z.of_N d) 0) as [E|E].
  - rewrite E. exists 0%Q. split; reflexivity.
  - apply from_small; [lia|lia|lia|]. destruct (digits_bounds (Z.of_N d) ltac:(lia)) as [B _].
    destruct (Z.le_gt_cases (Zdigits2 (Z.of_N d)) (f_prec f)) as [|L]; [assumption|].
    assert (2 ^ f_prec f <= 2 ^ (Zdigits2 (Z.of_N d) - 1))%Z by (apply Z.pow_le_mono_r; lia). lia.
Qed.
Lemma c53_f64_from_degree : forall d : N, d < 2 ^ 32 -> has_value (s_from_degree (fl_ops f64) d) (Q_of_N d).
Proof.
  intros d Hd. cbn. apply from_degree_small; [apply two_good; auto|]. change (f_prec f64) with 53%Z.
  apply N2Z.inj_lt in Hd. rewrite N2Z.inj_pow in Hd.
  assert (Z.of_N 2 ^ Z.of_N 32 <= 2 ^ 53)%Z by (vm_compute; discriminate). lia.
Qed.
Lemma c53_f32_from_degree_partial : forall d : N, d <= 2 ^ 24 -> has_value (s_from_degree (fl_ops f32) d) (Q_of_N d).
Proof.
  intros d Hd. cbn. destruct (N.eq_dec d (2 ^ 24)) as [->|Hn].
  { eexists. split; [vm_compute; reflexivity|vm_compute; reflexivity]. }
  apply from_degree_small; [apply two_good; auto|]. change (f_prec f32) with 24%Z.
  assert (Hd' : d < 2 ^ 24) by lia. apply N2Z.inj_lt in Hd'. rewrite N2Z.inj_pow in Hd'. exact Hd'.
Qed.
Lemma c53_f32_from_degree_refuted : exists d : N, d < 2 ^ 32 /\ ~ has_value (s_from_degree (fl_ops f32) d) (Q_of_N d).
Proof.
  exists 16777217. split; [reflexivity|]. intros (w & E & H). vm_compute in E. injection E as <-.
  vm_compute in H. discriminate.
Qed.
Example c53_example :
  let so := fl_ops f32 in
  let x := S754_finite true 12582912 (-23) in                      (* -1.5 *)
  is_float f32 x /\ has_value x (-3 # 2) /\ has_value (s_one so) 1
  /\ has_value (s_sub so x (s_one so)) (-5 # 2) /\ has_value (s_div so x (s_from_degree so 3)) (-1 # 2)
  /\ has_value (s_from_degree so 16777217) 16777216
  /\ has_value (s_inv (fl_ops f64) (s_from_degree (fl_ops f64) 4)) (1 # 4).
Proof.
  cbn zeta. split; [reflexivity|]. repeat apply conj;
    (eexists; split; [vm_compute; reflexivity|vm_compute; reflexivity]).
Qed.

(** * C78 *)
Lemma c78_from_degree_nearest : forall (f : fmt) (d : N), f = f32 \/ f = f64 -> d < 2 ^ 32 ->
  exists v, has_value (s_from_degree (fl_ops f) d) v /\
    forall x w, is_float f x -> has_value x w -> (Qabs (v - Q_of_N d) <= Qabs (w - Q_of_N d))%Q.
Proof.
  intros f d Hf Hd. destruct (two_good f Hf) as [G1 G2]. cbn. unfold fl_from_degree, is_float, Q_of_N.
  apply from_nearest; [lia|lia|]. apply N2Z.inj_lt in Hd. rewrite N2Z.inj_pow in Hd.
  change (Z.of_N 2) with 2%Z in Hd. change (Z.of_N 32) with 32%Z in Hd. lia.
Qed.
Lemma c78_exact_iff : forall (f : fmt) (d : N), f = f32 \/ f = f64 -> d < 2 ^ 32 ->
  (has_value (s_from_degree (fl_ops f) d) (Q_of_N d) <-> exists x, is_float f x /\ has_value x (Q_of_N d)).
Proof.
  intros f d Hf Hd. split.
  - intros H. eexists. split; [|exact H]. apply c53_closed. assumption.
  - intros (x & Hx & Hv). destruct (c78_from_degree_nearest f d Hf Hd) as (v & H1 & H2).
    specialize (H2 x _ Hx Hv).
    assert (E : (v == Q_of_N d)%Q).
    { assert (Z0 : (Qabs (Q_of_N d - Q_of_N d) == 0)%Q) by (setoid_replace (Q_of_N d - Q_of_N d)%Q with 0%Q by ring; reflexivity).
      rewrite Z0 in H2. apply Qabs_Qle_condition in H2. destruct H2 as [L1 L2].
      apply Qle_antisym.
      - apply Qle_minus_iff in L2. apply Qle_minus_iff.
        setoid_replace (Q_of_N d + - v)%Q with (0 + - (v - Q_of_N d))%Q by ring. exact L2.
      - apply Qle_minus_iff in L1. exact L1. }
    destruct H1 as (w & W1 & W2). exists w. split; [exact W1|]. rewrite W2. exact E.
Qed.
Example c78_example :
  has_value (s_from_degree (fl_ops f32) 4294967295) 4294967296
  /\ is_float f32 (S754_finite false 16777215 8) /\ has_value (S754_finite false 16777215 8) 4294967040
  /\ (Qabs (4294967296 - Q_of_N 4294967295) == 1)%Q /\ (Qabs (4294967040 - Q_of_N 4294967295) == 255)%Q.
Proof.
  repeat apply conj; try (vm_compute; reflexivity); (eexists; split; [vm_compute; reflexivity|vm_compute; reflexivity]).
Qed.

(** * C79 *)
Lemma finite_by x : match x with S754_zero _ | S754_finite _ _ _ => true | _ => false end = true -> finite x.
Proof. destruct x; intros H; try discriminate; eexists _, _; split; reflexivity. Qed.
Ltac finite_tac := apply finite_by; vm_compute; reflexivity.
Lemma sf_add_opp prec emax x : 
  SFadd prec emax x (SFopp x) = match x with S754_zero _ | S754_finite _ _ _ => S754_zero false | _ => S754_nan end.
Proof.
  destruct x as [[]|[]| |s m e]; try reflexivity. cbn [SFadd SFopp].
  replace (_ + _)%Z with 0%Z; [reflexivity|]. destruct s; cbn [negb cond_Zopp]; lia.
Qed.
Lemma c79_which_laws : forall (f : fmt), f = f32 \/ f = f64 ->
  let so := fl_ops f in
  (forall x, s_add so (s_zero so) x = x <-> x <> S754_zero true)
  /\ (forall x, s_add so x (s_uminus so x) = s_zero so <-> finite x)
  /\ (forall x, s_eqb so x x = true <-> x <> S754_nan)
  /\ (forall x y, s_eqb so x y = true <-> (x = y /\ x <> S754_nan) \/ (has_value x 0 /\ has_value y 0)).
Proof.
  intros f Hf so. subst so. cbn -[SFadd SFeqb].
  assert (Z0 : forall x, has_value x 0 <-> exists s, x = S754_zero s).
  { intros x. split; [|intros [s ->]; exists 0%Q; split; reflexivity].
    intros (w & E & H). destruct x as [s|s| |s m e]; try discriminate; [eexists; reflexivity|].
    injection E as <-. exfalso.
    assert (P : ~ (2 ^ e == 0)%Q) by (apply Qpower_not_0; intros X; discriminate X).
    apply Qmult_integral in H. destruct H as [H|H]; [|contradiction]. destruct s; discriminate H. }
  assert (EQ : forall x y, SFeqb x y = true <-> (x = y /\ x <> S754_nan) \/ (has_value x 0 /\ has_value y 0)).
  { intros x y. rewrite !Z0. split.
    - unfold SFeqb. destruct x as [sx|sx| |sx mx ex], y as [sy|sy| |sy my ey]; cbn [SFcompare]; try discriminate.
      + intros _. right. split; eexists; reflexivity.
      + destruct sy; discriminate.
      + destruct sy; discriminate.
      + destruct sx; discriminate.
      + destruct sx, sy; try discriminate; intros _; left; split; congruence.
      + destruct sx; discriminate.
      + destruct sx; discriminate.
      + destruct sy; discriminate.
      + intros H. left. split; [|congruence].
        destruct sx, sy; try discriminate; destruct (Z.compare_spec ex ey) as [->|?|?]; try discriminate;
          change (Pcompare mx my Eq) with (mx ?= my)%positive in H;
          destruct (Pos.compare_spec mx my) as [->|?|?]; try discriminate; reflexivity.
    - intros [[-> N]|[[sx ->] [sy ->]]]; [|reflexivity].
      destruct y as [sy|sy| |sy my ey]; [reflexivity|destruct sy; reflexivity|congruence|].
      unfold SFeqb. cbn [SFcompare]. rewrite Z.compare_refl.
      change (Pcompare my my Eq) with (my ?= my)%positive. rewrite Pos.compare_refl. destruct sy; reflexivity. }
  split; [|split; [|split; [|exact EQ]]].
  - intros x. destruct x as [[]|[]| |s m e]; cbn; split; congruence.
  - intros x. rewrite sf_add_opp. unfold finite, has_value. destruct x as [s|s| |s m e]; cbn; split; try discriminate; try reflexivity.
    + intros _. exists 0%Q, 0%Q. split; reflexivity.
    + intros (v & w & E & _). discriminate.
    + intros (v & w & E & _). discriminate.
    + intros _. eexists _, _. split; reflexivity.
  - intros x. rewrite EQ. rewrite Z0. split.
    + intros [[_ H]|[[s ->] _]]; [exact H|discriminate].
    + intros H. left. split; [reflexivity|exact H].
Qed.
Lemma c79_not_associative : forall (f : fmt), f = f32 \/ f = f64 ->
  let so := fl_ops f in
  (exists x y z, is_float f x /\ is_float f y /\ is_float f z /\
     finite (s_add so x (s_add so y z)) /\ finite (s_add so (s_add so x y) z) /\
     s_eqb so (s_add so x (s_add so y z)) (s_add so (s_add so x y) z) = false)
  /\ (exists x y z, is_float f x /\ is_float f y /\ is_float f z /\
     finite (s_mul so x (s_mul so y z)) /\ finite (s_mul so (s_mul so x y) z) /\
     s_eqb so (s_mul so x (s_mul so y z)) (s_mul so (s_mul so x y) z) = false)
  /\ (exists x y z, is_float f x /\ is_float f y /\ is_float f z /\
     finite (s_mul so (s_add so x y) z) /\ finite (s_add so (s_mul so x z) (s_mul so y z)) /\
     s_eqb so (s_mul so (s_add so x y) z) (s_add so (s_mul so x z) (s_mul so y z)) = false)
  /\ ~ ring_laws so.
Proof.
  intros f Hf so.
  assert (A : exists x y z, is_float f x /\ is_float f y /\ is_float f z /\
     finite (s_add so x (s_add so y z)) /\ finite (s_add so (s_add so x y) z) /\
     s_eqb so (s_add so x (s_add so y z)) (s_add so (s_add so x y) z) = false).
  { destruct Hf as [-> | ->].
    - exists (S754_finite false 8388608 (-23)), (S754_finite false 8388608 (-47)), (S754_finite false 8388608 (-47)).
      split; [vm_compute; reflexivity|]. split; [vm_compute; reflexivity|]. split; [vm_compute; reflexivity|].
      split; [finite_tac|split; [finite_tac|vm_compute; reflexivity]].
    - exists (S754_finite false 4503599627370496 (-52)), (S754_finite false 4503599627370496 (-105)), (S754_finite false 4503599627370496 (-105)).
      split; [vm_compute; reflexivity|]. split; [vm_compute; reflexivity|]. split; [vm_compute; reflexivity|].
      split; [finite_tac|split; [finite_tac|vm_compute; reflexivity]]. }
  split; [exact A|]. split; [|split].
  - destruct Hf as [-> | ->].
    (* 1/2 times 2 times (1 + 2^-23), with the smallest positive number as first factor *)
    + exists (S754_finite false 1 (-149)), (S754_finite false 8388608 (-24)), (S754_finite false 8388608 (-22)).
      split; [vm_compute; reflexivity|]. split; [vm_compute; reflexivity|]. split; [vm_compute; reflexivity|].
      split; [finite_tac|split; [finite_tac|vm_compute; reflexivity]].
    + exists (S754_finite false 1 (-1074)), (S754_finite false 4503599627370496 (-53)), (S754_finite false 4503599627370496 (-51)).
      split; [vm_compute; reflexivity|]. split; [vm_compute; reflexivity|]. split; [vm_compute; reflexivity|].
      split; [finite_tac|split; [finite_tac|vm_compute; reflexivity]].
  - destruct Hf as [-> | ->].
    (* (1 + 2^-24) * 3 *)
    + exists (S754_finite false 8388608 (-23)), (S754_finite false 8388608 (-47)), (S754_finite false 12582912 (-22)).
      split; [vm_compute; reflexivity|]. split; [vm_compute; reflexivity|]. split; [vm_compute; reflexivity|].
      split; [finite_tac|split; [finite_tac|vm_compute; reflexivity]].
    + exists (S754_finite false 4503599627370496 (-52)), (S754_finite false 4503599627370496 (-105)), (S754_finite false 6755399441055744 (-51)).
      split; [vm_compute; reflexivity|]. split; [vm_compute; reflexivity|]. split; [vm_compute; reflexivity|].
      split; [finite_tac|split; [finite_tac|vm_compute; reflexivity]].
  - intros L. destruct A as (x & y & z & _ & _ & _ & F & _ & E).
    rewrite (l_add_assoc so L) in E, F.
    destruct (c79_which_laws f Hf) as (_ & _ & R & _). fold so in R.
    destruct F as (v & w & F & _). rewrite (proj2 (R (s_add so (s_add so x y) z))) in E; [discriminate|].
    intros N. rewrite N in F. discriminate.
Qed.
Example c79_example :
  let so := fl_ops f64 in
  s_eqb so (s_add so (s_zero so) (S754_zero true)) (S754_zero true) = true
  /\ s_add so (s_zero so) (S754_zero true) = S754_zero false
  /\ s_add so (S754_infinity true) (s_uminus so (S754_infinity true)) = S754_nan
  /\ s_eqb so S754_nan S754_nan = false.
Proof. repeat split. Qed.

(** * C80 *)
Lemma same_zero s t : fl_same (S754_zero s) (S754_zero t).
Proof. right. split; exists 0%Q; split; reflexivity. Qed.
Lemma add_zero_same f x : fl_same (s_add (fl_ops f) (s_zero (fl_ops f)) x) x.
Proof. destruct x as [[]|s| |s m e]; cbn; try (left; reflexivity). apply same_zero. Qed.
Lemma c80_add_commutes : forall (f : fmt) (K : Type) (ob : obasis K) (x y : dvec spec_float), f = f32 \/ f = f64 ->
  let vo := dense_ops (fl_ops f) ob in
  exists a b, vd_add vo x y = Ret a /\ vd_add vo y x = Ret b
    /\ dv_size a = dv_size b
    /\ (forall i, fl_same (coef (fl_ops f) a i) (coef (fl_ops f) b i))
    /\ (dv_size x = dv_size y -> dv_as_slice a = dv_as_slice b).
Proof.
  intros f K ob x y Hf vo.
  destruct (c18_add_sub _ _ _ (fl_ops f) ob x y) as (a & a' & Ea & _ & _ & _ & Sa & _ & Ga & _).
  destruct (c18_add_sub _ _ _ (fl_ops f) ob y x) as (b & b' & Eb & _ & _ & _ & Sb & _ & Gb & _).
  exists a, b. split; [exact Ea|]. split; [exact Eb|]. split; [rewrite Sa, Sb; apply N.max_comm|].
  destruct (c53_laws f Hf) as (AC & _). split.
  - intros i. unfold coef. rewrite Ga, Gb.
    destruct (slice_get (dv_as_slice x) i) as [u|], (slice_get (dv_as_slice y) i) as [v|]; cbn [combine].
    + left. apply AC.
    + destruct (add_zero_same f u) as [->|[H1 H2]]; [left; reflexivity|right; split; assumption].
    + apply add_zero_same.
    + left. reflexivity.
  - intros E. assert (E' : len (dv_as_slice x) = len (dv_as_slice y)) by exact E.
    apply slice_get_ext. intros i. rewrite Ga, Gb.
    destruct (slice_get (dv_as_slice x) i) as [u|] eqn:G1, (slice_get (dv_as_slice y) i) as [v|] eqn:G2; cbn [combine].
    + rewrite AC. reflexivity.
    + exfalso. apply slice_get_lt in G1. rewrite E' in G1.
      destruct (slice_get_some _ _ G1) as [z Hz]. congruence.
    + exfalso. apply slice_get_lt in G2. rewrite <- E' in G2.
      destruct (slice_get_some _ _ G2) as [z Hz]. congruence.
    + reflexivity.
Qed.
(** subtracting a float vector from itself leaves +0 exactly where the coefficient is finite, NaN elsewhere *)
Lemma c80_sub_self : forall (f : fmt) (K : Type) (ob : obasis K) (x : dvec spec_float), f = f32 \/ f = f64 ->
  exists z, vd_sub (dense_ops (fl_ops f) ob) x x = Ret z /\ dv_size z = dv_size x
    /\ forall i, (finite (coef (fl_ops f) x i) -> coef (fl_ops f) z i = s_zero (fl_ops f))
              /\ (~ finite (coef (fl_ops f) x i) -> coef (fl_ops f) z i = S754_nan).
Proof.
  intros f K ob x Hf.
  destruct (c18_add_sub _ _ _ (fl_ops f) ob x x) as (a & b & _ & Eb & _ & _ & _ & Sb & _ & Gb).
  exists b. split; [exact Eb|]. split; [rewrite Sb; apply N.max_id|]. intros i.
  destruct (slice_get (dv_as_slice x) i) as [u|] eqn:G.
  - assert (Cz : coef (fl_ops f) b i = s_sub (fl_ops f) u u) by (unfold coef; rewrite Gb, G; reflexivity).
    assert (Cx : coef (fl_ops f) x i = u) by (unfold coef; rewrite G; reflexivity).
    rewrite Cz, Cx. destruct (c53_laws f Hf) as (_ & _ & _ & _ & SO & _). rewrite SO. cbn -[SFadd SFopp].
    rewrite sf_add_opp. unfold finite, has_value. destruct u as [s|s| |s m e]; cbn; split; try reflexivity.
    + intros H. exfalso. apply H. exists 0%Q, 0%Q. split; reflexivity.
    + intros (v & w & E & _). discriminate.
    + intros (v & w & E & _). discriminate.
    + intros H. exfalso. apply H. eexists _, _. split; reflexivity.
  - assert (Cz : coef (fl_ops f) b i = s_zero (fl_ops f)) by (unfold coef; rewrite Gb, G; reflexivity).
    assert (Cx : coef (fl_ops f) x i = s_zero (fl_ops f)) by (unfold coef; rewrite G; reflexivity).
    rewrite Cz, Cx. split; [reflexivity|]. intros H. exfalso. apply H. exists 0%Q, 0%Q. split; reflexivity.
Qed.
Lemma add_one {S R K} (so : scalar_ops S R) (ob : obasis K) u v :
  vd_add (dense_ops so ob) (dv_from [u]) (dv_from [v]) = Ret (dv_from [s_add so u v]).
Proof. reflexivity. Qed.
Lemma c80_not_associative : forall (f : fmt) (K : Type) (ob : obasis K), f = f32 \/ f = f64 ->
  let vo := dense_ops (fl_ops f) ob in
  exists x y z a b, (forall i, i < 1 -> finite (coef (fl_ops f) x i) /\ finite (coef (fl_ops f) y i) /\ finite (coef (fl_ops f) z i))
    /\ (u <- vd_add vo x y ;; vd_add vo u z) = Ret a /\ (u <- vd_add vo y z ;; vd_add vo x u) = Ret b
    /\ dv_eq (fl_ops f) a b = false.
Proof.
  intros f K ob Hf vo.
  pose proof (add_one (fl_ops f) ob) as One. fold vo in One.
  destruct Hf as [-> | ->].
  - exists (dv_from [S754_finite false 8388608 (-23)]), (dv_from [S754_finite false 8388608 (-47)]), (dv_from [S754_finite false 8388608 (-47)]).
    eexists _, _. split; [intros i Hi; replace i with 0 by lia; repeat split; apply finite_by; reflexivity|].
    rewrite One. cbn [bind]. rewrite One. split; [reflexivity|].
    rewrite One. cbn [bind]. rewrite One. split; [reflexivity|]. vm_compute. reflexivity.
  - exists (dv_from [S754_finite false 4503599627370496 (-52)]), (dv_from [S754_finite false 4503599627370496 (-105)]), (dv_from [S754_finite false 4503599627370496 (-105)]).
    eexists _, _. split; [intros i Hi; replace i with 0 by lia; repeat split; apply finite_by; reflexivity|].
    rewrite One. cbn [bind]. rewrite One. split; [reflexivity|].
    rewrite One. cbn [bind]. rewrite One. split; [reflexivity|]. vm_compute. reflexivity.
Qed.
(** [-0.0] + [] keeps -0.0 while [] + [-0.0] gives +0.0 *)
Example c80_example :
  let vo := dense_ops (fl_ops f32) (tensor_basis dev 2) in
  vd_add vo (dv_from [S754_zero true]) (dv_from []) = Ret (dv_from [S754_zero true])
  /\ vd_add vo (dv_from []) (dv_from [S754_zero true]) = Ret (dv_from [S754_zero false])
  /\ vd_sub vo (dv_from [S754_infinity true]) (dv_from [S754_infinity true]) = Ret (dv_from [S754_nan]).
Proof. repeat split; vm_compute; reflexivity. Qed.

(** * C81 *)

Lemma fl_int_add f x y a b : good_fmt f -> fl_int f x a -> fl_int f y b -> (Z.abs (a + b) < 2 ^ f_prec f)%Z ->
  fl_int f (s_add (fl_ops f) x y) (a + b).
Proof. intros [G1 G2] Hx Hy H. apply (add_int _ _ G1 G2 x y a b Hx Hy H). Qed.
Lemma fl_int_mul f x y a b : good_fmt f -> fl_int f x a -> fl_int f y b -> (Z.abs (a * b) < 2 ^ f_prec f)%Z ->
  fl_int f (s_mul (fl_ops f) x y) (a * b).
Proof. intros [G1 G2] Hx Hy H. apply (mul_int _ _ G1 G2 x y a b Hx Hy H). Qed.
Lemma fl_int_zero f a : fl_int f (s_zero (fl_ops f)) a <-> a = 0%Z.
Proof.
  split.
  - intros [_ H]. apply value_zero in H. apply inject_Z_injective. exact H.
  - intros ->. split; [reflexivity|]. exists 0%Q. split; reflexivity.
Qed.
Lemma fl_int_sum f (A B : word -> Z) (x y : word -> spec_float) (l : list (word * word)) :
  good_fmt f -> forall a0 z0, fl_int f a0 z0 ->
  Forall (fun uv => fl_int f (x (fst uv)) (A (fst uv)) /\ fl_int f (y (snd uv)) (B (snd uv))) l ->
  (Z.abs z0 + zsum (map (fun uv => Z.abs (A (fst uv) * B (snd uv)))%Z l) < 2 ^ f_prec f)%Z ->
  fl_int f (fold_left (s_add (fl_ops f)) (map (fun uv => s_mul (fl_ops f) (x (fst uv)) (y (snd uv))) l) a0)
           (z0 + zsum (map (fun uv => A (fst uv) * B (snd uv)) l))%Z.
Proof.
  intros G. induction l as [|[u v] l IH]; intros a0 z0 H0 HF Hb.
  - cbn. rewrite Z.add_0_r. exact H0.
  - apply Forall_cons_iff in HF. destruct HF as [[Hu Hv] HF]. cbn [map fst snd zsum fold_right] in Hb, Hu, Hv.
    fold (zsum (map (fun uv => Z.abs (A (fst uv) * B (snd uv)))%Z l)) in Hb.
    assert (N0 : (0 <= zsum (map (fun uv => Z.abs (A (fst uv) * B (snd uv)))%Z l))%Z).
    { clear. unfold zsum. induction l as [|e l IH]; cbn [map fold_right]; lia. }
    pose proof (fl_int_mul f _ _ (A u) (B v) G Hu Hv ltac:(lia)) as HM.
    pose proof (fl_int_add f _ _ z0 (A u * B v)%Z G H0 HM ltac:(lia)) as HA.
    specialize (IH _ _ HA HF ltac:(lia)). cbn [map fold_left fst snd zsum fold_right].
    fold (zsum (map (fun uv => A (fst uv) * B (snd uv))%Z l)). rewrite Z.add_assoc. exact IH.
Qed.
Lemma zsum_app l1 l2 : zsum (l1 ++ l2) = (zsum l1 + zsum l2)%Z.
Proof. unfold zsum. induction l1 as [|a l1 IH]; [reflexivity|]. cbn [app fold_right]. rewrite IH. lia. Qed.
Lemma zsum_rev l : zsum (rev l) = zsum l.
Proof. induction l as [|a l IH]; [reflexivity|]. cbn [rev]. rewrite zsum_app, IH. unfold zsum. cbn [fold_right]. lia. Qed.
Lemma zsum_filter {A} (g : A -> Z) (b : A -> bool) l : (forall a, List.In a l -> b a = false -> g a = 0%Z) ->
  zsum (map g (filter b l)) = zsum (map g l).
Proof.
  induction l as [|a l IH]; intros H; [reflexivity|]. cbn [filter map].
  specialize (IH (fun a' Ha' => H a' (or_intror Ha'))).
  destruct (b a) eqn:Eb; cbn [map zsum fold_right]; fold (zsum (map g l)); fold (zsum (map g (filter b l))); rewrite IH; [reflexivity|].
  rewrite (H a (or_introl eq_refl) Eb). lia.
Qed.
Lemma splits_in w u v : List.In (u, v) (splits w) -> w = u ++ v.
Proof.
  revert u v. induction w as [|a w IH]; intros u v H.
  - destruct H as [H|[]]. injection H as <- <-. reflexivity.
  - destruct H as [H|H]; [injection H as <- <-; reflexivity|].
    apply in_map_iff in H. destruct H as ([u' v'] & E & H). injection E as <- <-. cbn. f_equal. apply IH. exact H.
Qed.
Lemma c81_integer_product : forall (f : fmt) (p : profile) (n : N) (x y : dvec spec_float) (A B : word -> Z) (l r t : N),
  let m := N.min t (l + r) in
  f = f32 \/ f = f64 ->
  2 <= n -> 1 <= m -> has_degree n x l -> has_degree n y r ->
  n ^ (l + 1) < 2 ^ 64 -> n ^ (r + 1) < 2 ^ 64 -> n ^ (m + 1) < 2 ^ 64 ->
  stored_to n x (N.min m l) -> stored_to n y (N.min m r) ->
  (forall w, word_ok n w -> fl_int f (wcoef (fl_ops f) n x w) (A w) /\ fl_int f (wcoef (fl_ops f) n y w) (B w)) ->
  exists z, alg_multiply (fl_ops f) p n x y (Some t) = Ret z /\ filled n z m
    /\ forall w, word_ok n w -> len w <= m -> (zsize A B w < 2 ^ f_prec f)%Z ->
         fl_int f (wcoef (fl_ops f) n z w) (zconv A B w).
Proof.
  intros f p n x y A B l r t m Hf Hn Hm Hl Hr Pl Pr Pm Sx Sy Hv.
  destruct (c29_multiply _ _ (fl_ops f) p n x y l r t Hn Hm Hl Hr Pl Pr Pm Sx Sy) as (z & E & _ & F & W).
  exists z. split; [exact E|]. split; [exact F|]. intros w Hw Hlen Hs. fold m in W. rewrite (W w Hw).
  replace (len w <=? m) with true by (symmetry; apply N.leb_le; exact Hlen).
  assert (Sp : forall u v, List.In (u, v) (splits w) -> word_ok n u /\ word_ok n v).
  { intros u v H. apply splits_in in H. subst w. apply word_ok_app in Hw. exact Hw. }
  assert (Z0 : forall uv, List.In uv (rev (splits w)) ->
    ((len (fst uv) <=? l) && (len (snd uv) <=? r))%bool = false -> (A (fst uv) * B (snd uv) = 0)%Z).
  { intros [u v] Hin Hb. apply in_rev in Hin. destruct (Sp u v Hin) as [Hu Hvv]. cbn [fst snd] in *.
    apply andb_false_iff in Hb. destruct Hb as [Hb|Hb]; apply N.leb_gt in Hb.
    - destruct (Hv u Hu) as [Hx _]. rewrite (wcoef_beyond (fl_ops f) n Hn x l u Hl Hu Hb) in Hx.
      apply fl_int_zero in Hx. rewrite Hx. reflexivity.
    - destruct (Hv v Hvv) as [_ Hy]. rewrite (wcoef_beyond (fl_ops f) n Hn y r v Hr Hvv Hb) in Hy.
      apply fl_int_zero in Hy. rewrite Hy. lia. }
  pose proof (fl_int_sum f A B (wcoef (fl_ops f) n x) (wcoef (fl_ops f) n y)
    (filter (fun uv => (len (fst uv) <=? l) && (len (snd uv) <=? r))%bool (rev (splits w))) (two_good f Hf)
    (s_zero (fl_ops f)) 0%Z (proj2 (fl_int_zero f 0) eq_refl)) as K.
  rewrite !zsum_filter in K; [|exact Z0|intros uv H1 H2; rewrite (Z0 uv H1 H2); reflexivity].
  rewrite !map_rev, !zsum_rev in K. rewrite Z.add_0_l in K. apply K.
  - apply Forall_forall. intros [u v] Hin. apply filter_In in Hin. destruct Hin as [Hin _]. apply in_rev in Hin.
    destruct (Sp u v Hin) as [Hu Hvv]. cbn [fst snd]. split; [apply Hv, Hu|apply Hv, Hvv].
  - fold (zsize A B w). cbn [Z.abs]. lia.
Qed.
Lemma c81_integer_sum : forall (f : fmt) (K : Type) (ob : obasis K) (x y : dvec spec_float) (A B : N -> Z),
  f = f32 \/ f = f64 ->
  (forall i, fl_int f (coef (fl_ops f) x i) (A i) /\ fl_int f (coef (fl_ops f) y i) (B i)) ->
  exists a, vd_add (dense_ops (fl_ops f) ob) x y = Ret a
    /\ forall i, (Z.abs (A i + B i) < 2 ^ f_prec f)%Z -> fl_int f (coef (fl_ops f) a i) (A i + B i).
Proof.
  intros f K ob x y A B Hf Hv.
  destruct (c18_add_sub _ _ _ (fl_ops f) ob x y) as (a & b & Ea & _ & _ & _ & Sa & _ & Ga & _).
  exists a. split; [exact Ea|]. intros i Hb. destruct (Hv i) as [Hx Hy]. unfold coef in *. rewrite Ga.
  pose proof (fl_int_add f _ _ _ _ (two_good f Hf) Hx Hy Hb) as H.
  destruct (slice_get (dv_as_slice x) i) as [u|], (slice_get (dv_as_slice y) i) as [v|]; cbn [combine]; try exact H.
  apply fl_int_zero in Hy. rewrite Hy, Z.add_0_r. exact Hx.
Qed.
Example c81_example :
  let v l := dv_from (map (fl_of_Z f32) l) in
  alg_multiply (fl_ops f32) dev 2 (v [1; 2; -3]%Z) (v [5; 7; 11]%Z) (Some 2) = Ret (v [5; 17; -4; 14; 22; -21; -33]%Z)
  /\ has_degree 2 (v [1; 2; -3]%Z) 1 /\ stored_to 2 (v [1; 2; -3]%Z) 1
  /\ (forall i, fl_int f32 (coef (fl_ops f32) (v [1; 2; -3]%Z) i) (nth (N.to_nat i) [1; 2; -3]%Z 0%Z))
  /\ ~ (exists z, alg_multiply (fl_ops f32) dev 2 (v [4097; 0; 0]%Z) (v [4097; 0; 0]%Z) (Some 1) = Ret z
                   /\ has_value (coef (fl_ops f32) z 0) (inject_Z 16785409)).
Proof.
  cbn zeta. split; [vm_compute; reflexivity|]. split; [right; vm_compute; split; [reflexivity|discriminate]|].
  split; [vm_compute; discriminate|]. split.
  - intros i. unfold coef, slice_get. cbn [dv_as_slice dv_from dv_elems map].
    destruct (N.to_nat i) as [|[|[|k]]]; cbn [nth_error nth];
      try (split; [vm_compute; reflexivity|eexists; split; [vm_compute; reflexivity|vm_compute; reflexivity]]).
    destruct k; (split; [reflexivity|exists 0%Q; split; reflexivity]).
  - intros (z & E & w & Hw & Hq). vm_compute in E. apply (f_equal (fun o => match o with Ret z => z | _ => z end)) in E.
    subst z. vm_compute in Hw. injection Hw as <-. vm_compute in Hq. discriminate.
Qed.
