(** Property lemmas C93-C94 (restated as theorems in P_FloatEq.v). *)
From Coq Require Import ZArith QArith Qabs Qpower Lqa SpecFloat.
From stdpp Require Import gmap.
From Verif Require Import Machine MachineLemmas M_Scalar M_Vector M_Dense M_TensorBasis S_Vector L_Dense L_PropDense M_Sparse S_Sparse
  L_Sparse L_PropSparse M_Float S_Float L_Float L_FloatDegree L_FloatInt L_FloatRound L_FloatOps L_FloatUnique L_FloatSum L_PropFloat
  L_PropRound.
Local Open Scope N_scope.

(** ** A float is determined by its value *)
Lemma digits_shift m k : (0 < m)%Z -> (0 <= k)%Z -> Zdigits2 (m * 2 ^ k) = (Zdigits2 m + k)%Z.
Proof.
  intros Hm Hk. destruct (digits_bounds m Hm) as [A B]. pose proof (digits_pos m Hm) as D.
  assert (P : (0 < 2 ^ k)%Z) by (apply Z.pow_pos_nonneg; lia).
  apply digits_unique; [|nia]. replace (Zdigits2 m + k - 1)%Z with (Zdigits2 m - 1 + k)%Z by lia.
  rewrite !Z.pow_add_r by lia. split.
  - apply Z.mul_le_mono_nonneg_r; lia.
  - apply Z.mul_lt_mono_pos_r; lia.
Qed.
Lemma canonical_inj f m m' e e' : is_float f (S754_finite false m e) -> is_float f (S754_finite false m' e') ->
  (inject_Z (Zpos m) * 2 ^ e == inject_Z (Zpos m') * 2 ^ e')%Q -> (e <= e')%Z -> m = m' /\ e = e'.
Proof.
  intros V V' H Le. destruct (canonical_cases _ _ _ _ V) as [C _]. destruct (canonical_cases _ _ _ _ V') as [C' _].
  assert (E : (Zpos m = Zpos m' * 2 ^ (e' - e))%Z).
  { replace e' with (e' - e + e)%Z in H by lia. rewrite Qpower_plus in H by (intros X; discriminate X).
    rewrite Qmult_assoc in H. apply Qmult_inj_r in H; [|apply Qpower_not_0; intros X; discriminate X].
    replace (2 ^ (e' - e))%Q with (inject_Z 2 ^ (e' - e))%Q in H by reflexivity.
    rewrite <- Zpower_Qpower in H by lia. rewrite <- inject_Z_mult in H. exact (proj1 (inject_Z_injective _ _) H). }
  assert (D : Zdigits2 (Zpos m) = (Zdigits2 (Zpos m') + (e' - e))%Z) by (rewrite E; apply digits_shift; lia).
  assert (Ee : e = e').
  { rewrite <- C, <- C'. f_equal. lia. }
  subst e'. rewrite Z.sub_diag, Z.mul_1_r in E. split; [congruence|reflexivity].
Qed.
Lemma pos_part f s m e : is_float f (S754_finite s m e) -> is_float f (S754_finite false m e).
Proof. intros H. exact H. Qed.
Lemma value_inj f x y v : is_float f x -> is_float f y -> has_value x v -> has_value y v ->
  x = y \/ (has_value x 0 /\ has_value y 0).
Proof.
  intros Vx Vy Hx Hy.
  destruct x as [sx|sx| |sx mx ex]; try (exfalso; destruct Hx as (w & E & _); discriminate);
  destruct y as [sy|sy| |sy my ey]; try (exfalso; destruct Hy as (w & E & _); discriminate).
  - right. split; exists 0%Q; split; reflexivity.
  - right. apply value_zero in Hx. destruct Hy as (w & E & H). split; [exists 0%Q; split; reflexivity|].
    exists w. split; [exact E|]. rewrite H. exact Hx.
  - right. apply value_zero in Hy. destruct Hx as (w & E & H). split; [|exists 0%Q; split; reflexivity].
    exists w. split; [exact E|]. rewrite H. exact Hy.
  - left. apply value_finite in Hx, Hy. rewrite <- Hy in Hx. clear Hy v.
    assert (Pp : forall z, (0 < 2 ^ z)%Q) by (intros z; apply pw_pos).
    assert (Ip : forall p, (0 < inject_Z (Zpos p))%Q) by (intros p; reflexivity).
    assert (Xp : (0 < inject_Z (Zpos mx) * 2 ^ ex)%Q).
    { pose proof (Pp ex) as P1. pose proof (Ip mx) as P2. nra. }
    assert (Yp : (0 < inject_Z (Zpos my) * 2 ^ ey)%Q).
    { pose proof (Pp ey) as P1. pose proof (Ip my) as P2. nra. }
    assert (M : sx = sy /\ (inject_Z (Zpos mx) * 2 ^ ex == inject_Z (Zpos my) * 2 ^ ey)%Q).
    { destruct sx, sy; cbn [cond_Zopp] in Hx; try (split; [reflexivity|]);
        try (change (Z.neg mx) with (- Zpos mx)%Z in Hx); try (change (Z.neg my) with (- Zpos my)%Z in Hx);
        try rewrite !inject_Z_opp in Hx.
      - setoid_replace (inject_Z (Zpos mx) * 2 ^ ex)%Q with (- (- inject_Z (Zpos mx) * 2 ^ ex))%Q by ring.
        rewrite Hx. ring.
      - exfalso. setoid_replace (- inject_Z (Zpos mx) * 2 ^ ex)%Q with (- (inject_Z (Zpos mx) * 2 ^ ex))%Q in Hx by ring. lra.
      - exfalso. setoid_replace (- inject_Z (Zpos my) * 2 ^ ey)%Q with (- (inject_Z (Zpos my) * 2 ^ ey))%Q in Hx by ring. lra.
      - exact Hx. }
    destruct M as [-> M]. destruct (Z.le_ge_cases ex ey) as [L|L].
    + destruct (canonical_inj f _ _ _ _ (pos_part _ _ _ _ Vx) (pos_part _ _ _ _ Vy) M L) as [-> ->]. reflexivity.
    + symmetry in M. destruct (canonical_inj f _ _ _ _ (pos_part _ _ _ _ Vy) (pos_part _ _ _ _ Vx) M L) as [-> ->]. reflexivity.
Qed.

(** * C93: Equality of floats and of vectors of floats *)
Lemma eqb_exact f x y : f = f32 \/ f = f64 -> s_eqb (fl_ops f) x y = true <->
  (x = y /\ x <> S754_nan) \/ (has_value x 0 /\ has_value y 0).
Proof. intros Hf. apply (c79_which_laws f Hf). Qed.
Lemma eqb_refl_iff f x : f = f32 \/ f = f64 -> s_eqb (fl_ops f) x x = true <-> x <> S754_nan.
Proof. intros Hf. destruct (c79_which_laws f Hf) as (_ & _ & H & _). apply H. Qed.
Lemma c93_scalars : forall (f : fmt) (x y : spec_float), f = f32 \/ f = f64 -> is_float f x -> is_float f y ->
  (s_eqb (fl_ops f) x y = true <-> num_equal x y).
Proof.
  intros f x y Hf Vx Vy. rewrite eqb_exact by exact Hf. unfold num_equal. split.
  - intros [[-> N]|[H1 H2]]; [|left; exists 0%Q; split; assumption].
    destruct y as [s|s| |s m e]; [left; exists 0%Q; split; exists 0%Q; split; reflexivity|right; exists s; split; reflexivity|congruence|].
    left. eexists. split; (eexists; split; [reflexivity|reflexivity]).
  - intros [(v & H1 & H2)|(s & -> & ->)].
    + destruct (value_inj f x y v Vx Vy H1 H2) as [->|H]; [|right; exact H]. left. split; [reflexivity|].
      intros ->. destruct H1 as (w & E & _). discriminate.
    + left. split; [reflexivity|discriminate].
Qed.
Lemma c93_dense : forall (f : fmt) (x y : dvec spec_float), f = f32 \/ f = f64 ->
  (forall i, is_float f (coef (fl_ops f) x i) /\ is_float f (coef (fl_ops f) y i)) ->
  (dv_eq (fl_ops f) x y = true <->
   dv_size x = dv_size y /\ forall i, i < dv_size x -> num_equal (coef (fl_ops f) x i) (coef (fl_ops f) y i)).
Proof.
  intros f x y Hf V. rewrite c24_equality_exact. split; intros [Hs H]; (split; [exact Hs|]); intros i Hi;
    specialize (H i Hi); destruct (V i) as [Vx Vy]; apply (c93_scalars f _ _ Hf Vx Vy); exact H.
Qed.
Lemma eqb_sym f x y : f = f32 \/ f = f64 -> s_eqb (fl_ops f) x y = true -> s_eqb (fl_ops f) y x = true.
Proof.
  intros Hf. rewrite !eqb_exact by exact Hf. intros [[-> N]|[H1 H2]]; [left; split; [reflexivity|exact N]|right; split; assumption].
Qed.
Lemma zero_not_nan x v : has_value x v -> x <> S754_nan.
Proof. intros (w & E & _) ->. discriminate. Qed.
Lemma eqb_trans f x y z : f = f32 \/ f = f64 -> s_eqb (fl_ops f) x y = true -> s_eqb (fl_ops f) y z = true ->
  s_eqb (fl_ops f) x z = true.
Proof.
  intros Hf. rewrite !eqb_exact by exact Hf. intros [[-> N]|[H1 H2]] [[-> N']|[H3 H4]].
  - left. split; [reflexivity|exact N'].
  - right. split; assumption.
  - right. split; assumption.
  - right. split; assumption.
Qed.
Lemma c93_sparse : forall (K : Type) (E : EqDecision K) (C : Countable K) (f : fmt)
    (iter : gmap K spec_float -> list (K * spec_float)) (x y : gmap K spec_float),
  f = f32 \/ f = f64 -> any_order iter ->
  (forall k v, x !! k = Some v \/ y !! k = Some v -> is_float f v) ->
  (sv_eq (fl_ops f) iter x y = true <->
   forall k, match x !! k, y !! k with
             | Some a, Some b => num_equal a b
             | None, None => True
             | _, _ => False
             end).
Proof.
  intros K E C f iter x y Hf Hi V. rewrite (eq_keys (fl_ops f) iter Hi). split; intros H k; specialize (H k);
    destruct (x !! k) as [a|] eqn:Ex, (y !! k) as [b|] eqn:Ey; try exact H.
  - apply (c93_scalars f a b Hf); [apply (V k); left; exact Ex|apply (V k); right; exact Ey|]. apply eqb_sym; assumption.
  - apply eqb_sym; [exact Hf|]. apply (c93_scalars f a b Hf); [apply (V k); left; exact Ex|apply (V k); right; exact Ey|exact H].
Qed.
Lemma c93_equivalence : forall (K : Type) (E : EqDecision K) (C : Countable K) (f : fmt)
    (iter : gmap K spec_float -> list (K * spec_float)) (x y z : dvec spec_float) (a b c : gmap K spec_float),
  f = f32 \/ f = f64 -> any_order iter ->
  let so := fl_ops f in
  (dv_eq so x x = true <-> forall i, i < dv_size x -> coef so x i <> S754_nan)
  /\ dv_eq so x y = dv_eq so y x
  /\ (dv_eq so x y = true -> dv_eq so y z = true -> dv_eq so x z = true)
  /\ (sv_eq so iter a a = true <-> forall k, a !! k <> Some S754_nan)
  /\ sv_eq so iter a b = sv_eq so iter b a
  /\ (sv_eq so iter a b = true -> sv_eq so iter b c = true -> sv_eq so iter a c = true).
Proof.
  intros K E C f iter x y z a b c Hf Hi so. repeat match goal with |- _ /\ _ => split end.
  - rewrite c24_equality_exact. split.
    + intros [_ H] i Hl. specialize (H i Hl). apply (eqb_refl_iff f _ Hf) in H. exact H.
    + intros H. split; [reflexivity|]. intros i Hl. apply (eqb_refl_iff f _ Hf). apply H, Hl.
  - assert (S1 : forall u v, dv_eq so u v = true -> dv_eq so v u = true).
    { intros u v. rewrite !c24_equality_exact. intros [Hs H]. split; [congruence|]. intros i Hl.
      apply eqb_sym; [exact Hf|]. apply H. rewrite Hs. exact Hl. }
    destruct (dv_eq so x y) eqn:Q, (dv_eq so y x) eqn:Q'; try reflexivity;
      [apply S1 in Q|apply S1 in Q']; congruence.
  - rewrite !c24_equality_exact. intros [Hs H] [Hs' H']. split; [congruence|]. intros i Hl.
    apply eqb_trans with (coef so y i); [exact Hf|apply H, Hl|apply H'; rewrite <- Hs; exact Hl].
  - rewrite (eq_keys so iter Hi). split.
    + intros H k. specialize (H k). intros Q. rewrite Q in H. apply (eqb_refl_iff f _ Hf) in H. congruence.
    + intros H k. specialize (H k). destruct (a !! k) as [v|]; [|exact I]. apply (eqb_refl_iff f _ Hf). congruence.
  - assert (S1 : forall u v, sv_eq so iter u v = true -> sv_eq so iter v u = true).
    { intros u v. rewrite !(eq_keys so iter Hi). intros H k. specialize (H k).
      destruct (u !! k), (v !! k); try exact H. apply eqb_sym; assumption. }
    destruct (sv_eq so iter a b) eqn:Q, (sv_eq so iter b a) eqn:Q'; try reflexivity;
      [apply S1 in Q|apply S1 in Q']; congruence.
  - rewrite !(eq_keys so iter Hi). intros H H' k. specialize (H k). specialize (H' k).
    destruct (a !! k), (b !! k), (c !! k); try exact I; try contradiction. apply eqb_trans with s0; assumption.
Qed.
Example c93_example : let so := fl_ops f32 in let i := fl_of_Z f32 in
  dv_eq so (dv_from [i 1%Z; S754_zero true]) (dv_borrow [i 1%Z; S754_zero false]) = true
  /\ dv_eq so (dv_from [i 1%Z; S754_nan]) (dv_from [i 1%Z; S754_nan]) = false
  /\ dv_eq so (dv_from [S754_infinity true]) (dv_from [S754_infinity true]) = true
  /\ (let iter := (fun m : gmap N spec_float => map_to_list m) in
      any_order iter /\ sv_eq so iter {[ 3 := S754_nan ]} {[ 3 := S754_nan ]} = false
      /\ sv_eq so iter {[ 3 := S754_zero true ]} {[ 3 := S754_zero false ]} = true).
Proof.
  cbv zeta. repeat apply conj; try (vm_compute; reflexivity).
Qed.

(** * C94: Sparse vectors of floats are correctly rounded *)
Lemma rounds_zero f q r : has_value r 0 -> rounds_to f q r -> rounds_to f q (S754_zero false).
Proof.
  intros H0 (V & N & I1 & I2). destruct H0 as (w0 & E0 & Hw0).
  assert (Z0 : has_value (S754_zero false) 0) by (exists 0%Q; split; reflexivity).
  split; [reflexivity|]. split; [|split].
  - intros H. destruct (N H) as (v & (w & Ew & Hv) & X). rewrite E0 in Ew. injection Ew as <-. rewrite Hw0 in Hv.
    exists 0%Q. split; [exact Z0|]. intros x u Hx Hu. destruct (X x u Hx Hu) as [X1 X2]. rewrite Hv in *. split; [exact X1|].
    intros _. right. exact I.
  - intros H. rewrite (I1 H) in E0. discriminate.
  - intros H. rewrite (I2 H) in E0. discriminate.
Qed.
Lemma eqb_zero f r : f = f32 \/ f = f64 -> s_eqb (fl_ops f) r (s_zero (fl_ops f)) = true <-> has_value r 0.
Proof.
  intros Hf. rewrite eqb_exact by exact Hf. cbn [fl_ops s_zero].
  assert (Z0 : has_value (S754_zero false) 0) by (exists 0%Q; split; reflexivity). split.
  - intros [[-> _]|[H _]]; [exact Z0|exact H].
  - intros H. right. split; [exact H|exact Z0].
Qed.
Lemma c94_sparse : forall (K : Type) (E : EqDecision K) (C : Countable K) (f : fmt)
    (iter : gmap K spec_float -> list (K * spec_float)) (x y : gmap K spec_float) (s : spec_float),
  f = f32 \/ f = f64 -> any_order iter ->
  let so := fl_ops f in let vo := sparse_ops so iter in
  let value v k := fl_val (sv_coef so v k) in
  (forall k v, x !! k = Some v \/ y !! k = Some v -> is_float f v) -> is_float f s ->
  exists a d m q, vr_add_inplace vo x y = Ret a /\ vr_sub_inplace vo x y = Ret d
    /\ vr_scalar_lmultiply_inplace vo x s = Ret m /\ vr_scalar_rdivide_inplace vo x s = Ret q
    /\ (forall k, finite (sv_coef so x k) -> finite (sv_coef so y k) ->
          rounds_to f (value x k + value y k) (sv_coef so a k) /\ rounds_to f (value x k - value y k) (sv_coef so d k))
    /\ (forall k, finite (sv_coef so x k) -> finite s ->
          rounds_to f (value x k * fl_val s) (sv_coef so m k)
          /\ (~ (fl_val s == 0)%Q -> rounds_to f (value x k / fl_val s) (sv_coef so q k))).
Proof.
  intros K E C f iter x y s Hf Hi so vo value V Vs.
  destruct (c41_add_inplace K E C _ _ so iter x y Hi) as (a & Ea & Ga).
  destruct (c41_sub_inplace K E C _ _ so iter x y Hi) as (d & Ed & Gd).
  destruct (c41_scaling K E C _ _ so iter x s s Hi) as (u0 & m & q & _ & Em & _ & Eq & _ & Gm).
  exists a, d, m, q. do 4 (split; [assumption|]). pose proof (two_good f Hf) as G.
  assert (Vz : is_float f (s_zero so)) by reflexivity.
  assert (Fz : finite (s_zero so)) by (exists 0%Q, 0%Q; split; reflexivity).
  assert (Vx : forall k, is_float f (sv_coef so x k)).
  { intros k. unfold sv_coef. destruct (x !! k) as [v|] eqn:Q; [apply (V k); left; exact Q|exact Vz]. }
  assert (Vy : forall k, is_float f (sv_coef so y k)).
  { intros k. unfold sv_coef. destruct (y !! k) as [v|] eqn:Q; [apply (V k); right; exact Q|exact Vz]. }
  assert (Dec : forall p : spec_float * Q, forall r qv, rounds_to f qv r ->
            rounds_to f qv (match (if s_eqb so r (s_zero so) then None else Some r) with Some v => v | None => s_zero so end)).
  { intros _ r qv Hr. destruct (s_eqb so r (s_zero so)) eqn:Q; [|exact Hr].
    apply (eqb_zero f r Hf) in Q. exact (rounds_zero f qv r Q Hr). }
  split.
  - intros k Fx Fy. unfold value.
    destruct (c84_operations f _ _ _ _ Hf (Vx k) (Vy k) (finite_val _ Fx) (finite_val _ Fy)) as (R1 & R2 & _).
    fold so in R1, R2.
    assert (Ca : sv_coef so a k = match merged so (s_add so) (fun v => v) (x !! k) (y !! k) with Some v => v | None => s_zero so end)
      by (unfold sv_coef; rewrite Ga; reflexivity).
    assert (Cd : sv_coef so d k = match merged so (s_sub so) (s_uminus so) (x !! k) (y !! k) with Some v => v | None => s_zero so end)
      by (unfold sv_coef; rewrite Gd; reflexivity).
    assert (Cx : sv_coef so x k = match x !! k with Some c => c | None => s_zero so end) by reflexivity.
    assert (Cy : sv_coef so y k = match y !! k with Some c => c | None => s_zero so end) by reflexivity.
    destruct (x !! k) as [u|] eqn:Ex, (y !! k) as [v|] eqn:Ey; cbn [merged] in Ca, Cd; rewrite Ca, Cd.
    + rewrite Cx, Cy in *. split; apply Dec; auto using (pair (S754_zero false) 0%Q).
    + assert (Z0 : (fl_val (sv_coef so y k) == 0)%Q) by (rewrite Cy; reflexivity).
      rewrite <- Cx. split; (eapply rounds_compat; [|apply (rounds_self f (sv_coef so x k)); auto]); rewrite Z0; ring.
    + assert (Z0 : (fl_val (sv_coef so x k) == 0)%Q) by (rewrite Cx; reflexivity).
      rewrite <- Cy. split; [eapply rounds_compat; [|apply (rounds_self f (sv_coef so y k)); auto]; rewrite Z0; ring|].
      assert (Vo : is_float f (s_uminus so (sv_coef so y k))).
      { unfold so. cbn [fl_ops s_uminus]. apply opp_valid. apply Vy. }
      assert (Ho : has_value (s_uminus so (sv_coef so y k)) (- fl_val (sv_coef so y k))) by (apply opp_value, finite_val, Fy).
      assert (Fo : finite (s_uminus so (sv_coef so y k))) by (eexists; exact Ho).
      eapply rounds_compat; [|apply (rounds_self f (s_uminus so (sv_coef so y k))); auto]. rewrite Z0.
      destruct Ho as (w & Ew & Hw). unfold fl_val at 1. rewrite Ew, Hw. ring.
    + assert (Z1 : (fl_val (sv_coef so x k) == 0)%Q) by (rewrite Cx; reflexivity).
      assert (Z2 : (fl_val (sv_coef so y k) == 0)%Q) by (rewrite Cy; reflexivity).
      split; (eapply rounds_compat; [|apply (rounds_self f (s_zero so)); auto]); rewrite Z1, Z2; reflexivity.
  - intros k Fx Fs. unfold value. destruct (Gm k) as (_ & Cm & Cq).
    destruct (c84_operations f _ _ _ _ Hf (Vx k) Vs (finite_val _ Fx) (finite_val _ Fs)) as (_ & _ & R3 & R4 & _).
    fold so in R3, R4.
    assert (Cm' : sv_coef so m k = match (if s_eqb so s (s_zero so) then None else option_map (fun v => s_mul so v s) (x !! k))
                                   with Some v => v | None => s_zero so end) by (unfold sv_coef; rewrite Cm; reflexivity).
    assert (Cq' : sv_coef so q k = match option_map (fun v => s_div so v s) (x !! k) with Some v => v | None => s_zero so end)
      by (unfold sv_coef; rewrite Cq; reflexivity).
    assert (Cx : sv_coef so x k = match x !! k with Some c => c | None => s_zero so end) by reflexivity.
    rewrite Cm', Cq'. split.
    + destruct (s_eqb so s (s_zero so)) eqn:Q.
      * apply (eqb_zero f s Hf) in Q. eapply rounds_compat; [|apply (rounds_self f (s_zero so)); auto].
        assert (Z0 : (fl_val s == 0)%Q).
        { destruct Q as (w & Ew & Hw). unfold fl_val. rewrite Ew. exact Hw. }
        rewrite Z0. change (fl_val (s_zero so)) with 0%Q. ring.
      * destruct (x !! k) as [u|] eqn:Ex; cbn [option_map]; [rewrite Cx in *; exact R3|].
        eapply rounds_compat; [|apply (rounds_self f (s_zero so)); auto]. rewrite Cx. change (fl_val (s_zero so)) with 0%Q. ring.
    + intros Hs. destruct (x !! k) as [u|] eqn:Ex; cbn [option_map]; [rewrite Cx in *; apply R4, Hs|].
      eapply rounds_compat; [|apply (rounds_self f (s_zero so)); auto]. rewrite Cx. change (fl_val (s_zero so)) with 0%Q.
      field. exact Hs.
Qed.
(** which entries of a sum of floats are removed: those whose rounded sum is a zero, of either sign *)
Lemma c94_removed : forall (K : Type) (E : EqDecision K) (C : Countable K) (f : fmt)
    (iter : gmap K spec_float -> list (K * spec_float)) (x y : gmap K spec_float) (k : K) (u v : spec_float),
  f = f32 \/ f = f64 -> any_order iter -> x !! k = Some u -> y !! k = Some v ->
  let so := fl_ops f in
  exists a d, vr_add_inplace (sparse_ops so iter) x y = Ret a /\ vr_sub_inplace (sparse_ops so iter) x y = Ret d
    /\ (a !! k = None <-> has_value (s_add so u v) 0) /\ (a !! k <> None -> a !! k = Some (s_add so u v))
    /\ (d !! k = None <-> has_value (s_sub so u v) 0) /\ (d !! k <> None -> d !! k = Some (s_sub so u v)).
Proof.
  intros K E C f iter x y k u v Hf Hi Ex Ey so.
  destruct (c41_add_inplace K E C _ _ so iter x y Hi) as (a & Ea & Ga).
  destruct (c41_sub_inplace K E C _ _ so iter x y Hi) as (d & Ed & Gd).
  exists a, d. split; [exact Ea|]. split; [exact Ed|]. rewrite (Ga k), (Gd k), Ex, Ey. cbn [merged].
  pose proof (eqb_zero f (s_add so u v) Hf) as Z1. pose proof (eqb_zero f (s_sub so u v) Hf) as Z2. fold so in Z1, Z2.
  rewrite <- Z1, <- Z2.
  destruct (s_eqb so (s_add so u v) (s_zero so)), (s_eqb so (s_sub so u v) (s_zero so)); repeat split; congruence.
Qed.
Example c94_example : let so := fl_ops f32 in let i := fl_of_Z f32 in
  let iter := (fun m : gmap N spec_float => rev (map_to_list m)) in let vo := sparse_ops so iter in
  let x : gmap N spec_float := {[ 1 := i 3%Z; 2 := S754_nan; 3 := i 16777216%Z; 4 := S754_infinity false ]} in
  let y : gmap N spec_float := {[ 1 := i (-3)%Z; 2 := i 1%Z; 3 := i 1%Z; 4 := S754_infinity false; 5 := S754_zero true ]} in
  (a <- vr_add_inplace vo x y ;; d <- vr_sub_inplace vo x y ;;
   Ret (map (fun k => a !! k) [1; 2; 3; 4; 5], map (fun k => d !! k) [1; 4; 5]))
  = Ret ([None; Some S754_nan; Some (i 16777216%Z); Some (S754_infinity false); Some (S754_zero true)],
         [Some (i 6%Z); Some S754_nan; Some (S754_zero false)]).
Proof. vm_compute. reflexivity. Qed.
