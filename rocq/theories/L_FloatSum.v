(** Lemmas about sums of floating-point products: the accumulated rounding error. *)
From Coq Require Import ZArith Lia Lqa Bool QArith Qabs Qpower Floats.SpecFloat List.
From Verif Require Import Machine M_Scalar M_Float S_Float L_Float L_FloatDegree L_FloatInt L_FloatRound L_FloatOps.
Import ListNotations.
Local Open Scope Z_scope.

Section Format.
Context (f : fmt) (Hf : 1 < f_prec f < f_emax f).
Notation prec := (f_prec f).
Notation emax := (f_emax f).
Notation u := (unit_roundoff f).
Notation eta := (half_smallest f).
(** (1 + u)^k *)
Definition grow (k : nat) : Q := ((1 + u) ^ Z.of_nat k)%Q.

Lemma u_pos : (0 < u)%Q.
Proof. apply pw_pos. Qed.
Lemma eta_pos : (0 < eta)%Q.
Proof. apply pw_pos. Qed.
Lemma eta_eq : (eta == 2 ^ (emin prec emax - 1))%Q.
Proof. unfold half_smallest, emin. replace (2 - emax - prec) with (3 - emax - prec - 1) by lia. reflexivity. Qed.
Lemma grow_S k : (grow (S k) == (1 + u) * grow k)%Q.
Proof.
  unfold grow. rewrite Nat2Z.inj_succ, <- Z.add_1_l, Qpower_plus; [reflexivity|]. pose proof u_pos. lra.
Qed.
Lemma grow_ge k : (1 <= grow k)%Q.
Proof.
  induction k as [|k IH]; [apply Qle_refl|]. rewrite grow_S. pose proof u_pos. nra.
Qed.
Lemma grow_le j k : (j <= k)%nat -> (grow j <= grow k)%Q.
Proof.
  induction 1 as [|k _ IH]; [apply Qle_refl|]. rewrite grow_S. pose proof u_pos. pose proof (grow_ge k). nra.
Qed.

Lemma val_of x v : has_value x v -> (fl_val x == v)%Q.
Proof. intros (w & E & H). unfold fl_val. rewrite E. exact H. Qed.
Lemma finite_val x : finite x -> has_value x (fl_val x).
Proof. intros (v & w & E & H). unfold fl_val. exists w. rewrite E. split; reflexivity. Qed.

Lemma abs_tri a b : (Qabs (a + b) <= Qabs a + Qabs b)%Q.
Proof. apply Qabs_triangle. Qed.

Lemma mul_le_left a b c : (0 <= a)%Q -> (b <= c)%Q -> (a * b <= a * c)%Q.
Proof. intros Ha H. rewrite !(Qmult_comm a). apply Qmult_le_compat_r; assumption. Qed.

(** one addition, one product *)
Lemma add_step x y v : is_float f x -> is_float f y -> has_value (SFadd prec emax x y) v ->
  finite x /\ finite y /\ (Qabs (v - (fl_val x + fl_val y)) <= u * Qabs (fl_val x + fl_val y))%Q.
Proof.
  intros Vx Vy Hv. destruct (add_finite f x y v Hv) as [Fx Fy]. split; [exact Fx|]. split; [exact Fy|].
  apply (add_error f Hf x y); auto using finite_val.
Qed.
Lemma add_total x y : is_float f x -> is_float f y -> finite x -> finite y ->
  (Qabs (fl_val x + fl_val y) < fl_limit f)%Q -> finite (SFadd prec emax x y).
Proof.
  intros Vx Vy Fx Fy L. destruct (add_rounded f Hf x y _ _ Vx Vy (finite_val x Fx) (finite_val y Fy)) as [(_ & N & _) _].
  destruct (N L) as (v & Hv & _). exists v. exact Hv.
Qed.
Lemma mul_finite x y v : has_value (SFmul prec emax x y) v -> finite x /\ finite y.
Proof.
  intros (w & E & _). unfold finite, has_value.
  assert (Z0 : forall s, exists v, exists w, fl_value (S754_zero s) = Some w /\ (w == v)%Q) by (intros; exists 0%Q, 0%Q; split; reflexivity).
  assert (Fi : forall s m e, exists v, exists w, fl_value (S754_finite s m e) = Some w /\ (w == v)%Q)
    by (intros; eexists _, _; split; [reflexivity|reflexivity]).
  destruct x as [sx|sx| |sx mx ex], y as [sy|sy| |sy my ey]; cbn [SFmul] in E; try (cbn in E; discriminate); split; auto.
Qed.
Lemma mul_step x y v : is_float f x -> is_float f y -> has_value (SFmul prec emax x y) v ->
  finite x /\ finite y /\ (Qabs (v - fl_val x * fl_val y) <= u * Qabs (fl_val x * fl_val y) + eta)%Q.
Proof.
  intros Vx Vy Hv. destruct (mul_finite x y v Hv) as [Fx Fy]. split; [exact Fx|]. split; [exact Fy|].
  destruct (mul_rounded f Hf x y _ _ Vx Vy (finite_val x Fx) (finite_val y Fy)) as [_ S].
  pose proof u_pos as P1. pose proof eta_pos as P2. pose proof (Qabs_nonneg (fl_val x * fl_val y)) as P3.
  destruct (S v Hv) as [E|E]; [fold u in E; lra|]. rewrite <- eta_eq in E. nra.
Qed.
Lemma mul_total x y : is_float f x -> is_float f y -> finite x -> finite y ->
  (Qabs (fl_val x * fl_val y) < fl_limit f)%Q -> finite (SFmul prec emax x y).
Proof.
  intros Vx Vy Fx Fy L. destruct (mul_rounded f Hf x y _ _ Vx Vy (finite_val x Fx) (finite_val y Fy)) as [(_ & N & _) _].
  destruct (N L) as (v & Hv & _). exists v. exact Hv.
Qed.

Lemma qsum_nonneg {A} (g : A -> Q) l : (forall a, 0 <= g a)%Q -> (0 <= qsum (map g l))%Q.
Proof.
  intros H. induction l as [|a l IH]; [apply Qle_refl|]. cbn [map qsum fold_right]. fold (qsum (map g l)).
  pose proof (H a). lra.
Qed.
Lemma qsum_abs {A} (g : A -> Q) l : (Qabs (qsum (map g l)) <= qsum (map (fun a => Qabs (g a)) l))%Q.
Proof.
  induction l as [|a l IH]; [apply Qle_refl|]. cbn [map qsum fold_right]. fold (qsum (map g l)).
  fold (qsum (map (fun a => Qabs (g a)) l)). pose proof (abs_tri (g a) (qsum (map g l))). lra.
Qed.

(** a sum of floats, from left to right *)
Definition vsum (l : list spec_float) : Q := qsum (map fl_val l).
Definition vsize (l : list spec_float) : Q := qsum (map (fun x => Qabs (fl_val x)) l).
Lemma qsum_cons a l : qsum (a :: l) = (a + qsum l)%Q.
Proof. reflexivity. Qed.
Lemma vsum_cons x l : vsum (x :: l) = (fl_val x + vsum l)%Q.
Proof. reflexivity. Qed.
Lemma vsize_cons x l : vsize (x :: l) = (Qabs (fl_val x) + vsize l)%Q.
Proof. reflexivity. Qed.
Lemma vsize_nonneg l : (0 <= vsize l)%Q.
Proof. apply qsum_nonneg. intros. apply Qabs_nonneg. Qed.
Lemma sum_error l : forall a0 c, is_float f a0 -> Forall (is_float f) l ->
  has_value (fold_left (SFadd prec emax) l a0) c ->
  finite a0 /\ Forall finite l /\
  (Qabs (c - (fl_val a0 + vsum l)) <= (grow (length l) - 1) * (Qabs (fl_val a0) + vsize l))%Q.
Proof.
  induction l as [|x l IH]; intros a0 c Va Vl Hc.
  - cbn [fold_left] in Hc. split; [eexists; exact Hc|]. split; [constructor|].
    rewrite <- (val_of _ _ Hc). cbn [vsum vsize map qsum fold_right length].
    setoid_replace (fl_val a0 - (fl_val a0 + 0))%Q with 0%Q by ring. change (Qabs 0) with 0%Q.
    unfold grow. cbn. pose proof (Qabs_nonneg (fl_val a0)). lra.
  - apply Forall_cons_iff in Vl. destruct Vl as [Vx Vl]. cbn [fold_left] in Hc.
    assert (Vs : is_float f (SFadd prec emax a0 x)) by (apply add_valid; [lia|assumption..]).
    destruct (IH _ _ Vs Vl Hc) as (Fs & Fl & E).
    destruct (add_step a0 x _ Va Vx (finite_val _ Fs)) as (F0 & Fx & E1).
    split; [exact F0|]. split; [constructor; assumption|].
    rewrite vsum_cons, vsize_cons. cbn [length]. rewrite grow_S.
    set (s := fl_val (SFadd prec emax a0 x)) in *. set (a := fl_val a0) in *. set (b := fl_val x) in *.
    set (T := vsum l) in *. set (N := vsize l) in *. set (g := grow (length l)) in *.
    assert (G : (1 <= g)%Q) by apply grow_ge. assert (N0 : (0 <= N)%Q) by apply vsize_nonneg.
    pose proof u_pos as U.
    assert (D : (c - (a + (b + T)) == (c - (s + T)) + (s - (a + b)))%Q) by ring. rewrite D.
    pose proof (abs_tri (c - (s + T)) (s - (a + b))) as D1.
    assert (D2 : (Qabs s <= (1 + u) * Qabs (a + b))%Q).
    { pose proof (abs_tri (s - (a + b)) (a + b)) as X. setoid_replace (s - (a + b) + (a + b))%Q with s in X by ring. lra. }
    pose proof (abs_tri a b) as D3. pose proof (Qabs_nonneg a) as A0. pose proof (Qabs_nonneg b) as B0.
    pose proof (Qabs_nonneg (a + b)) as AB0.
    apply Qle_trans with ((g - 1) * ((1 + u) * Qabs (a + b) + N) + u * Qabs (a + b))%Q.
    + assert (X : ((g - 1) * (Qabs s + N) <= (g - 1) * ((1 + u) * Qabs (a + b) + N))%Q)
        by (apply mul_le_left; lra). lra.
    + apply Qle_trans with (((1 + u) * g - 1) * (Qabs (a + b) + N))%Q.
      * assert (X : (0 <= u * g * N)%Q) by (repeat apply Qmult_le_0_compat; lra). lra.
      * apply mul_le_left; [|lra]. nra.
Qed.
Lemma sum_finite l : forall a0, is_float f a0 -> Forall (is_float f) l -> finite a0 -> Forall finite l ->
  (grow (length l) * (Qabs (fl_val a0) + vsize l) < fl_limit f)%Q ->
  finite (fold_left (SFadd prec emax) l a0).
Proof.
  induction l as [|x l IH]; intros a0 Va Vl Fa Fl H; [exact Fa|].
  apply Forall_cons_iff in Vl. destruct Vl as [Vx Vl]. apply Forall_cons_iff in Fl. destruct Fl as [Fx Fl].
  cbn [fold_left]. rewrite vsize_cons in H. cbn [length] in H. rewrite grow_S in H.
  assert (G : (1 <= grow (length l))%Q) by apply grow_ge. assert (N0 : (0 <= vsize l)%Q) by apply vsize_nonneg.
  pose proof u_pos as U. pose proof (abs_tri (fl_val a0) (fl_val x)) as D3.
  pose proof (Qabs_nonneg (fl_val a0)) as A0. pose proof (Qabs_nonneg (fl_val x)) as B0.
  assert (Fs : finite (SFadd prec emax a0 x)).
  { apply add_total; try assumption. eapply Qle_lt_trans; [|exact H].
    apply Qle_trans with (1 * (Qabs (fl_val a0) + (Qabs (fl_val x) + vsize l)))%Q; [lra|].
    apply Qmult_le_compat_r; [nra|lra]. }
  apply IH; [apply add_valid; [lia|assumption..]|assumption..|].
  eapply Qle_lt_trans; [|exact H].
  destruct (add_step a0 x _ Va Vx (finite_val _ Fs)) as (_ & _ & E1).
  set (s := fl_val (SFadd prec emax a0 x)) in *. set (a := fl_val a0) in *. set (b := fl_val x) in *.
  assert (D2 : (Qabs s <= (1 + u) * Qabs (a + b))%Q).
  { pose proof (abs_tri (s - (a + b)) (a + b)) as X. setoid_replace (s - (a + b) + (a + b))%Q with s in X by ring. lra. }
  set (g := grow (length l)) in *. set (N := vsize l) in *.
  apply Qle_trans with (g * ((1 + u) * (Qabs a + Qabs b) + N))%Q.
  - apply mul_le_left; [lra|]. assert (X : ((1 + u) * Qabs (a + b) <= (1 + u) * (Qabs a + Qabs b))%Q) by (apply mul_le_left; lra). lra.
  - assert (X : (0 <= u * g * N)%Q) by (repeat apply Qmult_le_0_compat; lra). lra.
Qed.

(** floats that are close to given numbers *)
Definition close (x : spec_float) (q : Q) : Prop := (Qabs (fl_val x - q) <= u * Qabs q + eta)%Q.
Lemma close_sums l qs : Forall2 close l qs ->
  (Qabs (vsum l - qsum qs) <= u * qsum (map Qabs qs) + inject_Z (Z.of_nat (length l)) * eta)%Q
  /\ (vsize l <= (1 + u) * qsum (map Qabs qs) + inject_Z (Z.of_nat (length l)) * eta)%Q.
Proof.
  induction 1 as [|x q l qs H _ [IH1 IH2]].
  - change (vsum []) with 0%Q. change (vsize []) with 0%Q. change (qsum []) with 0%Q. change (qsum (map Qabs [])) with 0%Q.
    change (inject_Z (Z.of_nat (length (@nil spec_float)))) with 0%Q. change (Qabs (0 - 0)) with 0%Q. split; lra.
  - rewrite vsum_cons, vsize_cons. cbn [map length]. rewrite !qsum_cons.
    rewrite Nat2Z.inj_succ, <- Z.add_1_l, inject_Z_plus. change (inject_Z 1) with 1%Q.
    set (n := inject_Z (Z.of_nat (length l))) in *. unfold close in H. split.
    + setoid_replace (fl_val x + vsum l - (q + qsum qs))%Q with ((fl_val x - q) + (vsum l - qsum qs))%Q by ring.
      pose proof (abs_tri (fl_val x - q) (vsum l - qsum qs)). lra.
    + pose proof (abs_tri (fl_val x - q) q) as X. setoid_replace (fl_val x - q + q)%Q with (fl_val x) in X by ring. lra.
Qed.
Lemma fold_close l qs a0 c : is_float f a0 -> Forall (is_float f) l -> Forall2 close l qs ->
  has_value (fold_left (SFadd prec emax) l a0) c ->
  let k := length l in
  (Qabs (c - (fl_val a0 + qsum qs)) <= (grow k - 1) * Qabs (fl_val a0) + (grow (S k) - 1) * qsum (map Qabs qs)
     + inject_Z (Z.of_nat k) * grow k * eta)%Q.
Proof.
  intros Va Vl Hc Hv k. destruct (sum_error l a0 c Va Vl Hv) as (_ & _ & E). destruct (close_sums l qs Hc) as [C1 C2].
  fold k in E, C1, C2. rewrite grow_S.
  setoid_replace (c - (fl_val a0 + qsum qs))%Q with ((c - (fl_val a0 + vsum l)) + (vsum l - qsum qs))%Q by ring.
  pose proof (abs_tri (c - (fl_val a0 + vsum l)) (vsum l - qsum qs)) as T.
  pose proof (grow_ge k) as G. pose proof u_pos as U. set (g := grow k) in *. set (n := inject_Z (Z.of_nat k)) in *.
  assert (D : ((g - 1) * vsize l <= (g - 1) * ((1 + u) * qsum (map Qabs qs) + n * eta))%Q).
  { rewrite !(Qmult_comm (g - 1)). apply Qmult_le_compat_r; [exact C2|lra]. }
  nra.
Qed.
(** starting from zero, the first addition is exact *)
Lemma fold_close_zero l qs c sz : Forall (is_float f) l -> Forall2 close l qs ->
  has_value (fold_left (SFadd prec emax) l (S754_zero sz)) c ->
  let k := length l in
  (Qabs (c - qsum qs) <= (grow k - 1) * qsum (map Qabs qs) + inject_Z (Z.of_nat k) * grow k * eta)%Q.
Proof.
  intros Vl Hc Hv k. pose proof u_pos as U. pose proof eta_pos as P.
  destruct l as [|x l].
  - inversion Hc; subst. cbn [fold_left] in Hv. apply value_zero in Hv. rewrite Hv.
    change (qsum []) with 0%Q. change (qsum (map Qabs [])) with 0%Q. change (Qabs (0 - 0)) with 0%Q. subst k.
    change (inject_Z (Z.of_nat (length (@nil spec_float)))) with 0%Q. lra.
  - destruct (close_sums (x :: l) qs Hc) as [C1 C2]. fold k in C1, C2.
    apply Forall_cons_iff in Vl. destruct Vl as [Vx Vl]. cbn [fold_left] in Hv.
    assert (X : exists x', SFadd prec emax (S754_zero sz) x = x' /\ is_float f x' /\ (fl_val x' == fl_val x)%Q).
    { eexists. split; [reflexivity|]. destruct x as [s|s| |s m e]; cbn [SFadd]; try (split; [exact Vx|reflexivity]).
      destruct (Bool.eqb sz s); split; reflexivity. }
    destruct X as (x' & EX & Vx' & Ex). rewrite EX in Hv.
    destruct (sum_error l x' c Vx' Vl Hv) as (_ & _ & E).
    assert (E' : (Qabs (c - vsum (x :: l)) <= (grow (length l) - 1) * vsize (x :: l))%Q).
    { rewrite vsum_cons, vsize_cons, <- Ex. exact E. }
    clear E. change k with (S (length l)) in *. clear k. rewrite grow_S.
    setoid_replace (c - qsum qs)%Q with ((c - vsum (x :: l)) + (vsum (x :: l) - qsum qs))%Q by ring.
    pose proof (abs_tri (c - vsum (x :: l)) (vsum (x :: l) - qsum qs)) as T.
    pose proof (grow_ge (length l)) as G. set (g := grow (length l)) in *.
    cbn [length] in C1, C2. set (n := inject_Z (Z.of_nat (S (length l)))) in *.
    assert (N0 : (0 <= n)%Q) by (subst n; change 0%Q with (inject_Z 0); rewrite <- Zle_Qle; lia).
    assert (D : ((g - 1) * vsize (x :: l) <= (g - 1) * ((1 + u) * qsum (map Qabs qs) + n * eta))%Q).
    { rewrite !(Qmult_comm (g - 1)). apply Qmult_le_compat_r; [exact C2|lra]. }
    assert (M : (n * g * eta <= n * ((1 + u) * g) * eta)%Q).
    { apply Qmult_le_compat_r; [|lra]. rewrite !(Qmult_comm n). apply Qmult_le_compat_r; [nra|exact N0]. }
    nra.
Qed.
Lemma fold_close_finite l qs a0 : is_float f a0 -> Forall (is_float f) l -> finite a0 -> Forall finite l -> Forall2 close l qs ->
  let k := length l in
  (grow k * Qabs (fl_val a0) + grow (S k) * qsum (map Qabs qs) + inject_Z (Z.of_nat k) * grow k * eta < fl_limit f)%Q ->
  finite (fold_left (SFadd prec emax) l a0).
Proof.
  intros Va Vl Fa Fl Hc k H. apply sum_finite; try assumption. fold k. eapply Qle_lt_trans; [|exact H].
  destruct (close_sums l qs Hc) as [_ C2]. fold k in C2. rewrite grow_S. pose proof (grow_ge k) as G.
  set (g := grow k) in *. set (n := inject_Z (Z.of_nat k)) in *.
  assert (D : (g * vsize l <= g * ((1 + u) * qsum (map Qabs qs) + n * eta))%Q).
  { rewrite !(Qmult_comm g). apply Qmult_le_compat_r; [exact C2|lra]. }
  nra.
Qed.
End Format.
