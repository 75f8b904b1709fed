(** The relation of L_ProgRel for rounding errors: a float, the exact value, a size and a largest size. *)
From Coq Require Import ZArith QArith Qabs Qpower Lqa Lia SpecFloat.
From Verif Require Import Machine M_Scalar M_Float S_Float L_Float L_FloatDegree L_FloatInt L_FloatRound L_FloatOps L_FloatSum.
Local Open Scope Q_scope.

Section Errors.
  Context (f : fmt) (Hf : (1 < f_prec f < f_emax f)%Z) (F : Prop).
  Notation so := (fl_ops f).
  Notation zero := (S754_zero false).
  Notation u := (unit_roundoff f).
  Notation eta := (half_smallest f).
  Notation gr := (grow f).

  Definition num (j : nat) : Q := inject_Z (Z.of_nat j).
  Definition infl (k j : nat) (m : Q) : Q := gr k * (m + num j * eta).
  Definition close (k j : nat) (x : spec_float) (v s m : Q) : Prop :=
    is_float f x /\ Qabs v <= s /\ s <= m
    /\ (forall c, has_value x c -> Qabs (c - v) <= infl k j m - s)
    /\ (F -> k = O \/ infl k j m < fl_limit f -> finite x).

  Lemma num_nonneg j : 0 <= num j.
  Proof. unfold num. change 0 with (inject_Z 0). rewrite <- Zle_Qle. lia. Qed.
  Lemma num_add i j : num (i + j) == num i + num j.
  Proof. unfold num. rewrite Nat2Z.inj_add, inject_Z_plus. reflexivity. Qed.
  Lemma num_le i j : (i <= j)%nat -> num i <= num j.
  Proof. intros H. unfold num. rewrite <- Zle_Qle. lia. Qed.
  Lemma infl_0 m : infl 0 0 m == m.
  Proof. unfold infl, grow, num. cbn [Z.of_nat]. change (inject_Z 0) with 0. cbn [Qpower]. ring. Qed.
  Lemma infl_nonneg k j m : 0 <= m -> 0 <= infl k j m.
  Proof.
    intros H. unfold infl. pose proof (grow_ge f k). pose proof (num_nonneg j). pose proof (eta_pos f).
    apply Qmult_le_0_compat; [lra|]. pose proof (Qmult_le_0_compat _ _ H1 (Qlt_le_weak _ _ H2)). lra.
  Qed.
  Lemma mul2 a b c d : 0 <= a -> 0 <= b -> a <= c -> b <= d -> a * b <= c * d.
  Proof. intros. apply Qle_trans with (a * d); [|apply Qmult_le_compat_r; lra]. apply mul_le_left; assumption. Qed.
  Lemma infl_mono k j k' j' m m' : (k <= k')%nat -> (j <= j')%nat -> 0 <= m -> m <= m' -> infl k j m <= infl k' j' m'.
  Proof.
    intros Hk Hj H0 H. unfold infl. pose proof (grow_ge f k). pose proof (grow_le f _ _ Hk). pose proof (num_nonneg j).
    pose proof (num_le _ _ Hj). pose proof (eta_pos f).
    assert (num j * eta <= num j' * eta) by (apply mul2; lra).
    assert (0 <= num j * eta) by (apply Qmult_le_0_compat; lra).
    apply mul2; lra.
  Qed.
  Lemma infl_add k j m k' j' m' : 0 <= m -> 0 <= m' ->
    (1 + u) * (infl k j m + infl k' j' m') <= infl (S (Nat.max k k')) (j + j') (m + m').
  Proof.
    intros H H'. unfold infl at 3. rewrite grow_S, num_add. set (g := gr (Nat.max k k')).
    assert (E : (1 + u) * g * (m + m' + (num j + num j') * eta) == (1 + u) * (g * (m + num j * eta) + g * (m' + num j' * eta))) by ring.
    rewrite E. apply mul_le_left; [pose proof (u_pos f); lra|].
    apply Qplus_le_compat; unfold infl; apply Qmult_le_compat_r; try (apply grow_le; lia).
    - pose proof (Qmult_le_0_compat _ _ (num_nonneg j) (Qlt_le_weak _ _ (eta_pos f))). lra.
    - pose proof (Qmult_le_0_compat _ _ (num_nonneg j') (Qlt_le_weak _ _ (eta_pos f))). lra.
  Qed.
  Lemma infl_1 m : infl 1 1 m == (1 + u) * (m + eta).
  Proof. unfold infl. rewrite grow_S. unfold grow, num. cbn [Z.of_nat Qpower Pos.of_succ_nat]. change (inject_Z 1) with 1. ring. Qed.

  Lemma abs_sub a b : Qabs a - Qabs b <= Qabs (a - b).
  Proof. pose proof (abs_tri (a - b) b) as H. rewrite (Qabs_wd (a - b + b) a) in H by ring. lra. Qed.
  Lemma bound_le k j x v s m c : close k j x v s m -> has_value x c -> Qabs c <= infl k j m.
  Proof. intros (_ & Hv & _ & E & _) Hc. pose proof (E c Hc). pose proof (abs_sub c v). lra. Qed.
  Lemma close_pos k j x v s m : close k j x v s m -> 0 <= s /\ 0 <= m.
  Proof. intros (_ & Hv & Hs & _). pose proof (Qabs_nonneg v). lra. Qed.

  Lemma close_compat k j x v s m v' s' m' : v == v' -> s == s' -> m == m' -> close k j x v s m -> close k j x v' s' m'.
  Proof.
    intros E1 E2 E3 (V & H1 & H2 & H3 & H4).
    assert (I : infl k j m' == infl k j m) by (unfold infl; rewrite E3; reflexivity).
    split; [exact V|]. split; [rewrite <- (Qabs_wd _ _ E1); lra|]. split; [lra|]. split.
    - intros c Hc. rewrite I. rewrite (Qabs_wd (c - v') (c - v)) by (rewrite E1; reflexivity). pose proof (H3 c Hc). lra.
    - intros HF [Hk|Hk]; apply H4; auto. right. lra.
  Qed.
  Lemma close_mono k j k' j' x v s m : (k <= k')%nat -> (j <= j')%nat -> close k j x v s m -> close k' j' x v s m.
  Proof.
    intros Hk Hj H. pose proof (close_pos _ _ _ _ _ _ H) as [P1 P2]. destruct H as (V & H1 & H2 & H3 & H4).
    pose proof (infl_mono k j k' j' m m Hk Hj P2 (Qle_refl m)) as I.
    split; [exact V|]. do 2 (split; [assumption|]). split.
    - intros c Hc. pose proof (H3 c Hc). lra.
    - intros HF [E|L]; apply H4; auto; [left; lia|right; lra].
  Qed.
  Lemma zero_float : is_float f zero. Proof. reflexivity. Qed.
  Lemma zero_finite : finite zero. Proof. exists 0. apply zero_value. Qed.
  (** a float that is always a number, with a size and an error *)
  Lemma close_zero_iff v s m : 0 <= s -> Qabs v <= s -> Qabs v <= m - s -> close 0 0 zero v s m.
  Proof.
    intros P H1 H2. pose proof (Qabs_nonneg v). split; [exact zero_float|]. split; [exact H1|]. split; [lra|]. split.
    - intros c Hc. apply value_zero in Hc. rewrite infl_0. rewrite (Qabs_wd (c - v) (- v)) by (rewrite Hc; ring).
      rewrite Qabs_opp. exact H2.
    - intros _ _. exact zero_finite.
  Qed.
  Lemma close_zero_err v s m : close 0 0 zero v s m -> Qabs v <= m - s.
  Proof.
    intros (_ & _ & _ & E & _). pose proof (E 0 (zero_value false)) as H. rewrite infl_0 in H.
    rewrite (Qabs_wd (0 - v) (- v)) in H by ring. rewrite Qabs_opp in H. exact H.
  Qed.
  Lemma close_zero : close 0 0 zero 0 0 0.
  Proof. apply close_zero_iff; cbn; lra. Qed.

  Lemma close_add k j x v s m k' j' y v' s' m' : close k j x v s m -> close k' j' y v' s' m' ->
    close (S (Nat.max k k')) (j + j') (s_add so x y) (v + v') (s + s') (m + m').
  Proof.
    intros H H'. pose proof (close_pos _ _ _ _ _ _ H) as [P1 P2]. pose proof (close_pos _ _ _ _ _ _ H') as [P1' P2'].
    pose proof (infl_add k j m k' j' m' P2 P2') as I. pose proof (infl_nonneg k j m P2) as I1.
    pose proof (infl_nonneg k' j' m' P2') as I2. pose proof (u_pos f) as U.
    assert (U1 : 0 <= u * infl k j m) by (apply Qmult_le_0_compat; lra).
    assert (U2 : 0 <= u * infl k' j' m') by (apply Qmult_le_0_compat; lra).
    pose proof (bound_le _ _ _ _ _ _ (fl_val x) H) as B. pose proof (bound_le _ _ _ _ _ _ (fl_val y) H') as B'.
    destruct H as (V & H1 & H2 & H3 & H4), H' as (V' & H1' & H2' & H3' & H4').
    change (s_add so x y) with (SFadd (f_prec f) (f_emax f) x y).
    split; [apply add_valid; [lia|exact V|exact V']|]. split; [pose proof (abs_tri v v'); lra|]. split; [lra|]. split.
    - intros c Hc. destruct (add_step f Hf x y c V V' Hc) as (Fx & Fy & E).
      specialize (B (finite_val x Fx)). specialize (B' (finite_val y Fy)).
      pose proof (H3 _ (finite_val x Fx)) as E1. pose proof (H3' _ (finite_val y Fy)) as E2.
      pose proof (abs_tri (fl_val x) (fl_val y)) as T.
      assert (u * Qabs (fl_val x + fl_val y) <= u * (infl k j m + infl k' j' m')) as X by (apply mul_le_left; lra).
      pose proof (abs_tri (c - (fl_val x + fl_val y)) ((fl_val x - v) + (fl_val y - v'))) as T1.
      pose proof (abs_tri (fl_val x - v) (fl_val y - v')) as T2.
      rewrite (Qabs_wd (c - (v + v')) (c - (fl_val x + fl_val y) + (fl_val x - v + (fl_val y - v')))) by ring. lra.
    - intros HF [E|L]; [discriminate|].
      assert (Fx : finite x) by (apply H4; [exact HF|right; lra]). assert (Fy : finite y) by (apply H4'; [exact HF|right; lra]).
      specialize (B (finite_val x Fx)). specialize (B' (finite_val y Fy)).
      apply (add_total f Hf); try assumption. pose proof (abs_tri (fl_val x) (fl_val y)). lra.
  Qed.
  Lemma close_addz k j x v s m v' s' m' : close k j x v s m -> close 0 0 zero v' s' m' -> close k j x (v + v') (s + s') (m + m').
  Proof.
    intros H H'. pose proof (close_pos _ _ _ _ _ _ H) as [P1 P2]. pose proof (close_pos _ _ _ _ _ _ H') as [P1' P2'].
    pose proof (close_zero_err _ _ _ H') as Z. destruct H as (V & H1 & H2 & H3 & H4), H' as (_ & H1' & H2' & _).
    assert (I : infl k j m + m' <= infl k j (m + m')).
    { unfold infl. pose proof (grow_ge f k). pose proof (Qmult_le_compat_r _ _ m' H P2').
      assert (E : gr k * (m + m' + num j * eta) == gr k * (m + num j * eta) + gr k * m') by ring. rewrite E. lra. }
    split; [exact V|]. split; [pose proof (abs_tri v v'); lra|]. split; [lra|]. split.
    - intros c Hc. pose proof (H3 c Hc). pose proof (abs_tri (c - v) (- v')) as T. rewrite Qabs_opp in T.
      rewrite (Qabs_wd (c - (v + v')) (c - v + - v')) by ring. lra.
    - intros HF [E|L]; apply H4; auto. right. lra.
  Qed.
  (** adding to 0 is exact *)
  Lemma zero_add y : s_add so zero y = match y with S754_zero _ => zero | _ => y end.
  Proof. destruct y as [[]|s| |s m e]; reflexivity. Qed.
  Lemma zero_add_value y c : has_value (s_add so zero y) c <-> has_value y c.
  Proof. rewrite zero_add. destruct y as [s|s| |s m e]; reflexivity. Qed.
  Lemma zero_add_float y : is_float f y -> is_float f (s_add so zero y).
  Proof. rewrite zero_add. destruct y; intros H; [reflexivity|exact H..]. Qed.
  Lemma close_zadd v s m k j y v' s' m' : close 0 0 zero v s m -> close k j y v' s' m' ->
    close k j (s_add so zero y) (v + v') (s + s') (m + m').
  Proof.
    intros H H'. apply (close_compat k j _ (v' + v) (s' + s) (m' + m)); try apply Qplus_comm.
    pose proof (close_addz _ _ _ _ _ _ _ _ _ H' H) as (V & H1 & H2 & H3 & H4). split; [apply zero_add_float, V|].
    do 2 (split; [assumption|]). split.
    - intros c Hc. apply H3. apply zero_add_value. exact Hc.
    - intros HF K. destruct (H4 HF K) as [c Hc]. exists c. apply zero_add_value. exact Hc.
  Qed.
  Lemma finite_opp x : finite x -> finite (SFopp x).
  Proof. intros [v Hv]. exists (- v). apply opp_value, Hv. Qed.
  Lemma opp_twice x : SFopp (SFopp x) = x.
  Proof. destruct x as [s|s| |s m e]; cbn; rewrite ?Bool.negb_involutive; reflexivity. Qed.
  Lemma close_opp k j x v s m : close k j x v s m -> close k j (SFopp x) (- v) s m.
  Proof.
    intros (V & H1 & H2 & H3 & H4). split; [apply opp_valid, V|]. split; [rewrite Qabs_opp; exact H1|]. split; [exact H2|]. split.
    - intros c Hc. apply opp_value in Hc. rewrite opp_twice in Hc. pose proof (H3 _ Hc) as E.
      rewrite <- Qabs_opp. rewrite (Qabs_wd (- (c - - v)) (- c - v)) by ring. exact E.
    - intros HF L. apply finite_opp, H4; assumption.
  Qed.
  Lemma close_oppz v s m : close 0 0 zero v s m -> close 0 0 zero (- v) s m.
  Proof.
    intros H. pose proof (close_pos _ _ _ _ _ _ H) as [P1 P2]. pose proof (close_zero_err _ _ _ H) as Z.
    destruct H as (_ & H1 & _). apply close_zero_iff; rewrite ?Qabs_opp; assumption.
  Qed.
  Lemma close_const c : is_float f c /\ finite c -> close 0 0 c (fl_val c) (Qabs (fl_val c)) (Qabs (fl_val c)).
  Proof.
    intros [V Fc]. split; [exact V|]. split; [apply Qle_refl|]. split; [apply Qle_refl|]. split; [|intros; exact Fc].
    intros v Hv. rewrite infl_0. rewrite (Qabs_wd (v - fl_val c) 0) by (rewrite (val_of _ _ Hv); ring).
    change (Qabs 0) with 0. lra.
  Qed.
  (** the product of two approximations *)
  Lemma product_close cx cy v s m v' s' m' : Qabs v <= s -> Qabs v' <= s' -> s <= m -> s' <= m' ->
    Qabs (cx - v) <= m - s -> Qabs (cy - v') <= m' - s' -> Qabs (cx * cy - v * v') <= m * m' - s * s'.
  Proof.
    intros H1 H1' H2 H2' E E'. pose proof (abs_sub cy v') as A. pose proof (Qabs_nonneg v). pose proof (Qabs_nonneg (cx - v)).
    pose proof (Qabs_nonneg cy). pose proof (Qabs_nonneg (cy - v')).
    rewrite (Qabs_wd (cx * cy - v * v') ((cx - v) * cy + v * (cy - v'))) by ring.
    pose proof (abs_tri ((cx - v) * cy) (v * (cy - v'))) as T. rewrite !Qabs_Qmult in T.
    assert (Qabs (cx - v) * Qabs cy <= (m - s) * m') by (apply mul2; lra).
    assert (Qabs v * Qabs (cy - v') <= s * (m' - s')) by (apply mul2; lra).
    lra.
  Qed.
  Lemma close_mul x v s m y v' s' m' : close 0 0 x v s m -> close 0 0 y v' s' m' ->
    close 1 1 (s_mul so x y) (v * v') (s * s') (m * m').
  Proof.
    intros H H'. pose proof (close_pos _ _ _ _ _ _ H) as [P1 P2]. pose proof (close_pos _ _ _ _ _ _ H') as [P1' P2'].
    pose proof (bound_le _ _ _ _ _ _ (fl_val x) H) as B. pose proof (bound_le _ _ _ _ _ _ (fl_val y) H') as B'.
    rewrite infl_0 in B, B'. pose proof (u_pos f) as U. pose proof (eta_pos f) as Eta.
    assert (Ue : 0 <= u * eta) by (apply Qmult_le_0_compat; lra).
    assert (Um : 0 <= u * (m * m')) by (repeat apply Qmult_le_0_compat; lra).
    destruct H as (V & H1 & H2 & H3 & H4), H' as (V' & H1' & H2' & H3' & H4').
    change (s_mul so x y) with (SFmul (f_prec f) (f_emax f) x y).
    split; [apply mul_valid; [lia|exact V|exact V']|]. pose proof (Qabs_nonneg v). pose proof (Qabs_nonneg v').
    split; [rewrite Qabs_Qmult; apply mul2; lra|]. split; [apply mul2; lra|].
    assert (M : finite x -> finite y -> Qabs (fl_val x * fl_val y) <= m * m').
    { intros Fx Fy. rewrite Qabs_Qmult. apply mul2; try apply Qabs_nonneg; [apply B, finite_val, Fx|apply B', finite_val, Fy]. }
    split.
    - intros c Hc. destruct (mul_step f Hf x y c V V' Hc) as (Fx & Fy & E). specialize (M Fx Fy).
      pose proof (H3 _ (finite_val x Fx)) as E1. pose proof (H3' _ (finite_val y Fy)) as E2. rewrite infl_0 in E1, E2.
      pose proof (product_close _ _ _ _ _ _ _ _ H1 H1' H2 H2' E1 E2) as X.
      pose proof (mul_le_left u _ _ (Qlt_le_weak _ _ U) M) as Y. rewrite infl_1.
      pose proof (abs_tri (c - fl_val x * fl_val y) (fl_val x * fl_val y - v * v')) as T.
      rewrite (Qabs_wd (c - v * v') (c - fl_val x * fl_val y + (fl_val x * fl_val y - v * v'))) by ring. lra.
    - intros HF [E|L]; [discriminate|]. rewrite infl_1 in L.
      assert (Fx : finite x) by auto. assert (Fy : finite y) by auto. specialize (M Fx Fy).
      apply (mul_total f Hf); try assumption. lra.
  Qed.
  Lemma close_mulz v s m y v' s' m' : close 0 0 zero v s m -> close 0 0 y v' s' m' -> close 0 0 zero (v * v') (s * s') (m * m').
  Proof.
    intros H H'. pose proof (close_pos _ _ _ _ _ _ H) as [P1 P2]. pose proof (close_pos _ _ _ _ _ _ H') as [P1' P2'].
    pose proof (close_zero_err _ _ _ H) as Z. destruct H as (_ & H1 & H2 & _), H' as (_ & H1' & H2' & _).
    pose proof (Qabs_nonneg v). pose proof (Qabs_nonneg v').
    apply close_zero_iff; [apply Qmult_le_0_compat; lra|rewrite Qabs_Qmult; apply mul2; lra|]. rewrite Qabs_Qmult.
    assert (Qabs v * Qabs v' <= (m - s) * m') by (apply mul2; lra).
    assert (0 <= s * (m' - s')) by (apply Qmult_le_0_compat; lra). lra.
  Qed.

  Definition divisor (r : spec_float) : Prop := is_float f r /\ finite r /\ ~ fl_val r == 0.
  Lemma abs_div a b : Qabs (a / b) == Qabs a / Qabs b.
  Proof.
    unfold Qdiv. rewrite Qabs_Qmult. apply Qmult_comp; [reflexivity|]. destruct b as [[|n|n] d]; reflexivity.
  Qed.
  Lemma div_le a b c : 0 < c -> a <= b -> a / c <= b / c.
  Proof. intros Hc H. unfold Qdiv. apply Qmult_le_compat_r; [exact H|]. apply Qlt_le_weak, Qinv_lt_0_compat, Hc. Qed.
  Lemma div_finite x r v : finite r -> has_value (SFdiv (f_prec f) (f_emax f) x r) v -> finite x.
  Proof.
    intros [q (w0 & E0 & _)] (w & E & _).
    destruct x as [sx|sx| |sx mx ex]; [exists 0; apply zero_value| | |eexists; eexists; split; reflexivity];
      destruct r as [sy|sy| |sy my ey]; cbn in E0, E; discriminate.
  Qed.
  Lemma div_step x r v : is_float f x -> divisor r -> has_value (SFdiv (f_prec f) (f_emax f) x r) v ->
    finite x /\ Qabs (v - fl_val x / fl_val r) <= u * Qabs (fl_val x / fl_val r) + eta.
  Proof.
    intros Vx (Vr & Fr & Nr) Hv. pose proof (div_finite x r v Fr Hv) as Fx. split; [exact Fx|].
    destruct (div_rounded f Hf x r _ _ Vx Vr (finite_val x Fx) (finite_val r Fr) Nr) as [_ S].
    pose proof (u_pos f) as P1. pose proof (eta_pos f) as P2. pose proof (Qabs_nonneg (fl_val x / fl_val r)) as P3.
    destruct (S v Hv) as [E|E]; [fold u in E; lra|]. rewrite <- eta_eq in E.
    pose proof (Qmult_le_0_compat _ _ (Qlt_le_weak _ _ P1) P3). lra.
  Qed.
  Lemma div_total x r : is_float f x -> divisor r -> finite x -> Qabs (fl_val x / fl_val r) < fl_limit f ->
    finite (SFdiv (f_prec f) (f_emax f) x r).
  Proof.
    intros Vx (Vr & Fr & Nr) Fx L.
    destruct (div_rounded f Hf x r _ _ Vx Vr (finite_val x Fx) (finite_val r Fr) Nr) as [(_ & N & _) _].
    destruct (N L) as (v & Hv & _). exists v. exact Hv.
  Qed.
  Lemma divisor_pos r : divisor r -> 0 < Qabs (fl_val r).
  Proof.
    intros (_ & _ & Nr). pose proof (Qabs_nonneg (fl_val r)) as P. destruct (Qle_lt_or_eq _ _ P) as [H|H]; [exact H|].
    exfalso. apply Nr. pose proof (Qle_Qabs (fl_val r)). pose proof (Qle_Qabs (- fl_val r)) as Y. rewrite Qabs_opp in Y. lra.
  Qed.
  Lemma close_div x v s m r : close 0 0 x v s m -> divisor r ->
    close 1 1 (s_div so x r) (v / fl_val r) (s / Qabs (fl_val r)) (m / Qabs (fl_val r)).
  Proof.
    intros H Hr. pose proof (close_pos _ _ _ _ _ _ H) as [P1 P2]. pose proof (divisor_pos r Hr) as Pr.
    pose proof (bound_le _ _ _ _ _ _ (fl_val x) H) as B. rewrite infl_0 in B.
    pose proof (u_pos f) as U. pose proof (eta_pos f) as Eta.
    assert (Ue : 0 <= u * eta) by (apply Qmult_le_0_compat; lra).
    destruct H as (V & H1 & H2 & H3 & H4). set (rho := Qabs (fl_val r)) in *.
    assert (Mp : 0 <= m / rho). { pose proof (div_le 0 m rho Pr P2) as X. unfold Qdiv in X at 1. rewrite Qmult_0_l in X. exact X. }
    assert (Um : 0 <= u * (m / rho)) by (apply Qmult_le_0_compat; lra).
    change (s_div so x r) with (SFdiv (f_prec f) (f_emax f) x r).
    split; [apply div_valid; [lia|exact V|exact (proj1 Hr)]|].
    split; [rewrite abs_div; apply div_le; [exact Pr|exact H1]|]. split; [apply div_le; assumption|].
    assert (M : finite x -> Qabs (fl_val x / fl_val r) <= m / rho).
    { intros Fx. rewrite abs_div. apply div_le; [exact Pr|]. apply B, finite_val, Fx. }
    split.
    - intros c Hc. destruct (div_step x r c V Hr Hc) as (Fx & E). specialize (M Fx).
      pose proof (H3 _ (finite_val x Fx)) as E1. rewrite infl_0 in E1.
      pose proof (div_le _ _ _ Pr E1) as X. pose proof (mul_le_left u _ _ (Qlt_le_weak _ _ U) M) as Y. rewrite infl_1.
      pose proof (abs_tri (c - fl_val x / fl_val r) (fl_val x / fl_val r - v / fl_val r)) as T.
      rewrite (Qabs_wd (c - v / fl_val r) (c - fl_val x / fl_val r + (fl_val x / fl_val r - v / fl_val r))) by ring.
      rewrite (Qabs_wd (fl_val x / fl_val r - v / fl_val r) ((fl_val x - v) / fl_val r)) in T by (unfold Qdiv; ring).
      rewrite abs_div in T. fold rho in T.
      assert (E2 : (m - s) / rho == m / rho - s / rho) by (unfold Qdiv; ring). rewrite E2 in X. lra.
    - intros HF [E|L]; [discriminate|]. rewrite infl_1 in L. assert (Fx : finite x) by auto. specialize (M Fx).
      apply div_total; try assumption. lra.
  Qed.
  Lemma close_divz v s m r : close 0 0 zero v s m -> divisor r ->
    close 0 0 zero (v / fl_val r) (s / Qabs (fl_val r)) (m / Qabs (fl_val r)).
  Proof.
    intros H Hr. pose proof (close_pos _ _ _ _ _ _ H) as [P1 P2]. pose proof (divisor_pos r Hr) as Pr.
    pose proof (close_zero_err _ _ _ H) as Z. destruct H as (_ & H1 & _). set (rho := Qabs (fl_val r)) in *.
    apply close_zero_iff.
    - pose proof (div_le 0 s rho Pr P1) as X. unfold Qdiv in X at 1. rewrite Qmult_0_l in X. exact X.
    - rewrite abs_div. apply div_le; [exact Pr|exact H1].
    - rewrite abs_div. pose proof (div_le _ _ _ Pr Z) as X.
      assert (E2 : (m - s) / rho == m / rho - s / rho) by (unfold Qdiv; ring). rewrite E2 in X. exact X.
  Qed.
End Errors.
