(** Lemmas on the model of degree_range_map.rs, continued: hall_set_size and the map. *)
From Verif Require Import Machine MachineLemmas S_Hall L_Moebius M_DegreeRange L_HallSize.
Local Open Scope N_scope.

Lemma seqN_S a l : seqN a (S l) = a :: seqN (a + 1) l.
Proof. reflexivity. Qed.
Lemma range_incl_cons a b : a <= b -> range_incl a b = a :: range_incl (a + 1) b.
Proof.
  intros H. unfold range_incl. replace (N.to_nat (b + 1 - a)) with (S (N.to_nat (b + 1 - (a + 1)))) by lia. apply seqN_S.
Qed.
Lemma range_incl_nil a b : b < a -> range_incl a b = [].
Proof. intros H. unfold range_incl. replace (N.to_nat (b + 1 - a)) with O by lia. reflexivity. Qed.

(** numbers of elements of the levels j..d, for d <= 5 *)
Definition levels (W : Z) (j d : N) : Z := zsum (map (fun l => level_value l W) (range_incl j d)).
Lemma levels_cons W j d : j <= d -> levels W j d = (level_value j W + levels W (j + 1) d)%Z.
Proof. intros H. unfold levels. rewrite range_incl_cons by exact H. reflexivity. Qed.
Lemma levels_nil W j d : d < j -> levels W j d = 0%Z.
Proof. intros H. unfold levels. rewrite range_incl_nil by exact H. reflexivity. Qed.

Lemma five (l : N) : 1 <= l <= 5 -> l = 1 \/ l = 2 \/ l = 3 \/ l = 4 \/ l = 5.
Proof. lia. Qed.
Lemma level_value_eq l W : (0 <= W)%Z -> 2 <= l <= 5 ->
  (Z.of_N l * level_value l W = W ^ Z.of_N l - (if (l =? 4)%N then W ^ 2 else W))%Z.
Proof.
  intros HW Hl. destruct (five l) as [->|[->|[->|[->| ->]]]]; [lia|lia|..]; cbn [level_value N.eqb Pos.eqb];
    match goal with |- context [Z.of_N ?k] => let v := eval vm_compute in (Z.of_N k) in change (Z.of_N k) with v end.
  - destruct (divides_pow W 2 2 1) as [Q1 Q2]; [lia| |lia|lia|rewrite Z.pow_1_r in *; exact Q2].
    intros r Hr. assert (C : (r = 0 \/ r = 1)%Z) by lia. destruct C as [->| ->]; reflexivity.
  - destruct (divides_pow W 3 3 1) as [Q1 Q2]; [lia| |lia|lia|rewrite Z.pow_1_r in *; exact Q2].
    intros r Hr. assert (C : (r = 0 \/ r = 1 \/ r = 2)%Z) by lia. destruct C as [->|[->| ->]]; reflexivity.
  - destruct (divides_pow W 4 4 2) as [Q1 Q2]; [lia| |lia|lia|exact Q2].
    intros r Hr. assert (C : (r = 0 \/ r = 1 \/ r = 2 \/ r = 3)%Z) by lia. destruct C as [->|[->|[->| ->]]]; reflexivity.
  - destruct (divides_pow W 5 5 1) as [Q1 Q2]; [lia| |lia|lia|rewrite Z.pow_1_r in *; exact Q2].
    intros r Hr. assert (C : (r = 0 \/ r = 1 \/ r = 2 \/ r = 3 \/ r = 4)%Z) by lia. destruct C as [->|[->|[->|[->| ->]]]]; reflexivity.
Qed.
Lemma level_value_bounds l W : (0 <= W)%Z -> 1 <= l <= 5 ->
  (0 <= level_value l W)%Z /\ (2 <= l -> (2 * level_value l W <= W ^ Z.of_N l)%Z) /\ (2 <= W -> 1 <= level_value l W)%Z.
Proof.
  intros HW Hl. destruct (N.eq_dec l 1) as [->|H1]; [cbn; lia|].
  pose proof (level_value_eq l W HW ltac:(lia)) as E.
  assert (G : (0 <= (if (l =? 4)%N then W ^ 2 else W) <= W ^ Z.of_N l)%Z
              /\ (2 <= W -> 2 * (if (l =? 4)%N then W ^ 2 else W) <= W ^ Z.of_N l)%Z).
  { destruct (N.eqb_spec l 4) as [->|].
    - change (Z.of_N 4) with (2 + 2)%Z. rewrite Z.pow_add_r by lia. rewrite Z.pow_2_r. nia.
    - split; [rewrite <- (Z.pow_1_r W) at 2 3; pose proof (pow_le W 1 (Z.of_N l) HW ltac:(lia)); rewrite Z.pow_1_r in *; lia|].
      intros H2. replace (Z.of_N l) with (1 + 1 + (Z.of_N l - 2))%Z by lia. rewrite !Z.pow_add_r, Z.pow_1_r by lia.
      assert (0 < W ^ (Z.of_N l - 2))%Z by (apply Z.pow_pos_nonneg; lia). nia. }
  destruct G as [G1 G2]. split; [nia|]. split; [intros _; nia|]. intros H2. specialize (G2 H2).
  assert (0 < W ^ Z.of_N l)%Z by (apply Z.pow_pos_nonneg; lia). nia.
Qed.
Lemma levels_nonneg W j d : (0 <= W)%Z -> 1 <= j -> d <= 5 -> (0 <= levels W j d)%Z.
Proof.
  intros HW Hj Hd. remember (N.to_nat (d + 1 - j)) as k eqn:Hk. revert j Hj Hk; induction k as [|k IH]; intros j Hj Hk.
  - rewrite levels_nil by lia. lia.
  - rewrite levels_cons by lia. pose proof (level_value_bounds j W HW ltac:(lia)). specialize (IH (j + 1) ltac:(lia) ltac:(lia)). lia.
Qed.
Lemma levels_snoc W j d : j <= d + 1 -> levels W j (d + 1) = (levels W j d + level_value (d + 1) W)%Z.
Proof.
  intros H. remember (N.to_nat (d + 1 - j)) as k eqn:Hk. revert j H Hk; induction k as [|k IH]; intros j H Hk.
  - assert (j = d + 1) as -> by lia. rewrite levels_cons, !levels_nil by lia. lia.
  - rewrite (levels_cons W j (d + 1)), (levels_cons W j d), (IH (j + 1)) by lia. lia.
Qed.
Lemma levels_bound W j d : (0 <= W)%Z -> 1 <= j -> 1 <= d <= 5 -> (levels W j d <= 2 * W ^ Z.of_N d)%Z.
Proof.
  intros HW Hj Hd.
  assert (G : forall d, d <= 4 -> (levels W j (d + 1) <= 2 * W ^ Z.of_N (d + 1))%Z).
  { clear d Hd. intros d. induction d as [|d IH] using N.peano_ind; intros Hd.
    - change (0 + 1) with 1. destruct (N.eq_dec j 1) as [->|]; [rewrite levels_cons, levels_nil by lia|rewrite levels_nil by lia];
        cbn [level_value]; change (Z.of_N 1) with 1%Z; rewrite Z.pow_1_r; lia.
    - replace (N.succ d) with (d + 1) in * by lia. specialize (IH ltac:(lia)).
      destruct (N.lt_ge_cases (d + 1 + 1) j) as [Hlt|Hge].
      { rewrite levels_nil by lia. assert (0 <= W ^ Z.of_N (d + 1 + 1))%Z by (apply Z.pow_nonneg; lia). lia. }
      rewrite levels_snoc by lia. destruct (level_value_bounds (d + 1 + 1) W HW ltac:(lia)) as (B0 & B & _). specialize (B ltac:(lia)).
      assert (E : (W ^ Z.of_N (d + 1 + 1) = W * W ^ Z.of_N (d + 1))%Z).
      { replace (Z.of_N (d + 1 + 1)) with (1 + Z.of_N (d + 1))%Z by lia. rewrite Z.pow_add_r, Z.pow_1_r by lia. reflexivity. }
      assert (0 <= W ^ Z.of_N (d + 1))%Z by (apply Z.pow_nonneg; lia).
      destruct (Z.le_gt_cases 2 W) as [H2|H2]; [rewrite E in *; nia|].
      assert (C : (W = 0 \/ W = 1)%Z) by lia. destruct C as [->| ->].
      + rewrite !Z.pow_0_l in * by lia. lia.
      + rewrite !Z.pow_1_l in * by lia. pose proof (level_value_eq (d + 1 + 1) 1 ltac:(lia) ltac:(lia)) as Q.
        rewrite !Z.pow_1_l in Q by lia. destruct (_ =? 4)%N; nia. }
  replace d with (d - 1 + 1) by lia. apply G. lia.
Qed.

Section Sizes.
  Context (p : profile).
  Lemma level_ok f w l : (20 <= f)%nat -> 1 <= l <= 5 -> w < 2 ^ 32 -> (Z.of_N w ^ Z.of_N l < 2 ^ 63)%Z ->
    hall_set_level_size p f w l = Ret (Z.to_N (level_value l (Z.of_N w))).
  Proof.
    intros Hf Hl Hw Hp. destruct (level_values p f w l Hf Hl Hw Hp) as [E B]. unfold hall_set_level_size. rewrite E. cbn [bind].
    rewrite as_usize_ok by lia. reflexivity.
  Qed.
  Lemma size_impl_ok f w d j : (30 <= f + N.to_nat j)%nat -> 1 <= j <= d -> d <= 5 -> w < 2 ^ 32 -> (Z.of_N w ^ Z.of_N d < 2 ^ 63)%Z ->
    hall_set_size_impl p f w d j = Ret (Z.to_N (levels (Z.of_N w) j d)).
  Proof.
    intros Hf Hj Hd Hw Hp. assert (HW : (0 <= Z.of_N w)%Z) by lia.
    remember (N.to_nat (d - j)) as k eqn:Hk. revert f j Hf Hj Hk; induction k as [|k IH]; intros f j Hf Hj Hk.
    all: destruct f as [|f]; [lia|]; rewrite size_impl_S.
    all: rewrite level_ok by (try lia; pose proof (pow_le (Z.of_N w) (Z.of_N j) (Z.of_N d) HW ltac:(lia)); lia); cbn [bind].
    - assert (j = d) as -> by lia. rewrite N.ltb_irrefl. cbn [bind]. rewrite levels_cons, levels_nil by lia.
      unfold uadd. rewrite !N.add_0_r, Z.add_0_r. destruct (level_values p 20 w d ltac:(lia) ltac:(lia) Hw Hp) as [_ B].
      assert (2 ^ 63 < 2 ^ 64)%Z by reflexivity.
      rewrite (proj2 (N.ltb_lt _ _)) by lia. reflexivity.
    - rewrite (proj2 (N.ltb_lt j d)) by lia.
      assert (A : uadd 64 p j 1 = Ret (j + 1)) by (unfold uadd; rewrite (proj2 (N.ltb_lt (j + 1) (2 ^ 64))) by lia; reflexivity).
      rewrite A. cbn [bind]. rewrite (IH f (j + 1)) by lia. cbn [bind]. rewrite (levels_cons _ j d) by lia.
      pose proof (levels_bound (Z.of_N w) j d HW ltac:(lia) ltac:(lia)) as B. rewrite levels_cons in B by lia.
      pose proof (levels_nonneg (Z.of_N w) (j + 1) d HW ltac:(lia) Hd). pose proof (level_value_bounds j (Z.of_N w) HW ltac:(lia)) as [B0 _].
      unfold uadd. rewrite (proj2 (N.ltb_lt _ _)) by lia. f_equal. lia.
  Qed.
  Lemma size_ok f w d : (30 <= f)%nat -> d <= 5 -> w < 2 ^ 32 -> (Z.of_N w ^ Z.of_N d < 2 ^ 63)%Z ->
    hall_set_size p f w d = Ret (Z.to_N (levels (Z.of_N w) 1 d)).
  Proof.
    intros Hf Hd Hw Hp. unfold hall_set_size. destruct (N.eqb_spec d 0) as [->|H0]; [reflexivity|]. apply size_impl_ok; lia.
  Qed.

  Lemma six f : mobius p f 6 = Diverge.
  Proof.
    apply mobius_composite; [|lia|lia|].
    - change 6 with (nproduct [2; 3]). apply product_squarefree.
      + constructor; [intros [H|[]]; discriminate|constructor; [intros []|constructor]].
      + constructor; [apply prime_decide; [lia|reflexivity]|constructor; [apply prime_decide; [lia|reflexivity]|constructor]].
    - intros [_ H]. destruct (H 2) as [E|E]; [exists 3; reflexivity|discriminate..].
  Qed.
  Lemma level_six f w d z : 1 <= d <= 6 -> hall_set_level_size_impl p f w 6 d <> Ret z.
  Proof.
    revert d z; induction f as [|f IH]; intros d z Hd; [discriminate|]. rewrite level_step by lia.
    destruct (N.eq_dec d 6) as [->|Hne].
    - change (6 mod 6 =? 0) with true. cbv iota. unfold hall_set_level_term. rewrite six. discriminate.
    - rewrite (proj2 (N.ltb_lt d 6)) by lia. intros E. destruct (if 6 mod d =? 0 then _ else _); try discriminate. cbn [bind] in E.
      destruct (hall_set_level_size_impl p f w 6 (d + 1)) eqn:Q; try discriminate. apply IH in Q; [assumption|lia].
  Qed.
  Lemma size_six f w d j z : 1 <= j <= 6 -> 6 <= d -> hall_set_size_impl p f w d j <> Ret z.
  Proof.
    intros Hj Hd. revert j z Hj; induction f as [|f IH]; intros j z Hj; [discriminate|]. rewrite size_impl_S. intros E.
    destruct (N.eq_dec j 6) as [->|Hne].
    - unfold hall_set_level_size in E. destruct (hall_set_level_size_impl p f w 6 1) eqn:Q; try discriminate.
      apply level_six in Q; [assumption|lia].
    - destruct (hall_set_level_size p f w j); try discriminate. cbn [bind] in E. rewrite (proj2 (N.ltb_lt j d)) in E by lia.
      assert (A : uadd 64 p j 1 = Ret (j + 1)) by (unfold uadd; rewrite (proj2 (N.ltb_lt (j + 1) (2 ^ 64))) by lia; reflexivity).
      rewrite A in E. cbn [bind] in E. destruct (hall_set_size_impl p f w d (j + 1)) eqn:Q; try discriminate. apply IH in Q; [assumption|lia].
  Qed.
  Lemma size_diverges w d : 6 <= d -> never_returns (fun f => hall_set_size p f w d).
  Proof. intros Hd f z. unfold hall_set_size. destruct (N.eqb_spec d 0); [lia|]. apply size_six; lia. Qed.

  (** overflow *)
  Lemma level_overflow f w l : overflow_checks p = true -> (20 <= f)%nat -> 1 <= l <= 5 -> w < 2 ^ 32 -> (2 ^ 63 <= Z.of_N w ^ Z.of_N l)%Z ->
    hall_set_level_size p f w l = Panic.
  Proof.
    intros Hc Hf Hl Hw Hp. unfold hall_set_level_size. destruct f as [|f]; [lia|]. rewrite level_step by lia.
    rewrite N.mod_1_r. cbn [N.eqb]. unfold hall_set_level_term. rewrite (small_mobius p f 1 1%Z) by (cbn; auto; lia). cbn [bind].
    unfold udiv. cbn [N.eqb bind]. rewrite N.div_1_r. unfold trunc. rewrite N.mod_small by lia.
    assert (2 ^ 32 < 2 ^ 63) by reflexivity. rewrite as_isize_ok by lia.
    assert (E : isize p (Z.of_N w ^ Z.of_N l) = Panic).
    { unfold isize. destruct (Z.ltb_spec (Z.of_N w ^ Z.of_N l) (2 ^ 63)); [lia|]. rewrite andb_false_r, Hc. reflexivity. }
    rewrite E. reflexivity.
  Qed.
  Lemma size_impl_overflow f w d l j : overflow_checks p = true -> (30 <= f + N.to_nat j)%nat -> 1 <= j <= l -> l <= 5 -> l <= d -> w < 2 ^ 32 ->
    (2 ^ 63 <= Z.of_N w ^ Z.of_N l)%Z -> (forall i, 1 <= i < l -> (Z.of_N w ^ Z.of_N i < 2 ^ 63)%Z) ->
    hall_set_size_impl p f w d j = Panic.
  Proof.
    intros Hc Hf Hj Hl Hd Hw Hp Hlow.
    remember (N.to_nat (l - j)) as k eqn:Hk. revert f j Hf Hj Hk; induction k as [|k IH]; intros f j Hf Hj Hk.
    all: destruct f as [|f]; [lia|]; rewrite size_impl_S.
    - assert (j = l) as -> by lia. rewrite level_overflow by (assumption || lia). reflexivity.
    - rewrite level_ok by (try lia; apply Hlow; lia). cbn [bind]. rewrite (proj2 (N.ltb_lt j d)) by lia.
      assert (A : uadd 64 p j 1 = Ret (j + 1)) by (unfold uadd; rewrite (proj2 (N.ltb_lt (j + 1) (2 ^ 64))) by lia; reflexivity).
      rewrite A. cbn [bind]. rewrite (IH f (j + 1)) by lia. reflexivity.
  Qed.
  Lemma least_overflow w d : w < 2 ^ 32 -> (2 ^ 63 <= Z.of_N w ^ Z.of_N d)%Z -> d <= 5 ->
    exists l, 1 <= l <= d /\ (2 ^ 63 <= Z.of_N w ^ Z.of_N l)%Z /\ (forall i, 1 <= i < l -> (Z.of_N w ^ Z.of_N i < 2 ^ 63)%Z).
  Proof.
    intros Hw. induction d as [|d IH] using N.peano_ind; intros Hp Hd; [cbn in Hp; lia|].
    destruct (Z.le_gt_cases (2 ^ 63) (Z.of_N w ^ Z.of_N d)) as [H|H].
    - destruct (IH H ltac:(lia)) as (l & Hl & R). exists l. split; [lia|exact R].
    - exists (N.succ d). split; [lia|]. split; [exact Hp|]. intros i Hi.
      pose proof (pow_le (Z.of_N w) (Z.of_N i) (Z.of_N d) ltac:(lia) ltac:(lia)). lia.
  Qed.
  Lemma size_overflow w d : overflow_checks p = true -> w < 2 ^ 32 -> (2 ^ 63 <= Z.of_N w ^ Z.of_N (N.min d 5))%Z ->
    converges (fun f => hall_set_size p f w d) Panic.
  Proof.
    intros Hc Hw Hp. destruct (least_overflow w (N.min d 5) Hw Hp ltac:(lia)) as (l & Hl & Hp' & Hlow).
    exists 30%nat. intros f Hf. unfold hall_set_size. destruct (N.eqb_spec d 0); [lia|].
    apply (size_impl_overflow f w d l 1); try assumption; lia.
  Qed.
End Sizes.

(** ** The specification at levels up to 5 *)
Section Witt.
  Context (mu : N -> Z) (Hmu : forall k, 0 < k -> is_mobius k (mu k)).
  Lemma mu_values : mu 1 = 1%Z /\ mu 2 = (-1)%Z /\ mu 3 = (-1)%Z /\ mu 4 = 0%Z /\ mu 5 = (-1)%Z.
  Proof.
    repeat split.
    - apply (mobius_unique 1); [apply Hmu; lia|apply mobius_1].
    - apply (mobius_unique 2); [apply Hmu; lia|apply mobius_prime, prime_decide; [lia|reflexivity]].
    - apply (mobius_unique 3); [apply Hmu; lia|apply mobius_prime, prime_decide; [lia|reflexivity]].
    - apply (mobius_unique 4); [apply Hmu; lia|]. left. split; [|reflexivity]. intros H. apply (H 2); [lia|]. exists 1. reflexivity.
    - apply (mobius_unique 5); [apply Hmu; lia|apply mobius_prime, prime_decide; [lia|reflexivity]].
  Qed.
  Lemma witt_value w l : 1 <= l <= 5 ->
    witt mu w l = level_value l (Z.of_N w) /\ (Z.of_N l * witt mu w l = necklace mu w l)%Z.
  Proof.
    intros Hl. destruct mu_values as (m1 & m2 & m3 & m4 & m5).
    assert (G : necklace mu w l = (Z.of_N l * level_value l (Z.of_N w))%Z).
    { destruct (N.eq_dec l 1) as [->|H1].
      { unfold necklace, range_incl. change (N.to_nat (1 + 1 - 1)) with 1%nat. cbn [seqN map]. rewrite N.mod_1_r, N.div_1_r, m1. cbn [N.eqb zsum fold_right level_value].
        change (Z.of_N 1) with 1%Z. rewrite Z.pow_1_r. lia. }
      rewrite level_value_eq by lia.
      destruct (five l) as [->|[->|[->|[->| ->]]]]; [lia|lia|..]; unfold necklace, range_incl;
        match goal with |- context [N.to_nat ?k] => let v := eval vm_compute in (N.to_nat k) in change (N.to_nat k) with v end;
        cbn [seqN map]; repeat match goal with |- context [N.pos ?a + 1] => let v := eval vm_compute in (N.pos a + 1) in change (N.pos a + 1) with v end;
        repeat match goal with |- context [?a mod ?b =? 0] => let v := eval vm_compute in (a mod b =? 0) in change (a mod b =? 0) with v; cbv iota end;
        repeat match goal with |- context [Z.of_N (?a / ?b)] => let v := eval vm_compute in (Z.of_N (a / b)) in change (Z.of_N (a / b)) with v end;
        rewrite ?m1, ?m2, ?m3, ?m4, ?m5; cbn [zsum fold_right N.eqb Pos.eqb]; rewrite ?Z.pow_1_r;
        match goal with |- context [(Z.of_N w ^ Z.of_N ?k)%Z] => let v := eval vm_compute in (Z.of_N k) in change (Z.of_N k) with v end; ring. }
    assert (E : witt mu w l = level_value l (Z.of_N w)) by (unfold witt; rewrite G, Z.mul_comm, Z.div_mul by lia; reflexivity).
    split; [exact E|]. rewrite E, G. reflexivity.
  Qed.
  Lemma witt_sum_value w d : d <= 5 -> witt_sum mu w d = levels (Z.of_N w) 1 d.
  Proof.
    intros Hd. unfold witt_sum, levels. f_equal. apply map_ext_in. intros l Hin.
    assert (R : forall k a x, In x (seqN a k) -> a <= x < a + N.of_nat k).
    { induction k as [|k IH]; intros a x; cbn; [intros []|]. intros [->|H]; [lia|]. apply IH in H. lia. }
    apply R in Hin. apply witt_value. lia.
  Qed.
End Witt.
