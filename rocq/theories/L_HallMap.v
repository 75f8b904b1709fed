(** Lemmas on the model of degree_range_map.rs, continued: builds without overflow checks and the map. *)
From Verif Require Import Machine MachineLemmas S_Hall L_Moebius M_DegreeRange L_HallSize L_HallSums.
Local Open Scope N_scope.

(** ** Depth 6 and beyond: if nothing panics on the way, nothing ends *)
Section Six.
  Context (p : profile) (w : N).
  Context (Hterm : forall f k, (10 <= f)%nat -> 1 <= k <= 5 -> 6 mod k = 0 -> exists y, hall_set_level_term p f w 6 k = Ret y).
  Context (Hlevel : forall f l, (20 <= f)%nat -> 1 <= l <= 5 -> exists y, hall_set_level_size p f w l = Ret y).
  Lemma level_six_never f d : 1 <= d <= 6 -> hall_set_level_size_impl p f w 6 d = Diverge.
  Proof.
    intros Hd. remember (N.to_nat (6 - d)) as k eqn:Hk.
    assert (G : forall f d k, 1 <= d <= 6 -> k = N.to_nat (6 - d) -> (10 <= f)%nat ->
              hall_set_level_size_impl p (k + f) w 6 d = Diverge).
    { clear f d k Hd Hk. intros f d k. revert d; induction k as [|k IH]; intros d Hd Hk Hf.
      - assert (d = 6) as -> by lia. destruct f as [|f]; [lia|]. cbn [Nat.add]. rewrite level_step by lia.
        change (6 mod 6 =? 0) with true. cbv iota. unfold hall_set_level_term. rewrite six. reflexivity.
      - cbn [Nat.add]. rewrite level_step by lia.
        assert (A : exists a, (if 6 mod d =? 0 then hall_set_level_term p (k + f) w 6 d else Ret 0%Z) = Ret a)
          by (destruct (N.eqb_spec (6 mod d) 0); [apply Hterm; (lia || assumption)|eauto]). destruct A as (a & ->). cbn [bind].
        rewrite (proj2 (N.ltb_lt d 6)) by lia. rewrite IH by lia. reflexivity. }
    destruct (hall_set_level_size_impl p f w 6 d) eqn:E; [|exfalso..|reflexivity].
    { apply level_six in E; [contradiction|lia]. }
    all: pose proof (mono_le _ f (k + (10 + f)) (level_impl_mono p w 6 d) ltac:(lia)) as L; cbv beta in L;
      rewrite E, (G (10 + f)%nat d k ltac:(lia) Hk ltac:(lia)) in L; destruct L as [L|L]; discriminate.
  Qed.
  Lemma size_six_never f d j : 1 <= j <= 6 -> 6 <= d -> hall_set_size_impl p f w d j = Diverge.
  Proof.
    intros Hj Hd. remember (N.to_nat (6 - j)) as k eqn:Hk.
    assert (G : forall f j k, 1 <= j <= 6 -> k = N.to_nat (6 - j) -> (20 <= f)%nat -> hall_set_size_impl p (k + f) w d j = Diverge).
    { clear f j k Hj Hk. intros f j k. revert j; induction k as [|k IH]; intros j Hj Hk Hf.
      - assert (j = 6) as -> by lia. destruct f as [|f]; [lia|]. cbn [Nat.add]. rewrite size_impl_S. unfold hall_set_level_size.
        rewrite level_six_never by lia. reflexivity.
      - cbn [Nat.add]. rewrite size_impl_S.
        destruct (Hlevel (k + f) j ltac:(lia) ltac:(lia)) as (a & ->). cbn [bind].
        rewrite (proj2 (N.ltb_lt j d)) by lia.
        assert (A : uadd 64 p j 1 = Ret (j + 1)) by (unfold uadd; rewrite (proj2 (N.ltb_lt (j + 1) (2 ^ 64))) by lia; reflexivity).
        rewrite A. cbn [bind]. rewrite IH by lia. reflexivity. }
    destruct (hall_set_size_impl p f w d j) eqn:E; [|exfalso..|reflexivity].
    { apply size_six in E; [contradiction|lia..]. }
    all: pose proof (mono_le _ f (k + (20 + f)) (size_impl_mono p w d j) ltac:(lia)) as L; cbv beta in L;
      rewrite E, (G (20 + f)%nat j k ltac:(lia) Hk ltac:(lia)) in L; destruct L as [L|L]; discriminate.
  Qed.
End Six.
Lemma size_never p w d : 6 <= d ->
  (forall f k, (10 <= f)%nat -> 1 <= k <= 5 -> 6 mod k = 0 -> exists y, hall_set_level_term p f w 6 k = Ret y) ->
  (forall f l, (20 <= f)%nat -> 1 <= l <= 5 -> exists y, hall_set_level_size p f w l = Ret y) ->
  never_ends (fun f => hall_set_size p f w d).
Proof. intros Hd H1 H2 f. unfold hall_set_size. destruct (N.eqb_spec d 0); [lia|]. apply size_six_never; (assumption || lia). Qed.
(** no overflow up to level 6 *)
Lemma width_6 w d : 1 <= d <= 6 -> (Z.of_N w ^ 6 < 2 ^ 63)%Z -> w < 2 ^ 32 /\ (Z.of_N w ^ Z.of_N d < 2 ^ 63)%Z.
Proof.
  intros Hd Hw. split.
  - destruct (N.lt_ge_cases w (2 ^ 32)) as [H|H]; [exact H|exfalso].
    assert (2 ^ 32 <= Z.of_N w)%Z by lia. assert ((2 ^ 32) ^ 6 <= Z.of_N w ^ 6)%Z by (apply Z.pow_le_mono_l; lia).
    assert (2 ^ 63 < (2 ^ 32) ^ 6)%Z by reflexivity. lia.
  - pose proof (pow_le (Z.of_N w) (Z.of_N d) 6 ltac:(lia) ltac:(lia)). lia.
Qed.
Lemma small_mobius_any p f k : (10 <= f)%nat -> 1 <= k <= 5 -> exists m, mobius p f k = Ret m /\ (Z.abs m <= 1)%Z.
Proof.
  intros Hf Hk. destruct (five k Hk) as [->|[->|[->|[->| ->]]]]; eexists; (split; [apply small_mobius; [exact Hf|cbn; tauto]|cbn; lia]).
Qed.
Lemma size_never_small p w d : 6 <= d -> (Z.of_N w ^ 6 < 2 ^ 63)%Z -> never_ends (fun f => hall_set_size p f w d).
Proof.
  intros Hd Hw. apply size_never; [exact Hd| |].
  - intros f k Hf Hk _. destruct (small_mobius_any p f k Hf Hk) as (m & Em & Hm). eexists.
    assert (H6 : 1 <= 6 / k) by (apply N.div_le_lower_bound; lia). assert (6 / k <= 6) by (apply N.div_le_upper_bound; lia).
    destruct (width_6 w (6 / k) ltac:(lia) Hw) as [W1 W2]. apply (term_ok p f w 6 k m); try assumption; lia.
  - intros f l Hf Hl. eexists. apply (level_ok p f w l Hf Hl); apply (width_6 w l); (lia || exact Hw).
Qed.
(** overflow at level 6 *)
Lemma size_overflow_6 p w d : overflow_checks p = true -> w < 2 ^ 32 -> 6 <= d -> (2 ^ 63 <= Z.of_N w ^ 6)%Z ->
  converges (fun f => hall_set_size p f w d) Panic.
Proof.
  intros Hc Hw Hd Hp. destruct (Z.lt_ge_cases (Z.of_N w ^ 5) (2 ^ 63)) as [H5|H5].
  2: { apply size_overflow; try assumption. replace (N.min d 5) with 5 by lia. exact H5. }
  exists 40%nat. intros f Hf. unfold hall_set_size. destruct (N.eqb_spec d 0); [lia|].
  assert (G : forall k j f, 1 <= j <= 6 -> k = N.to_nat (6 - j) -> (30 <= f)%nat -> hall_set_size_impl p (k + f) w d j = Panic).
  { induction k as [|k IH]; intros j g Hj Hk Hg.
    - assert (j = 6) as -> by lia. destruct g as [|g]; [lia|]. cbn [Nat.add]. rewrite size_impl_S. unfold hall_set_level_size.
      destruct g as [|g]; [lia|]. rewrite level_step by lia. change (6 mod 1 =? 0) with true. cbv iota.
      unfold hall_set_level_term. rewrite (small_mobius p g 1 1%Z) by (cbn; auto; lia). cbn [bind].
      unfold udiv. cbn [N.eqb bind]. rewrite N.div_1_r. unfold trunc. rewrite N.mod_small by lia.
      assert (2 ^ 32 < 2 ^ 63) by reflexivity. rewrite as_isize_ok by lia. change (Z.of_N 6) with 6%Z.
      assert (E : isize p (Z.of_N w ^ 6) = Panic).
      { unfold isize. destruct (Z.ltb_spec (Z.of_N w ^ 6) (2 ^ 63)); [lia|]. rewrite andb_false_r, Hc. reflexivity. }
      rewrite E. reflexivity.
    - cbn [Nat.add]. rewrite size_impl_S.
      assert (P : (Z.of_N w ^ Z.of_N j < 2 ^ 63)%Z) by (pose proof (pow_le (Z.of_N w) (Z.of_N j) 5 ltac:(lia) ltac:(lia)); lia).
      rewrite (level_ok p (k + g) w j ltac:(lia) ltac:(lia) Hw P). cbn [bind]. rewrite (proj2 (N.ltb_lt j d)) by lia.
      assert (A : uadd 64 p j 1 = Ret (j + 1)) by (unfold uadd; rewrite (proj2 (N.ltb_lt (j + 1) (2 ^ 64))) by lia; reflexivity).
      rewrite A. cbn [bind]. rewrite IH by lia. reflexivity. }
  replace f with (5 + (f - 5))%nat by lia. apply G; lia.
Qed.

Section Unchecked.
  Context (p : profile) (Hp : overflow_checks p = false).
  Lemma isize_unchecked z : exists y, isize p z = Ret y.
  Proof. unfold isize. destruct (_ && _); [eauto|]. rewrite Hp. eauto. Qed.
  Lemma uadd_unchecked a b : exists y, uadd 64 p a b = Ret y.
  Proof. unfold uadd, overflowed. destruct (_ <? _); [eauto|]. rewrite Hp. eauto. Qed.
  Lemma isize_div_level a l : 1 <= l <= 6 -> exists y, isize_div a (as_isize l) = Ret y.
  Proof.
    intros Hl. rewrite as_isize_ok by lia. unfold isize_div. destruct (Z.eqb_spec (Z.of_N l) 0); [lia|].
    destruct (Z.eqb_spec (Z.of_N l) (-1)); [lia|]. rewrite andb_false_r. eauto.
  Qed.
  Lemma term_unchecked f w l k : (10 <= f)%nat -> 1 <= k <= 5 -> 1 <= l <= 6 -> exists y, hall_set_level_term p f w l k = Ret y.
  Proof.
    intros Hf Hk Hl.
    assert (M : exists m, mobius p f k = Ret m).
    { destruct (five k Hk) as [->|[->|[->|[->| ->]]]]; eexists; apply small_mobius; try assumption; cbn; tauto. }
    destruct M as (m & M). unfold hall_set_level_term. rewrite M. cbn [bind]. unfold udiv. destruct (N.eqb_spec k 0); [lia|]. cbn [bind].
    destruct (isize_unchecked (as_isize w ^ Z.of_N (trunc 32 (l / k)))) as (a & Ea). rewrite Ea. cbn [bind].
    destruct (isize_unchecked (m * a)) as (b & Eb). rewrite Eb. cbn [bind]. apply isize_div_level. exact Hl.
  Qed.
  Lemma level_unchecked f w l d : (20 <= f + N.to_nat d)%nat -> 1 <= d <= l -> l <= 5 -> exists y, hall_set_level_size_impl p f w l d = Ret y.
  Proof.
    intros Hf Hd Hl. remember (N.to_nat (l - d)) as k eqn:Hk. revert f d Hf Hd Hk; induction k as [|k IH]; intros f d Hf Hd Hk.
    all: destruct f as [|f]; [lia|]; rewrite level_step by lia.
    all: assert (A : exists a, (if l mod d =? 0 then hall_set_level_term p f w l d else Ret 0%Z) = Ret a)
           by (destruct (_ =? 0); [apply term_unchecked; lia|eauto]); destruct A as (a & ->); cbn [bind].
    - assert (d = l) as -> by lia. rewrite N.ltb_irrefl. cbn [bind]. apply isize_unchecked.
    - rewrite (proj2 (N.ltb_lt d l)) by lia. destruct (IH f (d + 1) ltac:(lia) ltac:(lia) ltac:(lia)) as (y & ->). cbn [bind]. apply isize_unchecked.
  Qed.
  Lemma size_impl_unchecked f w d j : (30 <= f + N.to_nat j)%nat -> 1 <= j <= d -> d <= 5 -> exists y, hall_set_size_impl p f w d j = Ret y.
  Proof.
    intros Hf Hj Hd. remember (N.to_nat (d - j)) as k eqn:Hk. revert f j Hf Hj Hk; induction k as [|k IH]; intros f j Hf Hj Hk.
    all: destruct f as [|f]; [lia|]; rewrite size_impl_S; unfold hall_set_level_size;
      destruct (level_unchecked f w j 1 ltac:(lia) ltac:(lia) ltac:(lia)) as (a & ->); cbn [bind].
    - assert (j = d) as -> by lia. rewrite N.ltb_irrefl. cbn [bind]. apply uadd_unchecked.
    - rewrite (proj2 (N.ltb_lt j d)) by lia.
      assert (A : uadd 64 p j 1 = Ret (j + 1)) by (unfold uadd; rewrite (proj2 (N.ltb_lt (j + 1) (2 ^ 64))) by lia; reflexivity).
      rewrite A. cbn [bind]. destruct (IH f (j + 1) ltac:(lia) ltac:(lia) ltac:(lia)) as (b & ->). cbn [bind]. apply uadd_unchecked.
  Qed.
  Lemma size_unchecked w d : d <= 5 -> exists v, converges (fun f => hall_set_size p f w d) (Ret v).
  Proof.
    intros Hd. assert (E : exists v, hall_set_size p 30 w d = Ret v).
    { unfold hall_set_size. destruct (N.eqb_spec d 0); [eauto|]. apply size_impl_unchecked; lia. }
    destruct E as (v & E). exists v. apply (mono_converges _ 30); [apply size_mono|exact E|discriminate].
  Qed.
  Lemma size_never_unchecked w d : 6 <= d -> never_ends (fun f => hall_set_size p f w d).
  Proof.
    intros Hd. apply size_never; [exact Hd| |].
    - intros f k Hf Hk _. apply term_unchecked; lia.
    - intros f l Hf Hl. unfold hall_set_level_size. destruct (level_unchecked f w l 1 ltac:(lia) ltac:(lia) ltac:(lia)) as (y & ->). cbn [bind]. eauto.
  Qed.
End Unchecked.

(** a width for which degrees up to 5 cannot overflow *)
Lemma width_5 w d : d <= 5 -> (Z.of_N w ^ 5 < 2 ^ 63)%Z -> w < 2 ^ 32 /\ (Z.of_N w ^ Z.of_N d < 2 ^ 63)%Z.
Proof.
  intros Hd Hw. split.
  - destruct (N.lt_ge_cases w (2 ^ 32)) as [H|H]; [exact H|exfalso].
    assert (2 ^ 32 <= Z.of_N w)%Z by lia. assert ((2 ^ 32) ^ 5 <= Z.of_N w ^ 5)%Z by (apply Z.pow_le_mono_l; lia).
    assert (2 ^ 63 < (2 ^ 32) ^ 5)%Z by reflexivity. lia.
  - destruct (N.eq_dec d 0) as [->|H0]; [reflexivity|].
    pose proof (pow_le (Z.of_N w) (Z.of_N d) 5 ltac:(lia) ltac:(lia)). lia.
Qed.
(** with no overflow, hall_set_size returns exactly for degrees up to 5 *)
Definition size_safe (p : profile) (w : N) : Prop := (Z.of_N w ^ 5 < 2 ^ 63)%Z \/ overflow_checks p = false.
Lemma size_returns p w d : size_safe p w -> d <= 5 -> exists v, converges (fun f => hall_set_size p f w d) (Ret v).
Proof.
  intros [Hw|Hp] Hd; [|apply size_unchecked; assumption].
  destruct (width_5 w d Hd Hw) as [Hw1 Hw2]. eexists. exists 30%nat. intros f Hf. apply size_ok; assumption.
Qed.

(** ** The map *)
Lemma push_each (g : N -> outcome N) xs acc :
  for_each xs (fun inner i => s <- g i ;; Ret (inner ++ [s])) acc = (vs <- mapM g xs ;; Ret (acc ++ vs)).
Proof.
  revert acc; induction xs as [|x xs IH]; intros acc; cbn [for_each mapM bind]; [rewrite app_nil_r; reflexivity|].
  destruct (g x); cbn [bind]; try reflexivity. rewrite IH. destruct (mapM g xs); cbn [bind]; try reflexivity.
  rewrite <- app_assoc. reflexivity.
Qed.
(** the entries of a map of [L] degrees *)
Definition entries (p : profile) (n L : N) (m : drm) : Prop :=
  len m = L /\ forall i v, slice_get m i = Some v -> converges (fun f => hall_set_size p f n i) (Ret v).
Lemma seqN_get a k i : (i < k)%nat -> nth_error (seqN a k) i = Some (a + N.of_nat i).
Proof.
  revert a i; induction k as [|k IH]; intros a i Hi; [lia|]. destruct i as [|i]; cbn [seqN nth_error]; [f_equal; lia|].
  rewrite IH by lia. f_equal. lia.
Qed.
Lemma Forall2_len {A B} (R : A -> B -> Prop) l l' : Forall2 R l l' -> length l = length l'.
Proof. induction 1; cbn; congruence. Qed.
Lemma mapM_seq (g : N -> outcome N) a k vs : mapM g (seqN a k) = Ret vs ->
  length vs = k /\ forall i v, nth_error vs i = Some v -> g (a + N.of_nat i) = Ret v.
Proof.
  intros H. apply mapM_Ret in H. assert (L : length (seqN a k) = k).
  { clear. revert a; induction k as [|k IH]; intros a; [reflexivity|]. cbn. rewrite IH. reflexivity. }
  split; [rewrite <- L; symmetry; eapply Forall2_len; exact H|].
  intros i v Hv. assert (Hi : (i < k)%nat).
  { rewrite <- L, (Forall2_len _ _ _ H). apply nth_error_Some. congruence. }
  revert a i Hi vs v H Hv L; induction k as [|k IH]; intros a i Hi vs v H Hv L; [lia|].
  cbn [seqN] in H. inversion H as [|x y xs ys Hxy HF Ex Ey]; subst. destruct i as [|i]; cbn [nth_error] in Hv.
  - injection Hv as <-. rewrite N.add_0_r. exact Hxy.
  - replace (a + N.of_nat (S i)) with (a + 1 + N.of_nat i) by lia. apply (IH (a + 1) i ltac:(lia) ys); auto.
Qed.
Lemma size_conv p f n i v : hall_set_size p f n i = Ret v -> converges (fun f => hall_set_size p f n i) (Ret v).
Proof. intros H. apply (mono_converges _ f); [apply size_mono|exact H|discriminate]. Qed.
Lemma new_entries p f n d m : drm_new p f n d = Ret m -> entries p n d m.
Proof.
  unfold drm_new. rewrite push_each. destruct (mapM _ _) as [vs| | |] eqn:E; try discriminate. cbn [bind app]. intros Q; injection Q as <-.
  unfold range in E. apply mapM_seq in E. destruct E as [E1 E2]. split; [unfold len; lia|].
  intros i v Hi. unfold slice_get in Hi. apply E2 in Hi. rewrite N2Nat.id, N.add_0_l in Hi. eapply size_conv; exact Hi.
Qed.
Lemma grow_entries p f n L m r m' : entries p n L m -> drm_grow p f n m r = Ret m' -> entries p n (N.max L (r + 1)) m'.
Proof.
  intros [HL He] H. unfold drm_grow in H. rewrite HL in H. destruct (N.ltb_spec r L) as [Hr|Hr].
  - injection H as <-. split; [lia|exact He].
  - rewrite push_each in H. destruct (mapM _ _) as [vs| | |] eqn:E; try discriminate. cbn [bind] in H. injection H as <-.
    unfold range_incl in E. apply mapM_seq in E. destruct E as [E1 E2]. split.
    + unfold len in *. rewrite app_length. lia.
    + intros i v Hi. unfold slice_get in Hi. destruct (Nat.lt_ge_cases (N.to_nat i) (length m)) as [Hlt|Hge].
      * rewrite nth_error_app1 in Hi by exact Hlt. apply He. exact Hi.
      * rewrite nth_error_app2 in Hi by exact Hge. apply E2 in Hi. unfold len in HL.
        replace (L + N.of_nat (N.to_nat i - length m)) with i in Hi by lia. eapply size_conv; exact Hi.
Qed.
Lemma grow_prefix p f n m r m' : drm_grow p f n m r = Ret m' -> exists vs, m' = m ++ vs.
Proof.
  unfold drm_grow. destruct (_ <? _); [intros H; injection H as <-; exists []; rewrite app_nil_r; reflexivity|].
  rewrite push_each. destruct (mapM _ _) as [vs| | |]; try discriminate. cbn [bind]. intros H; injection H as <-. eauto.
Qed.
Lemma entries_get p n L m i v : entries p n L m -> converges (fun f => hall_set_size p f n i) (Ret v) -> i < L -> drm_get m i = inl v.
Proof.
  intros [HL He] Hv Hi. unfold drm_get. destruct (slice_get m i) as [x|] eqn:E.
  - pose proof (converges_unique _ _ _ (He i x E) Hv) as Q. injection Q as ->. reflexivity.
  - unfold slice_get in E. apply nth_error_None in E. unfold len in HL. lia.
Qed.
Lemma entries_some p n L m i : entries p n L m -> i < L -> exists v, drm_get m i = inl v /\ converges (fun f => hall_set_size p f n i) (Ret v).
Proof.
  intros [HL He] Hi. unfold drm_get. destruct (slice_get m i) as [x|] eqn:E.
  - exists x. split; [reflexivity|]. apply He. exact E.
  - unfold slice_get in E. apply nth_error_None in E. unfold len in HL. lia.
Qed.
Lemma entries_none p n L m i : entries p n L m -> L <= i -> drm_get m i = inr DegreeOutOfBounds.
Proof.
  intros [HL He] Hi. unfold drm_get, slice_get. rewrite (proj2 (nth_error_None m (N.to_nat i))); [reflexivity|]. unfold len in HL. lia.
Qed.

Lemma mapM_never (g : nat -> N -> outcome N) xs x : In x xs -> never_returns (fun f => g f x) -> never_returns (fun f => mapM (g f) xs).
Proof.
  intros Hin H f vs E. apply mapM_Ret in E. revert vs E; induction xs as [|y ys IH]; intros vs E; [destruct Hin|].
  inversion E as [|a b l l' Hab HF]; subst. destruct Hin as [->|Hin]; [apply H in Hab; exact Hab|]. eapply IH; eauto.
Qed.
Lemma in_seqN a k x : In x (seqN a k) <-> a <= x < a + N.of_nat k.
Proof.
  revert a; induction k as [|k IH]; intros a; cbn [seqN In]; [lia|]. rewrite IH. lia.
Qed.
(** new(d) with d >= 7 never ends if nothing overflows *)
Lemma new_never_ends p n d : 7 <= d -> (Z.of_N n ^ 6 < 2 ^ 63)%Z -> never_ends (fun f => drm_new p f n d).
Proof.
  intros Hd Hn. intros f. unfold drm_new. rewrite push_each.
  assert (Hs : forall g x, hall_set_size p g n x = Diverge \/ exists v, hall_set_size p g n x = Ret v).
  { intros g x. destruct (N.le_gt_cases x 5) as [Hx|Hx].
    - assert (E : exists v, hall_set_size p (30 + g) n x = Ret v).
      { destruct (N.eq_dec x 0) as [->|]; [exists 0; reflexivity|]. eexists.
        apply (size_ok p (30 + g) n x); [lia|exact Hx|apply (width_6 n x); (lia || assumption)..]. }
      destruct E as (v & E). pose proof (mono_le _ g (30 + g) (size_mono p n x) ltac:(lia)) as L. cbv beta in L. rewrite E in L.
      destruct L as [L|L]; [left; exact L|right; eauto].
    - left. apply size_never_small; (lia || assumption). }
  assert (G : forall g xs, mapM (hall_set_size p g n) xs = Diverge \/ exists vs, mapM (hall_set_size p g n) xs = Ret vs).
  { intros g. induction xs as [|x xs IH]; [right; exists []; reflexivity|]. cbn [mapM].
    destruct (Hs g x) as [-> |(v & ->)]; [left; reflexivity|]. cbn [bind]. destruct IH as [->|(vs & ->)]; cbn [bind]; eauto. }
  destruct (G f (range 0 d)) as [-> |(vs & E)]; [reflexivity|]. exfalso. revert E.
  apply (mapM_never (fun f => hall_set_size p f n) (range 0 d) 6); [unfold range; apply in_seqN; lia|]. apply size_diverges. lia.
Qed.
(** when new and grow return *)
Lemma mapM_conv (g : nat -> N -> outcome N) xs : (forall x, In x xs -> exists v, converges (fun f => g f x) (Ret v)) ->
  exists vs, converges (fun f => mapM (g f) xs) (Ret vs).
Proof.
  induction xs as [|x xs IH]; intros H; [exists [], O; reflexivity|].
  destruct (H x (or_introl eq_refl)) as (v & f1 & E1). destruct IH as (vs & f2 & E2); [intros y Hy; apply H; right; exact Hy|].
  exists (v :: vs), (Nat.max f1 f2). intros f Hf. cbn [mapM]. rewrite E1 by lia. cbn [bind]. rewrite E2 by lia. reflexivity.
Qed.
Lemma new_returns p n d : size_safe p n -> d <= 6 -> exists m, converges (fun f => drm_new p f n d) (Ret m).
Proof.
  intros Hs Hd. destruct (mapM_conv (fun f => hall_set_size p f n) (range 0 d)) as (vs & f0 & E).
  - intros x Hx. unfold range in Hx. apply in_seqN in Hx. apply size_returns; [exact Hs|lia].
  - exists vs, f0. intros f Hf. unfold drm_new. rewrite push_each, E by exact Hf. reflexivity.
Qed.
Lemma new_never p n d : 7 <= d -> never_returns (fun f => drm_new p f n d).
Proof.
  intros Hd f m H. unfold drm_new in H. rewrite push_each in H. destruct (mapM _ _) as [vs| | |] eqn:E; try discriminate.
  revert E. apply (mapM_never (fun f => hall_set_size p f n) (range 0 d) 6); [unfold range; apply in_seqN; lia|]. apply size_diverges. lia.
Qed.
Lemma grow_returns p n m r : size_safe p n -> r <= 5 \/ r < len m -> exists m', converges (fun f => drm_grow p f n m r) (Ret m').
Proof.
  intros Hs Hr. unfold drm_grow. destruct (N.ltb_spec r (len m)) as [H|H]; [exists m, O; reflexivity|]. destruct Hr as [Hr|Hr]; [|lia].
  destruct (mapM_conv (fun f => hall_set_size p f n) (range_incl (len m) r)) as (vs & f0 & E).
  - intros x Hx. unfold range_incl in Hx. apply in_seqN in Hx. apply size_returns; [exact Hs|lia].
  - exists (m ++ vs), f0. intros f Hf. rewrite push_each, E by exact Hf. reflexivity.
Qed.
Lemma grow_never p n m r : len m <= r -> 6 <= r -> never_returns (fun f => drm_grow p f n m r).
Proof.
  intros Hl Hr f m' H. unfold drm_grow in H. destruct (N.ltb_spec r (len m)); [lia|]. rewrite push_each in H.
  destruct (mapM _ _) as [vs| | |] eqn:E; try discriminate. revert E.
  apply (mapM_never (fun f => hall_set_size p f n) (range_incl (len m) r) r); [unfold range_incl; apply in_seqN; lia|].
  apply size_diverges. exact Hr.
Qed.

(** ** find_deg *)
Definition sorted (m : list N) : Prop := forall i j a b, (i <= j)%nat -> nth_error m i = Some a -> nth_error m j = Some b -> a <= b.
Lemma sorted_tail x m : sorted (x :: m) -> sorted m.
Proof. intros H i j a b Hij Ha Hb. exact (H (S i) (S j) a b ltac:(lia) Ha Hb). Qed.
Lemma sorted_head x m i a : sorted (x :: m) -> nth_error m i = Some a -> x <= a.
Proof. intros H Ha. exact (H O (S i) x a ltac:(lia) eq_refl Ha). Qed.
(** the number of entries at most k is also the first position with a larger entry *)
Lemma partition_point_spec m k d : sorted m -> d <= len m -> (forall i a, i < d -> slice_get m i = Some a -> a <= k) ->
  (forall a, slice_get m d = Some a -> k < a) -> partition_point m k = d.
Proof.
  revert d; induction m as [|x m IH]; intros d Hs Hd Hlow Hup; unfold slice_get, len in *; cbn [length] in Hd.
  - cbn. lia.
  - cbn [partition_point]. destruct (N.eq_dec d 0) as [->|H0].
    + specialize (Hup x eq_refl). destruct (N.leb_spec x k); [lia|reflexivity].
    + pose proof (Hlow 0 x ltac:(lia) eq_refl) as Hx. destruct (N.leb_spec x k); [|lia].
      rewrite (IH (d - 1)); [lia|eapply sorted_tail; exact Hs|lia| |].
      * intros i a Hi Ha. apply (Hlow (i + 1)); [lia|]. replace (N.to_nat (i + 1)) with (S (N.to_nat i)) by lia. exact Ha.
      * intros a Ha. apply Hup. replace (N.to_nat d) with (S (N.to_nat (d - 1))) by lia. exact Ha.
Qed.
Lemma find_deg_some m k d : sorted m -> 0 < len m < 2 ^ 32 -> d <= len m -> (forall a, slice_get m (len m - 1) = Some a -> k <= a) ->
  (forall i a, i < d -> slice_get m i = Some a -> a <= k) -> (forall a, slice_get m d = Some a -> k < a) -> drm_find_deg m k = inl d.
Proof.
  intros Hs Hl Hd Hk Hlow Hup. unfold drm_find_deg. destruct (rev m) as [|x r] eqn:E.
  - apply (f_equal (@length N)) in E. rewrite rev_length in E. unfold len in Hl. cbn in E. lia.
  - assert (Em : m = rev r ++ [x]) by (rewrite <- (rev_involutive m), E; reflexivity).
    assert (Hx : slice_get m (len m - 1) = Some x).
    { unfold slice_get, len. rewrite Em, app_length. cbn [length]. rewrite nth_error_app2 by lia.
      replace (N.to_nat (N.of_nat (length (rev r) + 1) - 1) - length (rev r))%nat with O by lia. reflexivity. }
    specialize (Hk x Hx). destruct (N.ltb_spec x k); [lia|]. rewrite (partition_point_spec m k d) by assumption.
    unfold trunc. rewrite N.mod_small by lia. reflexivity.
Qed.
Lemma find_deg_above m k a : slice_get m (len m - 1) = Some a -> a < k -> drm_find_deg m k = inr DegreeOutOfBounds.
Proof.
  intros Ha Hk. unfold drm_find_deg. destruct (rev m) as [|x r] eqn:E.
  - assert (m = []) as -> by (rewrite <- (rev_involutive m), E; reflexivity). discriminate.
  - assert (Em : m = rev r ++ [x]) by (rewrite <- (rev_involutive m), E; reflexivity).
    unfold slice_get, len in Ha. rewrite Em, app_length in Ha. cbn [length] in Ha. rewrite nth_error_app2 in Ha by lia.
    replace (N.to_nat (N.of_nat (length (rev r) + 1) - 1) - length (rev r))%nat with O in Ha by lia. injection Ha as ->.
    destruct (N.ltb_spec a k); [reflexivity|lia].
Qed.
Lemma levels_mono W a b : (0 <= W)%Z -> a <= b -> b <= 5 -> (levels W 1 a <= levels W 1 b)%Z.
Proof.
  intros HW Hab Hb. remember (N.to_nat (b - a)) as k eqn:Hk. revert b Hab Hb Hk; induction k as [|k IH]; intros b Hab Hb Hk.
  - assert (b = a) as -> by lia. lia.
  - replace b with (b - 1 + 1) by lia. rewrite levels_snoc by lia. specialize (IH (b - 1) ltac:(lia) ltac:(lia) ltac:(lia)).
    pose proof (level_value_bounds (b - 1 + 1) W HW ltac:(lia)) as [B _]. lia.
Qed.
Lemma entries_value p n L m i v : (Z.of_N n ^ 5 < 2 ^ 63)%Z -> entries p n L m -> slice_get m i = Some v -> i <= 5 /\ v = Z.to_N (levels (Z.of_N n) 1 i).
Proof.
  intros Hn [HL He] Hv. apply He in Hv. destruct (N.le_gt_cases i 5) as [Hi|Hi].
  - split; [exact Hi|]. destruct (width_5 n i Hi Hn) as [H1 H2].
    assert (C : converges (fun f => hall_set_size p f n i) (Ret (Z.to_N (levels (Z.of_N n) 1 i)))) by (exists 30%nat; intros f Hf; apply size_ok; assumption).
    pose proof (converges_unique _ _ _ Hv C) as Q. injection Q as ->. reflexivity.
  - exfalso. destruct Hv as (f0 & Hv). specialize (Hv f0 (Nat.le_refl _)). apply (size_diverges p n i ltac:(lia)) in Hv. exact Hv.
Qed.
Lemma entries_sorted p n L m : (Z.of_N n ^ 5 < 2 ^ 63)%Z -> entries p n L m -> sorted m.
Proof.
  intros Hn He i j a b Hij Ha Hb.
  destruct (entries_value p n L m (N.of_nat i) a Hn He) as [_ ->]; [unfold slice_get; rewrite Nat2N.id; exact Ha|].
  destruct (entries_value p n L m (N.of_nat j) b Hn He) as [Hj ->]; [unfold slice_get; rewrite Nat2N.id; exact Hb|].
  apply Z2N.inj_le; [apply levels_nonneg; lia|apply levels_nonneg; lia|]. apply levels_mono; lia.
Qed.
