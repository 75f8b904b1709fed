(** Hall set sizes without overflow checks: the value. *)
From Verif Require Import Machine MachineLemmas S_Hall L_Moebius M_DegreeRange L_HallSize L_HallSums L_HallMap.
Local Open Scope N_scope.

Lemma signed64_eq a b : (a mod 2 ^ 64 = b mod 2 ^ 64)%Z -> signed64 a = signed64 b.
Proof. intros H. unfold signed64. f_equal. rewrite (Z.add_mod a), (Z.add_mod b), H by lia. reflexivity. Qed.
Lemma signed64_mod a : (signed64 a mod 2 ^ 64 = a mod 2 ^ 64)%Z.
Proof.
  unfold signed64. rewrite Zminus_mod, Z.mod_mod, <- Zminus_mod by lia. f_equal. lia.
Qed.
Lemma signed64_small z : (- 2 ^ 63 <= z < 2 ^ 63)%Z -> signed64 z = z.
Proof. intros H. unfold signed64. rewrite Z.mod_small by lia. lia. Qed.

Section Value.
  Context (p : profile) (Hp : overflow_checks p = false) (mu : N -> Z)
    (Hmu : forall k, 1 <= k <= 5 -> forall f, (10 <= f)%nat -> mobius p f k = Ret (mu k)).
  Lemma isize_wrap z : isize p z = Ret (signed64 z).
  Proof.
    unfold isize. destruct (Z.leb_spec (- 2 ^ 63) z); cbn [andb]; [destruct (Z.ltb_spec z (2 ^ 63))|].
    - rewrite signed64_small by lia. reflexivity.
    - rewrite Hp. reflexivity.
    - rewrite Hp. reflexivity.
  Qed.
  Notation term w n k := (Z.quot (signed64 (mu k * Z.of_N w ^ Z.of_N (n / k))) (Z.of_N n)).
  Lemma term_wrap f w l k : (10 <= f)%nat -> 1 <= k <= 5 -> 1 <= l <= 5 -> hall_set_level_term p f w l k = Ret (term w l k).
  Proof.
    intros Hf Hk Hl. unfold hall_set_level_term. rewrite (Hmu k Hk f Hf). cbn [bind]. unfold udiv. destruct (N.eqb_spec k 0); [lia|].
    cbn [bind]. rewrite !isize_wrap. cbn [bind]. rewrite isize_wrap. cbn [bind]. rewrite (as_isize_ok l) by lia.
    unfold isize_div. destruct (Z.eqb_spec (Z.of_N l) 0); [lia|]. destruct (Z.eqb_spec (Z.of_N l) (-1)); [lia|].
    rewrite andb_false_r. do 2 f_equal.
    assert (l / k <= 5) by (apply N.div_le_upper_bound; nia). unfold trunc. rewrite N.mod_small by lia.
    apply signed64_eq. rewrite <- Z.mul_mod_idemp_r, signed64_mod, Z.mul_mod_idemp_r by lia.
    rewrite Z.mul_mod, (Z.mul_mod (mu k)) by lia. f_equal. f_equal.
    assert (W : (as_isize w mod 2 ^ 64 = Z.of_N w mod 2 ^ 64)%Z) by apply signed64_mod.
    generalize (Z.of_N (l / k)). intros e. destruct (Z.le_gt_cases 0 e) as [He|He]; [|rewrite (Z.pow_neg_r (as_isize w)), (Z.pow_neg_r (Z.of_N w)) by lia; reflexivity].
    pattern e. apply natlike_ind; [reflexivity| |exact He]. intros x Hx IH. rewrite !Z.pow_succ_r by exact Hx.
    rewrite Z.mul_mod, W, IH, <- Z.mul_mod by lia. reflexivity.
  Qed.
  Notation part w l k := (if l mod k =? 0 then term w l k else 0%Z).
  Lemma range_from a b : a <= b -> range_incl a b = a :: range_incl (a + 1) b.
  Proof.
    intros H. unfold range_incl. replace (N.to_nat (b + 1 - a)) with (Datatypes.S (N.to_nat (b + 1 - (a + 1)))) by lia. reflexivity.
  Qed.
  Lemma level_wrap f w l d : (20 <= f + N.to_nat d)%nat -> 1 <= d <= l -> l <= 5 ->
    hall_set_level_size_impl p f w l d = Ret (signed64 (zsum (map (fun k => part w l k) (range_incl d l)))).
  Proof.
    intros Hf Hd Hl. remember (N.to_nat (l - d)) as k eqn:Hk. revert f d Hf Hd Hk; induction k as [|k IH]; intros f d Hf Hd Hk.
    all: destruct f as [|f]; [lia|]; rewrite level_step by lia.
    all: assert (A : (if l mod d =? 0 then hall_set_level_term p f w l d else Ret 0%Z) = Ret (part w l d))
           by (destruct (_ =? 0); [apply term_wrap; lia|reflexivity]); rewrite A; clear A; cbn [bind].
    all: rewrite (range_from d l) by lia; cbn [map zsum fold_right].
    - assert (d = l) as -> by lia. rewrite N.ltb_irrefl. cbn [bind]. rewrite isize_wrap.
      unfold range_incl. replace (N.to_nat (l + 1 - (l + 1))) with O by lia. reflexivity.
    - rewrite (proj2 (N.ltb_lt d l)) by lia. rewrite (IH f (d + 1)) by lia. cbn [bind]. rewrite isize_wrap. f_equal.
      apply signed64_eq. rewrite Z.add_mod, signed64_mod, <- Z.add_mod by lia. reflexivity.
  Qed.
  Lemma size_impl_wrap f w d j : (30 <= f + N.to_nat j)%nat -> 1 <= j <= d -> d <= 5 ->
    hall_set_size_impl p f w d j = Ret (Z.to_N (zsum (map (wrapped_level mu w) (range_incl j d)) mod 2 ^ 64)).
  Proof.
    intros Hf Hj Hd. remember (N.to_nat (d - j)) as k eqn:Hk. revert f j Hf Hj Hk; induction k as [|k IH]; intros f j Hf Hj Hk.
    all: destruct f as [|f]; [lia|]; rewrite size_impl_S; unfold hall_set_level_size; rewrite level_wrap by lia; cbn [bind];
      fold (wrapped_level mu w j); unfold as_usize; rewrite signed64_mod.
    all: assert (U : forall a b, uadd 64 p (Z.to_N (a mod 2 ^ 64)) (Z.to_N (b mod 2 ^ 64)) = Ret (Z.to_N ((a + b) mod 2 ^ 64))).
    1,3: intros a b; rewrite (Z.add_mod a b) by lia;
      pose proof (Z.mod_pos_bound a (2 ^ 64) ltac:(lia)); pose proof (Z.mod_pos_bound b (2 ^ 64) ltac:(lia));
      set (a' := (a mod 2 ^ 64)%Z) in *; set (b' := (b mod 2 ^ 64)%Z) in *; unfold uadd, overflowed; rewrite Hp;
      destruct (N.ltb_spec (Z.to_N a' + Z.to_N b') (2 ^ 64)); f_equal;
      [rewrite Z.mod_small by lia; lia|]; unfold trunc; rewrite <- Z2N.inj_add, Z2N.inj_mod by lia; reflexivity.
    all: rewrite (range_from j d) by lia; cbn [map zsum fold_right].
    - assert (j = d) as -> by lia. rewrite N.ltb_irrefl. cbn [bind]. refine (eq_trans (U _ 0%Z) _). 
      unfold range_incl. replace (N.to_nat (d + 1 - (d + 1))) with O by lia. reflexivity.
    - rewrite (proj2 (N.ltb_lt j d)) by lia.
      assert (A : uadd 64 p j 1 = Ret (j + 1)) by (unfold uadd; rewrite (proj2 (N.ltb_lt (j + 1) (2 ^ 64))) by lia; reflexivity).
      rewrite A. cbn [bind]. rewrite (IH f (j + 1)) by lia. cbn [bind]. apply U.
  Qed.
  Lemma size_wrap w d : d <= 5 -> converges (fun f => hall_set_size p f w d) (Ret (Z.to_N (wrapped_sum mu w d))).
  Proof.
    intros Hd. exists 30%nat. intros f Hf. unfold hall_set_size. destruct (N.eqb_spec d 0) as [->|]; [reflexivity|].
    apply size_impl_wrap; lia.
  Qed.
End Value.
