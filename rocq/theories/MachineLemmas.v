(** Lemmas about Machine.v. *)
From Verif Require Import Machine.

Lemma uadd_ok w p a b : a + b < 2 ^ w -> uadd w p a b = Ret (a + b).
Proof. intros H. unfold uadd. destruct (N.ltb_spec (a + b) (2 ^ w)); [reflexivity|lia]. Qed.
Lemma usub_ok w p a b : b <= a -> usub w p a b = Ret (a - b).
Proof. intros H. unfold usub. destruct (N.leb_spec b a); [reflexivity|lia]. Qed.
Lemma umul_ok w p a b : a * b < 2 ^ w -> umul w p a b = Ret (a * b).
Proof. intros H. unfold umul. destruct (N.ltb_spec (a * b) (2 ^ w)); [reflexivity|lia]. Qed.
Lemma upow_ok w p a e : a ^ e < 2 ^ w -> upow w p a e = Ret (a ^ e).
Proof. intros H. unfold upow. destruct (N.ltb_spec (a ^ e) (2 ^ w)); [reflexivity|lia]. Qed.
Lemma udiv_ok a b : b <> 0 -> udiv a b = Ret (a / b).
Proof. intros H. unfold udiv. destruct (N.eqb_spec b 0); [lia|reflexivity]. Qed.
Lemma urem_ok a b : b <> 0 -> urem a b = Ret (a mod b).
Proof. intros H. unfold urem. destruct (N.eqb_spec b 0); [lia|reflexivity]. Qed.
Lemma ushl_ok w p a s : s < w -> a * 2 ^ s < 2 ^ w -> ushl w p a s = Ret (a * 2 ^ s).
Proof.
  intros Hs H. unfold ushl. destruct (N.ltb_spec s w); [|lia].
  rewrite N.mod_small by assumption. reflexivity.
Qed.
Lemma ushr_ok w p a s : s < w -> ushr w p a s = Ret (a / 2 ^ s).
Proof. intros Hs. unfold ushr. destruct (N.ltb_spec s w); [reflexivity|lia]. Qed.
Lemma trunc_small w a : a < 2 ^ w -> trunc w a = a.
Proof. apply N.mod_small. Qed.

Lemma uadd_panic w p a b : overflow_checks p = true -> 2 ^ w <= a + b -> uadd w p a b = Panic.
Proof.
  intros Hp H. unfold uadd, overflowed. rewrite Hp.
  destruct (N.ltb_spec (a + b) (2 ^ w)); [lia|reflexivity].
Qed.
Lemma usub_panic w p a b : overflow_checks p = true -> a < b -> usub w p a b = Panic.
Proof.
  intros Hp H. unfold usub, overflowed. rewrite Hp.
  destruct (N.leb_spec b a); [lia|reflexivity].
Qed.
Lemma upow_panic w p a e : overflow_checks p = true -> 2 ^ w <= a ^ e -> upow w p a e = Panic.
Proof.
  intros Hp H. unfold upow, overflowed. rewrite Hp.
  destruct (N.ltb_spec (a ^ e) (2 ^ w)); [lia|reflexivity].
Qed.

Lemma debug_assert_ok p c : c = true -> debug_assert p c = Ret tt.
Proof. intros ->. unfold debug_assert. rewrite andb_false_r. reflexivity. Qed.
Lemma debug_assert_panic p c : debug_assertions p = true -> c = false -> debug_assert p c = Panic.
Proof. intros H ->. unfold debug_assert. rewrite H. reflexivity. Qed.

Lemma pow2_pos e : 0 < 2 ^ e.
Proof. pose proof (N.pow_nonzero 2 e); lia. Qed.
Lemma pow_pos a e : 0 < a -> 0 < a ^ e.
Proof. intros. pose proof (N.pow_nonzero a e); lia. Qed.

(** loops *)
Fixpoint steps {S R} (m : nat) (step : S -> S + R) (s : S) : S + R :=
  match m with
  | O => inl s
  | Datatypes.S m' => match step s with inl s' => steps m' step s' | inr r => inr r end
  end.

Lemma steps_add {S R} a b (step : S -> S + R) s :
  steps (a + b) step s = match steps a step s with inl s' => steps b step s' | inr r => inr r end.
Proof.
  revert s; induction a as [|a IH]; intros s; cbn [steps Nat.add]; [reflexivity|].
  destruct (step s) as [s'|r]; [apply IH|reflexivity].
Qed.

Lemma loop_steps {S R} k (step : S -> S + R) s : loop k step s = steps (2 ^ k) step s.
Proof.
  revert s; induction k as [|k IH]; intros s.
  - cbn. destruct (step s); reflexivity.
  - cbn [loop]. replace (2 ^ Datatypes.S k)%nat with (2 ^ k + 2 ^ k)%nat by (cbn; lia).
    rewrite steps_add, IH. destruct (steps (2 ^ k) step s); [apply IH|reflexivity].
Qed.

Lemma steps_mono {S R} a b (step : S -> S + R) s r :
  steps a step s = inr r -> (a <= b)%nat -> steps b step s = inr r.
Proof.
  intros H Hab. replace b with (a + (b - a))%nat by lia.
  rewrite steps_add, H. reflexivity.
Qed.

Lemma run_loop_steps {S A} m (step : S -> S + outcome A) s r :
  steps m step s = inr r -> N.of_nat m <= 2 ^ 64 -> run_loop step s = r.
Proof.
  intros H Hm. unfold run_loop. rewrite loop_steps.
  assert (Hm' : (m <= 2 ^ 64)%nat).
  { apply Nat2Z.inj_le. rewrite Nat2Z.inj_pow.
    apply N2Z.inj_le in Hm. rewrite nat_N_Z, N2Z.inj_pow in Hm. exact Hm. }
  rewrite (steps_mono m _ step s r H Hm'). reflexivity.
Qed.

(** seqN / range *)
Lemma seqN_length a l : length (seqN a l) = l.
Proof. revert a; induction l as [|l IH]; intros a; cbn; [reflexivity|rewrite IH; reflexivity]. Qed.
Lemma seqN_nth a l i : (i < l)%nat -> nth_error (seqN a l) i = Some (a + N.of_nat i).
Proof.
  revert a i; induction l as [|l IH]; intros a i H; [lia|].
  destruct i as [|i]; cbn [seqN nth_error]; [f_equal; lia|].
  rewrite IH by lia. f_equal; lia.
Qed.
Lemma seqN_snoc a l : seqN a (S l) = seqN a l ++ [a + N.of_nat l].
Proof.
  revert a; induction l as [|l IH]; intros a.
  - cbn. f_equal. lia.
  - cbn [seqN]. cbn [seqN] in IH. rewrite IH. cbn [app]. do 3 f_equal. lia.
Qed.
Lemma seqN_app a l m : seqN a (l + m) = seqN a l ++ seqN (a + N.of_nat l) m.
Proof.
  revert a; induction l as [|l IH]; intros a; cbn [seqN Nat.add app].
  - f_equal. lia.
  - rewrite IH. do 3 f_equal. lia.
Qed.
Lemma in_seqN x a l : In x (seqN a l) <-> a <= x < a + N.of_nat l.
Proof.
  revert a; induction l as [|l IH]; intros a; cbn [seqN In]; [lia|].
  rewrite IH. lia.
Qed.
Lemma in_range_incl x a b : In x (range_incl a b) <-> a <= x <= b.
Proof. unfold range_incl. rewrite in_seqN. lia. Qed.
Lemma in_rev_range_incl x a b : In x (rev_range_incl a b) <-> a <= x <= b.
Proof. unfold rev_range_incl. rewrite <- in_rev. apply in_range_incl. Qed.

Lemma for_each_app {A S} (xs ys : list A) (body : S -> A -> outcome S) s :
  for_each (xs ++ ys) body s = (s' <- for_each xs body s ;; for_each ys body s').
Proof.
  revert s; induction xs as [|x xs IH]; intros s; cbn [app for_each bind]; [reflexivity|].
  destruct (body s x); cbn [bind]; [apply IH|reflexivity..].
Qed.
Lemma for_each_pure {A S} (xs : list A) (body : S -> A -> outcome S) (f : S -> A -> S) s :
  (forall s x, In x xs -> body s x = Ret (f s x)) -> for_each xs body s = Ret (fold_left f xs s).
Proof.
  revert s; induction xs as [|x xs IH]; intros s H; cbn [for_each fold_left]; [reflexivity|].
  rewrite H by (left; reflexivity). cbn [bind]. apply IH. intros s0 x0 Hx. apply H. right. exact Hx.
Qed.
Lemma mapM_pure {A B} (f : A -> outcome B) (g : A -> B) l :
  (forall x, In x l -> f x = Ret (g x)) -> mapM f l = Ret (map g l).
Proof.
  induction l as [|x l IH]; intros H; cbn; [reflexivity|].
  rewrite H by (left; reflexivity). cbn. rewrite IH; [reflexivity|].
  intros y Hy. apply H. right. exact Hy.
Qed.
Lemma mapM_Ret {A B} (f : A -> outcome B) l ys :
  mapM f l = Ret ys -> Forall2 (fun x y => f x = Ret y) l ys.
Proof.
  revert ys; induction l as [|x l IH]; intros ys H; cbn in H.
  - injection H as <-. constructor.
  - destruct (f x) eqn:E; try discriminate. cbn in H.
    destruct (mapM f l) eqn:E2; try discriminate. cbn in H. injection H as <-.
    constructor; [exact E|]. apply IH. reflexivity.
Qed.

(** lists *)
Lemma len_app {A} (l m : list A) : len (l ++ m) = len l + len m.
Proof. unfold len. rewrite app_length. lia. Qed.
Lemma len_cons {A} (x : A) l : len (x :: l) = len l + 1.
Proof. unfold len. cbn [length]. lia. Qed.
Lemma len_nil {A} : len (@nil A) = 0.
Proof. reflexivity. Qed.
Lemma len_repeat {A} (x : A) m : len (repeat x m) = N.of_nat m.
Proof. unfold len. rewrite repeat_length. reflexivity. Qed.
Lemma list_set_length {A} (l : list A) i x : length (list_set l i x) = length l.
Proof. revert i; induction l as [|h t IH]; intros [|i]; cbn; [reflexivity..|rewrite IH; reflexivity]. Qed.
Lemma list_set_same {A} (l : list A) i x : (i < length l)%nat -> nth_error (list_set l i x) i = Some x.
Proof.
  revert i; induction l as [|h t IH]; intros [|i] H; cbn in *; try lia; [reflexivity|].
  apply IH; lia.
Qed.
Lemma list_set_other {A} (l : list A) i j x : i <> j -> nth_error (list_set l i x) j = nth_error l j.
Proof.
  revert i j; induction l as [|h t IH]; intros [|i] [|j] H; cbn; try reflexivity; try lia.
  apply IH; lia.
Qed.
Lemma list_set_app_mid {A} (l m : list A) h x : list_set (l ++ h :: m) (length l) x = l ++ x :: m.
Proof. induction l as [|y l IH]; cbn; [reflexivity|rewrite IH; reflexivity]. Qed.
Lemma vec_resize_length {A} (l : list A) n x : length (vec_resize l n x) = N.to_nat n.
Proof. unfold vec_resize. rewrite app_length, firstn_length, repeat_length. lia. Qed.
Lemma nth_error_repeat_lt {A} (x : A) m i : (i < m)%nat -> nth_error (repeat x m) i = Some x.
Proof. intros H. apply nth_error_repeat. exact H. Qed.
Lemma nth_error_firstn {A} (l : list A) m i :
  nth_error (firstn m l) i = if (i <? m)%nat then nth_error l i else None.
Proof.
  revert l i; induction m as [|m IH]; intros l i.
  - destruct i; reflexivity.
  - destruct l as [|h t]; [rewrite firstn_nil; replace (@nth_error A [] i) with (@None A) by (destruct i; reflexivity); destruct (i <? S m)%nat; reflexivity|].
    destruct i as [|i]; [reflexivity|]. cbn [firstn nth_error]. rewrite IH. reflexivity.
Qed.
Lemma nth_error_skipn {A} (l : list A) m i : nth_error (skipn m l) i = nth_error l (m + i)%nat.
Proof.
  revert l; induction m as [|m IH]; intros l; [reflexivity|].
  destruct l as [|h t]; [destruct i; reflexivity|]. cbn. apply IH.
Qed.
Lemma vec_resize_nth {A} (l : list A) n x i :
  nth_error (vec_resize l n x) i =
  if (i <? N.to_nat n)%nat then
    (if (i <? length l)%nat then nth_error l i else Some x) else None.
Proof.
  unfold vec_resize.
  destruct (Nat.ltb_spec i (N.to_nat n)) as [Hi|Hi].
  - destruct (Nat.ltb_spec i (length l)) as [Hl|Hl].
    + rewrite nth_error_app1 by (rewrite firstn_length; lia).
      rewrite nth_error_firstn. destruct (Nat.ltb_spec i (N.to_nat n)); [reflexivity|lia].
    + rewrite nth_error_app2 by (rewrite firstn_length; lia).
      rewrite firstn_length. apply nth_error_repeat. lia.
  - apply nth_error_None. rewrite app_length, firstn_length, repeat_length. lia.
Qed.
Lemma nth_error_ext {A} (l m : list A) : (forall i, nth_error l i = nth_error m i) -> l = m.
Proof.
  revert m; induction l as [|h t IH]; intros [|h' t'] H.
  - reflexivity.
  - specialize (H O). discriminate H.
  - specialize (H O). discriminate H.
  - pose proof (H O) as H0. cbn in H0. injection H0 as ->. f_equal. apply IH.
    intros i. apply (H (S i)).
Qed.
