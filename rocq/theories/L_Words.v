(** Words, their index in the shortlex enumeration, and counting. *)
From Verif Require Import Machine MachineLemmas S_Words.

Lemma Nsub_lt_ltac a b : 1 <= a -> a <= b -> a - 1 < b. Proof. lia. Qed.

(** lexicographic rank among the words of the same length *)
Definition rank_step (n acc a : N) : N := acc * n + (a - 1).
Definition rank (n : N) (w : word) : N := fold_left (rank_step n) w 0.
Lemma idx_fold n w acc : fold_left (idx_step n) w acc = acc * n ^ len w + windex n w.
Proof.
  unfold windex. revert acc; induction w as [|a w IH]; intros acc.
  - cbn [fold_left]. change (len (@nil N)) with 0. rewrite N.pow_0_r. cbn. lia.
  - cbn [fold_left]. rewrite IH, (IH (idx_step n 0 a)). unfold idx_step.
    rewrite len_cons, N.pow_add_r, N.pow_1_r. nia.
Qed.
Lemma windex_cons n a w : windex n (a :: w) = a * n ^ len w + windex n w.
Proof. unfold windex at 1. cbn [fold_left]. rewrite idx_fold. unfold idx_step. nia. Qed.
Lemma windex_app n u v : windex n (u ++ v) = windex n u * n ^ len v + windex n v.
Proof. unfold windex at 1. rewrite fold_left_app, idx_fold. reflexivity. Qed.
Lemma windex_snoc n u a : windex n (u ++ [a]) = windex n u * n + a.
Proof. unfold windex at 1. rewrite fold_left_app. reflexivity. Qed.

Lemma rank_fold n w acc : fold_left (rank_step n) w acc = acc * n ^ len w + rank n w.
Proof.
  unfold rank. revert acc; induction w as [|a w IH]; intros acc.
  - cbn [fold_left]. change (len (@nil N)) with 0. rewrite N.pow_0_r. cbn. lia.
  - cbn [fold_left]. rewrite IH, (IH (rank_step n 0 a)). unfold rank_step.
    rewrite len_cons, N.pow_add_r, N.pow_1_r. nia.
Qed.
Lemma rank_cons n a w : rank n (a :: w) = (a - 1) * n ^ len w + rank n w.
Proof. unfold rank at 1. cbn [fold_left]. rewrite rank_fold. unfold rank_step. nia. Qed.
Lemma rank_app n u v : rank n (u ++ v) = rank n u * n ^ len v + rank n v.
Proof. unfold rank at 1. rewrite fold_left_app, rank_fold. reflexivity. Qed.
Lemma rank_nil n : rank n [] = 0. Proof. reflexivity. Qed.

Lemma rank_bound n w : word_ok n w -> rank n w < n ^ len w.
Proof.
  induction w as [|a w IH]; intros H.
  - cbn [fold_left]. change (len (@nil N)) with 0. rewrite N.pow_0_r. cbn. lia.
  - apply Forall_cons_iff in H. destruct H as [Ha Hw]. specialize (IH Hw).
    rewrite rank_cons, len_cons, N.pow_add_r, N.pow_1_r. nia.
Qed.

Lemma count_below_S n d : count_below n (S d) = count_below n d + n ^ N.of_nat d.
Proof. reflexivity. Qed.
Lemma count_below_S_l n d : count_below n (S d) = 1 + n * count_below n d.
Proof.
  induction d as [|d IH]; [unfold count_below; change (N.of_nat 0) with 0; rewrite ?N.pow_0_r; lia|].
  rewrite count_below_S, IH. rewrite count_below_S in IH.
  replace (N.of_nat (S d)) with (1 + N.of_nat d) by lia. rewrite N.pow_add_r, N.pow_1_r. nia.
Qed.
Lemma count_below_mono n d e : (d <= e)%nat -> count_below n d <= count_below n e.
Proof. induction 1 as [|e H IH]; [lia|]. rewrite count_below_S. lia. Qed.
Lemma count_below_strict n d e : 0 < n -> (d < e)%nat -> count_below n d < count_below n e.
Proof.
  intros Hn H. apply N.lt_le_trans with (count_below n (S d)).
  - rewrite count_below_S. pose proof (pow_pos n (N.of_nat d) Hn). lia.
  - apply count_below_mono. lia.
Qed.
Lemma count_below_geom n d : 1 <= n -> (n - 1) * count_below n d + 1 = n ^ N.of_nat d.
Proof.
  intros Hn. induction d as [|d IH]; [unfold count_below; change (N.of_nat 0) with 0; rewrite ?N.pow_0_r; lia|].
  rewrite count_below_S. replace (N.of_nat (S d)) with (1 + N.of_nat d) by lia.
  rewrite N.pow_add_r, N.pow_1_r. nia.
Qed.
Lemma count_below_div n d : 2 <= n -> (n ^ N.of_nat d - 1) / (n - 1) = count_below n d.
Proof.
  intros Hn. rewrite <- (count_below_geom n d) by lia.
  rewrite N.add_sub, N.mul_comm. apply N.div_mul. lia.
Qed.

Lemma windex_rank n w : word_ok n w -> windex n w = count_below n (length w) + rank n w.
Proof.
  induction w as [|a w IH]; intros H; [reflexivity|].
  apply Forall_cons_iff in H. destruct H as [Ha Hw].
  rewrite windex_cons, rank_cons, (IH Hw). cbn [length]. rewrite count_below_S.
  change (N.of_nat (length w)) with (len w). nia.
Qed.
Lemma windex_lower n w : word_ok n w -> count_below n (length w) <= windex n w.
Proof. intros H. rewrite (windex_rank n w H). lia. Qed.
Lemma windex_upper n w : word_ok n w -> windex n w < count_below n (S (length w)).
Proof.
  intros H. rewrite (windex_rank n w H), count_below_S. pose proof (rank_bound n w H).
  change (N.of_nat (length w)) with (len w). lia.
Qed.

Lemma word_ok_pos n w : word_ok n w -> w <> [] -> 0 < n.
Proof. intros H Hw. destruct w as [|a w]; [congruence|]. apply Forall_cons_iff in H. lia. Qed.

Lemma rank_inj n u v : word_ok n u -> word_ok n v -> len u = len v -> rank n u = rank n v -> u = v.
Proof.
  revert v; induction u as [|a u IH]; intros [|c v] Hu Hv Hl He; try reflexivity;
    rewrite ?len_cons, ?len_nil in Hl; try lia.
  apply Forall_cons_iff in Hu, Hv. destruct Hu as [Ha Hu], Hv as [Hc Hv].
  rewrite !rank_cons in He. assert (Hl' : len u = len v) by lia. rewrite Hl' in He.
  pose proof (rank_bound n u Hu) as B1. pose proof (rank_bound n v Hv) as B2. rewrite Hl' in B1.
  assert (Hac : a - 1 = c - 1) by nia.
  assert (a = c) by lia. subst c. f_equal. apply IH; try assumption. nia.
Qed.

Lemma windex_len n u v : word_ok n u -> word_ok n v -> windex n u = windex n v -> length u = length v.
Proof.
  intros Hu Hv He.
  pose proof (windex_lower n u Hu). pose proof (windex_upper n u Hu).
  pose proof (windex_lower n v Hv). pose proof (windex_upper n v Hv).
  destruct (Nat.lt_trichotomy (length u) (length v)) as [H3|[H3|H3]]; [|exact H3|].
  - pose proof (count_below_mono n (S (length u)) (length v)). lia.
  - pose proof (count_below_mono n (S (length v)) (length u)). lia.
Qed.
Lemma windex_inj n u v : word_ok n u -> word_ok n v -> windex n u = windex n v -> u = v.
Proof.
  intros Hu Hv He. pose proof (windex_len n u v Hu Hv He) as Hl.
  apply (rank_inj n); try assumption; [unfold len; lia|].
  rewrite (windex_rank n u Hu), (windex_rank n v Hv), Hl in He. lia.
Qed.

(** every number is the index of a word (n >= 1) *)
Lemma rank_surj n d r : 0 < n -> r < n ^ N.of_nat d ->
  exists w, word_ok n w /\ length w = d /\ rank n w = r.
Proof.
  intros Hn. revert r; induction d as [|d IH]; intros r Hr.
  - cbn [N.of_nat] in Hr. rewrite N.pow_0_r in Hr. exists []. repeat split; [constructor|].
    cbn. lia.
  - replace (N.of_nat (S d)) with (1 + N.of_nat d) in Hr by lia.
    rewrite N.pow_add_r, N.pow_1_r in Hr.
    pose proof (pow_pos n (N.of_nat d) Hn) as Hp.
    destruct (IH (r mod n ^ N.of_nat d)) as (w & Hw & Hlw & Hrw).
    { apply N.mod_lt. lia. }
    exists ((r / n ^ N.of_nat d + 1) :: w). split; [|split].
    + constructor; [|exact Hw]. assert (Hq : r / n ^ N.of_nat d < n);
      [|clear - Hq; generalize dependent (r / n ^ N.of_nat d); intros; lia]. apply N.div_lt_upper_bound; nia.
    + cbn. rewrite Hlw. reflexivity.
    + rewrite rank_cons, Hrw. unfold len. rewrite Hlw.
      rewrite N.add_sub. rewrite N.mul_comm. symmetry. apply N.div_mod. lia.
Qed.

Lemma windex_surj n D i : 0 < n -> i < count_below n D ->
  exists w, word_ok n w /\ (length w < D)%nat /\ windex n w = i.
Proof.
  intros Hn. revert i; induction D as [|D IH]; intros i Hi; [cbn in Hi; lia|].
  rewrite count_below_S in Hi.
  destruct (N.lt_ge_cases i (count_below n D)) as [Hlt|Hge].
  - destruct (IH i Hlt) as (w & Hw & Hl & Hx). exists w. repeat split; [exact Hw|lia|exact Hx].
  - destruct (rank_surj n D (i - count_below n D) Hn) as (w & Hw & Hl & Hr); [lia|].
    exists w. repeat split; [exact Hw|lia|]. rewrite (windex_rank n w Hw), Hl, Hr. lia.
Qed.

(** ** The explicit enumeration *)
Lemma letters_length n : length (letters n) = N.to_nat n.
Proof. unfold letters, range_incl. rewrite seqN_length. lia. Qed.
Lemma letters_nth n a : 1 <= a <= n -> nth_error (letters n) (N.to_nat (a - 1)) = Some a.
Proof.
  intros H. unfold letters, range_incl. rewrite seqN_nth by lia. f_equal. lia.
Qed.

Lemma flat_map_nth {A B} (f : A -> list B) (m : nat) (l : list A) i a j b :
  (forall x, In x l -> length (f x) = m) -> nth_error l i = Some a -> nth_error (f a) j = Some b ->
  nth_error (flat_map f l) (i * m + j) = Some b.
Proof.
  intros Hm. revert i; induction l as [|x l IH]; intros i Hi Hj; [destruct i; discriminate|].
  assert (Hx : length (f x) = m) by (apply Hm; left; reflexivity).
  cbn [flat_map]. destruct i as [|i].
  - cbn in Hi. injection Hi as ->. cbn [Nat.mul Nat.add].
    rewrite nth_error_app1; [exact Hj|]. apply nth_error_Some. congruence.
  - cbn in Hi. rewrite nth_error_app2 by (rewrite Hx; nia).
    replace (S i * m + j - length (f x))%nat with (i * m + j)%nat by (rewrite Hx; nia).
    apply IH; try assumption. intros y Hy. apply Hm. right. exact Hy.
Qed.
Lemma flat_map_length_const {A B} (f : A -> list B) (m : nat) (l : list A) :
  (forall x, In x l -> length (f x) = m) -> length (flat_map f l) = (length l * m)%nat.
Proof.
  induction l as [|x l IH]; intros Hm; [reflexivity|]. cbn [flat_map length Nat.mul].
  rewrite app_length, IH, Hm; [reflexivity|left; reflexivity|]. intros y Hy; apply Hm; right; exact Hy.
Qed.

Lemma words_of_length_length n d : length (words_of_length n d) = N.to_nat (n ^ N.of_nat d).
Proof.
  induction d as [|d IH]; [reflexivity|]. cbn [words_of_length].
  rewrite (flat_map_length_const _ (N.to_nat (n ^ N.of_nat d))).
  - rewrite letters_length, <- N2Nat.inj_mul. f_equal.
    replace (N.of_nat (S d)) with (1 + N.of_nat d) by lia. rewrite N.pow_add_r, N.pow_1_r. reflexivity.
  - intros a _. rewrite map_length. exact IH.
Qed.
Lemma words_below_length n d : length (words_below n d) = N.to_nat (count_below n d).
Proof.
  induction d as [|d IH]; [reflexivity|]. cbn [words_below count_below].
  rewrite app_length, IH, words_of_length_length. lia.
Qed.

Lemma words_of_length_nth n w : word_ok n w ->
  nth_error (words_of_length n (length w)) (N.to_nat (rank n w)) = Some w.
Proof.
  induction w as [|a w IH]; intros H; [reflexivity|].
  apply Forall_cons_iff in H. destruct H as [Ha Hw]. specialize (IH Hw).
  cbn [length words_of_length]. rewrite rank_cons.
  replace (N.to_nat ((a - 1) * n ^ len w + rank n w))
    with (N.to_nat (a - 1) * N.to_nat (n ^ len w) + N.to_nat (rank n w))%nat by lia.
  eapply flat_map_nth.
  - intros x _. rewrite map_length. apply words_of_length_length.
  - apply letters_nth. exact Ha.
  - apply map_nth_error. exact IH.
Qed.
Lemma words_below_nth n D w : word_ok n w -> (length w < D)%nat ->
  nth_error (words_below n D) (N.to_nat (windex n w)) = Some w.
Proof.
  intros Hw. induction D as [|D IH]; intros Hl; [lia|]. cbn [words_below].
  destruct (Nat.eq_dec (length w) D) as [He|Hne].
  - subst D. rewrite (windex_rank n w Hw).
    rewrite nth_error_app2 by (rewrite words_below_length; lia).
    rewrite words_below_length.
    replace (N.to_nat (count_below n (length w) + rank n w) - N.to_nat (count_below n (length w)))%nat
      with (N.to_nat (rank n w)) by lia.
    apply words_of_length_nth. exact Hw.
  - specialize (IH ltac:(lia)). rewrite nth_error_app1; [exact IH|].
    apply nth_error_Some. congruence.
Qed.

(** membership and duplicates, to see that the enumeration is what it should be *)
Lemma in_words_of_length n d w : In w (words_of_length n d) <-> word_ok n w /\ length w = d.
Proof.
  revert w; induction d as [|d IH]; intros w; cbn [words_of_length].
  - split.
    + intros [<-|[]]. split; [constructor|reflexivity].
    + intros [_ H]. destruct w; [left; reflexivity|discriminate].
  - rewrite in_flat_map. split.
    + intros (a & Ha & Hw). apply in_map_iff in Hw. destruct Hw as (v & <- & Hv).
      apply IH in Hv. destruct Hv as [Hv Hl]. apply in_range_incl in Ha. split.
      * constructor; assumption.
      * cbn. rewrite Hl. reflexivity.
    + intros [Hw Hl]. destruct w as [|a w]; [discriminate|].
      apply Forall_cons_iff in Hw. destruct Hw as [Ha Hw]. exists a. split.
      * apply in_range_incl. exact Ha.
      * apply in_map. apply IH. split; [exact Hw|]. cbn in Hl. lia.
Qed.
Lemma in_words_below n D w : In w (words_below n D) <-> word_ok n w /\ (length w < D)%nat.
Proof.
  induction D as [|D IH]; cbn [words_below]; [cbn [In]; lia|].
  rewrite in_app_iff, IH, in_words_of_length. split.
  - intros [[H1 H2]|[H1 H2]]; split; try assumption; lia.
  - intros [H1 H2]. destruct (Nat.eq_dec (length w) D); [right|left]; split; try assumption; lia.
Qed.
Lemma words_below_inv n D i w : nth_error (words_below n D) (N.to_nat i) = Some w ->
  word_ok n w /\ (length w < D)%nat /\ windex n w = i.
Proof.
  intros H. assert (Hin : In w (words_below n D)) by (eapply nth_error_In; exact H).
  apply in_words_below in Hin. destruct Hin as [Hw Hl]. split; [exact Hw|]. split; [exact Hl|].
  destruct (N.eq_dec n 0) as [->|Hn].
  { assert (w = []). { destruct w as [|a w]; [reflexivity|]. apply Forall_cons_iff in Hw. lia. }
    subst w. assert (Hi : (N.to_nat i < length (words_below 0 D))%nat)
      by (apply nth_error_Some; congruence).
    rewrite words_below_length in Hi.
    assert (count_below 0 D <= 1).
    { clear. induction D as [|D IH]; [cbn [count_below]; lia|]. rewrite count_below_S.
      destruct D as [|D]; [cbn [count_below]; change (N.of_nat 0) with 0; rewrite N.pow_0_r; lia|].
      rewrite N.pow_0_l by lia. lia. }
    cbn. lia. }
  assert (Hi : (N.to_nat i < length (words_below n D))%nat) by (apply nth_error_Some; congruence).
  rewrite words_below_length in Hi.
  destruct (windex_surj n D i) as (v & Hv & Hlv & Hxv); [lia|lia|].
  pose proof (words_below_nth n D v Hv Hlv) as Hnth. rewrite Hxv, H in Hnth.
  injection Hnth as ->. exact Hxv.
Qed.

(** lexicographic order = order of ranks *)
Lemma rank_lex n u v : word_ok n u -> word_ok n v -> len u = len v ->
  N.compare (rank n u) (rank n v) = lex u v.
Proof.
  revert v; induction u as [|a u IH]; intros [|c v] Hu Hv Hl; rewrite ?len_cons, ?len_nil in Hl; try lia;
    [reflexivity|].
  apply Forall_cons_iff in Hu, Hv. destruct Hu as [Ha Hu], Hv as [Hc Hv].
  assert (Hl' : len u = len v) by lia.
  rewrite !rank_cons, Hl'. cbn [lex].
  pose proof (rank_bound n u Hu) as B1. pose proof (rank_bound n v Hv) as B2. rewrite Hl' in B1.
  destruct (N.compare_spec a c) as [H|H|H].
  - subst c. rewrite <- (IH v Hu Hv Hl').
    destruct (N.compare_spec (rank n u) (rank n v)); [apply N.compare_eq_iff|apply N.compare_lt_iff|apply N.compare_gt_iff]; lia.
  - apply N.compare_lt_iff. nia.
  - apply N.compare_gt_iff. nia.
Qed.
