(** Property lemmas: Moebius function, Hall set sizes, degree range maps (degree_range_map.rs). *)
From Verif Require Import Machine MachineLemmas S_Hall L_Moebius M_DegreeRange L_HallSize L_HallSums L_HallMap L_HallWrap.
Local Open Scope N_scope.

(** the largest square below 2^64 *)
Definition top_square : N := (2 ^ 32 - 1) * (2 ^ 32 - 1).
(** [mu] is the Moebius function *)
Definition mobius_function (mu : N -> Z) : Prop := forall k, 0 < k -> is_mobius k (mu k).
(** new(d) followed by grow calls *)
Definition drm_history (p : profile) (f : nat) (n d : N) (reqs : list N) : outcome drm :=
  m <- drm_new p f n d ;; for_each reqs (fun m r => drm_grow p f n m r) m.
(** number of degrees after these calls *)
Definition degrees_after (d : N) (reqs : list N) : N := fold_left (fun l r => N.max l (r + 1)) reqs d.
(** [d] is the degree of the k-th Hall element *)
Definition key_degree (mu : N -> Z) (n k d : N) : Prop :=
  1 <= d /\ (witt_sum mu n (d - 1) < Z.of_N k <= witt_sum mu n d)%Z.

(** ** Helpers *)
Lemma six_mobius : is_mobius 6 1.
Proof.
  right. exists [2; 3]. split; [constructor; [intros [H|[]]; discriminate|constructor; [intros []|constructor]]|].
  split; [constructor; [apply prime_decide; [lia|reflexivity]|constructor; [apply prime_decide; [lia|reflexivity]|constructor]]|].
  split; reflexivity.
Qed.
Lemma prime_or_not n : nprime n \/ ~ nprime n.
Proof. destruct (prime_b n) eqn:E; [left; apply prime_b_spec, E|right]. intros H. apply prime_b_spec in H. congruence. Qed.
Lemma top_square_lt : top_square < 2 ^ 64.
Proof. reflexivity. Qed.
Lemma one_squarefree : squarefree 1.
Proof. intros b Hb Hd. apply N.divide_1_r in Hd. nia. Qed.
Lemma history_entries p f n d reqs m : drm_history p f n d reqs = Ret m -> entries p n (degrees_after d reqs) m.
Proof.
  unfold drm_history, degrees_after. destruct (drm_new p f n d) as [m0| | |] eqn:E; try discriminate. cbn [bind]. apply new_entries in E.
  revert d m0 E; induction reqs as [|r reqs IH]; intros d m0 E H; cbn [for_each fold_left] in *; [injection H as <-; exact E|].
  destruct (drm_grow p f n m0 r) as [m1| | |] eqn:G; try discriminate. cbn [bind] in H. eapply IH; [|exact H].
  eapply grow_entries; eassumption.
Qed.
Lemma converges_ret {A} (m : nat -> outcome A) f a b : mono m -> m f = Ret a -> converges m b -> b = Ret a.
Proof. intros Hm E Hc. eapply converges_unique; [exact Hc|]. eapply mono_converges; eauto. discriminate. Qed.

(** ** C45: the Moebius function *)
Lemma c45_refuted : forall p, never_ends (fun f => mobius p f 6) /\ is_mobius 6 1.
Proof. intros p. split; [exact (six p)|exact six_mobius]. Qed.
Lemma c45_partial : forall p n, 0 < n < 2 ^ 64 -> n <= top_square ->
  (squarefree n -> converges (fun f => is_squarefree p f n) (Ret true))
  /\ (~ squarefree n -> converges (fun f => is_squarefree p f n) (Ret false))
  /\ (n = 1 \/ nprime n \/ ~ squarefree n -> exists z, is_mobius n z /\ converges (fun f => mobius p f n) (Ret z)).
Proof.
  intros p n Hn Hb. split; [intros Hs; apply sqf_true; assumption|]. split; [intros Hs; apply sqf_false; [lia|assumption]|].
  intros [->|[Hp|Hs]].
  - exists 1%Z. split; [exact mobius_1|apply mobius_one].
  - exists (-1)%Z. split; [apply mobius_prime, Hp|apply mobius_of_prime; assumption].
  - exists 0%Z. split; [left; auto|]. apply mobius_squareful; [lia| |exact Hs]. intros ->. apply Hs, one_squarefree.
Qed.
Example c45_example : nprime 7 /\ ~ squarefree 12 /\ is_mobius 7 (-1) /\ (mobius dev 30 7 = Ret (-1)%Z) /\ (mobius release 30 12 = Ret 0%Z).
Proof.
  assert (P : nprime 7) by (apply prime_decide; [lia|reflexivity]).
  split; [exact P|]. split; [intros H; apply (H 2); [lia|exists 3; reflexivity]|]. split; [apply mobius_prime, P|]. split; vm_compute; reflexivity.
Qed.

(** ** C68: exactly what is_squarefree and mobius do *)
Lemma c68_is_squarefree : forall p n, n < 2 ^ 64 ->
  (squarefree n /\ n <= top_square /\ converges (fun f => is_squarefree p f n) (Ret true))
  \/ (~ squarefree n /\ converges (fun f => is_squarefree p f n) (Ret false))
  \/ (squarefree n /\ top_square < n /\ converges (fun f => is_squarefree p f n) Panic).
Proof.
  intros p n Hn. assert (D : squarefree n \/ ~ squarefree n).
  { destruct (N.eq_dec n 0) as [->|]; [right; intros H; apply (H 2); [lia|exists 0; reflexivity]|apply squarefree_dec; lia]. }
  destruct D as [D|D]; [|right; left; split; [exact D|apply sqf_false; assumption]].
  destruct (N.le_gt_cases n top_square); [left|right; right]; split; auto; split; auto; [apply sqf_true|apply sqf_panic]; assumption.
Qed.
Lemma c68_mobius : forall p n, 0 < n < 2 ^ 64 ->
  (n = 1 /\ converges (fun f => mobius p f n) (Ret 1%Z))
  \/ (~ squarefree n /\ converges (fun f => mobius p f n) (Ret 0%Z))
  \/ (nprime n /\ n <= top_square /\ converges (fun f => mobius p f n) (Ret (-1)%Z))
  \/ (squarefree n /\ 2 <= n <= top_square /\ ~ nprime n /\ never_ends (fun f => mobius p f n))
  \/ (squarefree n /\ top_square < n /\ converges (fun f => mobius p f n) Panic).
Proof.
  intros p n Hn. destruct (N.eq_dec n 1) as [->|H1]; [left; split; [reflexivity|apply mobius_one]|right].
  destruct (squarefree_dec n ltac:(lia)) as [D|D]; [|left; split; [exact D|apply mobius_squareful; [lia|assumption|assumption]]]. right.
  destruct (N.le_gt_cases n top_square) as [Hb|Hb]; [|right; right; split; [exact D|split; [exact Hb|apply mobius_big; [lia|assumption|assumption]]]].
  destruct (prime_or_not n) as [P|P]; [left; split; [exact P|]; split; [exact Hb|]; apply mobius_of_prime; assumption|].
  right. left. split; [exact D|]. split; [lia|]. split; [exact P|]. intros f. apply mobius_composite; [assumption|assumption|lia|assumption].
Qed.
Lemma c68_sound : forall p f n z, 0 < n < 2 ^ 64 -> mobius p f n = Ret z -> is_mobius n z.
Proof.
  intros p f n z Hn E.
  destruct (c68_mobius p n Hn) as [[-> C]|[[D C]|[(P & _ & C)|[(_ & _ & _ & C)|(_ & _ & C)]]]];
    [| | |rewrite C in E; discriminate|];
    pose proof (converges_ret _ f _ _ (mobius_mono p _) E C) as Q; try discriminate; injection Q as <-.
  - exact mobius_1.
  - left. auto.
  - apply mobius_prime, P.
Qed.
Example c68_example : is_squarefree dev 30 30 = Ret true /\ is_squarefree release 30 98 = Ret false /\ mobius dev 30 1 = Ret 1%Z
  /\ mobius dev 30 9 = Ret 0%Z /\ mobius dev 30 13 = Ret (-1)%Z /\ mobius dev 30 6 = Diverge.
Proof. repeat split; vm_compute; reflexivity. Qed.

(** ** C46: Hall set sizes *)
Lemma c46_refuted : forall p w d, 6 <= d -> never_returns (fun f => hall_set_size p f w d).
Proof. exact size_diverges. Qed.
Lemma c46_partial : forall p mu w d, mobius_function mu -> w < 2 ^ 32 -> d <= 5 -> (Z.of_N w ^ Z.of_N d < 2 ^ 63)%Z ->
  exists v, converges (fun f => hall_set_size p f w d) (Ret v) /\ Z.of_N v = witt_sum mu w d.
Proof.
  intros p mu w d Hmu Hw Hd Hp. exists (Z.to_N (levels (Z.of_N w) 1 d)). split.
  - exists 30%nat. intros f Hf. apply size_ok; assumption.
  - rewrite (witt_sum_value mu Hmu) by exact Hd. apply Z2N.id, levels_nonneg; lia.
Qed.
(** the division in the formula is exact at these levels *)
Lemma c46_exact_division : forall mu w n, mobius_function mu -> 1 <= n <= 5 -> (Z.of_N n * witt mu w n = necklace mu w n)%Z.
Proof. intros mu w n Hmu Hn. apply (witt_value mu Hmu w n Hn). Qed.
Lemma c46_mobius_function_exists : exists mu, mobius_function mu.
Proof. exists mu_fun. intros k Hk. apply mu_fun_mobius, Hk. Qed.
Example c46_example : hall_set_size dev 40 5 5 = Ret 829 /\ witt_sum mu_fun 5 5 = 829%Z
  /\ hall_set_size release 40 3 4 = Ret 32 /\ witt_sum mu_fun 3 4 = 32%Z /\ (5 ^ 5 < 2 ^ 63)%Z.
Proof. repeat split; vm_compute; reflexivity. Qed.

(** ** C69: exactly when hall_set_size returns *)
Lemma c69_checked : forall p w d, overflow_checks p = true -> w < 2 ^ 32 ->
  let top := (Z.of_N w ^ Z.of_N (N.min d 6))%Z in
  (d <= 5 -> (top < 2 ^ 63)%Z -> exists v, converges (fun f => hall_set_size p f w d) (Ret v))
  /\ (6 <= d -> (top < 2 ^ 63)%Z -> never_ends (fun f => hall_set_size p f w d))
  /\ ((2 ^ 63 <= top)%Z -> converges (fun f => hall_set_size p f w d) Panic).
Proof.
  intros p w d Hc Hw top. split; [|split].
  - intros Hd Hp. eexists. exists 30%nat. intros f Hf. apply size_ok; try assumption. subst top. replace (N.min d 6) with d in Hp by lia. exact Hp.
  - intros Hd Hp. apply size_never_small; [exact Hd|]. subst top. replace (N.min d 6) with 6 in Hp by lia. exact Hp.
  - intros Hp. subst top. destruct (N.le_gt_cases d 5) as [Hd|Hd].
    + replace (N.min d 6) with (N.min d 5) in Hp by lia. apply size_overflow; assumption.
    + replace (N.min d 6) with 6 in Hp by lia. apply size_overflow_6; (assumption || lia).
Qed.
Lemma c69_unchecked : forall p mu w d, mobius_function mu -> overflow_checks p = false ->
  (d <= 5 -> converges (fun f => hall_set_size p f w d) (Ret (Z.to_N (wrapped_sum mu w d))))
  /\ (6 <= d -> never_ends (fun f => hall_set_size p f w d)).
Proof.
  intros p mu w d Hmu Hc. split; [|apply size_never_unchecked; assumption]. apply size_wrap; [exact Hc|]. intros k Hk f Hf.
  destruct (small_mobius_any p f k Hf Hk) as (m & E & _). rewrite E. f_equal.
  apply (mobius_unique k); [apply (c68_sound p f); [lia|exact E]|apply Hmu; lia].
Qed.
(** without overflow checks the value can be wrong *)
Lemma c69_unchecked_wrong : forall mu, mobius_function mu -> exists w d v, d <= 5 /\ w < 2 ^ 32
  /\ converges (fun f => hall_set_size release f w d) (Ret v) /\ Z.of_N v <> witt_sum mu w d.
Proof.
  intros mu Hmu. exists (2 ^ 31), 3. eexists. split; [lia|]. split; [lia|]. split.
  - apply (mono_converges _ 40); [apply size_mono|vm_compute; reflexivity|discriminate].
  - rewrite (witt_sum_value mu Hmu) by lia. vm_compute. discriminate.
Qed.
Example c69_example : hall_set_size dev 40 (2 ^ 31) 3 = Panic /\ hall_set_size dev 40 2 5 = Ret 14 /\ hall_set_size release 40 2 6 = Diverge
  /\ hall_set_size release 40 (2 ^ 31) 3 = Ret 2305843009571607894 /\ wrapped_sum mu_fun (2 ^ 31) 3 = 2305843009571607894%Z.
Proof. repeat split; vm_compute; reflexivity. Qed.

(** ** C47: DegreeRangeMap histories *)
Lemma c47_history : forall p f n d reqs m, drm_history p f n d reqs = Ret m ->
  (forall i, i < degrees_after d reqs -> exists v, drm_get m i = inl v /\ converges (fun f => hall_set_size p f n i) (Ret v))
  /\ (forall i, degrees_after d reqs <= i -> drm_get m i = inr DegreeOutOfBounds).
Proof.
  intros p f n d reqs m H. apply history_entries in H. split; intros i Hi; [eapply entries_some|eapply entries_none]; eassumption.
Qed.
Lemma c47_grow_keeps : forall p f n m r m' i v, drm_grow p f n m r = Ret m' -> drm_get m i = inl v -> drm_get m' i = inl v.
Proof.
  intros p f n m r m' i v H Hv. apply grow_prefix in H. destruct H as (vs & ->). unfold drm_get, slice_get in *.
  destruct (nth_error m (N.to_nat i)) eqn:E; [|discriminate]. rewrite nth_error_app1, E; [exact Hv|]. apply nth_error_Some. congruence.
Qed.
Example c47_example : exists m, drm_history dev 40 3 2 [1; 4; 3] = Ret m /\ degrees_after 2 [1; 4; 3] = 5
  /\ drm_get m 4 = inl 32 /\ drm_get m 5 = inr DegreeOutOfBounds.
Proof. eexists. split; [vm_compute; reflexivity|]. repeat split; vm_compute; reflexivity. Qed.

(** ** C70: when new and grow return *)
Lemma c70_new : forall p n d, (Z.of_N n ^ 5 < 2 ^ 63)%Z \/ overflow_checks p = false ->
  (d <= 6 -> exists m, converges (fun f => drm_new p f n d) (Ret m)) /\ (7 <= d -> never_returns (fun f => drm_new p f n d)).
Proof. intros p n d Hs. split; [apply new_returns; exact Hs|apply new_never]. Qed.
Lemma c70_grow : forall p n m r, (Z.of_N n ^ 5 < 2 ^ 63)%Z \/ overflow_checks p = false ->
  (r <= 5 \/ r < len m -> exists m', converges (fun f => drm_grow p f n m r) (Ret m'))
  /\ (6 <= r -> len m <= r -> never_returns (fun f => drm_grow p f n m r)).
Proof. intros p n m r Hs. split; [apply grow_returns; exact Hs|intros H1 H2; apply grow_never; assumption]. Qed.
Example c70_example : (6208 ^ 5 < 2 ^ 63)%Z /\ returns (drm_new dev 40 6208 6) /\ drm_new dev 40 6208 7 <> Ret [].
Proof. split; [reflexivity|]. split; [eexists; vm_compute; reflexivity|]. intros H. apply new_never in H; [exact H|lia]. Qed.

(** ** C48 and C71: find_deg *)
Lemma history_facts p f n d reqs m mu : mobius_function mu -> (Z.of_N n ^ 5 < 2 ^ 63)%Z -> drm_history p f n d reqs = Ret m ->
  sorted m /\ len m = degrees_after d reqs /\ len m <= 6
  /\ (forall i v, slice_get m i = Some v -> Z.of_N v = witt_sum mu n i) /\ (forall i, i < len m -> exists v, slice_get m i = Some v).
Proof.
  intros Hmu Hn H. apply history_entries in H. pose proof (entries_sorted _ _ _ _ Hn H) as Hs.
  assert (Hget : forall i, i < len m -> exists v, slice_get m i = Some v).
  { intros i Hi. unfold slice_get. destruct (nth_error m (N.to_nat i)) eqn:E; [eauto|]. apply nth_error_None in E. unfold len in Hi. lia. }
  split; [exact Hs|]. split; [apply H|]. split.
  { destruct (N.le_gt_cases (len m) 6) as [L|L]; [exact L|exfalso]. destruct (Hget 6 L) as (v & Hv).
    destruct (entries_value p n _ m 6 v Hn H Hv). lia. }
  split; [|exact Hget]. intros i v Hv. destruct (entries_value p n _ m i v Hn H Hv) as [Hi ->].
  rewrite (witt_sum_value mu Hmu) by exact Hi. apply Z2N.id, levels_nonneg; lia.
Qed.
Lemma witt_sum_mono mu n a b : mobius_function mu -> a <= b -> b <= 5 -> (witt_sum mu n a <= witt_sum mu n b)%Z.
Proof. intros Hmu Hab Hb. rewrite !(witt_sum_value mu Hmu) by lia. apply levels_mono; lia. Qed.
Lemma find_deg_value p f n d reqs m mu k e : mobius_function mu -> (Z.of_N n ^ 5 < 2 ^ 63)%Z -> drm_history p f n d reqs = Ret m ->
  0 < len m -> e <= len m -> (Z.of_N k <= witt_sum mu n (len m - 1))%Z ->
  (forall i, i < e -> (witt_sum mu n i <= Z.of_N k)%Z) -> (e < len m -> (Z.of_N k < witt_sum mu n e)%Z) -> drm_find_deg m k = inl e.
Proof.
  intros Hmu Hn H Hl He Hk Hlow Hup. destruct (history_facts p f n d reqs m mu Hmu Hn H) as (Hs & HL & HL6 & Hv & Hget).
  apply find_deg_some; [exact Hs|lia|exact He| | |].
  - intros a Ha. apply Hv in Ha. lia.
  - intros i a Hi Ha. apply Hv in Ha. specialize (Hlow i Hi). lia.
  - intros a Ha. assert (e < len m). { unfold slice_get in Ha. unfold len.
      assert (nth_error m (N.to_nat e) <> None) as Q by congruence. apply nth_error_Some in Q. lia. }
    apply Hv in Ha. specialize (Hup ltac:(lia)). lia.
Qed.
Lemma c48_refuted : forall p f n d m mu, mobius_function mu -> 1 <= n -> (Z.of_N n ^ 5 < 2 ^ 63)%Z -> 2 <= d ->
  drm_new p f n d = Ret m ->
  (* the last letter is given a wrong degree *)
  (key_degree mu n n 1 /\ exists e, drm_find_deg m n = inl e /\ e <> 1)
  (* the last key of the map is given a degree that is not in the map *)
  /\ exists k e, drm_get m (d - 1) = inl k /\ drm_find_deg m k = inl e /\ drm_get m e = inr DegreeOutOfBounds.
Proof.
  intros p f n d m mu Hmu Hn1 Hn Hd H.
  assert (H' : drm_history p f n d [] = Ret m) by (unfold drm_history; rewrite H; reflexivity).
  destruct (history_facts p f n d [] m mu Hmu Hn H') as (Hs & HL & HL6 & Hv & Hget). cbn in HL.
  assert (S0 : witt_sum mu n 0 = 0%Z) by reflexivity.
  assert (S1 : witt_sum mu n 1 = Z.of_N n).
  { rewrite (witt_sum_value mu Hmu) by lia. rewrite levels_cons, levels_nil by lia. cbn [level_value]. lia. }
  split.
  - split; [split; [lia|]; change (1 - 1) with 0; lia|].
    (* the number of entries <= n *)
    destruct (N.eq_dec n 1) as [->|Hn2].
    + exists (len m). split; [|lia].
      assert (One : forall i, 1 <= i <= 5 -> witt_sum mu 1 i = 1%Z).
      { intros i Hi. rewrite (witt_sum_value mu Hmu) by lia. destruct (five i Hi) as [->|[->|[->|[->| ->]]]]; reflexivity. }
      eapply (find_deg_value p f 1 d []); try eassumption; try lia.
      * rewrite One by lia. lia.
      * intros i Hi. destruct (N.eq_dec i 0) as [->|]; [rewrite S0|rewrite One by lia]; lia.
    + exists 2. split; [|lia].
      assert (S2 : 2 < len m -> (Z.of_N n < witt_sum mu n 2)%Z).
      { intros _. rewrite (witt_sum_value mu Hmu) by lia. rewrite (levels_cons _ 1 2), (levels_cons _ (1 + 1) 2), levels_nil by lia. change (1 + 1) with 2.
        change (level_value 1 (Z.of_N n)) with (Z.of_N n).
        pose proof (level_value_bounds 2 (Z.of_N n) ltac:(lia) ltac:(lia)) as (_ & _ & B). specialize (B ltac:(lia)). lia. }
      eapply (find_deg_value p f n d []); try eassumption; try lia.
      * pose proof (witt_sum_mono mu n 1 (len m - 1) Hmu ltac:(lia) ltac:(lia)). lia.
      * intros i Hi. assert (C : i = 0 \/ i = 1) by lia. destruct C as [->| ->]; [rewrite S0|rewrite S1]; lia.
  - destruct (Hget (d - 1) ltac:(lia)) as (k & Hk). exists k, (len m). split; [unfold drm_get; rewrite Hk; reflexivity|].
    pose proof (Hv _ _ Hk) as Ek. split.
    + eapply (find_deg_value p f n d []); try eassumption; try lia.
      * rewrite HL. lia.
      * intros i Hi. rewrite Ek. apply witt_sum_mono; [exact Hmu|lia|lia].
    + apply new_entries in H. eapply entries_none; [exact H|]. lia.
Qed.
Lemma c48_partial : forall p f n d reqs m mu k e, mobius_function mu -> (Z.of_N n ^ 5 < 2 ^ 63)%Z -> drm_history p f n d reqs = Ret m ->
  e < degrees_after d reqs -> key_degree mu n k e -> Z.of_N k <> witt_sum mu n e -> drm_find_deg m k = inl e /\ exists v, drm_get m e = inl v.
Proof.
  intros p f n d reqs m mu k e Hmu Hn H He (H1 & Hk1 & Hk2) Hne.
  destruct (history_facts p f n d reqs m mu Hmu Hn H) as (Hs & HL & HL6 & Hv & Hget). split;
    [|destruct (Hget e ltac:(lia)) as (v & Hv'); exists v; unfold drm_get; rewrite Hv'; reflexivity].
  eapply (find_deg_value p f n d reqs); try eassumption; try lia.
  - pose proof (witt_sum_mono mu n e (len m - 1) Hmu ltac:(lia) ltac:(lia)). lia.
  - intros i Hi. pose proof (witt_sum_mono mu n i (e - 1) Hmu ltac:(lia) ltac:(lia)). lia.
Qed.
Example c48_example : exists m, drm_history dev 40 3 4 [] = Ret m /\ degrees_after 4 [] = 4 /\ key_degree mu_fun 3 5 2
  /\ drm_find_deg m 5 = inl 2 /\ key_degree mu_fun 3 3 1 /\ drm_find_deg m 3 = inl 2.
Proof. eexists. split; [vm_compute; reflexivity|]. unfold key_degree. repeat split; vm_compute; try reflexivity; discriminate. Qed.

Lemma c71_find_deg : forall p f n d reqs m mu k, mobius_function mu -> (Z.of_N n ^ 5 < 2 ^ 63)%Z -> drm_history p f n d reqs = Ret m ->
  let L := degrees_after d reqs in
  (L = 0 -> drm_find_deg m k = inr MapIsEmpty)
  /\ (0 < L -> (witt_sum mu n (L - 1) < Z.of_N k)%Z -> drm_find_deg m k = inr DegreeOutOfBounds)
  /\ (0 < L -> (Z.of_N k <= witt_sum mu n (L - 1))%Z -> exists e, drm_find_deg m k = inl e /\ e <= L
       /\ (forall i, i < e -> (witt_sum mu n i <= Z.of_N k)%Z) /\ (forall i, e <= i < L -> (Z.of_N k < witt_sum mu n i)%Z)).
Proof.
  intros p f n d reqs m mu k Hmu Hn H L. destruct (history_facts p f n d reqs m mu Hmu Hn H) as (Hs & HL & HL6 & Hv & Hget). fold L in HL.
  split; [|split].
  - intros E. destruct m; [reflexivity|]. unfold len in HL. cbn in HL. lia.
  - intros H0 Hk. destruct (Hget (L - 1) ltac:(lia)) as (a & Ha). pose proof (Hv _ _ Ha). rewrite <- HL in Ha.
    eapply find_deg_above; [exact Ha|lia].
  - intros H0 Hk.
    assert (P : forall c, c <= L -> exists e, e <= c /\ (forall i, i < e -> (witt_sum mu n i <= Z.of_N k)%Z)
                /\ (forall i, e <= i < c -> (Z.of_N k < witt_sum mu n i)%Z)).
    { intros c. induction c as [|c IH] using N.peano_ind; intros Hc; [exists 0; repeat split; intros; lia|].
      destruct (IH ltac:(lia)) as (e & He & Hlow & Hup). destruct (Z.le_gt_cases (witt_sum mu n c) (Z.of_N k)) as [Hle|Hgt].
      - exists (N.succ c). split; [lia|]. split; [|intros; lia]. intros i Hi.
        pose proof (witt_sum_mono mu n i c Hmu ltac:(lia) ltac:(lia)). lia.
      - exists e. split; [lia|]. split; [exact Hlow|]. intros i Hi. destruct (N.eq_dec i c) as [->|]; [exact Hgt|apply Hup; lia]. }
    destruct (P L (N.le_refl _)) as (e & He & Hlow & Hup). exists e.
    split; [|repeat split; assumption]. eapply (find_deg_value p f n d reqs); try eassumption; try lia.
    + rewrite HL. exact Hk.
    + intros Q. apply Hup. lia.
Qed.
Lemma c71_correct_iff : forall p f n d reqs m mu k e, mobius_function mu -> (Z.of_N n ^ 5 < 2 ^ 63)%Z -> drm_history p f n d reqs = Ret m ->
  e < degrees_after d reqs -> key_degree mu n k e -> (drm_find_deg m k = inl e <-> Z.of_N k <> witt_sum mu n e).
Proof.
  intros p f n d reqs m mu k e Hmu Hn H He Hk. split; [|intros Hne; eapply (c48_partial p f n d reqs m mu k e); eassumption].
  intros E Q. destruct Hk as (H1 & Hk1 & Hk2).
  destruct (history_facts p f n d reqs m mu Hmu Hn H) as (Hs & HL & HL6 & Hv & Hget).
  destruct (c71_find_deg p f n d reqs m mu k Hmu Hn H) as (_ & _ & F).
  destruct F as (e' & E' & He' & Hlow & Hup); [lia| |].
  { pose proof (witt_sum_mono mu n e (degrees_after d reqs - 1) Hmu ltac:(lia) ltac:(lia)). lia. }
  rewrite E in E'. injection E' as <-. specialize (Hup e ltac:(lia)). lia.
Qed.
Example c71_example : exists m, drm_history dev 40 3 4 [] = Ret m /\ drm_find_deg m 14 = inl 4 /\ drm_find_deg m 15 = inr DegreeOutOfBounds
  /\ drm_find_deg m 13 = inl 3 /\ drm_find_deg [] 13 = inr MapIsEmpty.
Proof. eexists. split; [vm_compute; reflexivity|]. repeat split; vm_compute; reflexivity. Qed.
