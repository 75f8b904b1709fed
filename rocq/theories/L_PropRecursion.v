(** Proofs about the depth of the recursion of index_to_degree. *)
From Verif Require Import Machine MachineLemmas S_Words L_Words M_TensorKey L_TensorKey M_TensorBasis L_TensorBasis S_Degree L_DegreeWrap
  L_PropKey L_PropDegree S_Recursion.
Local Open Scope N_scope.

Lemma steps_calls p n i m : forall d r, steps m (tb_index_to_degree_step p n i) d = inr r -> exists k, (k <= m)%nat /\ impl_calls p n i d k r.
Proof.
  induction m as [|m IH]; intros d r H; cbn [steps] in H; [discriminate H|].
  destruct (tb_index_to_degree_step p n i d) as [d'|r'] eqn:E.
  - destruct (IH d' r H) as (k & Hk & C). exists (S k). split; [lia|]. apply (asks p n i d d'); assumption.
  - injection H as <-. exists 1%nat. split; [lia|]. apply answers. exact E.
Qed.
Lemma step_ret p n i d e : tb_index_to_degree_step p n i d = inr (Ret e) -> e = d.
Proof.
  unfold tb_index_to_degree_step. destruct (tb_start_of_degree p n d) as [a| | |]; try discriminate.
  destruct (a <=? i); [|destruct (uadd 32 p d 1); discriminate].
  destruct (d1 <- uadd 32 p d 1 ;; tb_start_of_degree p n d1) as [b| | |]; try discriminate.
  destruct (i <? b); [intros [= ->]; reflexivity|destruct (uadd 32 p d 1); discriminate].
Qed.
Lemma step_next p n i d d' : tb_index_to_degree_step p n i d = inl d' -> uadd 32 p d 1 = Ret d'.
Proof.
  unfold tb_index_to_degree_step. destruct (tb_start_of_degree p n d) as [a| | |]; try discriminate.
  assert (G : match uadd 32 p d 1 with Ret d => inl d | Panic => inr Panic | UB => inr UB | Diverge => inr Diverge end = inl d' :> N + outcome N
              -> uadd 32 p d 1 = Ret d') by (destruct (uadd 32 p d 1); try discriminate; intros [= ->]; reflexivity).
  destruct (a <=? i); [|exact G].
  destruct (d1 <- uadd 32 p d 1 ;; tb_start_of_degree p n d1) as [b| | |]; try discriminate.
  destruct (i <? b); [discriminate|exact G].
Qed.
Lemma calls_ret p n i d m r e : impl_calls p n i d m r -> r = Ret e -> tb_index_to_degree_step p n i e = inr (Ret e).
Proof. induction 1 as [d r E|d d' m r E C IH]; intros ->; [rewrite (step_ret p n i d e E) at 1; exact E|apply IH; reflexivity]. Qed.
Lemma calls_count p n i d m r e : impl_calls p n i d m r -> r = Ret e -> d <= e < 2 ^ 32 -> N.of_nat m = e - d + 1.
Proof.
  induction 1 as [d r E|d d' m r E C IH]; intros -> H.
  - apply step_ret in E. subst. lia.
  - pose proof (calls_ret p n i d' m (Ret e) e C eq_refl) as A.
    assert (d <> e) by (intros ->; rewrite E in A; discriminate A).
    apply step_next in E. rewrite uadd_ok in E by lia. injection E as <-. specialize (IH eq_refl ltac:(lia)). lia.
Qed.
Lemma uadd_bound p d d' : uadd 32 p d 1 = Ret d' -> d' < 2 ^ 32.
Proof.
  unfold uadd, overflowed. destruct (N.ltb_spec (d + 1) (2 ^ 32)); [intros [= <-]; assumption|].
  destruct (overflow_checks p); [discriminate|]. intros [= <-]. apply N.mod_lt. discriminate.
Qed.
Lemma calls_bound p n i d m r e : impl_calls p n i d m r -> r = Ret e -> d < 2 ^ 32 -> e < 2 ^ 32.
Proof.
  induction 1 as [d r E|d d' m r E C IH]; intros -> H; [apply step_ret in E; subst; exact H|].
  apply IH; [reflexivity|]. apply step_next in E. apply (uadd_bound p d). exact E.
Qed.

Lemma calls_bounded p n i : overflow_checks p = true -> 2 <= n ->
  forall k d, N.of_nat k + d = 64 -> (1 <= k)%nat -> (forall a, tb_start_of_degree p n d = Ret a -> a <= i) ->
  exists m r, (m <= k)%nat /\ impl_calls p n i d m r.
Proof.
  intros Hp Hn. induction k as [|k IH]; intros d Hk H1 Ha; [lia|].
  destruct (tb_index_to_degree_step p n i d) as [d'|r] eqn:E.
  2:{ exists 1%nat, r. split; [lia|]. apply answers. exact E. }
  pose proof (step_next p n i d d' E) as U. rewrite uadd_ok in U by lia. injection U as <-.
  unfold tb_index_to_degree_step in E. destruct (tb_start_of_degree p n d) as [a| | |] eqn:Ea; try discriminate E.
  specialize (Ha a eq_refl). apply N.leb_le in Ha. rewrite Ha, uadd_ok in E by lia. cbn [bind] in E.
  destruct (tb_start_of_degree p n (d + 1)) as [b| | |] eqn:Eb; try discriminate E.
  destruct (N.ltb_spec i b) as [Hb|Hb]; [discriminate E|].
  destruct (Nat.eq_dec k 0) as [->|Hk0].
  { exfalso. rewrite start_of_degree_overflow in Eb; [discriminate Eb|exact Hp|].
    replace (d + 1) with 64 by lia. apply N.pow_le_mono_l. exact Hn. }
  destruct (IH (d + 1) ltac:(lia) ltac:(lia)) as (m & r & Hm & C).
  { intros b' Eb'. rewrite Eb in Eb'. injection Eb' as <-. exact Hb. }
  exists (S m), r. split; [lia|]. apply (asks p n i d (d + 1)); [|exact C].
  unfold tb_index_to_degree_step. rewrite Ea, Ha, uadd_ok by lia. cbn [bind]. rewrite Eb.
  destruct (N.ltb_spec i b); [lia|reflexivity].
Qed.

Lemma calls_steps p n i d m r : impl_calls p n i d m r -> steps m (tb_index_to_degree_step p n i) d = inr r.
Proof. induction 1 as [d r E|d d' m r E C IH]; cbn [steps]; rewrite E; [reflexivity|exact IH]. Qed.
Lemma loop_calls p n i k d r : loop k (tb_index_to_degree_step p n i) d = inr r -> exists m, impl_calls p n i d m r.
Proof. intros E. rewrite loop_steps in E. apply steps_calls in E. destruct E as (m & _ & C). exists m. exact C. Qed.
Lemma run_calls p n i d e : tb_index_to_degree_impl p n i d = Ret e -> exists m, impl_calls p n i d m (Ret e).
Proof.
  unfold tb_index_to_degree_impl, run_loop. generalize (loop_calls p n i 64 d). destruct (loop 64 _ d) as [s|r].
  - discriminate.
  - intros G ->. apply G. reflexivity.
Qed.
Lemma below_3 n : count_below n 3 = 1 + n + n * n.
Proof. cbn [count_below]. change (N.of_nat 0) with 0. change (N.of_nat 1) with 1. change (N.of_nat 2) with 2. rewrite N.pow_0_r, N.pow_1_r, N.pow_2_r. lia. Qed.
Lemma below_2 n : count_below n 2 = 1 + n.
Proof. cbn [count_below]. change (N.of_nat 0) with 0. change (N.of_nat 1) with 1. rewrite N.pow_0_r, N.pow_1_r. lia. Qed.
Lemma calls_once p n i d m r : impl_calls p n i d m r -> forall m' r', impl_calls p n i d m' r' -> m' = m /\ r' = r.
Proof.
  induction 1 as [e r E|e e' k r E C IH]; intros m' r' D; inversion D; subst.
  - rewrite E in H. injection H as <-. auto.
  - rewrite E in H. discriminate H.
  - rewrite E in H. discriminate H.
  - rewrite E in H. injection H as <-. destruct (IH _ _ H0) as [<- <-]. auto.
Qed.
Lemma start_1 p n b : n < 2 ^ 32 -> tb_start_of_degree p n 1 = Ret b -> b = 1.
Proof.
  intros Hn E. destruct (N.eq_dec n 1) as [->|H1]; [rewrite start_of_degree_one in E; discriminate E|].
  destruct (N.eq_dec n 0) as [->|H0].
  - destruct (overflow_checks p) eqn:Hp; [rewrite start_of_degree_zero in E by exact Hp; discriminate E|].
    rewrite start_unchecked in E by (exact Hp || lia). rewrite wrapped_1 in E by lia. injection E as <-. reflexivity.
  - rewrite start_of_degree_ok in E by (rewrite ?N.pow_1_r; lia). injection E as <-. vm_compute. reflexivity.
Qed.
Lemma start_2 p n b : n < 2 ^ 32 -> tb_start_of_degree p n 2 = Ret b -> b = n + 1 /\ n <> 1 /\ (overflow_checks p = true -> 2 <= n).
Proof.
  intros Hn E. destruct (N.eq_dec n 1) as [->|H1]; [rewrite start_of_degree_one in E; discriminate E|].
  destruct (N.eq_dec n 0) as [->|H0].
  - destruct (overflow_checks p) eqn:Hp; [rewrite start_of_degree_zero in E by exact Hp; discriminate E|].
    rewrite start_unchecked in E by (exact Hp || lia). rewrite wrapped_2 in E by lia. injection E as <-. split; [reflexivity|]. split; [lia|discriminate].
  - rewrite start_of_degree_ok in E by (rewrite ?N.pow_2_r; nia).
    change (N.to_nat 2) with 2%nat in E. rewrite below_2 in E. assert (b = 1 + n) as -> by congruence. repeat split; lia.
Qed.
(** what index_to_degree does before it calls the function *)
Lemma enters p n i : n < 2 ^ 32 ->
  ((forall f, tb_index_to_degree_calling f p n i = f 3) /\ n < i /\ 0 < i /\ n <> 1 /\ (overflow_checks p = true -> 2 <= n)
    /\ exists s3, tb_start_of_degree p n 3 = Ret s3 /\ s3 <= i)
  \/ (exists r, (forall f, tb_index_to_degree_calling f p n i = r) /\ r <> Diverge /\ forall d, r = Ret d -> d <= 2).
Proof.
  intros Hn. unfold tb_index_to_degree_calling.
  destruct (N.eqb_spec i 0) as [->|Hi]; [right; exists (Ret 0); repeat split; [discriminate|intros d [= <-]; lia]|].
  destruct (N.leb_spec 1 i); [|lia]. destruct (N.leb_spec i n) as [Hin|Hin]; cbn [andb];
    [right; exists (Ret 1); repeat split; [discriminate|intros d [= <-]; lia]|].
  assert (NP : forall d, tb_start_of_degree p n d <> Diverge).
  { intros d. unfold tb_start_of_degree, upow, usub, udiv, overflowed, bind.
    repeat match goal with |- context [if ?b then _ else _] => destruct b end; discriminate. }
  destruct (tb_start_of_degree p n 2) as [s2| | |] eqn:E2; cbn [bind];
    [|right; eexists; repeat split; try discriminate..|exfalso; exact (NP 2 E2)].
  destruct (start_2 p n s2 Hn E2) as (-> & H1 & H2). destruct (N.leb_spec (n + 1) i); [|lia].
  destruct (tb_start_of_degree p n 3) as [s3| | |] eqn:E3; cbn [bind];
    [|right; eexists; repeat split; try discriminate..|exfalso; exact (NP 3 E3)].
  destruct (N.ltb_spec i s3); [right; exists (Ret 2); repeat split; [discriminate|intros d [= <-]; lia]|].
  left. repeat split; try assumption; try lia. exists s3. auto.
Qed.
Lemma no_low p n i d s3 : n < 2 ^ 32 -> n < i -> 0 < i -> tb_start_of_degree p n 3 = Ret s3 -> s3 <= i ->
  tb_index_to_degree_step p n i d = inr (Ret d) -> 3 <= d.
Proof.
  intros Hn Hi H0 E3 H3 E. destruct (N.lt_ge_cases d 3) as [Hd|Hd]; [exfalso|exact Hd].
  unfold tb_index_to_degree_step in E. destruct (tb_start_of_degree p n d) as [a| | |]; try discriminate E.
  rewrite uadd_ok in E by lia. cbn [bind] in E. destruct (a <=? i); [|discriminate E].
  destruct (tb_start_of_degree p n (d + 1)) as [b| | |] eqn:Eb; try discriminate E.
  destruct (N.ltb_spec i b) as [Hb|Hb]; [|discriminate E].
  assert (d = 0 \/ d = 1 \/ d = 2) as [-> | [-> | ->]] by lia.
  - apply start_1 in Eb; [lia|exact Hn].
  - apply start_2 in Eb; [lia|exact Hn].
  - change (2 + 1) with 3 in Eb. rewrite E3 in Eb. injection Eb as <-. lia.
Qed.
Lemma not_const (d : N) (r : outcome N) : (forall f : N -> outcome N, f d = r) -> False.
Proof. intros H. pose proof (H (fun _ => Panic)) as A. pose proof (H (fun _ => UB)) as B. cbn in A, B. rewrite <- A in B. discriminate B. Qed.
Lemma same_arg (d e : N) : (forall f : N -> outcome N, f d = f e) -> d = e.
Proof. intros H. pose proof (H (fun x => Ret x)) as A. injection A as A. exact A. Qed.

(** * C131 *)
(** with overflow checks, at most 61 calls whatever the alphabet and the index *)
Lemma c131_bounded : forall (p : profile) (n i : N), overflow_checks p = true -> n < 2 ^ 32 ->
  exists m, (m <= 61)%nat /\ degree_calls p n i m (tb_index_to_degree p n i).
Proof.
  intros p n i Hp Hn. unfold tb_index_to_degree.
  destruct (enters p n i Hn) as [(E & _ & _ & _ & H2 & s3 & E3 & H3)|(r & E & _)].
  - destruct (calls_bounded p n i Hp (H2 Hp) 61 3 ltac:(lia) ltac:(lia)) as (m & r & Hm & C).
    { intros a Ea. rewrite E3 in Ea. injection Ea as <-. exact H3. }
    exists m. split; [exact Hm|]. right. exists 3. split; [exact E|]. rewrite E. unfold tb_index_to_degree_impl.
    rewrite (run_loop_steps m _ 3 r); [exact C|apply calls_steps; exact C|]. lia.
  - exists 0%nat. split; [lia|]. left. split; [reflexivity|]. intros f. rewrite !E. reflexivity.
Qed.
(** the bound is met: two letters and the first index of degree 63 *)
Lemma c131_bound_met : forall (p : profile), overflow_checks p = true ->
  degree_calls p 2 (2 ^ 63 - 1) 61 Panic.
Proof.
  intros p Hp.
  assert (G : forall k d, N.of_nat k + d = 63 -> 3 <= d -> impl_calls p 2 (2 ^ 63 - 1) d (S k) Panic).
  { induction k as [|k IH]; intros d Hk Hd.
    - assert (d = 63) as -> by lia. apply answers. unfold tb_index_to_degree_step.
      rewrite start_of_degree_ok by (vm_compute; reflexivity || discriminate).
      replace (count_below 2 (N.to_nat 63) <=? 2 ^ 63 - 1) with true by (vm_compute; reflexivity).
      rewrite uadd_ok by reflexivity. cbn [bind]. rewrite start_of_degree_overflow; [reflexivity|exact Hp|vm_compute; discriminate].
    - assert (Hs : forall e, e <= 63 -> tb_start_of_degree p 2 e = Ret (2 ^ e - 1)).
      { intros e He. rewrite start_of_degree_ok; [|discriminate|apply N.pow_lt_mono_r; lia].
        f_equal. clear. rewrite <- (N2Nat.id e) at 2. induction (N.to_nat e) as [|m IH]; [reflexivity|].
        cbn [count_below]. rewrite IH. rewrite Nat2N.inj_succ, N.pow_succ_r'. pose proof (N.pow_nonzero 2 (N.of_nat m)). lia. }
      assert (2 ^ d <= 2 ^ 63) by (apply N.pow_le_mono_r; lia). assert (2 ^ (d + 1) <= 2 ^ 63) by (apply N.pow_le_mono_r; lia).
      apply (asks p _ _ d (d + 1)); [|apply IH; lia]. unfold tb_index_to_degree_step. rewrite Hs by lia.
      destruct (N.leb_spec (2 ^ d - 1) (2 ^ 63 - 1)); [|lia]. rewrite uadd_ok by lia. cbn [bind]. rewrite Hs by lia.
      destruct (N.ltb_spec (2 ^ 63 - 1) (2 ^ (d + 1) - 1)); [lia|reflexivity]. }
  right. exists 3. split; [|apply (G 60%nat); lia].
  intros f. unfold tb_index_to_degree_calling. cbn [N.eqb N.leb]. rewrite !start_of_degree_ok by (try discriminate; vm_compute; reflexivity).
  cbn [bind]. vm_compute. reflexivity.
Qed.
(** in every build: an answer d takes d - 2 calls, and none if d is at most 2 *)
Lemma c131_answer : forall (p : profile) (n i d : N), n < 2 ^ 32 -> tb_index_to_degree p n i = Ret d ->
  forall m r, degree_calls p n i m r <-> m = N.to_nat (d - 2) /\ r = Ret d.
Proof.
  intros p n i d Hn A. unfold tb_index_to_degree in A.
  destruct (enters p n i Hn) as [(E & Hi & H0 & _ & _ & s3 & E3 & H3)|(r & E & _ & Hr)]; rewrite E in A.
  - apply run_calls in A. destruct A as [k C].
    assert (Hb : d < 2 ^ 32) by (apply (calls_bound p n i 3 k (Ret d) d C eq_refl); reflexivity).
    assert (Hd : 3 <= d) by (apply (no_low p n i d s3); try assumption; apply (calls_ret p n i 3 k (Ret d) d C eq_refl)).
    pose proof (calls_count p n i 3 k (Ret d) d C eq_refl ltac:(lia)) as Hk.
    replace (N.to_nat (d - 2)) with k by lia. intros m r. split.
    + intros [[_ F]|(e & F & D)].
      * exfalso. apply (not_const 3 r). intros f. rewrite <- E. apply F.
      * assert (e = 3) as -> by (apply same_arg; intros f; rewrite <- E; symmetry; apply F). exact (calls_once p n i 3 k (Ret d) C m r D).
    + intros [-> ->]. right. exists 3. split; assumption.
  - pose proof (Hr d A) as Hd. replace (N.to_nat (d - 2)) with 0%nat by lia. intros m r'. split.
    + intros [[-> F]|(e & F & D)].
      * split; [reflexivity|]. rewrite <- A, <- (E (fun _ => Panic)). symmetry. apply F.
      * exfalso. apply (not_const e r). intros f. rewrite <- F. apply E.
    + intros [-> ->]. left. split; [reflexivity|]. intros f. rewrite E. exact A.
Qed.
(** without overflow checks: a search that does not end nests calls without end *)
Lemma c131_endless : forall (p : profile) (n i : N), overflow_checks p = false -> n < 2 ^ 32 ->
  tb_index_to_degree p n i = Diverge -> forall m r, ~ degree_calls p n i m r.
Proof.
  intros p n i Hp Hn A m r D.
  destruct (enters p n i Hn) as [(E & _ & _ & H1 & _)|(r0 & E & Hr & _)];
    [|unfold tb_index_to_degree in A; rewrite E in A; contradiction].
  destruct (c103_index_to_degree p n i Hp Hn H1) as [(d & _ & _ & _ & E')|[He _]]; [rewrite A in E'; discriminate E'|].
  destruct D as [[_ F]|(e & F & C)].
  { apply (not_const 3 r). intros f. rewrite <- E. apply F. }
  assert (e = 3) as -> by (apply same_arg; intros f; rewrite <- E; symmetry; apply F).
  assert (G : forall d m r, impl_calls p n i d m r -> d < 2 ^ 32 -> False).
  { clear m r F C. induction 1 as [d r Es|d d' m r Es C IH]; intros Hd; rewrite (step_w p n i Hp Hn H1) in Es by exact Hd;
      assert (Hm : (d + 1) mod 2 ^ 32 < 2 ^ 32) by (apply N.mod_lt; discriminate);
      (replace (i <? wrapped_start n ((d + 1) mod 2 ^ 32)) with false in Es by (symmetry; apply N.ltb_ge, He, Hm));
      rewrite Bool.andb_false_r in Es; [discriminate Es|]. injection Es as <-. exact (IH Hm). }
  apply (G 3 m r C). reflexivity.
Qed.
(** a key of two letters whose index is looked for that way *)
Lemma c131_endless_key : forall (p : profile), overflow_checks p = false -> exists w k i, word_ok 4194304 w /\ len w = 2
  /\ tk_from_letters p 4194304 w = Ret k /\ tb_key_to_index p 4194304 k = Ret i /\ forall m r, ~ degree_calls p 4194304 i m r.
Proof.
  intros p Hp. destruct (c103_wrong_degree p Hp) as [_ (w & k & i & Hw & Hl & Ek & Ei & Ed)].
  exists w, k, i. repeat apply conj; try assumption. apply c131_endless; [exact Hp|lia|exact Ed].
Qed.
Example c131_example : tb_index_to_degree dev 2 1000 = Ret 9 /\ steps 7 (tb_index_to_degree_step dev 2 1000) 3 = inr (Ret 9)
  /\ steps 6 (tb_index_to_degree_step dev 2 1000) 3 = inl 9 /\ tb_index_to_degree dev 2 (2 ^ 63 - 1) = Panic.
Proof. repeat apply conj; vm_compute; reflexivity. Qed.
