(** Property lemmas C109 (restated as theorems in P_NextKey.v). *)
From Verif Require Import Machine MachineLemmas S_Words L_Words M_TensorKey L_TensorKey M_TensorBasis S_IterKeys L_NextKey.
From Verif Require L_IterKeys.
Local Open Scope N_scope.

(** * C109: exactly when the basis iterator goes to the next word *)
Lemma c109_next : forall (p : profile) (n : N) (w : word), let k := key_of n w in
  2 <= n < 2 ^ 32 -> word_ok n w -> len w <= max_depth n -> w <> repeat n (N.to_nat (max_depth n)) ->
  (exists v, word_ok n v /\ windex n v = windex n w + 1 /\
     bi_next p n (bi_starting_from n k) = Ret (bi_starting_from n (key_of n v), Some k))
  <-> goes_right n w.
Proof.
  intros p n w k Hn Hw Hl Hlast. rewrite <- (right_next p n Hn w (conj Hw Hl) Hlast).
  assert (E : forall v, bi_next p n (bi_starting_from n k) = Ret (bi_starting_from n (key_of n v), Some k) <-> L_IterKeys.next_key p n (key_of n w) = Ret (Some (key_of n v))).
  { intros v. change (bi_starting_from n k) with (L_BasisIter.bi_of n (Some k)). rewrite L_IterKeys.bi_next_key. fold k.
    destruct (L_IterKeys.next_key p n k) as [[k'|]| | |]; cbn [bind]; unfold L_BasisIter.bi_of, bi_starting_from; split; intros E; try discriminate; injection E as ->; reflexivity. }
  split; intros (v & H1 & H2 & H3); exists v; (split; [exact H1|]); (split; [exact H2|]); apply E; exact H3.
Qed.
(** the last word *)
Lemma c109_last : forall (p : profile) (n : N), let k := key_of n (repeat n (N.to_nat (max_depth n))) in
  2 <= n < 2 ^ 32 -> exists it, bi_next p n (bi_starting_from n k) = Ret (it, Some k) /\ bi_next p n it = Ret (it, None).
Proof.
  intros p n k Hn. exists (L_BasisIter.bi_of n None). split; [|reflexivity].
  change (bi_starting_from n k) with (L_BasisIter.bi_of n (Some k)). rewrite L_IterKeys.bi_next_key. unfold k. rewrite last_next by exact Hn. reflexivity.
Qed.
(** from any key at all the call returns that key, or panics in a build that checks *)
Lemma c109_total : forall (p : profile) (n : N) (k : tkey), tk_size k < 2 ^ 32 ->
  (exists it, bi_next p n (bi_starting_from n k) = Ret (it, Some k))
  \/ (bi_next p n (bi_starting_from n k) = Panic /\ (overflow_checks p = true \/ debug_assertions p = true)).
Proof.
  intros p n k Hk. destruct (next_total p n (max_depth n) k Hk) as [(nc & E)|(E & H)]; unfold bi_next; cbn [bi_current bi_starting_from bi_max_depth]; rewrite E; cbn [bind].
  - left. eexists. reflexivity.
  - right. split; [reflexivity|exact H].
Qed.
(** over five letters: from (1,5) and (2,5) to the next word, from (3,5) not; over four letters from (1,4,4), over five not
    from (1,5,5) *)
Example c109_example :
  goes_right 5 [2; 5] /\ ~ goes_right 5 [3; 5] /\ goes_right 4 [3; 1; 4; 4] /\ ~ goes_right 5 [1; 5; 5]
  /\ bi_next dev 5 (bi_starting_from 5 (key_of 5 [2; 5])) = Ret (bi_starting_from 5 (key_of 5 [3; 1]), Some (key_of 5 [2; 5]))
  /\ bi_next dev 5 (bi_starting_from 5 (key_of 5 [3; 5])) = Ret (bi_starting_from 5 (key_of 5 [6; 1]), Some (key_of 5 [3; 5]))
  /\ bi_next dev 4 (bi_starting_from 4 (key_of 4 [3; 1; 4; 4])) = Ret (bi_starting_from 4 (key_of 4 [3; 2; 1; 1]), Some (key_of 4 [3; 1; 4; 4])).
Proof.
  assert (R : forall n w, 2 <= n < 2 ^ 32 -> word_ok n w -> len w <= max_depth n -> w <> repeat n (N.to_nat (max_depth n)) -> forall x k',
    bi_next dev n (bi_starting_from n (key_of n w)) = Ret (bi_starting_from n k', x) -> (forall v, word_ok n v -> windex n v = windex n w + 1 -> key_of n v <> k') ->
    ~ goes_right n w).
  { intros n w Hn Hw Hl Hlast x k' E Hk G. apply (c109_next dev n w Hn Hw Hl Hlast) in G. destruct G as (v & H1 & H2 & H3).
    rewrite E in H3. injection H3 as H3 _. apply (Hk v H1 H2). symmetry. exact H3. }
  split; [right; left; exists [], 2; split; [reflexivity|lia]|]. split.
  { apply (R 5 [3; 5] ltac:(lia) ltac:(repeat constructor; lia) ltac:(vm_compute; discriminate) ltac:(vm_compute; discriminate) _ (key_of 5 [6; 1]) ltac:(vm_compute; reflexivity)).
    intros v Hv Hi E. assert (v = [4; 1]) by (apply (windex_inj 5); [exact Hv|repeat constructor; lia|exact Hi]). subst v. vm_compute in E. discriminate. }
  split; [do 2 right; left; exists [3]; split; [reflexivity|lia]|]. split.
  { intros [(u & a & E & C)|[(u & a & E & C1 & C2)|[(u & E & C)|[(u & E & C)|[E|[E|(E & C)]]]]]]; try lia; try discriminate.
    - change [1; 5; 5] with ([1; 5] ++ [5]) in E. apply app_inj_tail in E. destruct E as [_ <-]. lia.
    - change [1; 5; 5] with ([1] ++ [5; 5]) in E. change [a; 5] with ([a] ++ [5]) in E. rewrite app_assoc in E. change ([1] ++ [5; 5]) with ([1; 5] ++ [5]) in E.
      apply app_inj_tail in E. destruct E as [E _]. change [1; 5] with ([1] ++ [5]) in E. apply app_inj_tail in E. destruct E as [_ <-]. lia. }
  repeat apply conj; vm_compute; reflexivity.
Qed.
