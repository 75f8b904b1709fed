(** Property lemmas C108 (restated as theorems in P_IterKeys.v). *)
From Verif Require Import Machine MachineLemmas S_Words L_Words M_TensorKey L_TensorKey M_TensorBasis L_TensorBasis S_TensorApi
  L_BasisIter S_KeyRaw L_KeyRaw S_IterKeys L_IterKeys.
Local Open Scope N_scope.

Lemma iter_keys_start n : tb_iter_keys n = bi_of n (Some (mk_tkey 0 0)). Proof. reflexivity. Qed.
Lemma two_letters n a c : key_of n [a; c] = mk_tkey 2 ((a - 1) * 2 ^ letter_bits n + (c - 1)).
Proof. unfold key_of. cbn [enc len length]. rewrite bits_eq. f_equal. Qed.

(** * C108: what iter_keys enumerates *)
(** no word of four letters is ever yielded, none of three unless the number of letters is one of 3, 6, 11, 22, 43, ..., and
    there is no end unless besides the letters take 22 bits or more *)
Lemma c108_short : forall (p : profile) (n : N) (m : nat) (xs : list (option tkey)), 3 <= n < 2 ^ 32 ->
  bi_take p n (tb_iter_keys n) m = Ret xs ->
  (forall k, In (Some k) xs -> tk_size k <= 3 /\ (tk_size k = 3 -> special n))
  /\ (In None xs -> special n /\ 22 <= letter_bits n).
Proof.
  intros p n m xs Hn E. rewrite iter_keys_start in E. destruct (take_good p n Hn m _ (good_0 n)) as [(ys & E1 & _ & F)|(_ & E1)];
    rewrite E in E1; [|discriminate]. injection E1 as <-. rewrite Forall_forall in F. split.
  - intros k Hk. specialize (F _ Hk). cbn [fine] in F. destruct F; cbn [tk_size]; (split; [lia|]); intros Hsz; try discriminate; assumption.
  - intros H0. exact (F _ H0).
Qed.
(** the words of two letters yielded begin with the letter 1, 2, 3, 6, 11, 22, ... *)
Lemma c108_words : forall (p : profile) (n : N) (m : nat) (xs : list (option tkey)) (a c : N), 3 <= n < 2 ^ 32 ->
  bi_take p n (tb_iter_keys n) m = Ret xs -> 1 <= a <= n -> 1 <= c <= n -> In (Some (key_of n [a; c])) xs ->
  exists j, j <= letter_bits n /\ a = alternating j + 1.
Proof.
  intros p n m xs a c Hn E Ha Hc Hin. rewrite iter_keys_start in E. destruct (take_good p n Hn m _ (good_0 n)) as [(ys & E1 & _ & F)|(_ & E1)];
    rewrite E in E1; [|discriminate]. injection E1 as <-. rewrite Forall_forall in F. specialize (F _ Hin). cbn [fine] in F.
  rewrite two_letters in F. inversion F as [| |y i j Hi Hd Hj Hy Hsp Ek|]. clear F Hin E Hsp Hd. exists j. split; [exact Hj|].
  pose proof (n_lt_B n) as HnB. assert (y = a - 1).
  { clear Hy. revert Ek Hi HnB Ha Hc. generalize (2 ^ letter_bits n). clear. intros B Ek Hi HnB Ha Hc.
    destruct (N.lt_trichotomy y (a - 1)) as [H|[H|H]]; [|exact H|]; exfalso; nia. }
  subst y. rewrite N.mod_small in Hy by (clear - HnB Ha; lia). rewrite <- Hy. clear - Ha. lia.
Qed.
(** the items one after the other, until the additions overflow *)
Lemma c108_items : forall (p : profile) (n : N) (j : nat) (i : N), let b := letter_bits n in
  3 <= n < 2 ^ 32 -> i < n -> (special n -> N.of_nat j < b) -> fronts b (S j) * 2 ^ b < 2 ^ 64 ->
  exists xs, len xs = 1 + n + n * N.of_nat j + i /\
    bi_take p n (tb_iter_keys n) (length xs + 1) = Ret (xs ++ [Some (mk_tkey 2 (fronts b j * 2 ^ b + i))]).
Proof.
  intros p n j i b Hn Hi Hsp Hd. rewrite iter_keys_start. pose proof (fronts_grow n Hn j) as Hg. pose proof (n_lt_B n) as HnB. fold b in Hg, HnB.
  assert (Hd' : fronts b j * 2 ^ b + (n - 1) < 2 ^ 64).
  { revert Hd Hg HnB. generalize (fronts b j) (fronts b (S j)) (2 ^ b). clear. intros. nia. }
  assert (R : reach p n (mk_tkey 0 0) (1 + N.to_nat n + N.to_nat n * j + N.to_nat i) (mk_tkey 2 (fronts b j * 2 ^ b + i))).
  { eapply reach_trans.
    - apply reach_front; [exact Hn| |].
      + intros H. specialize (Hsp H). fold b. clear - Hsp. lia.
      + eapply N.le_lt_trans; [apply N.le_add_r|exact Hd'].
    - pose proof (reach_inc p n Hn 2 (fronts b j) (N.to_nat i)) as R. rewrite N2Nat.id in R. apply R; [discriminate|exact Hd'|exact Hi]. }
  assert (exists nc, next_key p n (mk_tkey 2 (fronts b j * 2 ^ b + i)) = Ret nc) as (nc & En).
  { destruct (N.eq_dec (i + 1) n) as [E|E].
    - eexists. replace i with (n - 1) by (clear - E; lia). apply next_front; assumption.
    - eexists. apply next_inc; [exact Hn|discriminate|clear - E Hi; lia|]. apply (room n Hn (n - 1)); [exact Hd'|clear - HnB Hn; fold b; lia|fold b; clear - HnB Hi; lia]. }
  destruct (reach_item p n _ _ _ _ R En) as (xs & L & Ex). exists xs. split; [unfold len; rewrite L; clear; lia|]. rewrite L. exact Ex.
Qed.
(** the fronts are 0, 1, 2, 5, 10, ... at first and no letters from the b+1st on, so the items there are keys of no word *)
Lemma c108_fronts : forall (n : N) (j : nat), let b := letter_bits n in 3 <= n < 2 ^ 32 ->
  (N.of_nat j <= b -> fronts b j = alternating (N.of_nat j))
  /\ (b < N.of_nat j -> forall i w, word_ok n w -> key_of n w <> mk_tkey 2 (fronts b j * 2 ^ b + i)).
Proof.
  intros n j b Hn. split; [intros H; apply fronts_alt; [exact Hn|fold b; lia]|]. intros H i w Hw E.
  pose proof (fronts_outside n Hn j H) as Ho. fold b in Ho. assert (Hl : len w = 2) by (injection E as E _; exact E).
  destruct w as [|a [|c [|? w]]]; try (unfold len in Hl; cbn in Hl; lia).
  rewrite two_letters in E. fold b in E. injection E as E. inversion Hw as [|? ? Ha Hw']. inversion Hw' as [|? ? Hc _]. subst.
  pose proof (n_lt_B n) as HnB. fold b in HnB. revert Ho E HnB Ha Hc. generalize (fronts b j) (2 ^ b). clear. intros. nia.
Qed.
(** with overflow checks the iteration ends in a panic, without them it never fails *)
Lemma c108_panics : forall (p : profile) (n : N), 3 <= n < 2 ^ 32 -> overflow_checks p = true -> ~ (special n /\ 22 <= letter_bits n) ->
  exists m, bi_take p n (tb_iter_keys n) m = Panic.
Proof. intros p n Hn Hp Hno. rewrite iter_keys_start. apply take_panics; try assumption. apply good_0. Qed.
Lemma c108_endless : forall (p : profile) (n : N) (m : nat), 3 <= n < 2 ^ 32 -> overflow_checks p = false ->
  exists xs, bi_take p n (tb_iter_keys n) m = Ret xs /\ length xs = m.
Proof.
  intros p n m Hn Hp. rewrite iter_keys_start. destruct (take_good p n Hn m _ (good_0 n)) as [(xs & E & L & _)|(H & _)]; [exists xs; split; assumption|congruence].
Qed.
(** the special alphabets of large letters end early *)
Lemma c108_end : forall (p : profile) (n : N) (m : nat), let b := letter_bits n in 3 <= n < 2 ^ 32 -> special n -> 22 <= b ->
  exists xs, len xs = 1 + n + n * (b + 1) /\ ~ In None xs
  /\ bi_take p n (tb_iter_keys n) (length xs + m) = Ret (xs ++ repeat None m).
Proof.
  intros p n m b Hn Hs Hb. destruct (special_end p n Hn Hs Hb) as (xs & H1 & H2 & H3). exists xs. split; [exact H1|]. split; [exact H2|]. apply H3.
Qed.
(** over two letters it ends, after 8675 of the 2^31-1 words *)
Lemma c108_two : forall (p : profile) (m : nat), exists xs, len xs = 8675 /\ ~ In None xs
  /\ bi_take p 2 (tb_iter_keys 2) (length xs + m) = Ret (xs ++ repeat None m).
Proof. exact iter_two. Qed.
(** 3, 6, 11, 22, 43, ... letters; the first letter 4 is never seen *)
Example c108_example :
  special 3 /\ ~ special 4 /\ special 6 /\ special 43 /\ ~ special 42
  /\ special 2796203 /\ letter_bits 2796203 = 22
  /\ fronts (letter_bits 5) 3 = 5 /\ fronts (letter_bits 5) 4 = 10 /\ fronts (letter_bits 5) 5 = 13
  /\ (forall p m xs c, bi_take p 4 (tb_iter_keys 4) m = Ret xs -> 1 <= c <= 4 -> ~ In (Some (key_of 4 [4; c])) xs).
Proof.
  split; [reflexivity|]. split; [vm_compute; discriminate|]. split; [reflexivity|]. split; [reflexivity|].
  split; [vm_compute; discriminate|]. split; [reflexivity|]. split; [reflexivity|]. split; [reflexivity|]. split; [reflexivity|]. split; [reflexivity|].
  intros p m xs c E Hc Hin. destruct (c108_words p 4 m xs 4 c ltac:(lia) E ltac:(lia) Hc Hin) as (j & _ & Ej).
  destruct (N.le_gt_cases j 2) as [H|H].
  - pose proof (alt_mono j 2 H) as A. change (alternating 2) with 2 in A. lia.
  - pose proof (alt_mono 3 j ltac:(lia)) as A. change (alternating 3) with 5 in A. lia.
Qed.
