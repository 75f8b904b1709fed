(** Property lemmas C01-C08 (restated as theorems in P_Key.v). *)
From Coq Require Import String.
From Verif Require Import Machine MachineLemmas S_Words L_Words M_TensorKey L_TensorKey
  M_TensorBasis S_TensorApi L_TensorBasis L_BasisIter L_Debug.

Lemma from_letters_inv p n w k : n < 2 ^ 32 -> word_ok n w -> tk_from_letters p n w = Ret k ->
  fits n w /\ k = key_of n w.
Proof.
  intros Hn Hw E.
  assert (Hl : len w <= max_depth n).
  { unfold tk_from_letters in E. destruct (N.ltb_spec (max_depth n) (len w)); [discriminate|assumption]. }
  assert (Hf : fits n w) by (split; assumption). split; [exact Hf|].
  rewrite (from_letters_ok p n w Hn Hf) in E. congruence.
Qed.

Lemma c01_key_remembers_word : forall (p : profile) (n : N) (w : word),
  1 <= n < 2 ^ 32 -> word_ok n w -> len w <= max_depth n ->
  exists k, tk_from_letters p n w = Ret k
    /\ tk_size k = len w
    /\ (forall i, i < len w ->
          exists a, nth_error (rev w) (N.to_nat i) = Some a /\ tk_get_letter p n k i = Ret a)
    /\ (forall m, ti_take p n (ti_new k) (length w + m) = Ret (map Some w ++ repeat None m)).
Proof.
  intros p n w Hn Hw Hl. assert (Hf : fits n w) by (split; assumption).
  exists (key_of n w). split; [apply from_letters_ok; [lia|assumption]|].
  split; [reflexivity|]. split.
  - intros i Hi. apply get_letter_rev; [lia|assumption|assumption].
  - intros m. exact (ti_take_mid p n [] w m ltac:(lia) Hf).
Qed.
Example c01_example : word_ok 3 [1; 3; 2] /\ len [1; 3; 2] <= max_depth 3 /\
  tk_from_letters dev 3 [1; 3; 2] = Ret (mk_tkey 3 9).
Proof. split; [repeat constructor; lia|]. split; [vm_compute; discriminate|reflexivity]. Qed.

Lemma c02_key_eq_word_eq : forall (p p' : profile) (n : N) (u v : word) (k1 k2 : tkey),
  1 <= n < 2 ^ 32 -> word_ok n u -> word_ok n v ->
  tk_from_letters p n u = Ret k1 -> tk_from_letters p' n v = Ret k2 ->
  (tkey_eqb k1 k2 = true <-> u = v).
Proof.
  intros p p' n u v k1 k2 Hn Hu Hv E1 E2.
  apply from_letters_inv in E1, E2; try assumption; try lia. destruct E1 as [F1 ->], E2 as [F2 ->].
  unfold tkey_eqb. rewrite andb_true_iff, !N.eqb_eq. split.
  - intros [H1 H2]. apply (key_of_inj n); try assumption. unfold key_of in *. cbn in *. congruence.
  - intros ->. split; reflexivity.
Qed.
Example c54_example : concat_overflow_corner dev 4294967295 [] [7; 8] /\ word_ok 4294967295 [7; 8]
  /\ tk_from_letters dev 4294967295 [7; 8] = Ret (mk_tkey 2 25769803783)
  /\ tk_concatenate dev 4294967295 (mk_tkey 0 0) (mk_tkey 2 25769803783) = Panic
  /\ ~ concat_overflow_corner release 4294967295 [] [7; 8]
  /\ tk_concatenate release 4294967295 (mk_tkey 0 0) (mk_tkey 2 25769803783) = Ret (mk_tkey 2 25769803783).
Proof. split; [repeat split; cbn; lia|]. split; [repeat constructor; lia|]. split; [reflexivity|]. split; [reflexivity|].
  split; [intros (H & _); discriminate|reflexivity]. Qed.
Example c02_example : (* different words that differ only by leading letters 1 *)
  word_ok 3 [1] /\ word_ok 3 [1; 1] /\ tk_from_letters dev 3 [1] = Ret (mk_tkey 1 0)
  /\ tk_from_letters dev 3 [1; 1] = Ret (mk_tkey 2 0).
Proof. repeat split; try reflexivity; repeat constructor; lia. Qed.

(** C03 *)
Lemma bpl_ge_32 n : 2 ^ 31 <= n -> n < 2 ^ 32 -> bits_per_letter n = 32.
Proof.
  intros H1 H2. unfold bits_per_letter. rewrite const_logn_log2.
  assert (N.log2 n = 31) as ->; [|reflexivity]. apply N.log2_unique; [lia|].
  change (N.succ 31) with 32. lia.
Qed.
Lemma max_depth_32 n : 2 ^ 31 <= n -> n < 2 ^ 32 -> max_depth n = 2.
Proof. intros H1 H2. rewrite max_depth_bits, (bpl_ge_32 n H1 H2). reflexivity. Qed.

Lemma concatenate_corner p n v : 2 ^ 31 <= n < 2 ^ 32 -> fits n v -> len v = 2 ->
  tk_concatenate p n (key_of n []) (key_of n v) = if overflow_checks p then Panic else Ret (key_of n v).
Proof.
  intros Hn Hf Hl. unfold tk_concatenate. cbn [tk_size tk_data key_of].
  change (len (@nil N)) with 0. rewrite Hl, (bpl_ge_32 n) by lia. change (enc 32 []) with 0.
  pose proof (key_data_bound n v ltac:(lia) Hf) as Hd. rewrite (bpl_ge_32 n) in Hd by lia.
  unfold ushl. cbn [N.add Pos.add]. rewrite uadd_ok by (cbn; lia). cbn [bind].
  rewrite umul_ok by (cbn; lia). cbn [bind]. change (2 * 32) with 64. change (64 <? 64) with false.
  cbv iota. rewrite N.mul_0_l. unfold overflowed. destruct (overflow_checks p); [reflexivity|].
  cbn [bind]. rewrite N.mod_0_l by (cbn; lia). rewrite uadd_ok by (rewrite N.add_0_l; exact Hd). cbn [bind].
  unfold key_of. rewrite (bpl_ge_32 n) by lia. rewrite Hl. reflexivity.
Qed.

Lemma c54_concatenate_exact : forall (p : profile) (n : N) (u v : word) (k1 k2 k : tkey),
  1 <= n < 2 ^ 32 -> word_ok n u -> word_ok n v ->
  tk_from_letters p n u = Ret k1 -> tk_from_letters p n v = Ret k2 ->
  tk_from_letters p n (u ++ v) = Ret k ->
  (~ concat_overflow_corner p n u v -> tk_concatenate p n k1 k2 = Ret k) /\
  (concat_overflow_corner p n u v -> tk_concatenate p n k1 k2 = Panic).
Proof.
  intros p n u v k1 k2 k Hn Hu Hv E1 E2 E.
  apply from_letters_inv in E1, E2, E; try assumption; try lia; [|apply Forall_app; split; assumption].
  destruct E1 as [F1 ->], E2 as [F2 ->], E as [F ->]. unfold concat_overflow_corner. split.
  - intros Hc. destruct (N.lt_ge_cases n (2 ^ 31)) as [H31|H31].
    { apply concatenate_ok; [lia|assumption|left; assumption]. }
    destruct u as [|a u].
    2:{ apply concatenate_ok; [lia|assumption|right; discriminate]. }
    cbn [app] in *. destruct (N.eq_dec (len v) 2) as [H2|H2].
    + rewrite concatenate_corner by (assumption || lia).
      destruct (overflow_checks p) eqn:Ep; [|reflexivity]. exfalso. apply Hc. repeat split; assumption.
    + apply (concatenate_gen p n [] v); [lia|assumption|].
      destruct F2 as [_ Hl]. rewrite (max_depth_32 n) in Hl by lia. rewrite (bpl_ge_32 n) by lia. lia.
  - intros (Hp & H31 & -> & H2). rewrite concatenate_corner by (assumption || lia). rewrite Hp. reflexivity.
Qed.
Example c03_example : word_ok 3 [1; 2] /\ word_ok 3 [3] /\
  tk_concatenate dev 3 (mk_tkey 2 1) (mk_tkey 1 2) = Ret (mk_tkey 3 6)
  /\ tk_from_letters dev 3 [1; 2; 3] = Ret (mk_tkey 3 6) /\ ~ concat_overflow_corner dev 3 [1; 2] [3].
Proof.
  repeat split; try reflexivity; try (repeat constructor; lia).
  intros (_ & H & _). apply H. reflexivity.
Qed.

Lemma c03_concatenate_refuted : exists (n : N) (v : word) (k : tkey),
  1 <= n < 2 ^ 32 /\ word_ok n v /\ len v <= max_depth n /\ tk_from_letters dev n v = Ret k /\
  tk_concatenate dev n tk_new k = Panic.
Proof.
  exists (2 ^ 31), [1; 2], (mk_tkey 2 1). split; [cbn; lia|]. split; [repeat constructor; cbn; lia|].
  split; [vm_compute; discriminate|]. split; vm_compute; reflexivity.
Qed.

Lemma c03_monoid_partial : forall (p : profile) (n : N) (u v w : word) (k1 k2 k3 : tkey),
  1 <= n < 2 ^ 31 -> word_ok n u -> word_ok n v -> word_ok n w ->
  len (u ++ v ++ w) <= max_depth n ->
  tk_from_letters p n u = Ret k1 -> tk_from_letters p n v = Ret k2 -> tk_from_letters p n w = Ret k3 ->
  exists k12 k23 k, tk_concatenate p n k1 k2 = Ret k12 /\ tk_concatenate p n k2 k3 = Ret k23
    /\ tk_concatenate p n k12 k3 = Ret k /\ tk_concatenate p n k1 k23 = Ret k
    /\ tk_concatenate p n tk_new k1 = Ret k1 /\ tk_concatenate p n k1 tk_new = Ret k1
    /\ tb_degree k12 = tb_degree k1 + tb_degree k2.
Proof.
  intros p n u v w k1 k2 k3 Hn Hu Hv Hw Hl E1 E2 E3.
  apply from_letters_inv in E1, E2, E3; try assumption; try lia.
  destruct E1 as [F1 ->], E2 as [F2 ->], E3 as [F3 ->].
  rewrite !len_app in Hl.
  assert (F12 : fits n (u ++ v)) by (split; [apply Forall_app; split; assumption|rewrite len_app; lia]).
  assert (F23 : fits n (v ++ w)) by (split; [apply Forall_app; split; assumption|rewrite len_app; lia]).
  assert (F : fits n (u ++ v ++ w)).
  { split; [repeat (apply Forall_app; split); assumption|rewrite !len_app; lia]. }
  exists (key_of n (u ++ v)), (key_of n (v ++ w)), (key_of n (u ++ v ++ w)).
  repeat split.
  - apply concatenate_ok; [lia|assumption|left; lia].
  - apply concatenate_ok; [lia|assumption|left; lia].
  - rewrite app_assoc. apply concatenate_ok; [lia|rewrite <- app_assoc; assumption|left; lia].
  - apply concatenate_ok; [lia|assumption|left; lia].
  - exact (concatenate_ok p n [] u ltac:(lia) F1 ltac:(left; lia)).
  - rewrite <- (app_nil_r u) at 2. change tk_new with (key_of n []).
    apply concatenate_ok; [lia|rewrite app_nil_r; assumption|left; lia].
  - unfold tb_degree. cbn [tk_size key_of]. apply len_app.
Qed.
Example c03_monoid_example : word_ok 3 [2] /\ word_ok 3 [3; 1] /\ word_ok 3 [2; 2] /\ len ([2] ++ [3; 1] ++ [2; 2]) <= max_depth 3
  /\ tk_from_letters dev 3 [2] = Ret (mk_tkey 1 1) /\ tk_from_letters dev 3 [3; 1] = Ret (mk_tkey 2 8)
  /\ tk_from_letters dev 3 [2; 2] = Ret (mk_tkey 2 5)
  /\ (k <- tk_concatenate dev 3 (mk_tkey 1 1) (mk_tkey 2 8) ;; tk_concatenate dev 3 k (mk_tkey 2 5)) = Ret (mk_tkey 5 389)
  /\ tk_from_letters dev 3 [2; 3; 1; 2; 2] = Ret (mk_tkey 5 389).
Proof. split; [repeat constructor; lia|]. split; [repeat constructor; lia|]. split; [repeat constructor; lia|].
  split; [vm_compute; discriminate|]. repeat split; reflexivity. Qed.

Lemma c04_push_front : forall (p : profile) (n a : N) (w : word) (k : tkey),
  1 <= n < 2 ^ 32 -> word_ok n w -> tk_from_letters p n w = Ret k ->
  1 <= a <= n -> len w < max_depth n ->
  exists k', tk_push_front p n k a = Ret k' /\ tk_from_letters p n (a :: w) = Ret k'.
Proof.
  intros p n a w k Hn Hw E Ha Hl. apply from_letters_inv in E; try assumption; try lia.
  destruct E as [F ->].
  assert (Fa : fits n (a :: w)) by (split; [constructor; [lia|exact Hw]|rewrite len_cons; lia]).
  exists (key_of n (a :: w)). split; [apply push_front_ok|apply from_letters_ok]; (lia || assumption).
Qed.
(** building from the right by push_front *)
Lemma c04_build_by_push_front : forall (p : profile) (n : N) (w : word),
  1 <= n < 2 ^ 32 -> word_ok n w -> len w <= max_depth n ->
  for_each (rev w) (tk_push_front p n) tk_new = tk_from_letters p n w.
Proof.
  intros p n w Hn Hw Hl.
  assert (G : forall u v, fits n (u ++ v) -> for_each (rev u) (tk_push_front p n) (key_of n v) = Ret (key_of n (u ++ v))).
  { induction u as [|a u IH] using rev_ind; intros v F; [reflexivity|].
    rewrite rev_app_distr. cbn [rev app for_each].
    rewrite <- app_assoc in F. cbn [app] in F.
    rewrite push_front_ok; [|lia|eapply fits_app_r; exact F]. cbn [bind].
    rewrite IH by exact F. rewrite <- app_assoc. reflexivity. }
  assert (F : fits n w) by (split; assumption).
  rewrite (from_letters_ok p n w) by (assumption || lia).
  change tk_new with (key_of n []). rewrite G; rewrite app_nil_r; [reflexivity|exact F].
Qed.
Example c04_example : tk_push_front dev 3 (mk_tkey 2 9) 2 = Ret (mk_tkey 3 25)
  /\ tk_from_letters dev 3 [3; 2] = Ret (mk_tkey 2 9) /\ tk_from_letters dev 3 [2; 3; 2] = Ret (mk_tkey 3 25).
Proof. repeat split; reflexivity. Qed.

Lemma c05_max_depth_sound : forall n, 1 <= n < 2 ^ 32 ->
  2 <= max_depth n /\ bits_per_letter n * max_depth n <= 64 /\ n < 2 ^ bits_per_letter n.
Proof.
  intros n Hn. split; [apply max_depth_ge_2; lia|]. split; [apply max_depth_fits; lia|apply bpl_upper].
Qed.
Lemma c05_too_long_panics : forall (p : profile) (n : N) (l : list N),
  max_depth n < len l -> tk_from_letters p n l = Panic.
Proof.
  intros p n l H. unfold tk_from_letters. destruct (N.ltb_spec (max_depth n) (len l)); [reflexivity|lia].
Qed.
Lemma first_bad n (l : list N) : ~ word_ok n l -> exists u a v, l = u ++ a :: v /\ word_ok n u /\ ~ (1 <= a <= n).
Proof.
  induction l as [|a l IH]; intros H; [exfalso; apply H; constructor|].
  destruct (N.le_gt_cases 1 a) as [H1|H1]; [destruct (N.le_gt_cases a n) as [H2|H2]|].
  - destruct IH as (u & b & v & -> & Hu & Hb).
    + intros Hl. apply H. constructor; [lia|exact Hl].
    + exists (a :: u), b, v. split; [reflexivity|]. split; [constructor; [lia|exact Hu]|exact Hb].
  - exists [], a, l. split; [reflexivity|]. split; [constructor|lia].
  - exists [], a, l. split; [reflexivity|]. split; [constructor|lia].
Qed.
Lemma c05_bad_letter_panics : forall (p : profile) (n : N) (l : list N),
  1 <= n < 2 ^ 32 -> debug_assertions p = true -> ~ word_ok n l -> tk_from_letters p n l = Panic.
Proof.
  intros p n l Hn Hp Hl. unfold tk_from_letters.
  destruct (N.ltb_spec (max_depth n) (len l)) as [|Hlen]; [reflexivity|].
  destruct (first_bad n l Hl) as (u & a & v & -> & Hu & Ha).
  rewrite for_each_app. rewrite len_app, len_cons in Hlen.
  pose proof (max_depth_fits n ltac:(lia)) as Hmd.
  assert (E : for_each u (from_letters_step p n) 0 = Ret (enc (bits_per_letter n) u)).
  { apply (from_letters_loop p n u []); [lia|exact Hu|cbn [app]; nia]. }
  rewrite E. cbn [bind for_each]. unfold from_letters_step at 1.
  rewrite debug_assert_panic; [reflexivity|exact Hp|]. lia.
Qed.
Example c05_example : max_depth 3 = 30 /\ max_depth 1 = 59 /\ max_depth 4294967295 = 2
  /\ tk_from_letters dev 3 [1; 4] = Panic /\ tk_from_letters release 3 (repeat 1 31) = Panic
  /\ tk_from_letters dev 3 (repeat 3 30) = Ret (mk_tkey 30 768614336404564650).
Proof. repeat split; vm_compute; reflexivity. Qed.

(** C06 *)
Lemma c06_to_letters_refuted : exists (w : word) (k : tkey),
  word_ok 3 w /\ tk_from_letters dev 3 w = Ret k /\ tk_to_letters dev 3 k = Ret [2; 1] /\ w = [1; 2].
Proof. exists [1; 2], (mk_tkey 2 1). repeat split; try reflexivity. repeat constructor; lia. Qed.
Lemma c55_to_letters_reversed : forall (p : profile) (n : N) (w : word) (k : tkey),
  1 <= n < 2 ^ 32 -> word_ok n w -> tk_from_letters p n w = Ret k ->
  tk_to_letters p n k = Ret (rev w).
Proof.
  intros p n w k Hn Hw E. apply from_letters_inv in E; try assumption; try lia. destruct E as [F ->].
  apply to_letters_ok; [lia|assumption].
Qed.
(** it gives back the word exactly for palindromes *)
Lemma c55_roundtrip_iff_palindrome : forall (p : profile) (n : N) (w : word) (k : tkey),
  1 <= n < 2 ^ 32 -> word_ok n w -> tk_from_letters p n w = Ret k ->
  (tk_to_letters p n k = Ret w <-> rev w = w).
Proof.
  intros p n w k Hn Hw E. rewrite (c55_to_letters_reversed p n w k Hn Hw E). split.
  - intros H. injection H as H. exact H.
  - intros H. rewrite H. reflexivity.
Qed.
Example c55_example : word_ok 3 [1; 3; 2] /\ tk_from_letters dev 3 [1; 3; 2] = Ret (mk_tkey 3 9)
  /\ tk_to_letters dev 3 (mk_tkey 3 9) = Ret [2; 3; 1]
  /\ word_ok 3 [2; 3; 2] /\ tk_from_letters dev 3 [2; 3; 2] = Ret (mk_tkey 3 25) /\ tk_to_letters dev 3 (mk_tkey 3 25) = Ret [2; 3; 2].
Proof. split; [repeat constructor; lia|]. split; [reflexivity|]. split; [reflexivity|]. split; [repeat constructor; lia|].
  split; reflexivity. Qed.

(** C07 *)
Lemma valid_key_word n k : n < 2 ^ 32 -> (valid_key n k <-> exists w, fits n w /\ k = key_of n w).
Proof.
  intros Hn. split.
  - intros (w & Hw & Hl & E). apply from_letters_inv in E; try assumption. exists w. exact E.
  - intros (w & F & ->). exists w. split; [apply F|]. split; [apply F|]. apply from_letters_ok; assumption.
Qed.
Lemma c07_guarded_partial : forall (p : profile) (n : N) (k : tkey),
  1 <= n < 2 ^ 32 -> guarded_key p n k -> valid_key n k.
Proof.
  intros p n k Hn G. apply valid_key_word; [lia|].
  induction G as [|a k Ha E|l k Hl E|i k Hi E|k a k' G IH Ha Hs E|k1 k2 k G1 IH1 G2 IH2 Hs E].
  - exists []. split; [|reflexivity]. split; [constructor|]. pose proof (max_depth_ge_2 n). cbn. lia.
  - exists [a]. rewrite (from_letter_ok p n a Ha) in E. injection E as <-. split; [|reflexivity].
    split; [repeat constructor; lia|]. pose proof (max_depth_ge_2 n). cbn. lia.
  - apply from_letters_inv in E; try assumption; [|lia]. exists l. exact E.
  - destruct (windex_surj n _ i ltac:(lia) Hi) as (w & Hw & Hl & Hx).
    assert (F : fits n w) by (split; [exact Hw|unfold len; lia]).
    exists w. split; [exact F|]. rewrite <- Hx, index_to_key_ok in E by (assumption || lia). congruence.
  - destruct IH as (w & F & ->). cbn [tk_size key_of] in Hs.
    assert (Fa : fits n (a :: w)) by (split; [constructor; [lia|apply F]|rewrite len_cons; lia]).
    exists (a :: w). split; [exact Fa|]. rewrite push_front_ok in E by (assumption || lia). congruence.
  - destruct IH1 as (u & F1 & ->), IH2 as (v & F2 & ->). cbn [tk_size key_of] in Hs.
    assert (F : fits n (u ++ v)).
    { split; [apply Forall_app; split; [apply F1|apply F2]|rewrite len_app; lia]. }
    exists (u ++ v). split; [exact F|].
    assert (E' : tk_concatenate p n (key_of n u) (key_of n v) = Panic \/
                 tk_concatenate p n (key_of n u) (key_of n v) = Ret (key_of n (u ++ v))).
    { destruct (N.lt_ge_cases n (2 ^ 31)) as [H31|H31].
      { right. apply concatenate_ok; [lia|assumption|left; assumption]. }
      destruct u as [|b u].
      2:{ right. apply concatenate_ok; [lia|assumption|right; discriminate]. }
      cbn [app] in *. destruct (N.eq_dec (len v) 2) as [H2|H2].
      - rewrite concatenate_corner by (assumption || lia).
        destruct (overflow_checks p); [left|right]; reflexivity.
      - right. apply (concatenate_gen p n [] v); [lia|assumption|].
        destruct F2 as [_ Hl]. rewrite (max_depth_32 n) in Hl by lia. rewrite (bpl_ge_32 n) by lia. lia. }
    destruct E' as [E'|E']; rewrite E' in E; congruence.
Qed.
Example c07_example : guarded_key dev 3 (mk_tkey 3 25).
Proof.
  apply (g_push dev 3 (mk_tkey 2 9) 2); [|lia|vm_compute; reflexivity|reflexivity].
  apply (g_letters dev 3 [3; 2]); [repeat constructor; lia|reflexivity].
Qed.

(** In every profile: a letter outside the alphabet, an index of a longer word, a concatenation that is
    too long are all accepted. *)
Lemma c07_any_key_valid_refuted : forall (p : profile),
  (exists k, api_key p 3 k /\ tk_get_letter p 3 k 0 = Ret 4 /\ ~ valid_key 3 k) /\
  (exists k, api_key p 2 k /\ tk_size k = 31 /\ ~ valid_key 2 k) /\
  (exists k, api_key p 2 k /\ tk_size k = 32 /\ ~ valid_key 2 k).
Proof.
  intros p. split; [|split].
  - exists (mk_tkey 1 3). split; [|split].
    + apply (api_letter p 3 4); [cbn; lia|]. destruct p as [[] []]; reflexivity.
    + destruct p as [[] []]; reflexivity.
    + intros V. apply valid_key_word in V; [|cbn; lia]. destruct V as (w & [Hw _] & E).
      destruct w as [|a [|b w]]; try discriminate.
      * injection E as E. unfold enc in E. cbn [fold_left] in E. unfold enc_step in E.
        apply Forall_cons_iff in Hw. lia.
      * apply (f_equal tk_size) in E. unfold key_of in E. cbn [tk_size] in E. rewrite !len_cons in E. lia.
  - exists (mk_tkey 31 0). split; [|split].
    + apply (api_index p 2 2147483647); [cbn; lia|]. destruct p as [[] []]; vm_compute; reflexivity.
    + reflexivity.
    + intros V. apply valid_key_word in V; [|cbn; lia]. destruct V as (w & [Hw Hl] & E).
      apply (f_equal tk_size) in E. unfold key_of in E. cbn [tk_size] in E. rewrite <- E in Hl.
      vm_compute in Hl. apply Hl. reflexivity.
  - exists (mk_tkey 32 0). split; [|split].
    + apply (api_concat p 2 (mk_tkey 30 0) (mk_tkey 2 0)).
      * apply (api_letters p 2 (repeat 1 30)); [repeat constructor; cbn; lia|].
        destruct p as [[] []]; vm_compute; reflexivity.
      * apply (api_letters p 2 (repeat 1 2)); [repeat constructor; cbn; lia|].
        destruct p as [[] []]; vm_compute; reflexivity.
      * destruct p as [[] []]; vm_compute; reflexivity.
    + reflexivity.
    + intros V. apply valid_key_word in V; [|cbn; lia]. destruct V as (w & [Hw Hl] & E).
      apply (f_equal tk_size) in E. unfold key_of in E. cbn [tk_size] in E. rewrite <- E in Hl.
      vm_compute in Hl. apply Hl. reflexivity.
Qed.

(** C08 *)
Lemma c08_debug_text : forall (p : profile) (n : N) (w : word) (k : tkey),
  1 <= n < 2 ^ 32 -> word_ok n w -> tk_from_letters p n w = Ret k ->
  tk_debug p n k = Ret (debug_text (rev w)).
Proof.
  intros p n w k Hn Hw E. apply debug_letters. apply (c55_to_letters_reversed p n w k Hn Hw E).
Qed.
Lemma c08_debug_injective : forall (p p' : profile) (n : N) (u v : word) (k1 k2 : tkey) (s : string),
  1 <= n < 2 ^ 32 -> word_ok n u -> word_ok n v ->
  tk_from_letters p n u = Ret k1 -> tk_from_letters p' n v = Ret k2 ->
  tk_debug p n k1 = Ret s -> tk_debug p' n k2 = Ret s -> u = v.
Proof.
  intros p p' n u v k1 k2 s Hn Hu Hv E1 E2 D1 D2.
  rewrite (c08_debug_text p n u k1 Hn Hu E1) in D1. rewrite (c08_debug_text p' n v k2 Hn Hv E2) in D2.
  assert (E : debug_text (rev u) = debug_text (rev v)) by congruence.
  apply debug_text_inj in E. rewrite <- (rev_involutive u), <- (rev_involutive v), E. reflexivity.
Qed.
Example c08_example : word_ok 12 [3; 11; 2] /\ tk_from_letters dev 12 [3; 11; 2] = Ret (mk_tkey 3 673)
  /\ tk_debug dev 12 (mk_tkey 3 673) = Ret "(2, 11, 3)"%string /\ tk_debug dev 3 (mk_tkey 0 0) = Ret "()"%string.
Proof. split; [repeat constructor; lia|]. repeat split; vm_compute; reflexivity. Qed.
(** formatting with {} never returns, whatever the key *)
Lemma c08_display_refuted : forall (fuel : nat) (k : tkey), tk_display fuel k = None.
Proof. induction fuel as [|f IH]; intros k; [reflexivity|]. apply IH. Qed.
