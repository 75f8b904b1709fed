(** Property lemmas: Hall keys, Hall sets and their cache (hall_key.rs, hall_set.rs). *)
From Coq Require Import String.
From Verif Require Import Machine MachineLemmas M_TensorKey S_Hall M_DegreeRange M_HallKey M_HallSet L_HallMap L_HallKey L_HallSet.
Local Open Scope N_scope.

(** ** C49: packing *)
Lemma c49_fields : forall p key lp rp sz, key < 2 ^ 18 -> lp < 2 ^ 18 -> rp < 2 ^ 18 -> sz < 2 ^ 10 ->
  exists k, hk_make_key_data p key lp rp sz = Ret k
  /\ hk_get_key p k = Ret key /\ hk_get_lparent p k = Ret lp /\ hk_get_rparent p k = Ret rp /\ hk_size p k = Ret sz.
Proof.
  intros p key lp rp sz H1 H2 H3 H4. eexists. split; [apply make_ok; assumption|].
  rewrite get_key_ok, get_lparent_ok, get_rparent_ok, size_ok. destruct (fields_ok key lp rp sz H1 H2 H3 H4) as (E1 & E2 & E3 & E4).
  rewrite E1, E2, E3, E4. auto.
Qed.
Lemma ret_inj (a b : N) : Ret a = Ret b -> a = b.
Proof. congruence. Qed.
Lemma key_fields x : x < 2 ^ 64 -> x = field x 0 18 + 2 ^ 18 * field x 18 18 + 2 ^ 36 * field x 36 18 + 2 ^ 54 * field x 54 10.
Proof.
  intros Hx. unfold field. rewrite N.pow_0_r, N.div_1_r.
  pose proof (N.div_mod x (2 ^ 18) ltac:(lia)) as A1. pose proof (N.div_mod (x / 2 ^ 18) (2 ^ 18) ltac:(lia)) as A2.
  pose proof (N.div_mod (x / 2 ^ 36) (2 ^ 18) ltac:(lia)) as A3.
  assert (B1 : x / 2 ^ 18 / 2 ^ 18 = x / 2 ^ 36) by (rewrite N.div_div by lia; reflexivity).
  assert (B2 : x / 2 ^ 36 / 2 ^ 18 = x / 2 ^ 54) by (rewrite N.div_div by lia; reflexivity).
  assert (A4 : (x / 2 ^ 54) mod 2 ^ 10 = x / 2 ^ 54) by (apply N.mod_small, N.div_lt_upper_bound; lia).
  rewrite A4, <- B2. rewrite B1 in A2. rewrite <- B2 in *. clear A4 B1 B2.
  set (m1 := x mod 2 ^ 18) in *. set (m2 := (x / 2 ^ 18) mod 2 ^ 18) in *. set (m3 := (x / 2 ^ 36) mod 2 ^ 18) in *.
  set (d1 := x / 2 ^ 18) in *. set (d3 := x / 2 ^ 36 / 2 ^ 18) in *. set (d2 := x / 2 ^ 36) in *. clearbody m1 m2 m3 d3 d2 d1.
  change (2 ^ 36) with (2 ^ 18 * 2 ^ 18). change (2 ^ 54) with (2 ^ 18 * (2 ^ 18 * 2 ^ 18)). lia.
Qed.
(** the fields determine the key *)
Lemma c49_fields_injective : forall p k k', k < 2 ^ 64 -> k' < 2 ^ 64 ->
  hk_get_key p k = hk_get_key p k' -> hk_get_lparent p k = hk_get_lparent p k' -> hk_get_rparent p k = hk_get_rparent p k' ->
  hk_size p k = hk_size p k' -> k = k'.
Proof.
  intros p k k' Hk Hk'. rewrite !get_key_ok, !get_lparent_ok, !get_rparent_ok, !size_ok.
  intros E1 E2 E3 E4. apply ret_inj in E1, E2, E3, E4. rewrite (key_fields k Hk), (key_fields k' Hk'), E1, E2, E3, E4. reflexivity.
Qed.
Lemma c49_letter_partial : forall p n a, 1 <= a <= n -> a < 2 ^ 18 -> exists k, hk_from_letter p n a = Ret k
  /\ hk_is_valid k = true /\ hk_is_letter p k = Ret true /\ hk_to_index p k = Ret (a - 1).
Proof.
  intros p n a Ha Hb. unfold hk_from_letter. rewrite (proj2 (N.leb_le 1 a)), (proj2 (N.leb_le a n)) by lia.
  unfold debug_assert. rewrite andb_false_r. cbn [bind]. eexists. split; [apply make_ok; lia|].
  destruct (fields_ok a 0 a 1 Hb ltac:(lia) Hb ltac:(lia)) as (E1 & E2 & E3 & E4).
  unfold hk_is_letter, hk_to_index. rewrite size_ok, get_key_ok. rewrite E1, E4. cbn [bind]. split; [|split; [reflexivity|]].
  - unfold hk_is_valid. rewrite negb_true_iff, N.eqb_neq. lia.
  - unfold usub. rewrite (proj2 (N.leb_le 1 a)) by lia. reflexivity.
Qed.
Lemma letter_index p n a k : a < 2 ^ 32 -> hk_from_letter p n a = Ret k ->
  field k 0 18 = a mod 2 ^ 18 /\ field k 36 18 = a mod 2 ^ 18 /\ field k 18 18 = a / 2 ^ 18
  /\ field k 54 10 = (1 + (a mod 2 ^ 28) / 2 ^ 18) mod 2 ^ 10 /\ (0 < a -> k <> 0).
Proof.
  intros Ha E. unfold hk_from_letter in E. destruct (debug_assert p _); try discriminate. cbn [bind] in E.
  assert (Hm : (a mod 2 ^ 28) mod 2 ^ 18 = a mod 2 ^ 18).
  { change (2 ^ 28) with (2 ^ 18 * 2 ^ 10). rewrite N.mod_mul_r by lia. rewrite N.mul_comm, N.mod_add by lia. apply N.mod_mod. lia. }
  assert (Hc2 : a mod 2 ^ 28 < 2 ^ 28) by (apply N.mod_upper_bound; lia).
  destruct (N.lt_ge_cases (a mod 2 ^ 28) (2 ^ 28 - 2 ^ 18)) as [Hc|Hc].
  - rewrite letter_data in E by assumption. apply ret_inj in E. subst k. destruct (letter_fields a Ha Hc) as (E1 & E2 & E3 & E4).
    do 3 (split; [assumption|]). split; [|lia]. etransitivity; [exact E2|]. symmetry. apply N.mod_small.
    assert ((a mod 2 ^ 28) / 2 ^ 18 < 2 ^ 10 - 1) by (apply N.div_lt_upper_bound; lia). lia.
  - destruct (overflow_checks p) eqn:O; [rewrite letter_data_overflow in E by assumption; discriminate|].
    destruct (letter_data_wraps p a O Ha Hc) as (k' & Ek & ->). rewrite Ek in E. apply ret_inj in E. subst k.
    destruct (letter_fields_wraps a (a mod 2 ^ 28) Ha ltac:(lia) Hm) as (E1 & E2 & E3 & E4). do 3 (split; [assumption|]). split; [|lia]. etransitivity; [exact E2|].
    replace ((a mod 2 ^ 28) / 2 ^ 18) with (2 ^ 10 - 1); [reflexivity|]. apply (N.div_unique _ _ _ (a mod 2 ^ 28 - (2 ^ 28 - 2 ^ 18))); lia.
Qed.
Lemma c49_letter_refuted : forall p n a, 2 ^ 18 <= a <= n -> n < 2 ^ 32 ->
  forall k, hk_from_letter p n a = Ret k -> hk_to_index p k <> Ret (a - 1).
Proof.
  intros p n a Ha Hn k E Q. destruct (letter_index p n a k ltac:(lia) E) as (E1 & _). unfold hk_to_index in Q. rewrite get_key_ok, E1 in Q. cbn [bind] in Q.
  unfold usub in Q. pose proof (N.mod_upper_bound a (2 ^ 18) ltac:(lia)). destruct (N.leb_spec 1 (a mod 2 ^ 18)).
  - apply ret_inj in Q. lia.
  - unfold overflowed in Q. destruct (overflow_checks p); [discriminate|]. apply ret_inj in Q.
    assert (Z0 : a mod 2 ^ 18 = 0) by lia. rewrite Z0 in Q. rewrite N.mod_small in Q by lia. lia.
Qed.
Example c49_example : (k <- hk_make_key_data dev 7 3 5 2 ;; a <- hk_get_key dev k ;; l <- hk_get_lparent dev k ;; r <- hk_get_rparent dev k ;;
    s <- hk_size dev k ;; Ret [a; l; r; s]) = Ret [7; 3; 5; 2]
  /\ (k <- hk_from_letter dev 300000 (2 ^ 18 + 5) ;; hk_to_index dev k) = Ret 4
  /\ (k <- hk_from_letter dev 5 5 ;; hk_to_index dev k) = Ret 4.
Proof. repeat split; vm_compute; reflexivity. Qed.

(** ** C72: from_letter and to_index for every letter *)
Lemma c72_from_letter : forall p n a, 1 <= a <= n -> n < 2 ^ 32 ->
  let high := (a mod 2 ^ 28) / 2 ^ 18 in
  (overflow_checks p = true -> high = 2 ^ 10 - 1 -> hk_from_letter p n a = Panic)
  /\ (overflow_checks p = false \/ high <> 2 ^ 10 - 1 -> exists k, hk_from_letter p n a = Ret k /\ hk_is_valid k = true
       /\ hk_get_key p k = Ret (a mod 2 ^ 18) /\ hk_get_lparent p k = Ret (a / 2 ^ 18) /\ hk_get_rparent p k = Ret (a mod 2 ^ 18)
       /\ hk_size p k = Ret ((1 + high) mod 2 ^ 10) /\ hk_is_letter p k = Ret (high =? 0)).
Proof.
  intros p n a Ha Hn high.
  assert (Hc2 : a mod 2 ^ 28 < 2 ^ 28) by (apply N.mod_upper_bound; lia).
  assert (Hh : high < 2 ^ 10) by (apply N.div_lt_upper_bound; lia).
  assert (Hd : high = 2 ^ 10 - 1 <-> 2 ^ 28 - 2 ^ 18 <= a mod 2 ^ 28).
  { pose proof (N.div_mod (a mod 2 ^ 28) (2 ^ 18) ltac:(lia)) as D. pose proof (N.mod_upper_bound (a mod 2 ^ 28) (2 ^ 18) ltac:(lia)). fold high in D. lia. }
  assert (L : hk_from_letter p n a = hk_make_key_data p a 0 a 1).
  { unfold hk_from_letter. rewrite (proj2 (N.leb_le 1 a)), (proj2 (N.leb_le a n)) by lia. unfold debug_assert. rewrite andb_false_r. reflexivity. }
  split.
  - intros O Hx. rewrite L. apply letter_data_overflow; [exact O|lia|]. apply Hd, Hx.
  - intros Hor. assert (E : exists k, hk_from_letter p n a = Ret k).
    { rewrite L. destruct (N.lt_ge_cases (a mod 2 ^ 28) (2 ^ 28 - 2 ^ 18)) as [Hc|Hc]; [rewrite letter_data by (assumption || lia); eauto|].
      destruct Hor as [O|O]; [|exfalso; apply O, Hd, Hc]. destruct (letter_data_wraps p a O ltac:(lia) Hc) as (k & Ek & _). eauto. }
    destruct E as (k & E). exists k. split; [exact E|]. destruct (letter_index p n a k ltac:(lia) E) as (E1 & E2 & E3 & E4 & E5).
    split; [unfold hk_is_valid; rewrite negb_true_iff, N.eqb_neq; apply E5; lia|].
    unfold hk_is_letter. rewrite get_key_ok, get_lparent_ok, get_rparent_ok, size_ok, E1, E2, E3, E4. fold high. cbn [bind].
    do 4 (split; [reflexivity|]). f_equal. destruct (N.eqb_spec high 0) as [->|H0]; [reflexivity|]. apply N.eqb_neq.
    destruct (N.eq_dec high (2 ^ 10 - 1)) as [->|H1]; [discriminate|]. rewrite N.mod_small by lia. lia.
Qed.
Lemma c72_to_index : forall p k, let i := k mod 2 ^ 18 in
  (0 < i -> hk_to_index p k = Ret (i - 1))
  /\ (i = 0 -> hk_to_index p k = if overflow_checks p then Panic else Ret (2 ^ 64 - 1)).
Proof.
  intros p k i. unfold hk_to_index. rewrite get_key_ok. cbn [bind]. unfold field. rewrite N.pow_0_r, N.div_1_r. fold i. clearbody i.
  unfold usub, overflowed. split.
  - intros H. rewrite (proj2 (N.leb_le 1 i)) by lia. reflexivity.
  - intros ->. destruct (overflow_checks p); reflexivity.
Qed.
Lemma c72_outside : forall p n a, debug_assertions p = true -> a = 0 \/ n < a -> hk_from_letter p n a = Panic.
Proof.
  intros p n a Hd Ha. unfold hk_from_letter, debug_assert. rewrite Hd.
  destruct (N.leb_spec 1 a), (N.leb_spec a n); cbn; try reflexivity. lia.
Qed.
Example c72_example : hk_from_letter dev (2 ^ 28) (2 ^ 28 - 1) = Panic /\ hk_from_letter dev 3 4 = Panic
  /\ (k <- hk_from_letter dev 300000 (2 ^ 18) ;; s <- hk_size dev k ;; b <- hk_is_letter dev k ;; Ret (s, b)) = Ret (2, false)
  /\ hk_to_index dev hk_new = Panic /\ hk_to_index release hk_new = Ret (2 ^ 64 - 1).
Proof. repeat split; vm_compute; reflexivity. Qed.

(** ** C73: how Hall keys are printed *)
Lemma c73_display : forall p key lp rp sz, key < 2 ^ 18 -> lp < 2 ^ 18 -> rp < 2 ^ 18 -> sz < 2 ^ 10 ->
  exists k, hk_make_key_data p key lp rp sz = Ret k
  /\ hk_display p k = Ret (if (sz =? 1)%N then u32_text key else "[" ++ u32_text lp ++ ", " ++ u32_text rp ++ "]")%string
  /\ hk_debug p k = Ret ("HallKey(key=" ++ u32_text key ++ ", lparent=" ++ u32_text lp ++ ", rparent=" ++ u32_text rp
                         ++ ", size=" ++ u32_text sz ++ ")")%string.
Proof.
  intros p key lp rp sz H1 H2 H3 H4. destruct (c49_fields p key lp rp sz H1 H2 H3 H4) as (k & E & E1 & E2 & E3 & E4). exists k.
  split; [exact E|]. unfold hk_display, hk_is_letter, hk_debug. rewrite E1, E2, E3, E4. cbn [bind]. split; [|reflexivity].
  destruct (sz =? 1); reflexivity.
Qed.
Example c73_example : (k <- hk_make_key_data dev 7 1 2 3 ;; hk_display dev k) = Ret "[1, 2]"%string
  /\ (k <- hk_from_letter dev 5 4 ;; hk_display dev k) = Ret "4"%string
  /\ (k <- hk_from_letter dev 5 4 ;; hk_debug dev k) = Ret "HallKey(key=4, lparent=0, rparent=4, size=1)"%string.
Proof. repeat split; vm_compute; reflexivity. Qed.

(** ** C50: creating Hall sets *)
(** for no alphabet the letters are known *)
Lemma c50_refuted : forall p n, 1 <= n < 2 ^ 32 ->
  never_returns (fun f => hi_new p f n)
  \/ exists h, converges (fun f => hi_new p f n) (Ret h) /\ forall a, 1 <= a <= n -> hi_key_details h a = Ret (inr HallSetTooSmall).
Proof.
  intros p n Hn. assert (C : 2 <= n <= 10 \/ (n < 2 \/ 10 < n)) by lia. destruct C as [C|C]; [left; apply hi_new_never, C|right].
  eexists. split; [exists 30%nat; intros f Hf; apply hi_new_ok; (assumption || lia)|].
  intros a Ha. edestruct (fresh_details n) as (E & _); [|rewrite E].
  - split; [lia|]. split; [exact C|]. split; reflexivity.
  - destruct (N.eqb_spec a 0); [lia|]. reflexivity.
Qed.
(** what remains true: new returns for N = 1 and every N > 10, and letters are recognised *)
Lemma c50_partial : forall p n, n < 2 ^ 32 -> n < 2 \/ 10 < n ->
  (exists h, converges (fun f => hi_new p f n) (Ret h)) /\ (forall k, hi_is_letter n k = inl true <-> 1 <= k <= n).
Proof.
  intros p n Hn C. split; [eexists; exists 30%nat; intros f Hf; apply hi_new_ok; (assumption || lia)|].
  intros k. unfold hi_is_letter. split; [intros E; injection E as E; lia|]. intros Hk.
  rewrite (proj2 (N.leb_le 1 k)), (proj2 (N.leb_le k n)) by lia. reflexivity.
Qed.
Example c50_example : (h <- hi_new dev 40 12 ;; hi_key_details h 3) = Ret (inr HallSetTooSmall) /\ hi_new dev 40 2 = Diverge
  /\ (h <- hi_new dev 40 12 ;; hi_key_details h 0) = Ret (inl (0, 0, 0, 1)).
Proof. repeat split; vm_compute; reflexivity. Qed.

(** ** C74: everything a Hall set answers *)
Lemma c74_new : forall p n, n < 2 ^ 32 ->
  (2 <= n <= 10 -> never_ends (fun f => hi_new p f n)) /\ (n < 2 \/ 10 < n -> exists h, converges (fun f => hi_new p f n) (Ret h)).
Proof.
  intros p n Hn. split; [|intros C; eexists; exists 30%nat; intros f Hf; apply hi_new_ok; (assumption || lia)].
  intros C f. unfold hi_new. rewrite (new_never_ends p n _ (start_large n C)); [reflexivity|].
  assert (Z.of_N n ^ 6 <= 10 ^ 6)%Z by (apply Z.pow_le_mono_l; lia). assert (10 ^ 6 < 2 ^ 63)%Z by reflexivity. lia.
Qed.
(** new, then any calls of the inherent grow_up *)
Definition hi_history (p : profile) (f : nat) (n : N) (ds : list N) : outcome hall_inner :=
  h <- hi_new p f n ;; for_each ds (fun h d => hi_grow_up p f h d) h.
Lemma hi_history_fresh p f n ds h : n < 2 ^ 32 -> Forall (fun d => d < 2 ^ 32) ds -> hi_history p f n ds = Ret h ->
  fresh_inner n h /\ hi_curr_degree h = fold_left N.max ds 0.
Proof.
  intros Hn HF H. unfold hi_history in H. assert (C : 2 <= n <= 10 \/ (n < 2 \/ 10 < n)) by lia.
  destruct C as [C|C]; [destruct (hi_new p f n) eqn:E; try discriminate; apply hi_new_never in E; [contradiction|exact C]|].
  destruct (hi_new p f n) as [h0| | |] eqn:E; try discriminate. cbn [bind] in H.
  assert (h0 = {| hi_current_degree := 0; hi_set := [(0, 0)]; hi_degrees := start_degrees n |}) as ->.
  { pose proof (hi_new_ok p (30 + f) n ltac:(lia) Hn C) as Q. unfold hi_new in *.
    destruct (drm_new p f n _) as [m| | |] eqn:D; try discriminate.
    pose proof (L_HallSize.mono_le _ f (30 + f) (L_HallSize.new_mono p n (starting_size_for_width n)) ltac:(lia)) as L. cbv beta in L. rewrite D in L.
    destruct L as [L|L]; [discriminate|]. rewrite <- L in Q. cbn [bind] in *. congruence. }
  assert (G : forall ds h1 h2, Forall (fun d => d < 2 ^ 32) ds -> fresh_inner n h1 -> for_each ds (fun h d => hi_grow_up p f h d) h1 = Ret h2 ->
             fresh_inner n h2 /\ hi_curr_degree h2 = fold_left N.max ds (hi_curr_degree h1)).
  { clear. induction ds as [|d ds IH]; intros h1 h2 HF F H; cbn [for_each fold_left] in *; [injection H as <-; auto|].
    inversion HF as [|x l Hd HF']; subst. destruct (hi_grow_up p f h1 d) as [h3| | |] eqn:E; try discriminate. cbn [bind] in H.
    assert (G : h3 = {| hi_current_degree := N.max (hi_current_degree h1) d; hi_set := hi_set h1; hi_degrees := hi_degrees h1 |}).
    { clear -E Hd. revert h1 E; induction f as [|f IH]; intros h1 E; [discriminate|]. cbn [hi_grow_up] in E.
      destruct (N.ltb_spec (hi_current_degree h1) d).
      - unfold uadd in E. rewrite (proj2 (N.ltb_lt _ _)) in E by lia. cbn [bind] in E. rewrite (IH _ E). cbn. f_equal. lia.
      - injection E as <-. destruct h1. cbn in *. f_equal. lia. }
    assert (F' : fresh_inner n h3) by (subst h3; destruct F as (F1 & F2 & F3 & F4); repeat split; assumption).
    destruct (IH _ _ HF' F' H) as [A B]. split; [exact A|]. rewrite B, G. reflexivity. }
  assert (F : fresh_inner n {| hi_current_degree := 0; hi_set := [(0, 0)]; hi_degrees := start_degrees n |}) by (repeat split; assumption).
  exact (G ds _ h HF F H).
Qed.
(** sizes of the first degrees, as far as a new Hall set knows them: N in 11..20 knows degree 2 *)
Lemma c74_answers : forall p f n ds h k d, n < 2 ^ 32 -> Forall (fun d => d < 2 ^ 32) ds -> hi_history p f n ds = Ret h -> d < 2 ^ 32 ->
  let too_small := Ret (inr HallSetTooSmall) in
  hi_curr_degree h = fold_left N.max ds 0
  /\ (0 < k -> hi_key_details h k = too_small /\ hi_lparent_details h k = too_small /\ hi_rparent_details h k = too_small)
  /\ (forall z, z = Ret (inl (0, 0, 0, if n =? 0 then 2 else 1)) ->
       hi_key_details h 0 = z /\ hi_lparent_details h 0 = z /\ hi_rparent_details h 0 = z)
  /\ hi_degree_range p h d = Ret (if d =? 0 then inl (0, n)
                                  else if (d =? 1) && (11 <=? n) && (n <=? 20) then inl (n, n + n * (n - 1) / 2)
                                  else inr HallSetTooSmall).
Proof.
  intros p f n ds h k d Hn HF H Hd. cbv zeta. destruct (hi_history_fresh p f n ds h Hn HF H) as [F C].
  split; [exact C|]. split; [|split].
  - intros Hk. destruct (fresh_details n h k F) as (E1 & E2 & E3). rewrite E1, E2, E3. destruct (N.eqb_spec k 0); [lia|]. auto.
  - intros z ->. destruct (fresh_details n h 0 F) as (E1 & E2 & E3). rewrite E1, E2, E3. auto.
  - destruct F as (_ & _ & _ & F). assert (L : len (hi_degrees h) < 2 ^ 32).
    { rewrite F. unfold start_degrees. destruct (_ && _); unfold len; cbn; lia. }
    rewrite degree_range_ok by assumption. rewrite F. unfold start_degrees, slice_get.
    replace (n * n - n) with (n * (n - 1)) by (rewrite N.mul_sub_distr_l; lia).
    destruct (N.eqb_spec d 0) as [->|H0]; [destruct (_ && _); reflexivity|].
    destruct (N.eqb_spec d 1) as [->|H1].
    + cbn [andb]. destruct ((11 <=? n) && (n <=? 20)); reflexivity.
    + cbn [andb]. replace (N.to_nat d) with (S (S (N.to_nat (d - 2)))) by lia. replace (N.to_nat (d + 1)) with (S (S (S (N.to_nat (d - 2))))) by lia.
      destruct ((11 <=? n) && (n <=? 20)); cbn [nth_error]; destruct (N.to_nat (d - 2)) as [|[|i]]; reflexivity.
Qed.
(** whatever is stored: parent details are the key details of the parent *)
Lemma c74_parents : forall h k key l r d, hi_key_details h k = Ret (inl (key, l, r, d)) ->
  let as_of parent answer := (forall i, hi_key_details h parent = Ret (inl i) -> answer = Ret (inl i))
    /\ ((forall i, hi_key_details h parent <> Ret (inl i)) -> answer = Panic) in
  key = k /\ as_of l (hi_lparent_details h k) /\ as_of r (hi_rparent_details h k).
Proof.
  intros h k key l r d H as_of. subst as_of. unfold hi_key_details, hi_lparent_details, hi_rparent_details in *. cbv beta.
  destruct (hi_get_parents h k) as [[a b]|]; [|discriminate]. destruct (hi_degree h k) as [e|]; [|discriminate].
  cbn [unwrap bind] in H. injection H as -> -> -> ->. split; [reflexivity|].
  split; [set (x := l)|set (x := r)]; (destruct (hi_get_parents h x) as [[a b]|]; cbn [unwrap bind];
    [|split; [intros i Hi; discriminate|reflexivity]];
    destruct (hi_degree h x) as [e'|]; cbn [unwrap bind fst snd];
    [|split; [intros i Hi; discriminate|reflexivity]];
    split; [intros i Hi; exact Hi|intros Hi; exfalso; eapply Hi; reflexivity]).
Qed.
Example c74_parents_example : let h := {| hi_current_degree := 2; hi_set := [(0, 0); (0, 1); (0, 2); (1, 2)]; hi_degrees := [0; 2; 3] |} in
  hi_key_details h 3 = Ret (inl (3, 1, 2, 3)) /\ hi_lparent_details h 3 = Ret (inl (1, 0, 1, 1))
  /\ hi_rparent_details h 3 = Ret (inl (2, 0, 2, 2)).
Proof. repeat split. Qed.
Example c74_example : exists h, hi_history dev 60 15 [3; 20; 7] = Ret h /\ hi_curr_degree h = 20
  /\ hi_degree_range dev h 1 = Ret (inl (15, 120)) /\ hi_degree_range dev h 2 = Ret (inr HallSetTooSmall).
Proof. eexists. split; [vm_compute; reflexivity|]. repeat split; vm_compute; reflexivity. Qed.

(** ** C51 and C75: get_hall_set *)
Lemma c51_refuted : forall p may_panic s, reaches p may_panic cache_start s ->
  (forall t n o, cs_pc s t <> Returned n o) /\ (forall n, cs_cache s n = None).
Proof.
  intros p mp s H. destruct (inv_reaches p mp _ _ inv_start H) as (H1 & H2 & _). split; [|exact H2].
  intros t n o E. specialize (H1 t). rewrite E in H1. exact H1.
Qed.
(** with an entry in the map, a call returns that entry: the sharing part of the claim *)
Lemma c51_hit_partial : forall p may_panic s t n o, cs_pc s t = Idle -> cs_cache s n = Some o -> cs_poisoned s = false ->
  (forall u, holds_write (cs_pc s u) = false) ->
  exists s', reaches p may_panic s s' /\ cs_pc s' t = Returned n o.
Proof.
  intros p mp s t n o Hi Hc Hp Hw.
  set (s1 := set_pc s t (AtRead n None)). set (s2 := set_pc s1 t (HasRead n None)). set (s3 := set_pc s2 t (Cloned n o)).
  assert (At : forall s c, cs_pc (set_pc s t c) t = c) by (intros; cbn; rewrite Nat.eqb_refl; reflexivity).
  exists (set_pc s3 t (Returned n o)). split; [|apply At].
  apply (reaches_step p mp s s3 _ t); [|apply step_hit_return, At].
  apply (reaches_step p mp s s2 _ t); [|apply (step_hit p mp s2 t n None o); [apply At|exact Hc]].
  apply (reaches_step p mp s s1 _ t).
  - apply (reaches_step p mp s s _ t); [constructor|]. apply step_call, Hi.
  - apply step_read; [apply At|exact Hp|]. intros u. cbn. destruct (Nat.eqb u t); [reflexivity|apply Hw].
Qed.
Lemma c51_hit_shared_partial : forall p may_panic s t n o o' s', cs_cache s n = Some o -> (exists pre, cs_pc s t = HasRead n pre) ->
  step p may_panic s t s' -> cs_pc s' t = Cloned n o' -> o' = o.
Proof.
  intros p mp s t n o o' s' Hc (pre & E) H Q. destruct H; try congruence; cbn in Q; rewrite Nat.eqb_refl in Q; congruence.
Qed.
(** the first call on an empty map reaches write() (N = 1 or N > 10) and stays there *)
Lemma c75_reaches_write : forall p may_panic n pre, n < 2 ^ 32 -> n < 2 \/ 10 < n ->
  match pre with Some d => d < 2 ^ 32 | None => True end ->
  exists s o, reaches p may_panic cache_start s /\ cs_pc s O = AtWrite n o.
Proof.
  intros p mp n pre Hn C Hd. set (t := O).
  destruct (new_object_ok p (31 + N.to_nat (match pre with Some d => d | None => 1 end)) n pre Hn C) as (h & Eh & _);
    [destruct pre; lia|lia|].
  set (s1 := set_pc cache_start t (AtRead n pre)). set (s2 := set_pc s1 t (HasRead n pre)). set (s3 := set_pc s2 t (Creating n pre)).
  assert (At : forall s c, cs_pc (set_pc s t c) t = c) by (intros; reflexivity).
  exists (set_pc s3 t (AtWrite n (ho_new n h))), (ho_new n h). split; [|apply At].
  apply (reaches_step p mp cache_start s3 _ t); [|eapply step_create; [apply At|exact Eh]].
  apply (reaches_step p mp cache_start s2 _ t); [|apply step_miss; [apply At|reflexivity]].
  apply (reaches_step p mp cache_start s1 _ t).
  - apply (reaches_step p mp cache_start cache_start _ t); [constructor|]. apply step_call. reflexivity.
  - apply step_read; [apply At|reflexivity|]. intros u. cbn. destruct (Nat.eqb u t); reflexivity.
Qed.
Lemma c75_write_blocks : forall p s t n o s', cs_pc s t = AtWrite n o -> reaches p false s s' -> cs_pc s' t = AtWrite n o.
Proof. exact at_write_stuck. Qed.
Lemma c75_write_panics : forall p s t n o s', cs_pc s t = AtWrite n o -> step p true s t s' -> cs_pc s' t = Unwound.
Proof.
  intros p s t n o s' E H. destruct (at_write_steps _ _ _ _ _ _ _ E H) as [_ ->]. cbn. rewrite Nat.eqb_refl. reflexivity.
Qed.
Lemma c75_new_never_ends : forall p may_panic s t n pre s', 2 <= n <= 10 -> cs_pc s t = Creating n pre -> reaches p may_panic s s' ->
  cs_pc s' t = Creating n pre.
Proof. exact creating_stuck. Qed.
Lemma c75_never_poisoned : forall p may_panic s, reaches p may_panic cache_start s -> cs_poisoned s = false.
Proof. intros p mp s H. apply (inv_reaches p mp _ _ inv_start H). Qed.
Example c75_example : exists s o, reaches dev false cache_start s /\ cs_pc s 0%nat = AtWrite 12 o.
Proof. apply (c75_reaches_write dev false 12 None); [lia|lia|exact I]. Qed.
Example c51_example : exists s', reaches dev true {| cs_pc := fun _ => Idle; cs_poisoned := false;
    cs_cache := fun n => if n =? 3 then Some (ho_new 3 {| hi_current_degree := 1; hi_set := [(0, 0)]; hi_degrees := [0; 3] |}) else None |} s'
  /\ cs_pc s' 5%nat = Returned 3 (ho_new 3 {| hi_current_degree := 1; hi_set := [(0, 0)]; hi_degrees := [0; 3] |}).
Proof. apply (c51_hit_partial dev true _ 5%nat 3); reflexivity. Qed.

(** ** C52 and C76: grow_up of a shared Hall set *)
Definition is_grow (c : ho_call) : bool := match c with QGrow _ => true | _ => false end.
Definition poisoned_answer (c : ho_call) : outcome (ho_value + hs_error) :=
  Ret (inr (if is_grow c then HallSetWriteError else HallSetReadError)).
Lemma poisoned_after : forall p o cs, ho_poisoned o = true -> ho_runs p o cs = (map poisoned_answer cs, o).
Proof.
  intros p o cs Hp. induction cs as [|c cs IH]; [reflexivity|]. cbn [ho_runs map].
  assert (E : ho_run p o c = (poisoned_answer c, o)) by (destruct c; unfold ho_run; rewrite Hp; reflexivity).
  rewrite E, IH. reflexivity.
Qed.
Lemma fresh_before : forall p n h qs, fresh_inner n h -> Forall (fun c => is_grow c = false) qs ->
  Forall (fun c => match c with QRange d => d < 2 ^ 32 | _ => True end) qs ->
  exists answers, ho_runs p (ho_new n h) qs = (map Ret answers, ho_new n h) /\ length answers = length qs
  /\ Forall2 (fun c a => fst (ho_run p (ho_new n h) c) = Ret a) qs answers.
Proof.
  intros p n h qs F HF HD. induction qs as [|c qs IH]; [exists []; repeat constructor|].
  inversion HF as [|x l Hc HF']; subst. inversion HD as [|x l Hd HD']; subst. destruct (IH HF' HD') as (as_ & E & EL & E2).
  assert (A : exists a, ho_run p (ho_new n h) c = (Ret a, ho_new n h)).
  { assert (D : forall k, exists a, to_value VInfo (hi_key_details h k) = Ret a /\ to_value VInfo (hi_lparent_details h k) = Ret a
                 /\ to_value VInfo (hi_rparent_details h k) = Ret a).
    { intros k. destruct (fresh_details n h k F) as (D1 & D2 & D3). rewrite D1, D2, D3. destruct (k =? 0); eexists; repeat split. }
    destruct c as [k|k|k|k|d|d]; try discriminate; unfold ho_run; cbn [ho_poisoned ho_inner ho_new].
    - eexists. reflexivity.
    - destruct (D k) as (a & _ & -> & _). eauto.
    - destruct (D k) as (a & _ & _ & ->). eauto.
    - destruct (D k) as (a & -> & _ & _). eauto.
    - assert (L : len (hi_degrees h) < 2 ^ 32).
      { destruct F as (_ & _ & _ & ->). unfold start_degrees. destruct (_ && _); unfold len; cbn; lia. }
      rewrite degree_range_ok by assumption. destruct (slice_get (hi_degrees h) d), (slice_get (hi_degrees h) (d + 1)); eexists; reflexivity. }
  destruct A as (a & A). exists (a :: as_). cbn [ho_runs]. rewrite A, E. split; [reflexivity|]. split; [cbn; congruence|].
  constructor; [rewrite A; reflexivity|exact E2].
Qed.
Lemma ho_runs_app p o cs cs' : ho_runs p o (cs ++ cs') =
  (let '(rs, o1) := ho_runs p o cs in let '(rs', o2) := ho_runs p o1 cs' in (rs ++ rs', o2)).
Proof.
  revert o; induction cs as [|c cs IH]; intros o; cbn [app ho_runs]; [destruct (ho_runs p o cs'); reflexivity|].
  destruct (ho_run p o c) as [r o1]. rewrite IH. destruct (ho_runs p o1 cs) as [rs o2]. destruct (ho_runs p o2 cs') as [rs' o3]. reflexivity.
Qed.
Lemma fresh_history : forall p n h qs d cs, fresh_inner n h -> Forall (fun c => is_grow c = false) qs ->
  Forall (fun c => match c with QRange d => d < 2 ^ 32 | _ => True end) qs ->
  exists answers, length answers = length qs
  /\ fst (ho_runs p (ho_new n h) (qs ++ QGrow d :: cs)) = map Ret answers ++ Panic :: map poisoned_answer cs.
Proof.
  intros p n h qs d cs F H1 H2. destruct (fresh_before p n h qs F H1 H2) as (as_ & E & EL & _). exists as_. split; [exact EL|].
  rewrite ho_runs_app, E. cbn [ho_runs]. unfold ho_run at 1. cbn [ho_poisoned ho_new hi_trait_grow_up].
  rewrite poisoned_after by reflexivity. reflexivity.
Qed.
(** an object as get_hall_set makes it *)
Definition degree_arg (pre : option N) : N := match pre with Some d => d | None => 1 end.
Lemma object_fresh p f n pre o : n < 2 ^ 32 -> degree_arg pre < 2 ^ 32 -> new_object p f n pre = Ret o ->
  exists h, o = ho_new n h /\ fresh_inner n h.
Proof.
  intros Hn Hd H. assert (Q : exists h, hi_history p f n [degree_arg pre] = Ret h /\ o = ho_new n h).
  { unfold new_object in H. unfold hi_history. destruct (hi_new p f n) as [h| | |]; try discriminate. cbn [bind] in *. cbn [for_each].
    unfold degree_arg. destruct (hi_grow_up p f h _) as [h1| | |]; try discriminate. cbn [bind] in *. exists h1. split; [reflexivity|congruence]. }
  destruct Q as (h & Q & ->). exists h. split; [reflexivity|]. apply (hi_history_fresh p f n [degree_arg pre] h Hn); [|exact Q].
  constructor; [exact Hd|constructor].
Qed.
(** arguments are u32 *)
Definition good_call (c : ho_call) : Prop := match c with QRange d => d < 2 ^ 32 | _ => True end.
Lemma c76_history : forall p f n pre o qs d cs, n < 2 ^ 32 -> degree_arg pre < 2 ^ 32 -> new_object p f n pre = Ret o ->
  Forall (fun c => is_grow c = false) qs -> Forall good_call qs ->
  exists answers, length answers = length qs
  /\ fst (ho_runs p o (qs ++ QGrow d :: cs)) = map Ret answers ++ Panic :: map poisoned_answer cs.
Proof.
  intros p f n pre o qs d cs Hn Hd Ho. destruct (object_fresh p f n pre o Hn Hd Ho) as (h & -> & F). apply fresh_history, F.
Qed.
(** before the first grow_up every query gets the answer it would get first, and nothing panics *)
Lemma c76_before : forall p f n pre o qs, n < 2 ^ 32 -> degree_arg pre < 2 ^ 32 -> new_object p f n pre = Ret o ->
  Forall (fun c => is_grow c = false) qs -> Forall good_call qs ->
  exists answers, fst (ho_runs p o qs) = map Ret answers /\ Forall2 (fun c a => fst (ho_runs p o [c]) = [Ret a]) qs answers.
Proof.
  intros p f n pre o qs Hn Hd Ho H1 H2. destruct (object_fresh p f n pre o Hn Hd Ho) as (h & -> & F).
  destruct (fresh_before p n h qs F H1 H2) as (as_ & E & _ & E2). exists as_. rewrite E. split; [reflexivity|].
  revert E2. clear. induction 1 as [|c a cs as' Hca HF IH]; constructor; [|exact IH]. cbn [ho_runs].
  destruct (ho_run p (ho_new n h) c) as [r o1]. cbn in *. congruence.
Qed.
Lemma c76_poisoned : forall p o cs, ho_poisoned o = true -> ho_runs p o cs = (map poisoned_answer cs, o).
Proof. exact poisoned_after. Qed.
Lemma c52_refuted : forall p f n pre o d c, n < 2 ^ 32 -> degree_arg pre < 2 ^ 32 -> new_object p f n pre = Ret o -> is_grow c = false ->
  fst (ho_runs p o [QGrow d; c]) = [Panic; Ret (inr HallSetReadError)].
Proof.
  intros p f n pre o d c Hn Hd Ho Hc. destruct (c76_history p f n pre o [] d [c] Hn Hd Ho) as (as_ & EL & E); [constructor|constructor|].
  destruct as_; [|discriminate]. cbn [app map] in E. rewrite E. unfold poisoned_answer. rewrite Hc. reflexivity.
Qed.
Example c52_example : exists o, new_object dev 60 12 (Some 4) = Ret o
  /\ fst (ho_runs dev o [QIsLetter 12; QRange 1; QGrow 3; QIsLetter 12; QGrow 2])
     = [Ret (inl (VBool true)); Ret (inl (VRange 12 78)); Panic; Ret (inr HallSetReadError); Ret (inr HallSetWriteError)].
Proof. eexists. split; [vm_compute; reflexivity|vm_compute; reflexivity]. Qed.
Example c76_example : exists o, new_object release 60 1 None = Ret o
  /\ fst (ho_runs dev o [QKey 1; QKey 0; QGrow 3; QKey 0]) = [Ret (inr HallSetTooSmall); Ret (inl (VInfo (0, 0, 0, 1))); Panic; Ret (inr HallSetReadError)].
Proof. eexists. split; [vm_compute; reflexivity|vm_compute; reflexivity]. Qed.

(** ** C77: lparent and parent of a key, given a Hall set *)
Lemma c77_same : forall p o k, hk_lparent p o k = hk_parent p o k.
Proof. reflexivity. Qed.
Lemma fresh_parents_of : forall p n h k, fresh_inner n h ->
  (0 < field k 36 18 -> hk_parent p (ho_new n h) k = Panic)
  /\ (field k 36 18 = 0 -> hk_parent p (ho_new n h) k = Ret ((if n =? 0 then 2 else 1) * 2 ^ 54)).
Proof.
  intros p n h k F. unfold hk_parent. rewrite get_rparent_ok. cbn [bind]. set (r := field k 36 18). clearbody r.
  unfold ho_run. cbn [ho_poisoned ho_inner ho_new fst]. destruct (fresh_details n h r F) as (_ & _ & E). rewrite E. split.
  - intros Hr. destruct (N.eqb_spec r 0); [lia|]. reflexivity.
  - intros ->. change (0 =? 0) with true. cbv iota. unfold to_value. cbn [bind].
    unfold zero_degree. rewrite make_ok by (destruct (n =? 0); lia). f_equal; lia.
Qed.
Lemma c77_parents : forall p f n pre o k, n < 2 ^ 32 -> degree_arg pre < 2 ^ 32 -> new_object p f n pre = Ret o ->
  (0 < field k 36 18 -> hk_parent p o k = Panic)
  /\ (field k 36 18 = 0 -> hk_parent p o k = Ret ((if n =? 0 then 2 else 1) * 2 ^ 54)).
Proof.
  intros p f n pre o k Hn Hd Ho. destruct (object_fresh p f n pre o Hn Hd Ho) as (h & -> & F). apply fresh_parents_of, F.
Qed.
Lemma c77_letters : forall p f n pre o a k, n < 2 ^ 32 -> degree_arg pre < 2 ^ 32 -> new_object p f n pre = Ret o ->
  1 <= a <= n -> a mod 2 ^ 18 <> 0 -> hk_from_letter p n a = Ret k -> hk_parent p o k = Panic /\ hk_lparent p o k = Panic.
Proof.
  intros p f n pre o a k Hn Hd Ho Ha Hb E. destruct (letter_index p n a k ltac:(lia) E) as (_ & E2 & _).
  assert (P : hk_parent p o k = Panic) by (apply (c77_parents p f n pre o k Hn Hd Ho); lia). split; [exact P|exact P].
Qed.
Example c77_example : (o <- new_object dev 60 12 None ;; k <- hk_from_letter dev 12 5 ;; hk_parent dev o k) = Panic
  /\ (o <- new_object dev 60 12 None ;; hk_parent dev o hk_new) = Ret (2 ^ 54).
Proof. split; vm_compute; reflexivity. Qed.
