(** One call of the basis iterator, from the key of any word. *)
From Verif Require Import Machine MachineLemmas S_Words L_Words M_TensorKey L_TensorKey M_TensorBasis L_TensorBasis S_TensorApi
  L_BasisIter S_KeyRaw L_KeyRaw S_IterKeys.
From Verif Require L_IterKeys.
Local Open Scope N_scope.
Notation next_key := L_IterKeys.next_key.

(** ** Clearing the last bits *)
Definition cut (x s : N) : N := x / 2 ^ s * 2 ^ s.
Lemma cut_0 x : cut x 0 = x. Proof. unfold cut. rewrite N.pow_0_r, N.div_1_r, N.mul_1_r. reflexivity. Qed.
Lemma cut_le x s : cut x s <= x.
Proof. unfold cut. rewrite N.mul_comm. apply N.mul_div_le. apply N.pow_nonzero. discriminate. Qed.
Lemma cut_zero x s : cut x s = 0 <-> x < 2 ^ s.
Proof.
  unfold cut. pose proof (N.pow_nonzero 2 s ltac:(discriminate)) as H. split; intros E.
  - apply N.mul_eq_0 in E. destruct E as [E|E]; [|contradiction]. apply N.div_small_iff; assumption.
  - rewrite N.div_small by exact E. reflexivity.
Qed.
Lemma cut_split h e r s : s <= e -> cut (h * 2 ^ e + r) s = h * 2 ^ e + cut r s.
Proof.
  intros Hs. unfold cut. pose proof (N.pow_nonzero 2 s ltac:(discriminate)) as H.
  replace (2 ^ e) with (2 ^ (e - s) * 2 ^ s) by (rewrite <- N.pow_add_r; f_equal; lia).
  rewrite N.mul_assoc, N.add_comm, N.div_add by exact H. rewrite N.mul_add_distr_r. apply N.add_comm.
Qed.
Lemma cut_read x s e : s <= e -> cut x s / 2 ^ e = x / 2 ^ e.
Proof.
  intros Hs. unfold cut. pose proof (N.pow_nonzero 2 s ltac:(discriminate)) as H. pose proof (N.pow_nonzero 2 (e - s) ltac:(discriminate)) as H'.
  replace (2 ^ e) with (2 ^ s * 2 ^ (e - s)) by (rewrite <- N.pow_add_r; f_equal; lia).
  rewrite <- !N.div_div by assumption. rewrite N.div_mul by exact H. reflexivity.
Qed.
Lemma cut_ldiff x s t b : t <= s -> s <= t + b -> N.ldiff (cut x s) (N.shiftl (N.ones b) t) = cut x (t + b).
Proof.
  intros H1 H2. unfold cut. rewrite <- !ldiff_low. apply N.bits_inj. intros i. rewrite !N.ldiff_spec.
  destruct (N.lt_ge_cases i t) as [Hi|Hi].
  - rewrite !(N.ones_spec_low _ i) by lia. rewrite !andb_false_r. reflexivity.
  - rewrite N.shiftl_spec_high by lia. destruct (N.lt_ge_cases i (t + b)) as [Hj|Hj].
    + rewrite (N.ones_spec_low b) by lia. rewrite (N.ones_spec_low (t + b)) by lia. rewrite !andb_false_r. reflexivity.
    + rewrite !N.ones_spec_high by lia. rewrite !andb_true_r. reflexivity.
Qed.
Lemma uadd_exact p x y z : z < 2 ^ 64 -> z <= x + y -> x + y < z + 2 ^ 64 -> uadd 64 p x y = Ret z <-> x + y = z.
Proof.
  intros Hz H1 H2. unfold uadd, overflowed. destruct (N.ltb_spec (x + y) (2 ^ 64)) as [H|H].
  - split; [intros E; injection E as ->; reflexivity|intros ->; reflexivity].
  - split; [|lia]. destruct (overflow_checks p); [discriminate|]. intros E.
    assert (E' : (x + y) mod 2 ^ 64 = z) by (inversion E; reflexivity). pose proof (N.div_mod (x + y) (2 ^ 64) ltac:(discriminate)) as M.
    rewrite E' in M. revert M. generalize ((x + y) / 2 ^ 64). clear E E'. intros q M. nia.
Qed.

Section Step.
  Context (p : profile) (n : N) (Hn : 2 <= n < 2 ^ 32).
  Notation b := (bits_per_letter n).
  Notation B := (2 ^ b).
  Lemma two_bits : 2 <= b.
  Proof.
    pose proof (bpl_upper n) as H. pose proof (bpl_pos n) as H1. destruct (N.eq_dec b 1) as [E|E]; [|lia]. rewrite E in H. change (2 ^ 1) with 2 in H. lia.
  Qed.
  Lemma Hn32 : n < 2 ^ 32. Proof. apply Hn. Qed.
  Definition place (i : N) : N := if i =? 0 then 0 else i - 1 + b.
  Lemma place_S i : place (i + 1) = i + b.
  Proof. unfold place. destruct (N.eqb_spec (i + 1) 0); lia. Qed.
  Lemma place_le i : place i <= i * b.
  Proof.
    unfold place. destruct (N.eqb_spec i 0); [lia|]. pose proof two_bits as H. revert H. generalize b. clear - n0. intros b H.
    set (k := i - 1). replace i with (k + 1) by lia. clearbody k. nia.
  Qed.
  Lemma place_ge i : i <= place i /\ place i <= i + b.
  Proof. unfold place. pose proof two_bits as H. destruct (N.eqb_spec i 0); lia. Qed.

  Section Word.
    Context (w : word) (Hf : fits n w).
    Notation D := (enc b w).
    Lemma room_at i : i < len w -> i * b + b <= 64.
    Proof. intros Hi. pose proof (fits_bits n w Hn32 Hf) as H. pose proof two_bits. nia. Qed.
    Lemma data_ok s : cut D s < 2 ^ 64.
    Proof. eapply N.le_lt_trans; [apply cut_le|]. apply key_data_bound; [exact Hn32|exact Hf]. Qed.
    Lemma set_cut i v : i < len w -> 1 <= v -> (v - 1) * 2 ^ (b * i) < 2 ^ 64 ->
      tk_set_letter p n (mk_tkey (len w) (cut D (place i))) i v
      = (d <- uadd 64 p (cut D (i + b)) ((v - 1) * 2 ^ (b * i)) ;; Ret (mk_tkey (len w) d)).
    Proof.
      intros Hi Hv Hs. pose proof (room_at i Hi) as Hr. pose proof two_bits as H2. pose proof (bpl_le_32 n Hn32) as H32. pose proof (place_ge i) as (P1 & P2).
      unfold tk_set_letter. cbn [tk_size tk_data]. destruct (N.leb_spec (len w) i) as [H|H]; [exfalso; clear - H Hi; lia|].
      assert (Hib : i <= i * b) by (clear - H2; nia).
      rewrite make_mask_ok by (clear - Hr Hib H32 H2; lia). cbn [bind]. rewrite land_not64 by apply data_ok. rewrite cut_ldiff by assumption.
      assert (v - 1 < 2 ^ 64). { clear - Hs. pose proof (pow2_pos (b * i)). nia. }
      rewrite usub_ok by assumption. cbn [bind]. rewrite umul_ok by (clear - Hr; lia). cbn [bind].
      rewrite ushl_ok by (try assumption; clear - Hr H2; lia). reflexivity.
    Qed.
    Lemma get_cut u a v : w = u ++ a :: v -> tk_get_letter p n (mk_tkey (len w) (cut D (place (len v)))) (len v) = Ret a.
    Proof.
      intros E. assert (Hl : len v < len w) by (rewrite E, len_app, len_cons; clear; lia). pose proof (room_at _ Hl) as Hr.
      pose proof (get_letter_key p n u a v Hn32) as G. rewrite <- E in G. specialize (G Hf). rewrite <- G. unfold tk_get_letter.
      rewrite !get_letter_unadjusted_ok by (exact Hn32 || exact Hr). cbn [tk_data key_of]. rewrite cut_read by apply place_le. reflexivity.
    Qed.
    (** a letter n becomes 1, with what is left of it *)
    Lemma step_n md u v : w = u ++ n :: v ->
      bi_next_step p n md (mk_tkey (len w) (cut D (place (len v))), len v) = inl (mk_tkey (len w) (cut D (place (len v + 1))), len v + 1).
    Proof.
      intros E. assert (Hl : len v < len w) by (rewrite E, len_app, len_cons; clear; lia). pose proof (room_at _ Hl) as Hr.
      unfold bi_next_step. cbn [tk_size]. destruct (N.eqb_spec (len v) (len w)) as [H|_]; [exfalso; clear - H Hl; lia|].
      rewrite (get_cut _ _ _ E), N.eqb_refl. rewrite set_cut; [|exact Hl|reflexivity|reflexivity]. change (1 - 1) with 0. rewrite N.mul_0_l.
      rewrite uadd_ok by (rewrite N.add_0_r; apply data_ok). cbn [bind]. rewrite N.add_0_r.
      assert (len v < 2 ^ 31). { pose proof two_bits. clear - Hr H. nia. }
      rewrite uadd_ok by (clear - H; lia). cbn [bind]. rewrite place_S. reflexivity.
    Qed.
    Lemma step_other md u a v : w = u ++ a :: v -> a <> n ->
      bi_next_step p n md (mk_tkey (len w) (cut D (place (len v))), len v)
      = inr (d <- uadd 64 p (cut D (len v + b)) (a * 2 ^ (b * len v)) ;; Ret (Some (mk_tkey (len w) d))).
    Proof.
      intros E Ha. assert (Hl : len v < len w) by (rewrite E, len_app, len_cons; clear; lia). pose proof (room_at _ Hl) as Hr.
      assert (Hw : 1 <= a <= n). { destruct Hf as [Hw _]. rewrite E in Hw. apply Forall_app in Hw. destruct Hw as [_ Hw]. inversion Hw; assumption. }
      unfold bi_next_step. cbn [tk_size]. destruct (N.eqb_spec (len v) (len w)) as [H|_]; [exfalso; clear - H Hl; lia|].
      rewrite (get_cut _ _ _ E). destruct (N.eqb_spec a n) as [H|_]; [contradiction|].
      rewrite uadd_ok by (clear - Hw Hn Ha; lia). cbn [bind]. rewrite set_cut; [|exact Hl|clear; lia|].
      - rewrite N.add_sub. destruct (uadd 64 p (cut D (len v + b)) (a * 2 ^ (b * len v))); reflexivity.
      - rewrite N.add_sub. pose proof (bpl_upper n) as HB. eapply N.lt_le_trans with (B * 2 ^ (b * len v)).
        + apply N.mul_lt_mono_pos_r; [apply pow2_pos|]. clear - Hw HB. lia.
        + rewrite <- N.pow_add_r. apply pow2_le_64. clear - Hr. lia.
    Qed.
    Lemma steps_n md u j : w = u ++ repeat n j ->
      steps j (bi_next_step p n md) (key_of n w, 0) = inl (mk_tkey (len w) (cut D (place (N.of_nat j))), N.of_nat j).
    Proof.
      revert u. induction j as [|j IH]; intros u E.
      - cbn [steps]. change (place (N.of_nat 0)) with 0. rewrite cut_0. reflexivity.
      - replace (Datatypes.S j) with (j + 1)%nat by lia. rewrite steps_add. rewrite (IH (u ++ [n])) by (rewrite <- app_assoc; exact E).
        cbn [steps]. pose proof (step_n md u (repeat n j) E) as G. unfold len in G at 2 3 5 6. rewrite repeat_length in G. rewrite G.
        do 2 f_equal; [f_equal; f_equal; f_equal|]; lia.
    Qed.
  End Word.
  Lemma len_rep (a : N) j : len (repeat a j) = N.of_nat j. Proof. unfold len. rewrite repeat_length. reflexivity. Qed.
  Lemma next_letter u a j : let w := u ++ a :: repeat n j in fits n w -> a <> n ->
    next_key p n (key_of n w) = (d <- uadd 64 p (cut (enc b w) (N.of_nat j + b)) (a * 2 ^ (b * N.of_nat j)) ;; Ret (Some (mk_tkey (len w) d))).
  Proof.
    intros w Hf Ha. unfold L_IterKeys.next_key. apply (run_loop_steps (j + 1)).
    - rewrite steps_add, (steps_n w Hf _ (u ++ [a])) by (rewrite <- app_assoc; reflexivity). cbn [steps].
      pose proof (step_other w Hf (max_depth n) u a (repeat n j) eq_refl Ha) as G. rewrite !len_rep in G. rewrite G. reflexivity.
    - pose proof (room_at w Hf (N.of_nat j)) as Hr. unfold w in Hr. rewrite len_app, len_cons, len_rep in Hr. specialize (Hr ltac:(lia)).
      pose proof two_bits. clear - Hr H. assert (N.of_nat j <= 64) by nia. lia.
  Qed.
  Lemma next_full j : let w := repeat n j in fits n w ->
    next_key p n (key_of n w) = if N.of_nat j =? max_depth n then Ret None else Ret (Some (mk_tkey (N.of_nat j + 1) (cut (enc b w) (place (N.of_nat j))))).
  Proof.
    intros w Hf. pose proof (fits_bits n w Hn32 Hf) as Hr. pose proof two_bits as H2. pose proof (data_ok w Hf (place (N.of_nat j))) as Hd.
    assert (Hw : len w = N.of_nat j) by apply len_rep. rewrite Hw in Hr.
    unfold L_IterKeys.next_key. apply (run_loop_steps (j + 1)).
    - rewrite steps_add, (steps_n w Hf _ []) by reflexivity. cbn [steps]. unfold bi_next_step. cbn [tk_size]. rewrite Hw, N.eqb_refl.
      destruct (N.eqb_spec (N.of_nat j) (max_depth n)) as [E|E]; [reflexivity|].
      assert (Hl : N.of_nat j < max_depth n). { destruct Hf as [_ Hl]. rewrite Hw in Hl. clear - Hl E. lia. }
      pose proof (max_depth_fits n Hn32) as Hm. pose proof (bpl_le_32 n Hn32) as H32.
      unfold tk_push_front. cbn [tk_size]. rewrite debug_assert_ok by (clear - Hl; lia). cbn [bind]. rewrite debug_assert_ok by (clear - Hn; lia). cbn [bind].
      rewrite usub_ok by reflexivity. cbn [bind]. unfold tk_push_front_raw, letter_mask. rewrite make_mask_ok by (clear - H2 H32; lia). cbn [bind tk_size tk_data].
      change (N.land (1 - 1) _) with 0. rewrite umul_ok by (clear - Hr; lia). cbn [bind].
      rewrite ushl_ok; [|clear - Hm Hl H2; nia|reflexivity]. cbn [bind]. rewrite N.mul_0_l.
      rewrite uadd_ok by (rewrite N.add_0_r; exact Hd). cbn [bind]. rewrite uadd_ok by (clear - Hr H2; nia). cbn [bind]. rewrite N.add_0_r. reflexivity.
    - clear - Hr H2. assert (N.of_nat j <= 64) by nia. lia.
  Qed.

  (** ** What is right *)
  Lemma enc_ones j : enc b (repeat 1 j) = 0.
  Proof. pose proof (enc_pad b j []) as H. rewrite app_nil_r in H. exact H. Qed.
  Lemma enc_rep_S j : enc b (repeat n (Datatypes.S j)) = (n - 1) * 2 ^ (b * N.of_nat j) + enc b (repeat n j).
  Proof. cbn [repeat]. rewrite enc_cons, len_rep. reflexivity. Qed.
  Lemma rep_ok j : word_ok n (repeat n j).
  Proof. apply Forall_forall. intros x Hx. apply repeat_spec in Hx. subst x. lia. Qed.
  Lemma rep_bound j : enc b (repeat n j) < 2 ^ (b * N.of_nat j).
  Proof. rewrite <- (len_rep n j). apply enc_bound. apply word_ok_below. apply rep_ok. Qed.
  Lemma rep_large j s : (1 <= j)%nat -> s <= b * (N.of_nat j - 1) -> 2 ^ s <= enc b (repeat n j).
  Proof.
    intros Hj Hs. destruct j as [|j]; [lia|]. rewrite enc_rep_S. replace (N.of_nat (Datatypes.S j) - 1) with (N.of_nat j) in Hs by lia.
    eapply N.le_trans; [apply (N.pow_le_mono_r 2 s (b * N.of_nat j)); [discriminate|exact Hs]|]. pose proof (pow2_pos (b * N.of_nat j)).
    assert (1 * 2 ^ (b * N.of_nat j) <= (n - 1) * 2 ^ (b * N.of_nat j)) by (apply N.mul_le_mono_r; lia). lia.
  Qed.
  Lemma rep_1 : enc b (repeat n 1) = n - 1. Proof. rewrite enc_rep_S. cbn [repeat]. rewrite N.mul_0_r, enc_nil. cbn. lia. Qed.
  Lemma rep_2 : enc b (repeat n 2) = (n - 1) * B + (n - 1).
  Proof. rewrite enc_rep_S, rep_1. change (N.of_nat 1) with 1. rewrite N.mul_1_r. reflexivity. Qed.
  Lemma rep_3 : enc b (repeat n 3) = (n - 1) * (B * B) + ((n - 1) * B + (n - 1)).
  Proof. rewrite enc_rep_S, rep_2. change (N.of_nat 2) with 2. replace (b * 2) with (b + b) by lia. rewrite N.pow_add_r. reflexivity. Qed.
  (** a small number of letters *)
  Lemma B_of m : n = m -> B = 2 ^ bits_per_letter m. Proof. intros ->. reflexivity. Qed.
  Lemma B_ge : 4 <= B. Proof. pose proof two_bits as H. change 4 with (2 ^ 2). apply N.pow_le_mono_r; [discriminate|exact H]. Qed.
  Lemma B_ge_8 : 4 <= n -> 8 <= B.
  Proof.
    intros H. change 8 with (2 ^ 3). apply N.pow_le_mono_r; [discriminate|]. pose proof (bpl_upper n) as H1. pose proof two_bits as H2.
    destruct (N.eq_dec b 2) as [E|E]; [|lia]. rewrite E in H1. change (2 ^ 2) with 4 in H1. lia.
  Qed.
  Lemma fits_middle j : (2 <= j)%nat -> enc b (repeat n j) < 2 ^ (N.of_nat j + b) <-> (j = 2%nat /\ n <= 4) \/ (j = 3%nat /\ n = 2).
  Proof.
    intros Hj. pose proof two_bits as H2. pose proof B_ge as HB. destruct j as [|[|[|[|j]]]]; [lia|lia| | |].
    - rewrite rep_2. rewrite N.pow_add_r. change (2 ^ N.of_nat 2) with 4. split.
      + intros H. left. split; [reflexivity|]. destruct (N.le_gt_cases n 4) as [|H4]; [assumption|exfalso]. clear - H H4. nia.
      + intros [(_ & H)|(H & _)]; [|discriminate]. assert (n = 2 \/ n = 3 \/ n = 4) as C by (clear - H Hn; lia). clear - C HB. generalize dependent B. intros B HB. nia.
    - rewrite rep_3. rewrite N.pow_add_r. change (2 ^ N.of_nat 3) with 8. split.
      + intros H. right. split; [reflexivity|]. destruct (N.eq_dec n 2) as [|E]; [assumption|exfalso].
        destruct (N.eq_dec n 3) as [E3|E3].
        * rewrite (B_of 3 E3), E3 in H. vm_compute in H. discriminate.
        * pose proof (B_ge_8 ltac:(lia)) as H8. clear - H E E3 Hn H8. revert H H8. generalize B. intros B H H8. assert (3 <= n - 1) by lia. nia.
      + intros [(H & _)|(_ & H)]; [discriminate|]. rewrite (B_of 2 H), H. reflexivity.
    - split; [|intros [(H & _)|(H & _)]; discriminate]. intros H. exfalso. apply N.lt_nge in H. apply H. apply rep_large; [lia|].
      clear - H2. replace (N.of_nat (Datatypes.S (Datatypes.S (Datatypes.S (Datatypes.S j)))) - 1) with (N.of_nat j + 3) by lia. nia.
  Qed.
  Lemma fits_full j : enc b (repeat n j) < 2 ^ place (N.of_nat j) <-> (j <= 1)%nat \/ (j = 2%nat /\ n = 2).
  Proof.
    pose proof two_bits as H2. pose proof (bpl_upper n) as Hu. destruct j as [|[|[|j]]].
    - split; [left; lia|]. reflexivity.
    - split; [left; lia|]. intros _. rewrite rep_1. change (place (N.of_nat 1)) with (0 + b). rewrite N.add_0_l. clear - Hu Hn. lia.
    - rewrite rep_2. change (place (N.of_nat 2)) with (1 + b). rewrite N.pow_add_r, N.pow_1_r. pose proof B_ge as HB. split.
      + intros H. right. split; [reflexivity|]. clear - H Hn. revert H. generalize B. intros B H. destruct (N.eq_dec n 2); [assumption|exfalso; nia].
      + intros [H|(_ & H)]; [lia|]. rewrite (B_of 2 H), H. reflexivity.
    - split; [|intros [H|(H & _)]; [lia|discriminate]]. intros H. exfalso. apply N.lt_nge in H. apply H. apply rep_large; [lia|].
      replace (N.of_nat (Datatypes.S (Datatypes.S (Datatypes.S j)))) with (N.of_nat j + 2 + 1) by lia. rewrite place_S. clear - H2. nia.
  Qed.

  (** ** From u a n...n *)
  Lemma right_letter u a j : let w := u ++ a :: repeat n j in fits n w -> a <> n ->
    next_key p n (key_of n w) = Ret (Some (key_of n (u ++ (a + 1) :: repeat 1 j)))
    <-> j = 0%nat \/ (j = 1%nat /\ a <= 2) \/ (j = 2%nat /\ a = 1 /\ n <= 4) \/ (j = 3%nat /\ a = 1 /\ n = 2).
  Proof.
    intros w Hf Ha. unfold w. rewrite next_letter by assumption. fold w.
    assert (Hw : 1 <= a <= n). { destruct Hf as [Hw _]. apply Forall_app in Hw. destruct Hw as [_ Hw]. inversion Hw; assumption. }
    assert (Hf' : fits n (u ++ (a + 1) :: repeat 1 j)).
    { destruct Hf as [H1 H2]. apply Forall_app in H1. destruct H1 as [H1 _]. split.
      - apply Forall_app. split; [exact H1|]. constructor; [lia|]. apply Forall_forall. intros x Hx. apply repeat_spec in Hx. subst x. lia.
      - unfold w in H2. rewrite len_app, len_cons, len_rep in *. exact H2. }
    pose proof (key_data_bound n _ Hn32 Hf') as Hz.
    assert (Ez : enc b (u ++ (a + 1) :: repeat 1 j) = (enc b u * B + (a - 1) + 1) * 2 ^ (b * N.of_nat j)).
    { rewrite enc_app, enc_cons, enc_ones, len_cons, !len_rep. rewrite N.mul_add_distr_l, N.mul_1_r, N.pow_add_r. clear - Hw. nia. }
    assert (El : len (u ++ (a + 1) :: repeat 1 j) = len w) by (unfold w; rewrite !len_app, !len_cons, !len_rep; reflexivity).
    unfold key_of at 1. rewrite El.
    assert (Eq : forall o d', (d <- o ;; Ret (Some (mk_tkey (len w) d))) = Ret (Some (mk_tkey (len w) d')) <-> o = Ret d').
    { intros o d'. destruct o as [d| | |]; cbn [bind]; split; intros E; try discriminate; injection E as ->; reflexivity. }
    rewrite Eq. clear Eq.
    assert (ED : enc b w = (enc b u * B + (a - 1)) * 2 ^ (b * N.of_nat j) + enc b (repeat n j)).
    { unfold w. rewrite enc_app, enc_cons, len_cons, !len_rep. rewrite N.mul_add_distr_l, N.mul_1_r, N.pow_add_r.
      generalize (enc b (repeat n j)). clear. intros. nia. }
    pose proof (room_at w Hf (N.of_nat j)) as Hr. unfold w in Hr at 1. rewrite len_app, len_cons, len_rep in Hr. specialize (Hr ltac:(lia)).
    pose proof (bpl_upper n) as Hu. pose proof two_bits as H2. pose proof (pow2_pos (b * N.of_nat j)) as HE.
    assert (HaE : a * 2 ^ (b * N.of_nat j) < 2 ^ 64).
    { eapply N.lt_le_trans with (B * 2 ^ (b * N.of_nat j)).
      - apply N.mul_lt_mono_pos_r; [exact HE|]. clear - Hw Hu. lia.
      - rewrite <- N.pow_add_r. apply pow2_le_64. clear - Hr. lia. }
    rewrite Ez in Hz |- *. rewrite ED.
    destruct j as [|[|j]].
    - (* the last letter *)
      split; [left; reflexivity|]. intros _. change (N.of_nat 0) with 0 in *. rewrite N.mul_0_r, N.pow_0_r, !N.mul_1_r in *. cbn [repeat].
      rewrite enc_nil, N.add_0_r, N.add_0_l. rewrite (cut_split _ b) by apply N.le_refl.
      rewrite (proj2 (cut_zero (a - 1) b)) by (clear - Hu Hw; lia). rewrite N.add_0_r. rewrite uadd_ok.
      + f_equal. clear - Hw. lia.
      + clear - Hz Hw. lia.
    - (* one letter n *)
      change (N.of_nat 1) with 1 in *. rewrite !N.mul_1_r in *. rewrite rep_1.
      set (H := enc b u * B + (a - 1)) in *.
      assert (Ec : cut (H * B + (n - 1)) (1 + b) = H / 2 * 2 * B).
      { unfold cut. rewrite N.add_comm, (N.add_comm 1 b), N.pow_add_r, N.pow_1_r. rewrite <- N.div_div by (try apply N.pow_nonzero; discriminate).
        rewrite N.div_add by (apply N.pow_nonzero; discriminate). rewrite (N.div_small (n - 1)) by (clear - Hu; lia). rewrite N.add_0_l.
        rewrite (N.mul_comm B 2). apply N.mul_assoc. }
      rewrite Ec.
      assert (Em : H / 2 * 2 + (a - 1) mod 2 = H).
      { assert (HB2 : B = 2 * 2 ^ (b - 1)) by (rewrite <- N.pow_succ_r'; f_equal; clear - H2; lia).
        assert (E2 : H mod 2 = (a - 1) mod 2).
        { unfold H. rewrite HB2. replace (enc b u * (2 * 2 ^ (b - 1)) + (a - 1)) with (a - 1 + enc b u * 2 ^ (b - 1) * 2).
          - apply N.mod_add. discriminate.
          - generalize (enc b u) (2 ^ (b - 1)). clear. intros. nia. }
        rewrite <- E2. pose proof (N.div_mod H 2 ltac:(discriminate)) as E. rewrite N.mul_comm in E. symmetry. exact E. }
      assert (Hm : (a - 1) mod 2 <= a - 1) by (apply N.mod_le; discriminate).
      assert (Hm2 : (a - 1) mod 2 < 2) by (apply N.mod_lt; discriminate).
      assert (Hs : (a - 1) mod 2 = a - 1 <-> a <= 2).
      { split; [clear - Hm2; lia|]. intros Ha2. apply N.mod_small. clear - Ha2 Hw. lia. }
      rewrite uadd_exact.
      + rewrite <- N.mul_add_distr_r. revert Em Hm Hs. generalize (H / 2 * 2) ((a - 1) mod 2). intros h m Em Hm Hs. split.
        * intros E. right. left. split; [reflexivity|]. apply N.mul_cancel_r in E; [|apply N.pow_nonzero; discriminate]. apply Hs. clear - E Em Hm Hw. lia.
        * intros [C|[(_ & C)|[(C & _)|(C & _)]]]; try discriminate. f_equal. apply Hs in C. clear - C Em Hw. lia.
      + exact Hz.
      + rewrite <- N.mul_add_distr_r. apply N.mul_le_mono_r. revert Em Hm. generalize (H / 2 * 2) ((a - 1) mod 2). clear - Hw. intros. lia.
      + apply N.add_lt_mono; [|]; cycle 1. exact HaE.
        apply N.mul_lt_mono_pos_r; [exact HE|]. revert Em. generalize (H / 2 * 2) ((a - 1) mod 2). clear. intros. lia.
    - (* more *)
      set (m := Datatypes.S (Datatypes.S j)) in *. assert (Hm : N.of_nat m + b <= b * N.of_nat m).
      { unfold m. replace (N.of_nat (Datatypes.S (Datatypes.S j))) with (N.of_nat j + 2) by lia. clear - H2. nia. }
      rewrite cut_split by exact Hm. set (H := enc b u * B + (a - 1)) in *. set (E := 2 ^ (b * N.of_nat m)) in *.
      pose proof (cut_le (enc b (repeat n m)) (N.of_nat m + b)) as Hc. pose proof (rep_bound m) as Hrb. fold E in Hrb.
      pose proof (cut_zero (enc b (repeat n m)) (N.of_nat m + b)) as Cz. rewrite fits_middle in Cz by (unfold m; lia).
      assert (HBE : a * E < 2 ^ 64) by exact HaE.
      rewrite uadd_exact.
      + transitivity (cut (enc b (repeat n m)) (N.of_nat m + b) = 0 /\ a = 1).
        * revert Hc Hrb. generalize (cut (enc b (repeat n m)) (N.of_nat m + b)) (enc b (repeat n m)). clearbody H E. clear - Hw HE. intros c R Hc Hrb. split.
          -- intros Eq. assert (a = 1) by nia. subst a. split; [nia|reflexivity].
          -- intros (-> & ->). nia.
        * rewrite Cz. unfold m. split.
          -- intros ([(C1 & C2)|(C1 & C2)] & ->); right; right; [left|right]; auto.
          -- intros [C|[(C & _)|[(C1 & -> & C2)|(C1 & -> & C2)]]]; try discriminate; (split; [|reflexivity]); [left|right]; auto.
      + exact Hz.
      + revert Hc. generalize (cut (enc b (repeat n m)) (N.of_nat m + b)). clearbody H E. clear - Hw HE. intros. nia.
      + revert Hc Hrb. generalize (cut (enc b (repeat n m)) (N.of_nat m + b)) (enc b (repeat n m)). clearbody H E. clear - Hw HE HBE. intros. nia.
  Qed.
  Lemma right_full j : let w := repeat n j in fits n w -> N.of_nat j <> max_depth n ->
    next_key p n (key_of n w) = Ret (Some (key_of n (repeat 1 (Datatypes.S j)))) <-> (j <= 1)%nat \/ (j = 2%nat /\ n = 2).
  Proof.
    intros w Hf Hj. unfold w. rewrite next_full by exact Hf. destruct (N.eqb_spec (N.of_nat j) (max_depth n)) as [E|_]; [contradiction|].
    rewrite <- fits_full, <- cut_zero. unfold key_of. rewrite enc_ones, len_rep. split.
    - intros E. injection E as _ E. exact E.
    - intros ->. do 3 f_equal. lia.
  Qed.
  (** ** The next word *)
  Lemma app_cons_assoc (u : word) (a : N) v : u ++ a :: v = (u ++ [a]) ++ v.
  Proof. rewrite <- app_assoc. reflexivity. Qed.
  Lemma succ_tail u v j : windex n v = windex n u + 1 -> windex n (v ++ repeat 1 j) = windex n (u ++ repeat n j) + 1.
  Proof.
    revert u v. induction j as [|j IH]; intros u v E; cbn [repeat].
    - rewrite !app_nil_r. exact E.
    - rewrite (app_cons_assoc v), (app_cons_assoc u). apply IH. rewrite !windex_snoc, E. lia.
  Qed.
  Lemma succ_letter u a j : windex n (u ++ (a + 1) :: repeat 1 j) = windex n (u ++ a :: repeat n j) + 1.
  Proof. rewrite (app_cons_assoc u (a + 1)), (app_cons_assoc u a). apply succ_tail. rewrite !windex_snoc. lia. Qed.
  Lemma succ_full j : windex n (repeat 1 (Datatypes.S j)) = windex n (repeat n j) + 1.
  Proof. apply (succ_tail [] [1] j). reflexivity. Qed.
  Lemma tail_split w : word_ok n w -> (exists j, w = repeat n j) \/ (exists u a j, w = u ++ a :: repeat n j /\ a <> n).
  Proof.
    induction w as [|x w IH] using rev_ind; intros Hw.
    - left. exists 0%nat. reflexivity.
    - apply Forall_app in Hw. destruct Hw as [Hw _]. destruct (N.eq_dec x n) as [->|Hx].
      + destruct (IH Hw) as [(j & ->)|(u & a & j & -> & Ha)].
        * left. exists (Datatypes.S j). rewrite <- repeat_cons. reflexivity.
        * right. exists u, a, (Datatypes.S j). split; [|exact Ha]. rewrite <- app_assoc. cbn [app]. rewrite <- repeat_cons. reflexivity.
      + right. exists w, x, 0%nat. split; [reflexivity|exact Hx].
  Qed.
  Lemma right_next w : fits n w -> w <> repeat n (N.to_nat (max_depth n)) ->
    (exists v, word_ok n v /\ windex n v = windex n w + 1 /\ next_key p n (key_of n w) = Ret (Some (key_of n v))) <-> goes_right n w.
  Proof.
    intros Hf Hlast. destruct Hf as [Hw Hl]. assert (Hf : fits n w) by (split; assumption).
    assert (W1 : forall j, word_ok n (repeat 1 j)) by (intros j; apply Forall_forall; intros x Hx; apply repeat_spec in Hx; subst x; lia).
    split.
    - intros (v & Hv & Hi & E). destruct (tail_split w Hw) as [(j & ->)|(u & a & j & -> & Ha)].
      + assert (Hj : N.of_nat j <> max_depth n) by (intros Ej; apply Hlast; f_equal; lia).
        rewrite <- succ_full in Hi. apply windex_inj in Hi; [|exact Hv|apply W1]. subst v.
        apply (right_full j Hf Hj) in E. unfold goes_right. destruct E as [E|(-> & E)].
        * destruct j as [|[|j]]; [| |lia]; cbn [repeat]; auto 10.
        * do 6 right. split; [reflexivity|exact E].
      + assert (Hu : word_ok n u /\ 1 <= a <= n) by (apply Forall_app in Hw; destruct Hw as [H1 H2]; inversion H2; split; assumption).
        rewrite <- succ_letter in Hi. apply windex_inj in Hi; [|exact Hv|].
        * subst v. apply (right_letter u a j Hf Ha) in E. unfold goes_right. destruct E as [->|[(-> & E)|[(-> & -> & E)|(-> & -> & E)]]].
          -- left. exists u, a. split; [reflexivity|lia].
          -- right. left. exists u, a. split; [reflexivity|]. lia.
          -- do 2 right. left. exists u. split; [reflexivity|exact E].
          -- do 3 right. left. exists u. split; [reflexivity|exact E].
        * apply Forall_app. split; [apply Hu|]. constructor; [lia|apply W1].
    - assert (L : forall u a j, w = u ++ a :: repeat n j -> a <> n ->
        j = 0%nat \/ (j = 1%nat /\ a <= 2) \/ (j = 2%nat /\ a = 1 /\ n <= 4) \/ (j = 3%nat /\ a = 1 /\ n = 2) ->
        exists v, word_ok n v /\ windex n v = windex n w + 1 /\ next_key p n (key_of n w) = Ret (Some (key_of n v))).
      { intros u a j E Ha C. exists (u ++ (a + 1) :: repeat 1 j). subst w. split; [|split].
        - apply Forall_app in Hw. destruct Hw as [H1 H2]. inversion H2. apply Forall_app. split; [exact H1|]. constructor; [lia|apply W1].
        - apply succ_letter.
        - apply right_letter; assumption. }
      assert (F : forall j, w = repeat n j -> (j <= 1)%nat \/ (j = 2%nat /\ n = 2) ->
        exists v, word_ok n v /\ windex n v = windex n w + 1 /\ next_key p n (key_of n w) = Ret (Some (key_of n v))).
      { intros j E C. exists (repeat 1 (Datatypes.S j)). subst w. split; [apply W1|]. split; [apply succ_full|]. apply right_full; [exact Hf| |exact C].
        intros Ej. apply Hlast. f_equal. lia. }
      intros [(u & a & E & C)|[(u & a & E & C1 & C2)|[(u & E & C)|[(u & E & C)|[E|[E|(E & C)]]]]]].
      + apply (L u a 0%nat E); [lia|auto].
      + apply (L u a 1%nat E); [lia|auto].
      + apply (L u 1 2%nat E); [lia|auto 10].
      + apply (L u 1 3%nat E); [lia|auto 10].
      + apply (F 0%nat E). auto.
      + apply (F 1%nat E). auto.
      + apply (F 2%nat E). auto.
  Qed.
  Lemma last_next : let w := repeat n (N.to_nat (max_depth n)) in next_key p n (key_of n w) = Ret None.
  Proof.
    intros w. unfold w. rewrite next_full.
    - rewrite N2Nat.id, N.eqb_refl. reflexivity.
    - split; [apply rep_ok|]. rewrite len_rep, N2Nat.id. apply N.le_refl.
  Qed.
End Step.

(** ** From any key *)
Section Total.
  Context (p : profile).
  Definition tame {A} (o : outcome A) : Prop := (exists a, o = Ret a) \/ (o = Panic /\ overflow_checks p = true).
  Lemma tame_ret {A} (a : A) : tame (Ret a). Proof. left. exists a. reflexivity. Qed.
  Lemma tame_bind {A C} (o : outcome A) (f : A -> outcome C) : tame o -> (forall a, tame (f a)) -> tame (a <- o ;; f a).
  Proof. intros [(a & ->)|(-> & H)] Hf; [apply Hf|right; split; [reflexivity|exact H]]. Qed.
  Lemma tame_over (x : N) : tame (overflowed p x).
  Proof. unfold overflowed, tame. destruct (overflow_checks p); [right; split; reflexivity|left; eexists; reflexivity]. Qed.
  Lemma tame_uadd w a c : tame (uadd w p a c). Proof. unfold uadd. destruct (_ <? _); [apply tame_ret|apply tame_over]. Qed.
  Lemma tame_usub w a c : tame (usub w p a c). Proof. unfold usub. destruct (_ <=? _); [apply tame_ret|apply tame_over]. Qed.
  Lemma tame_umul w a c : tame (umul w p a c). Proof. unfold umul. destruct (_ <? _); [apply tame_ret|apply tame_over]. Qed.
  Lemma tame_ushl w a c : tame (ushl w p a c). Proof. unfold ushl. destruct (_ <? _); [apply tame_ret|apply tame_over]. Qed.
  Lemma tame_ushr w a c : tame (ushr w p a c). Proof. unfold ushr. destruct (_ <? _); [apply tame_ret|apply tame_over]. Qed.
  Lemma tame_mask a c : tame (make_mask p a c).
  Proof. unfold make_mask. repeat (apply tame_bind; [first [apply tame_ushl|apply tame_usub]|intros ?]). apply tame_ushl. Qed.
  Lemma tame_get n k i : tame (tk_get_letter p n k i).
  Proof.
    unfold tk_get_letter, tk_get_letter_unadjusted. apply tame_bind; [|intros; apply tame_uadd].
    repeat (apply tame_bind; [first [apply tame_umul|apply tame_mask|apply tame_ushr]|intros ?]). apply tame_ret.
  Qed.
  Lemma tame_set n k i v : i < tk_size k -> tame (tk_set_letter p n k i v).
  Proof.
    intros Hi. unfold tk_set_letter. destruct (N.leb_spec (tk_size k) i) as [H|_]; [lia|].
    repeat (apply tame_bind; [first [apply tame_umul|apply tame_mask|apply tame_ushl|apply tame_usub|apply tame_uadd]|intros ?]). apply tame_ret.
  Qed.
  Lemma set_size n k i v k' : tk_set_letter p n k i v = Ret k' -> tk_size k' = tk_size k.
  Proof.
    unfold tk_set_letter. destruct (_ <=? _); [discriminate|].
    destruct (make_mask _ _ _); try discriminate. cbn [bind]. destruct (usub _ _ _ _); try discriminate. cbn [bind].
    destruct (umul _ _ _ _); try discriminate. cbn [bind]. destruct (ushl _ _ _ _); try discriminate. cbn [bind].
    destruct (uadd _ _ _ _); try discriminate. cbn [bind]. intros E. injection E as <-. reflexivity.
  Qed.
  Definition tame_or_assert {A} (o : outcome A) : Prop :=
    (exists a, o = Ret a) \/ (o = Panic /\ (overflow_checks p = true \/ debug_assertions p = true)).
  Lemma tame_weak {A} (o : outcome A) : tame o -> tame_or_assert o.
  Proof. intros [H|(H & H1)]; [left; exact H|right; split; [exact H|left; exact H1]]. Qed.
  Lemma toa_bind {A C} (o : outcome A) (f : A -> outcome C) : tame_or_assert o -> (forall a, tame_or_assert (f a)) -> tame_or_assert (a <- o ;; f a).
  Proof. intros [(a & ->)|(-> & H)] Hf; [apply Hf|right; split; [reflexivity|exact H]]. Qed.
  Lemma toa_assert c : tame_or_assert (debug_assert p c).
  Proof.
    unfold debug_assert, tame_or_assert. destruct (debug_assertions p), c; cbn; try (left; eexists; reflexivity). right. split; [reflexivity|right; reflexivity].
  Qed.
  Lemma toa_push n k a : tame_or_assert (tk_push_front p n k a).
  Proof.
    unfold tk_push_front. apply toa_bind; [apply toa_assert|intros _]. apply toa_bind; [apply toa_assert|intros _].
    apply tame_weak. apply tame_bind; [apply tame_usub|intros l]. unfold tk_push_front_raw, letter_mask.
    repeat (apply tame_bind; [first [apply tame_umul|apply tame_mask|apply tame_ushl|apply tame_usub|apply tame_uadd]|intros ?]). apply tame_ret.
  Qed.
  Lemma next_total n md k : tk_size k < 2 ^ 32 -> tame_or_assert (run_loop (bi_next_step p n md) (k, 0)).
  Proof.
    intros Hk. assert (G : forall m k i, tk_size k - i = N.of_nat m -> i <= tk_size k -> tk_size k < 2 ^ 32 ->
      exists r, steps (m + 1) (bi_next_step p n md) (k, i) = inr r /\ tame_or_assert r).
    { clear. induction m as [|m IH]; intros k i Hm Hi Hk; cbn [Nat.add steps]; unfold bi_next_step at 1.
      - destruct (N.eqb_spec i (tk_size k)) as [E|E]; [|lia]. destruct (_ =? md).
        + eexists. split; [reflexivity|]. left. eexists. reflexivity.
        + eexists. split; [reflexivity|]. apply toa_bind; [apply toa_push|]. intros a. left. eexists. reflexivity.
      - destruct (N.eqb_spec i (tk_size k)) as [E|E]; [lia|].
        destruct (tame_get n k i) as [(l & ->)|(-> & H)].
        2:{ eexists. split; [reflexivity|]. right. split; [reflexivity|left; exact H]. }
        destruct (l =? n).
        + destruct (tame_set n k i 1 ltac:(lia)) as [(k' & Ek)|(Ek & H)]; rewrite Ek; cbn [bind].
          * destruct (uadd 32 p i 1) as [j| | |] eqn:Ej.
            -- cbn [bind]. destruct (N.le_gt_cases (i + 1) (tk_size k')) as [Hle|Hgt]; [|rewrite (set_size _ _ _ _ _ Ek) in Hgt; lia].
               pose proof (set_size _ _ _ _ _ Ek) as Es. rewrite uadd_ok in Ej by lia.
               injection Ej as <-. apply IH; [rewrite Es; lia|exact Hle|rewrite Es; exact Hk].
            -- eexists. split; [reflexivity|]. destruct (tame_uadd 32 i 1) as [(a & E')|(_ & H)]; [congruence|]. right. split; [reflexivity|left; exact H].
            -- exfalso. destruct (tame_uadd 32 i 1) as [(a & E')|(E' & _)]; congruence.
            -- exfalso. destruct (tame_uadd 32 i 1) as [(a & E')|(E' & _)]; congruence.
          * eexists. split; [reflexivity|]. right. split; [reflexivity|left; exact H].
        + eexists. split; [reflexivity|]. apply tame_weak. apply tame_bind; [apply tame_uadd|intros l1].
          apply tame_bind; [apply tame_set; lia|intros c; apply tame_ret]. }
    destruct (G (N.to_nat (tk_size k)) k 0 ltac:(lia) ltac:(lia) Hk) as (r & E & T).
    rewrite (run_loop_steps _ _ _ _ E); [exact T|]. lia.
  Qed.
End Total.
