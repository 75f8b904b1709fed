(** index_to_key and key_to_index for every index. *)
From Verif Require Import Machine MachineLemmas S_Words L_Words M_TensorKey L_TensorKey M_TensorBasis L_TensorBasis S_KeyRaw L_KeyRaw.
Local Open Scope N_scope.

Lemma code32_pos a : 1 <= a -> code32 a = a - 1.
Proof. intros H. unfold code32. destruct (N.eqb_spec a 0); [lia|reflexivity]. Qed.
Lemma packed_enc b n w : word_ok n w -> packed b w = enc b w.
Proof.
  intros Hw. unfold packed, enc. generalize 0. induction w as [|a w IH]; intros acc; [reflexivity|].
  apply Forall_cons_iff in Hw. destruct Hw as [Ha Hw]. cbn [fold_left]. rewrite IH by exact Hw.
  unfold enc_step at 2. rewrite code32_pos by lia. reflexivity.
Qed.

Section Push.
  Context (p : profile) (n : N) (Hn : 1 <= n < 2 ^ 32).
  Notation b := (letter_bits n).
  Lemma letter_fits a : 1 <= a <= n -> a - 1 < 2 ^ b.
  Proof. intros Ha. pose proof (bpl_upper n) as H. rewrite bits_eq in H. lia. Qed.
  Lemma mask_letter a : 1 <= a <= n -> exists m, letter_mask p n = Ret m /\ N.land (a - 1) m = a - 1.
  Proof. intros Ha. apply land_letter_mask; [lia|]. rewrite bits_eq. apply letter_fits. exact Ha. Qed.

  (** with overflow checks: the key after pushing the letters of [v] *)
  Definition key_cut (v : word) : tkey := mk_tkey (len v) (enc b v mod 2 ^ 64).
  Lemma enc_small v : word_ok n v -> len v * b <= 64 -> enc b v < 2 ^ 64.
  Proof.
    intros Hv H. pose proof (enc_bound _ _ (word_ok_below n v Hv)) as E. rewrite bits_eq in E.
    eapply N.lt_le_trans; [exact E|]. apply N.pow_le_mono_r; lia.
  Qed.
  Lemma push_low a v s : enc b v < 2 ^ s -> s <= 64 ->
    enc b v + ((a - 1) * 2 ^ s) mod 2 ^ 64 < 2 ^ 64.
  Proof.
    intros Hv Hs. replace (2 ^ 64) with (2 ^ s * 2 ^ (64 - s)) by (rewrite <- N.pow_add_r; f_equal; lia).
    pose proof (pow2_pos s). pose proof (pow2_pos (64 - s)).
    rewrite (N.mul_comm (a - 1)), N.mul_mod_distr_l by lia.
    pose proof (N.mod_lt (a - 1) (2 ^ (64 - s)) ltac:(lia)). nia.
  Qed.
  Lemma push_raw_ok a v : word_ok n (a :: v) -> len v * b < 64 ->
    tk_push_front_raw p n (key_cut v) (a - 1) = Ret (key_cut (a :: v)).
  Proof.
    intros Hw Hs. pose proof (lbits_pos n) as Hb1. pose proof (lbits_le n ltac:(lia)) as Hb2.
    apply Forall_cons_iff in Hw. destruct Hw as [Ha Hv].
    unfold tk_push_front_raw. destruct (mask_letter a Ha) as (m & -> & Em). cbn [bind key_cut tk_size tk_data]. rewrite Em, bits_eq.
    rewrite umul_ok by nia. cbn [bind]. unfold ushl. destruct (N.ltb_spec (len v * b) 64); [|lia]. cbn [bind].
    pose proof (enc_bound _ _ (word_ok_below n v Hv)) as E. rewrite bits_eq, (N.mul_comm b) in E.
    rewrite (N.mod_small (enc b v)) by (apply enc_small; [exact Hv|lia]).
    pose proof (push_low a v (len v * b) E ltac:(lia)) as Hl.
    rewrite uadd_ok by exact Hl. cbn [bind]. rewrite uadd_ok by nia. cbn [bind]. unfold key_cut. rewrite len_cons, enc_cons.
    do 2 f_equal. rewrite <- (N.mod_small _ _ Hl), N.add_mod_idemp_r by lia. f_equal. rewrite (N.mul_comm (len v)). lia.
  Qed.
  Lemma push_raw_panic a v : overflow_checks p = true -> 1 <= a <= n -> 64 <= len v * b ->
    tk_push_front_raw p n (key_cut v) (a - 1) = Panic.
  Proof.
    intros Hp Ha Hs. unfold tk_push_front_raw. destruct (mask_letter a Ha) as (m & -> & Em). cbn [bind key_cut tk_size tk_data].
    rewrite Em, bits_eq, umul_checked by assumption. destruct (_ <? 2 ^ 32); [|reflexivity]. cbn [bind].
    rewrite ushl_checked by assumption. destruct (N.ltb_spec (len v * b) 64); [lia|reflexivity].
  Qed.
  (** without overflow checks *)
  Definition key_around (v : word) : tkey := mk_tkey (len v mod 2 ^ 32) (packed_around b v mod 2 ^ 64).
  Lemma push_raw_around a v : overflow_checks p = false -> 1 <= a <= n ->
    tk_push_front_raw p n (key_around v) (a - 1) = Ret (key_around (a :: v)).
  Proof.
    intros Hp Ha. unfold tk_push_front_raw. destruct (mask_letter a Ha) as (m & -> & Em). cbn [bind key_around tk_size tk_data].
    rewrite Em, bits_eq, umul_unchecked by assumption. cbn [bind].
    rewrite ushl_unchecked by (assumption || lia). cbn [bind]. rewrite !uadd_unchecked by assumption. cbn [bind].
    rewrite N.mul_mod_idemp_l, shift_mod by lia. rewrite N.add_mod_idemp_l by lia. unfold key_around. cbn [packed_around].
    rewrite len_cons, code32_pos by lia. rewrite N.add_mod_idemp_r, N.add_mod_idemp_l by lia.
    reflexivity.
  Qed.

  Lemma step_snoc u a k : 1 <= a <= n ->
    tb_index_to_key_step p n (windex n (u ++ [a]), k) =
    match tk_push_front_raw p n k (a - 1) with
    | Ret k' => inl (windex n u, k') | Panic => inr Panic | UB => inr UB | Diverge => inr Diverge end.
  Proof.
    intros Ha. rewrite windex_snoc. cbn [tb_index_to_key_step].
    destruct (N.eqb_spec (windex n u * n + a) 0) as [H0|H0]; [lia|].
    rewrite urem_ok by lia. cbn [bind].
    replace (windex n u * n + a - 1) with ((a - 1) + windex n u * n) by lia.
    rewrite N.mod_add by lia. rewrite N.mod_small by lia. rewrite trunc_small by lia.
    destruct (tk_push_front_raw p n k (a - 1)); cbn [bind]; try reflexivity.
    rewrite udiv_ok by lia. cbn [bind]. rewrite N.div_add by lia. rewrite N.div_small by lia. rewrite N.add_0_l. reflexivity.
  Qed.
  Lemma steps_checked u v : overflow_checks p = true -> word_ok n (u ++ v) -> (len v - 1) * b < 64 ->
    steps (S (length u)) (tb_index_to_key_step p n) (windex n u, key_cut v)
    = inr (if (len (u ++ v) - 1) * b <? 64 then Ret (key_cut (u ++ v)) else Panic).
  Proof.
    intros Hp. revert v; induction u as [|a u IH] using rev_ind; intros v Hw Hv.
    - cbn [app]. destruct (N.ltb_spec ((len v - 1) * b) 64); [reflexivity|lia].
    - rewrite app_length. cbn [length]. rewrite Nat.add_1_r. rewrite <- app_assoc in *. cbn [app] in *.
      pose proof Hw as Hw0. apply Forall_app in Hw. destruct Hw as [_ Hav]. pose proof Hav as Hav0.
      apply Forall_cons_iff in Hav. destruct Hav as [Ha _]. cbn [steps]. rewrite step_snoc by exact Ha.
      destruct (N.lt_ge_cases (len v * b) 64) as [H|H].
      + rewrite push_raw_ok by assumption. apply IH; [exact Hw0|]. rewrite len_cons.
        replace (len v + 1 - 1) with (len v) by lia. exact H.
      + rewrite push_raw_panic by assumption. rewrite len_app, len_cons.
        destruct (N.ltb_spec ((len u + (len v + 1) - 1) * b) 64) as [H1|H1]; [nia|reflexivity].
  Qed.
  Lemma steps_around u v : overflow_checks p = false -> word_ok n (u ++ v) ->
    steps (S (length u)) (tb_index_to_key_step p n) (windex n u, key_around v) = inr (Ret (key_around (u ++ v))).
  Proof.
    intros Hp. revert v; induction u as [|a u IH] using rev_ind; intros v Hw; [reflexivity|].
    rewrite app_length. cbn [length]. rewrite Nat.add_1_r. rewrite <- app_assoc in *. cbn [app] in *.
    pose proof Hw as Hw0. apply Forall_app in Hw. destruct Hw as [_ Hav]. apply Forall_cons_iff in Hav. destruct Hav as [Ha _].
    cbn [steps]. rewrite step_snoc by exact Ha. rewrite push_raw_around by assumption. apply IH. exact Hw0.
  Qed.

  Lemma len_windex w : word_ok n w -> len w <= windex n w.
  Proof.
    induction w as [|a w IH] using rev_ind; intros Hw; [reflexivity|].
    apply Forall_app in Hw. destruct Hw as [Hw Ha]. apply Forall_cons_iff in Ha. destruct Ha as [Ha _].
    specialize (IH Hw). rewrite windex_snoc, len_app, len_cons. change (len (@nil N)) with 0. nia.
  Qed.
  Lemma one_letter_word w : word_ok n w -> windex n w <= n -> windex n w <> 0 -> w = [windex n w].
  Proof.
    intros Hw H1 H0. apply (windex_inj n); [exact Hw|repeat constructor; lia|].
    rewrite windex_cons. change (windex n []) with 0. change (len (@nil N)) with 0. rewrite N.pow_0_r. lia.
  Qed.
  Lemma index_to_key_checked w : overflow_checks p = true -> word_ok n w -> windex n w < 2 ^ 64 ->
    tb_index_to_key p n (windex n w) = if (len w - 1) * b <? 64 then Ret (key_cut w) else Panic.
  Proof.
    intros Hp Hw Hi. unfold tb_index_to_key. destruct (N.eqb_spec (windex n w) 0) as [H0|H0].
    - assert (w = []) as -> by (apply (windex_inj n); [exact Hw|constructor|exact H0]). reflexivity.
    - destruct (N.leb_spec (windex n w) n) as [H1|H1].
      + pose proof (one_letter_word w Hw H1 H0) as E. rewrite trunc_small by lia. rewrite (from_letter_ok p n) by lia.
        rewrite <- E. rewrite E at 2. change (len [windex n w] - 1) with 0. cbn [N.mul N.ltb N.compare].
        unfold key_of, key_cut. rewrite bits_eq. rewrite (N.mod_small (enc b w)); [reflexivity|].
        apply enc_small; [exact Hw|]. rewrite E. pose proof (lbits_le n ltac:(lia)). change (len [windex n w]) with 1. lia.
      + eapply (run_loop_steps (S (length w))).
        * change tk_new with (key_cut []). rewrite steps_checked; rewrite ?app_nil_r; try assumption; [reflexivity|].
          change (len (@nil N)) with 0. reflexivity.
        * pose proof (len_windex w Hw). unfold len in *. lia.
  Qed.
  Lemma index_to_key_around w : overflow_checks p = false -> word_ok n w -> windex n w < 2 ^ 64 ->
    tb_index_to_key p n (windex n w) = Ret (key_around w).
  Proof.
    intros Hp Hw Hi. unfold tb_index_to_key. destruct (N.eqb_spec (windex n w) 0) as [H0|H0].
    - assert (w = []) as -> by (apply (windex_inj n); [exact Hw|constructor|exact H0]). reflexivity.
    - destruct (N.leb_spec (windex n w) n) as [H1|H1].
      + pose proof (one_letter_word w Hw H1 H0) as E. rewrite trunc_small by lia. rewrite (from_letter_ok p n) by lia.
        rewrite <- E. f_equal. rewrite E. unfold key_of, key_around. cbn [packed_around].
        change (len (@nil N)) with 0. change (0 * b mod 64) with 0. rewrite N.pow_0_r, N.mul_1_r, N.add_0_l, code32_pos by lia.
        change (len [windex n w] mod 2 ^ 32) with 1. f_equal. unfold enc. cbn [fold_left]. unfold enc_step.
        rewrite N.mul_0_l, N.add_0_l, N.mod_small by lia. reflexivity.
      + eapply (run_loop_steps (S (length w))).
        * change tk_new with (key_around []). rewrite steps_around; rewrite ?app_nil_r; try assumption. reflexivity.
        * pose proof (len_windex w Hw). unfold len in *. lia.
  Qed.
  (** both agree as long as the last shift is less than 64 *)
  Lemma around_cut w : word_ok n w -> (len w - 1) * b < 64 -> key_around w = key_cut w.
  Proof.
    intros Hw H. pose proof (lbits_pos n) as Hb1. unfold key_around, key_cut. f_equal; [apply N.mod_small; nia|]. f_equal.
    induction w as [|a w IH]; [reflexivity|]. apply Forall_cons_iff in Hw. destruct Hw as [Ha Hw].
    rewrite len_cons in H. replace (len w + 1 - 1) with (len w) in H by lia.
    cbn [packed_around]. rewrite IH; [|exact Hw|nia]. rewrite enc_cons, code32_pos, (N.mod_small (len w * b)) by lia.
    rewrite (N.mul_comm b). lia.
  Qed.
  Lemma index_to_key_cut w : word_ok n w -> windex n w < 2 ^ 64 -> (len w - 1) * b < 64 ->
    tb_index_to_key p n (windex n w) = Ret (key_cut w).
  Proof.
    intros Hw Hi H. destruct (overflow_checks p) eqn:Hp.
    - rewrite index_to_key_checked by assumption. destruct (N.ltb_spec ((len w - 1) * b) 64); [reflexivity|lia].
    - rewrite index_to_key_around by assumption. rewrite around_cut by assumption. reflexivity.
  Qed.
End Push.

(** ** Back to the index *)
Section Back.
  Context (p : profile) (n : N) (Hn : 1 <= n < 2 ^ 32).
  Notation b := (letter_bits n).
  (** get_letter on a key that holds a word *)
  Lemma get_letter_any u a v : word_ok n (u ++ a :: v) -> enc b (u ++ a :: v) < 2 ^ 64 -> len v * b < 64 ->
    tk_get_letter p n (mk_tkey (len (u ++ a :: v)) (enc b (u ++ a :: v))) (len v) = Ret a.
  Proof.
    intros Hw Hd Hs. pose proof (lbits_pos n) as Hb1. pose proof (lbits_le n ltac:(lia)) as Hb2.
    apply Forall_app in Hw. destruct Hw as [_ Hw]. pose proof (word_ok_below n _ Hw) as Hbel. rewrite bits_eq in Hbel.
    pose proof (enc_digit b u a v Hbel) as Ed. apply Forall_cons_iff in Hw. destruct Hw as [Ha _].
    unfold tk_get_letter, tk_get_letter_unadjusted. cbn [tk_data]. rewrite bits_eq. rewrite umul_ok by nia. cbn [bind].
    rewrite mask_any by lia. cbn [bind]. rewrite ushr_ok by lia. cbn [bind]. rewrite read_mask by exact Hd.
    unfold bits_at. rewrite (N.mul_comm (len v)), Ed. rewrite trunc_small by lia. rewrite uadd_ok by lia. f_equal. lia.
  Qed.
  Lemma windex_app_le u v : windex n u <= windex n (u ++ v).
  Proof. rewrite windex_app. pose proof (pow_pos n (len v) ltac:(lia)). nia. Qed.
  Lemma loop_any u v : word_ok n (u ++ v) -> enc b (u ++ v) < 2 ^ 64 -> (len (u ++ v) - 1) * b < 64 -> windex n (u ++ v) < 2 ^ 64 ->
    tb_key_to_index_loop p n (mk_tkey (len (u ++ v)) (enc b (u ++ v))) (length v) (windex n u) = Ret (windex n (u ++ v)).
  Proof.
    revert u; induction v as [|a v IH]; intros u Hw Hd Hs Hi; cbn [length tb_key_to_index_loop].
    - rewrite app_nil_r. reflexivity.
    - assert (E : u ++ a :: v = (u ++ [a]) ++ v) by (rewrite <- app_assoc; reflexivity).
      assert (Hu : windex n u * n + a < 2 ^ 64).
      { rewrite <- windex_snoc. eapply N.le_lt_trans; [apply (windex_app_le _ v)|]. rewrite <- E. exact Hi. }
      rewrite umul_ok by lia. cbn [bind]. change (N.of_nat (length v)) with (len v).
      rewrite get_letter_any; [|exact Hw|exact Hd|rewrite len_app, len_cons in Hs; nia]. cbn [bind].
      rewrite uadd_ok by lia. cbn [bind]. rewrite <- windex_snoc, E. rewrite E in Hw, Hd, Hs, Hi. apply IH; assumption.
  Qed.
  Lemma key_to_index_any w : word_ok n w -> enc b w < 2 ^ 64 -> (len w - 1) * b < 64 -> windex n w < 2 ^ 64 ->
    tb_key_to_index p n (mk_tkey (len w) (enc b w)) = Ret (windex n w).
  Proof.
    intros Hw Hd Hs Hi. unfold tb_key_to_index. cbn [tk_size].
    replace (N.to_nat (len w)) with (length w) by (unfold len; lia). exact (loop_any [] w Hw Hd Hs Hi).
  Qed.
  (** a word whose first letter does not fit loses the upper bits of this letter *)
  Definition cut_first (w : word) : word :=
    match w with [] => [] | a :: v => ((a - 1) mod 2 ^ (64 - len v * b) + 1) :: v end.
  Lemma cut_first_ok w : word_ok n w -> (len w - 1) * b < 64 ->
    word_ok n (cut_first w) /\ len (cut_first w) = len w /\ enc b (cut_first w) = enc b w mod 2 ^ 64
    /\ (cut_first w = w <-> enc b w < 2 ^ 64) /\ windex n (cut_first w) <= windex n w.
  Proof.
    destruct w as [|a v]; intros Hw Hs.
    - cbn [cut_first]. repeat split; try reflexivity; constructor.
    - apply Forall_cons_iff in Hw. destruct Hw as [Ha Hv]. rewrite len_cons in Hs. replace (len v + 1 - 1) with (len v) in Hs by lia.
      cbn [cut_first]. set (r := 64 - len v * b). pose proof (pow2_pos r) as Hr.
      pose proof (N.mod_le (a - 1) (2 ^ r) ltac:(lia)) as Hle.
      pose proof (enc_bound _ _ (word_ok_below n v Hv)) as E. rewrite bits_eq, (N.mul_comm b) in E.
      assert (P : 2 ^ 64 = 2 ^ (len v * b) * 2 ^ r) by (rewrite <- N.pow_add_r; f_equal; unfold r; lia).
      assert (M : enc b (a :: v) mod 2 ^ 64 = (a - 1) mod 2 ^ r * 2 ^ (len v * b) + enc b v).
      { rewrite enc_cons, (N.mul_comm b). symmetry. apply (N.mod_unique _ _ ((a - 1) / 2 ^ r)).
        - rewrite P. pose proof (N.mod_lt (a - 1) (2 ^ r) ltac:(lia)). nia.
        - rewrite P. pose proof (N.div_mod (a - 1) (2 ^ r) ltac:(lia)). nia. }
      split; [|split; [|split; [|split]]].
      + constructor; [lia|exact Hv].
      + rewrite !len_cons. reflexivity.
      + rewrite M, enc_cons, (N.mul_comm b). replace ((a - 1) mod 2 ^ r + 1 - 1) with ((a - 1) mod 2 ^ r) by lia. reflexivity.
      + split.
        * intros Q. injection Q as Q. rewrite enc_cons, (N.mul_comm b), P.
          pose proof (N.mod_lt (a - 1) (2 ^ r) ltac:(lia)). assert (a - 1 < 2 ^ r) by lia. nia.
        * intros Q. f_equal. rewrite N.mod_small; [lia|]. rewrite enc_cons, (N.mul_comm b), P in Q. nia.
      + rewrite !windex_cons. pose proof (pow_pos n (len v) ltac:(lia)). nia.
  Qed.
  Lemma key_cut_first w : word_ok n w -> (len w - 1) * b < 64 ->
    key_cut n w = mk_tkey (len (cut_first w)) (enc b (cut_first w)).
  Proof. intros Hw Hs. destruct (cut_first_ok w Hw Hs) as (_ & -> & -> & _). reflexivity. Qed.
  Lemma key_to_index_cut w : word_ok n w -> (len w - 1) * b < 64 -> windex n w < 2 ^ 64 ->
    tb_key_to_index p n (key_cut n w) = Ret (windex n (cut_first w)).
  Proof.
    intros Hw Hs Hi. rewrite key_cut_first by assumption. destruct (cut_first_ok w Hw Hs) as (Hc & Hl & He & _ & Hle).
    apply key_to_index_any; [exact Hc| |rewrite Hl; exact Hs|lia]. rewrite He. apply N.mod_lt. lia.
  Qed.
End Back.

Lemma count_below_ge n d : 1 <= n -> N.of_nat d <= count_below n d.
Proof.
  intros Hn. induction d as [|d IH]; [reflexivity|]. rewrite count_below_S. pose proof (pow_pos n (N.of_nat d) ltac:(lia)). lia.
Qed.
(** every number is the index of a word *)
Lemma word_at n i : 1 <= n -> exists w, word_ok n w /\ windex n w = i.
Proof.
  intros Hn. destruct (windex_surj n (S (N.to_nat i)) i ltac:(lia)) as (w & Hw & _ & Hx).
  - pose proof (count_below_ge n (S (N.to_nat i)) Hn). lia.
  - exists w. split; assumption.
Qed.
