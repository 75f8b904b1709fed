(** Property lemmas C105 (restated as theorems in P_KeyRaw.v). *)
From Verif Require Import Machine MachineLemmas S_Words L_Words M_TensorKey L_TensorKey L_DegreeWrap S_KeyRaw L_KeyRaw L_PropKey.
Local Open Scope N_scope.

(** * C105: the key operations for arguments of any value *)
(** from_letter does not check the letter *)
Lemma c105_from_letter : forall (p : profile) (a : N), a < 2 ^ 32 ->
  tk_from_letter p a = if a =? 0 then (if overflow_checks p then Panic else Ret (mk_tkey 1 (2 ^ 64 - 1))) else Ret (mk_tkey 1 (a - 1)).
Proof.
  intros p a Ha. unfold tk_from_letter. destruct (N.eqb_spec a 0) as [->|H].
  - unfold usub, overflowed. destruct (overflow_checks p); reflexivity.
  - rewrite usub_ok by lia. reflexivity.
Qed.
(** get_letter does not check the position *)
Lemma c105_get_letter : forall (p : profile) (n : N) (k : tkey) (i : N),
  let b := letter_bits n in
  n < 2 ^ 32 -> tk_data k < 2 ^ 64 ->
  (overflow_checks p = true -> tk_get_letter p n k i =
     if (i * b <? 64) && (bits_at b (tk_data k) (i * b) + 1 <? 2 ^ 32) then Ret (bits_at b (tk_data k) (i * b) + 1) else Panic)
  /\ (overflow_checks p = false -> tk_get_letter p n k i = Ret ((bits_at b (tk_data k) (i * b mod 64) + 1) mod 2 ^ 32)).
Proof.
  intros p n k i b Hn Hd. pose proof (lbits_pos n) as Hb1. pose proof (lbits_le n Hn) as Hb2. fold b in Hb1, Hb2.
  unfold tk_get_letter, tk_get_letter_unadjusted. rewrite bits_eq. fold b. split; intros Hp.
  - rewrite umul_checked by assumption. destruct (N.ltb_spec (i * b) 64) as [H|H].
    + destruct (N.ltb_spec (i * b) (2 ^ 32)); [|lia]. cbn [bind]. rewrite mask_any by lia. cbn [bind].
      rewrite ushr_ok by lia. cbn [bind]. rewrite read_mask by assumption.
      rewrite trunc_small by (apply bits_at_lt; assumption). rewrite uadd_checked by assumption. reflexivity.
    + cbn [andb]. destruct (N.ltb_spec (i * b) (2 ^ 32)); [|reflexivity]. cbn [bind].
      rewrite mask_panic by (assumption || lia). reflexivity.
  - rewrite umul_unchecked by assumption. cbn [bind]. rewrite mask_wrap by (assumption || lia). cbn [bind].
    rewrite ushr_unchecked by (assumption || lia). cbn [bind]. rewrite shift_mod, read_mask by assumption.
    rewrite trunc_small by (apply bits_at_lt; assumption). rewrite uadd_unchecked by assumption. reflexivity.
Qed.
(** beyond the end of a word it answers 1 as long as the position is inside the 64 bits *)
Lemma c105_get_letter_beyond : forall (p : profile) (n : N) (w : word) (k : tkey) (i : N),
  1 <= n < 2 ^ 32 -> word_ok n w -> tk_from_letters p n w = Ret k -> len w <= i -> i * letter_bits n < 64 ->
  tk_get_letter p n k i = Ret 1.
Proof.
  intros p n w k i Hn Hw E Hi Hb. apply from_letters_inv in E; try assumption; try lia. destruct E as [F ->].
  pose proof (enc_bound _ _ (word_ok_below n w Hw)) as He. rewrite bits_eq in He.
  assert (D : bits_at (letter_bits n) (tk_data (key_of n w)) (i * letter_bits n) = 0).
  { cbn [tk_data key_of]. rewrite bits_eq. unfold bits_at. rewrite N.div_small; [apply N.mod_0_l; pose proof (pow2_pos (letter_bits n)); lia|].
    eapply N.lt_le_trans; [exact He|]. apply N.pow_le_mono_r; nia. }
  assert (H64 : tk_data (key_of n w) < 2 ^ 64) by (apply key_data_bound; [lia|exact F]).
  destruct (c105_get_letter p n (key_of n w) i ltac:(lia) H64) as [C U]. cbv zeta in C, U.
  destruct (overflow_checks p).
  - rewrite C by reflexivity. rewrite D. destruct (N.ltb_spec (i * letter_bits n) 64); [reflexivity|lia].
  - rewrite U by reflexivity. rewrite (N.mod_small (i * letter_bits n)) by lia. rewrite D. reflexivity.
Qed.
(** push_front *)
Lemma c105_push_front : forall (p : profile) (n a : N) (k : tkey),
  let b := letter_bits n in let s := tk_size k * b in
  n < 2 ^ 32 -> a < 2 ^ 32 -> tk_data k < 2 ^ 64 -> tk_size k < 2 ^ 32 ->
  (debug_assertions p = true -> max_depth n <= tk_size k \/ a = 0 \/ n < a -> tk_push_front p n k a = Panic)
  /\ (debug_assertions p = false \/ (tk_size k < max_depth n /\ 1 <= a <= n) ->
      (overflow_checks p = true -> tk_push_front p n k a =
         let data := tk_data k + ((a - 1) mod 2 ^ b * 2 ^ s) mod 2 ^ 64 in
         if (1 <=? a) && (s <? 64) && (data <? 2 ^ 64) then Ret (mk_tkey (tk_size k + 1) data) else Panic)
      /\ (overflow_checks p = false -> tk_push_front p n k a =
         Ret (mk_tkey ((tk_size k + 1) mod 2 ^ 32) ((tk_data k + code32 a mod 2 ^ b * 2 ^ (s mod 64)) mod 2 ^ 64)))).
Proof.
  intros p n a k b s Hn Ha Hd Hk. pose proof (lbits_pos n) as Hb1. pose proof (lbits_le n Hn) as Hb2. fold b in Hb1, Hb2.
  assert (L : forall x, exists m, letter_mask p n = Ret m /\ N.land x m = x mod 2 ^ b).
  { intros x. unfold letter_mask. pose proof (bits_eq n) as Eb. fold b in Eb. rewrite make_mask_ok by lia.
    eexists. split; [reflexivity|]. rewrite N.shiftl_0_r, N.land_ones, Eb. reflexivity. }
  split.
  - intros Hdb H. unfold tk_push_front. destruct (N.lt_ge_cases (tk_size k) (max_depth n)) as [H1|H1].
    + rewrite debug_assert_ok by lia. cbn [bind]. rewrite debug_assert_panic by (assumption || lia). reflexivity.
    + rewrite debug_assert_panic by (assumption || lia). reflexivity.
  - intros Hc. assert (A : forall (r : outcome tkey), (_ <- debug_assert p (tk_size k <? max_depth n) ;; _ <- debug_assert p ((1 <=? a) && (a <=? n)) ;; r) = r).
    { intros r. destruct Hc as [Hc|[H1 H2]].
      - unfold debug_assert. rewrite Hc. reflexivity.
      - rewrite debug_assert_ok by lia. cbn [bind]. rewrite debug_assert_ok by lia. reflexivity. }
    unfold tk_push_front. rewrite A. unfold tk_push_front_raw. split; intros Hp.
    + cbv zeta. destruct (N.leb_spec 1 a) as [H1|H1]; cbn [andb].
      2:{ rewrite usub_panic by (assumption || lia). reflexivity. }
      rewrite usub_ok by assumption. cbn [bind]. destruct (L (a - 1)) as (m & -> & Em). cbn [bind]. rewrite Em.
      rewrite bits_eq. fold b s. rewrite umul_checked by assumption. fold s.
      destruct (N.ltb_spec s 64) as [H2|H2]; cbn [andb].
      2:{ destruct (N.ltb_spec s (2 ^ 32)); [|reflexivity]. cbn [bind]. rewrite ushl_checked by assumption.
          destruct (N.ltb_spec s 64); [lia|reflexivity]. }
      destruct (N.ltb_spec s (2 ^ 32)); [|lia]. cbn [bind]. rewrite ushl_checked by assumption.
      destruct (N.ltb_spec s 64); [|lia]. cbn [bind]. rewrite uadd_checked by assumption.
      destruct (_ <? 2 ^ 64); [|reflexivity]. cbn [bind]. rewrite uadd_ok by (unfold s in H2; nia). reflexivity.
    + assert (usub 32 p a 1 = Ret (code32 a)) as ->.
      { unfold code32. destruct (N.eqb_spec a 0) as [->|H0]; [|rewrite usub_ok by lia; reflexivity].
        unfold usub, overflowed. rewrite Hp. reflexivity. }
      cbn [bind]. destruct (L (code32 a)) as (m & -> & Em). cbn [bind]. rewrite Em.
      rewrite bits_eq. fold b. rewrite umul_unchecked by assumption. cbn [bind]. fold s.
      rewrite ushl_unchecked by (assumption || lia). cbn [bind]. rewrite shift_mod.
      rewrite !uadd_unchecked by assumption. cbn [bind]. rewrite N.add_mod_idemp_r by lia. reflexivity.
Qed.
(** concatenate *)
Lemma c105_concatenate : forall (p : profile) (n : N) (k1 k2 : tkey),
  let s := tk_size k2 * letter_bits n in
  n < 2 ^ 32 ->
  (overflow_checks p = true -> tk_concatenate p n k1 k2 =
     let data := (tk_data k1 * 2 ^ s) mod 2 ^ 64 + tk_data k2 in
     if (tk_size k1 + tk_size k2 <? 2 ^ 32) && (s <? 64) && (data <? 2 ^ 64)
     then Ret (mk_tkey (tk_size k1 + tk_size k2) data) else Panic)
  /\ (overflow_checks p = false -> tk_concatenate p n k1 k2 =
     Ret (mk_tkey ((tk_size k1 + tk_size k2) mod 2 ^ 32) ((tk_data k1 * 2 ^ (s mod 64) + tk_data k2) mod 2 ^ 64))).
Proof.
  intros p n k1 k2 s Hn. unfold tk_concatenate. rewrite bits_eq. split; intros Hp.
  - cbv zeta. rewrite uadd_checked by assumption. destruct (N.ltb_spec (tk_size k1 + tk_size k2) (2 ^ 32)); [|reflexivity].
    cbn [bind andb]. rewrite umul_checked by assumption. fold s. destruct (N.ltb_spec s 64) as [H2|H2]; cbn [andb].
    + destruct (N.ltb_spec s (2 ^ 32)); [|lia]. cbn [bind]. rewrite ushl_checked by assumption.
      destruct (N.ltb_spec s 64); [|lia]. cbn [bind]. rewrite uadd_checked by assumption.
      destruct (_ <? 2 ^ 64); reflexivity.
    + destruct (N.ltb_spec s (2 ^ 32)); [|reflexivity]. cbn [bind]. rewrite ushl_checked by assumption.
      destruct (N.ltb_spec s 64); [lia|reflexivity].
  - rewrite uadd_unchecked by assumption. cbn [bind]. rewrite umul_unchecked by assumption. cbn [bind]. fold s.
    rewrite ushl_unchecked by (assumption || lia). cbn [bind]. rewrite shift_mod, uadd_unchecked by assumption. cbn [bind].
    rewrite N.add_mod_idemp_l by lia. reflexivity.
Qed.
(** from_letters, when its letters are not checked *)
Lemma c105_from_letters : forall (p : profile) (n : N) (l : list N), debug_assertions p = false ->
  n < 2 ^ 32 -> Forall (fun a => a < 2 ^ 32) l -> len l <= max_depth n ->
  (overflow_checks p = true -> In 0 l -> tk_from_letters p n l = Panic)
  /\ (overflow_checks p = false -> tk_from_letters p n l = Ret (mk_tkey (len l) (packed (letter_bits n) l mod 2 ^ 64))).
Proof.
  intros p n l Hdb Hn Hl Hlen. pose proof (lbits_pos n) as Hb1. pose proof (lbits_le n Hn) as Hb2.
  unfold tk_from_letters. destruct (N.ltb_spec (max_depth n) (len l)); [lia|].
  assert (D : forall c, debug_assert p c = Ret tt) by (intros; unfold debug_assert; rewrite Hdb; reflexivity).
  split; intros Hp.
  - intros H0. enough (forall acc, for_each l (from_letters_step p n) acc = Panic) as -> by reflexivity.
    clear Hl Hlen H. induction l as [|a l IH]; [destruct H0|]. intros acc. cbn [for_each]. unfold from_letters_step at 1.
    rewrite D. cbn [bind]. rewrite bits_eq, ushl_checked by assumption. destruct (N.ltb_spec (letter_bits n) 64); [|lia]. cbn [bind].
    destruct H0 as [->|H0].
    + rewrite usub_panic by (assumption || lia). reflexivity.
    + unfold usub, overflowed. rewrite Hp. destruct (1 <=? a); [|reflexivity]. cbn [bind].
      rewrite uadd_checked by assumption. destruct (_ <? 2 ^ 64); [|reflexivity]. cbn [bind]. apply IH. exact H0.
  - assert (E : forall acc x, acc = x mod 2 ^ 64 -> for_each l (from_letters_step p n) acc
      = Ret (fold_left (fun acc a => acc * 2 ^ letter_bits n + code32 a) l x mod 2 ^ 64)).
    { clear Hlen H. induction l as [|a l IH]; intros acc x ->; [reflexivity|].
      apply Forall_cons_iff in Hl. destruct Hl as [Ha Hl]. cbn [for_each fold_left]. unfold from_letters_step at 1.
      rewrite D. cbn [bind]. rewrite bits_eq, ushl_unchecked by (assumption || lia). cbn [bind].
      assert (usub 32 p a 1 = Ret (code32 a)) as ->.
      { unfold code32. destruct (N.eqb_spec a 0) as [->|H0]; [|rewrite usub_ok by lia; reflexivity].
        unfold usub, overflowed. rewrite Hp. reflexivity. }
      cbn [bind]. rewrite uadd_unchecked by assumption. cbn [bind].
      apply (IH Hl). rewrite (N.mod_small (letter_bits n)) by lia.
      rewrite N.add_mod_idemp_l by lia. rewrite N.add_mod by lia. rewrite N.mul_mod_idemp_l by lia.
      rewrite <- N.add_mod by lia. reflexivity. }
    rewrite (E 0 0) by reflexivity. cbn [bind]. rewrite trunc_small; [reflexivity|].
    pose proof (max_depth_le_59 n Hn). lia.
Qed.
(** values of the parameters for which the operations leave the words over the alphabet *)
Example c105_example :
  tk_from_letter dev 0 = Panic /\ tk_from_letter release 0 = Ret (mk_tkey 1 18446744073709551615)
  /\ tk_from_letters dev 3 [1; 2] = Ret (mk_tkey 2 1) /\ tk_get_letter dev 3 (mk_tkey 2 1) 31 = Ret 1
  /\ tk_get_letter dev 3 (mk_tkey 2 1) 32 = Panic /\ tk_get_letter release 3 (mk_tkey 2 1) 32 = Ret 2
  /\ tk_push_front dev 3 (mk_tkey 30 0) 1 = Panic /\ tk_push_front dev 3 (mk_tkey 2 1) 4 = Panic
  /\ tk_push_front release 3 (mk_tkey 32 0) 3 = Ret (mk_tkey 33 2)
  /\ tk_concatenate release 3 (mk_tkey 1 2) (mk_tkey 32 0) = Ret (mk_tkey 33 2)
  /\ tk_concatenate dev 3 (mk_tkey 1 2) (mk_tkey 32 0) = Panic
  /\ tk_from_letters release 3 [1; 5] = tk_from_letters release 3 [2; 1]
  /\ tk_from_letters release 3 [1; 0] = Ret (mk_tkey 2 4294967295).
Proof. repeat apply conj; vm_compute; reflexivity. Qed.
