(** start_of_degree and index_to_degree in builds without overflow checks. *)
From Verif Require Import Machine MachineLemmas S_Words L_Words M_TensorKey L_TensorKey M_TensorBasis
  L_TensorBasis S_Degree L_InplaceWrap.
Local Open Scope N_scope.

Lemma low64_small (x : N) : x < 2 ^ 64 -> low64 (Z.of_N x) = x.
Proof. intros H. unfold low64. rewrite Z.mod_small by lia. lia. Qed.
Lemma low64_pred (x : N) : low64 (Z.of_N x - 1) = (x mod 2 ^ 64 + 2 ^ 64 - 1) mod 2 ^ 64.
Proof.
  unfold low64. apply N2Z.inj. rewrite Z2N.id by (apply Z.mod_pos_bound; lia).
  pose proof (N.mod_lt x (2 ^ 64) ltac:(lia)) as Hb.
  rewrite N2Z.inj_mod, N2Z.inj_sub, N2Z.inj_add, N2Z.inj_mod by lia.
  change (Z.of_N (2 ^ 64)) with (2 ^ 64)%Z. change (Z.of_N 1) with 1%Z.
  rewrite (Zminus_mod (Z.of_N x mod 2 ^ 64 + 2 ^ 64)), (Zplus_mod (Z.of_N x mod 2 ^ 64)), Z_mod_same_full, Z.add_0_r, !Zmod_mod.
  rewrite <- Zminus_mod. reflexivity.
Qed.
Lemma usub_unchecked w p a b : overflow_checks p = false -> a < 2 ^ w -> b <= 2 ^ w -> usub w p a b = Ret ((a + 2 ^ w - b) mod 2 ^ w).
Proof.
  intros Hp Ha Hb. unfold usub, overflowed. rewrite Hp. destruct (N.leb_spec b a); [|reflexivity].
  f_equal. replace (a + 2 ^ w - b) with (a - b + 1 * 2 ^ w) by lia.
  rewrite N.mod_add by lia. rewrite N.mod_small by lia. reflexivity.
Qed.
Lemma upow_unchecked w p a e : overflow_checks p = false -> upow w p a e = Ret (a ^ e mod 2 ^ w).
Proof.
  intros Hp. unfold upow, overflowed. rewrite Hp. destruct (N.ltb_spec (a ^ e) (2 ^ w)); [|reflexivity].
  rewrite N.mod_small by assumption. reflexivity.
Qed.
Lemma start_unchecked p n d : overflow_checks p = false -> n < 2 ^ 64 -> n <> 1 ->
  tb_start_of_degree p n d = Ret (wrapped_start n d).
Proof.
  intros Hp Hn H1. unfold tb_start_of_degree, wrapped_start.
  rewrite upow_unchecked by assumption. cbn [bind].
  rewrite usub_unchecked by (try assumption; try apply N.mod_lt; lia). cbn [bind].
  rewrite usub_unchecked by (assumption || lia). cbn [bind].
  rewrite <- N2Z.inj_pow, !low64_pred, (N.mod_small n) by lia.
  unfold udiv. destruct (N.eqb_spec ((n + 2 ^ 64 - 1) mod 2 ^ 64) 0) as [E|E]; [|reflexivity].
  exfalso. destruct (N.eq_dec n 0) as [->|H0]; [vm_compute in E; discriminate|].
  replace (n + 2 ^ 64 - 1) with (n - 1 + 1 * 2 ^ 64) in E by lia.
  rewrite N.mod_add, N.mod_small in E by lia. lia.
Qed.
Lemma wrapped_exact n d : 2 <= n -> n ^ d < 2 ^ 64 -> wrapped_start n d = count_below n (N.to_nat d).
Proof.
  intros Hn Hp. assert (Hd : n < 2 ^ 64 \/ 2 ^ 64 <= n) by lia. destruct Hd as [Hd|Hd].
  - pose proof (start_of_degree_ok release n d Hn Hp) as E. rewrite start_unchecked in E by (reflexivity || lia).
    injection E. auto.
  - assert (d = 0) as ->.
    { destruct (N.eq_dec d 0); [assumption|]. pose proof (pow_le n 1 d ltac:(lia) ltac:(lia)) as Hq.
      rewrite N.pow_1_r in Hq. lia. }
    unfold wrapped_start. cbn. reflexivity.
Qed.

Lemma wrapped_0 n : wrapped_start n 0 = 0.
Proof. reflexivity. Qed.
Lemma wrapped_1 n : n < 2 ^ 64 -> n <> 1 -> wrapped_start n 1 = 1.
Proof.
  intros Hn H1. unfold wrapped_start. rewrite Z.pow_1_r. apply N.div_same.
  rewrite low64_pred, (N.mod_small n) by lia. intros E.
  destruct (N.eq_dec n 0) as [->|H0]; [vm_compute in E; discriminate|].
  replace (n + 2 ^ 64 - 1) with (n - 1 + 1 * 2 ^ 64) in E by lia.
  rewrite N.mod_add, N.mod_small in E by lia. lia.
Qed.
Lemma wrapped_2 n : n < 2 ^ 32 -> n <> 1 -> wrapped_start n 2 = n + 1.
Proof.
  intros Hn H1. destruct (N.eq_dec n 0) as [->|H0]; [vm_compute; reflexivity|].
  rewrite wrapped_exact; [|lia|rewrite N.pow_2_r; nia].
  change (N.to_nat 2) with 2%nat. cbn [count_below]. change (N.of_nat 0) with 0. change (N.of_nat 1) with 1.
  rewrite N.pow_0_r, N.pow_1_r. lia.
Qed.

Section IndexToDegree.
  Context (p : profile) (n i : N) (Hp : overflow_checks p = false) (Hn : n < 2 ^ 32) (H1 : n <> 1).
  Notation ws := (wrapped_start n).

  Lemma n64 : n < 2 ^ 64. Proof. lia. Qed.
  Lemma start_w d : tb_start_of_degree p n d = Ret (ws d).
  Proof. apply start_unchecked; [exact Hp|exact n64|exact H1]. Qed.
  Lemma uadd_w d : d < 2 ^ 32 -> uadd 32 p d 1 = Ret ((d + 1) mod 2 ^ 32).
  Proof.
    intros Hd. unfold uadd, overflowed. rewrite Hp. destruct (N.ltb_spec (d + 1) (2 ^ 32)); [|reflexivity].
    rewrite N.mod_small by assumption. reflexivity.
  Qed.
  Lemma step_w d : d < 2 ^ 32 -> tb_index_to_degree_step p n i d =
    if (ws d <=? i) && (i <? ws ((d + 1) mod 2 ^ 32)) then inr (Ret d) else inl ((d + 1) mod 2 ^ 32).
  Proof.
    intros Hd. unfold tb_index_to_degree_step. rewrite start_w, uadd_w by assumption. cbn [bind]. rewrite start_w.
    destruct (ws d <=? i); [|reflexivity]. destruct (i <? _); reflexivity.
  Qed.
  (** no boundary above i: the search goes round for ever *)
  Lemma search_diverges d : d < 2 ^ 32 -> (forall e, e < 2 ^ 32 -> ws e <= i) -> tb_index_to_degree_impl p n i d = Diverge.
  Proof.
    intros Hd H. unfold tb_index_to_degree_impl, run_loop. rewrite loop_steps.
    enough (forall m d, d < 2 ^ 32 -> exists d', steps m (tb_index_to_degree_step p n i) d = inl d') as E.
    { destruct (E (2 ^ 64)%nat d Hd) as [d' ->]. reflexivity. }
    induction m as [|m IH]; intros d0 Hd0; [eexists; reflexivity|]. cbn [steps].
    rewrite step_w by assumption. pose proof (N.mod_lt (d0 + 1) (2 ^ 32) ltac:(lia)) as Hm.
    pose proof (H _ Hm). destruct (N.ltb_spec i (ws ((d0 + 1) mod 2 ^ 32))); [lia|]. rewrite andb_false_r. apply IH, Hm.
  Qed.
  Lemma search_finds d0 k : d0 + N.of_nat k + 1 < 2 ^ 32 -> i < ws (d0 + N.of_nat k + 1) ->
    (forall e, e <= d0 + N.of_nat k -> ws e <= i) ->
    steps (S k) (tb_index_to_degree_step p n i) d0 = inr (Ret (d0 + N.of_nat k)).
  Proof.
    revert d0. induction k as [|k IH]; intros d0 Hb Hi He.
    - cbn [steps]. rewrite step_w by lia. rewrite N.mod_small by lia. rewrite N.add_0_r in *.
      pose proof (He d0 ltac:(lia)).
      destruct (N.leb_spec (ws d0) i); [|lia]. destruct (N.ltb_spec i (ws (d0 + 1))); [|lia]. reflexivity.
    - change (steps (S (S k)) ?f d0) with (match f d0 with inl s => steps (S k) f s | inr r => inr r end).
      rewrite step_w by lia. rewrite N.mod_small by lia.
      pose proof (He (d0 + 1) ltac:(lia)). destruct (N.ltb_spec i (ws (d0 + 1))); [lia|]. rewrite andb_false_r.
      replace (d0 + N.of_nat (S k)) with (d0 + 1 + N.of_nat k) in * by lia. apply IH; assumption.
  Qed.
  Lemma index_to_degree_w d : d + 1 < 2 ^ 32 -> i < ws (d + 1) -> (forall e, e <= d -> ws e <= i) ->
    tb_index_to_degree p n i = Ret d.
  Proof.
    intros Hd Hi He. unfold tb_index_to_degree, tb_index_to_degree_calling.
    destruct (N.eq_dec d 0) as [->|D0].
    { change (0 + 1) with 1 in Hi. rewrite (wrapped_1 n n64 H1) in Hi. replace i with 0 by lia. reflexivity. }
    pose proof (He 1 ltac:(lia)) as E1. rewrite (wrapped_1 n n64 H1) in E1.
    destruct (N.eqb_spec i 0); [lia|]. destruct (N.leb_spec 1 i); [|lia]. cbn [andb].
    destruct (N.eq_dec d 1) as [->|D1].
    { change (1 + 1) with 2 in Hi. rewrite (wrapped_2 n Hn H1) in Hi. destruct (N.leb_spec i n); [reflexivity|lia]. }
    pose proof (He 2 ltac:(lia)) as E2. rewrite start_w. cbn [bind].
    rewrite (wrapped_2 n Hn H1) in E2 |- *. destruct (N.leb_spec i n); [lia|].
    destruct (N.leb_spec (n + 1) i); [|lia]. rewrite start_w. cbn [bind].
    destruct (N.eq_dec d 2) as [->|D2].
    { change (2 + 1) with 3 in Hi. destruct (N.ltb_spec i (ws 3)); [reflexivity|lia]. }
    pose proof (He 3 ltac:(lia)) as E3. destruct (N.ltb_spec i (ws 3)); [lia|].
    unfold tb_index_to_degree_impl. apply (run_loop_steps (S (N.to_nat (d - 3)))); cycle 1.
    - assert (N.of_nat (S (N.to_nat (d - 3))) <= 2 ^ 32) by lia.
      eapply N.le_trans; [eassumption|]. apply N.pow_le_mono_r; lia.
    - replace d with (3 + N.of_nat (N.to_nat (d - 3))) at 2 by lia.
      apply search_finds; replace (3 + N.of_nat (N.to_nat (d - 3))) with d by lia; assumption.
  Qed.
  Lemma index_to_degree_diverges : (forall e, e < 2 ^ 32 -> ws e <= i) -> tb_index_to_degree p n i = Diverge.
  Proof.
    intros He. unfold tb_index_to_degree, tb_index_to_degree_calling. pose proof (He 1 ltac:(lia)) as E1. rewrite (wrapped_1 n n64 H1) in E1.
    destruct (N.eqb_spec i 0); [lia|]. destruct (N.leb_spec 1 i); [|lia]. cbn [andb].
    pose proof (He 2 ltac:(lia)) as E2. rewrite start_w. cbn [bind].
    rewrite (wrapped_2 n Hn H1) in E2 |- *. destruct (N.leb_spec i n); [lia|].
    destruct (N.leb_spec (n + 1) i); [|lia]. rewrite start_w. cbn [bind].
    pose proof (He 3 ltac:(lia)) as E3. destruct (N.ltb_spec i (ws 3)); [lia|]. apply search_diverges; [lia|exact He].
  Qed.
  (** one of the two happens *)
  Lemma first_boundary : (exists d, d + 1 < 2 ^ 32 /\ i < ws (d + 1) /\ forall e, e <= d -> ws e <= i)
    \/ (forall e, e < 2 ^ 32 -> ws e <= i).
  Proof.
    enough (forall m, m < 2 ^ 32 -> (exists d, d + 1 <= m /\ i < ws (d + 1) /\ forall e, e <= d -> ws e <= i)
      \/ (forall e, e <= m -> ws e <= i)) as E.
    { destruct (E (2 ^ 32 - 1) ltac:(lia)) as [(d & Hd & H)|H]; [left; exists d; split; [lia|exact H]|right].
      intros e He. apply H. lia. }
    induction m as [|m IH] using N.peano_ind; intros Hm.
    - right. intros e He. replace e with 0 by lia. rewrite wrapped_0. lia.
    - destruct (IH ltac:(lia)) as [(d & Hd & H)|H]; [left; exists d; split; [lia|exact H]|].
      destruct (N.lt_ge_cases i (ws (N.succ m))) as [Hl|Hl].
      + left. exists m. rewrite N.add_1_r. split; [lia|]. split; assumption.
      + right. intros e He. destruct (N.eq_dec e (N.succ m)) as [->|]; [assumption|]. apply H. lia.
  Qed.
End IndexToDegree.
