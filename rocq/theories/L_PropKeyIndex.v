(** Property lemmas C112 (restated as theorems in P_KeyIndex.v). *)
From Coq Require Import QArith Qcanon String.
From Verif Require Import Machine MachineLemmas S_Words L_Words M_TensorKey L_TensorKey M_TensorBasis L_TensorBasis
  M_Scalar M_Vector M_Dense S_Vector I_Scalars L_Dense S_Degree L_DegreeWrap S_KeyRaw L_KeyRaw L_PropKeyRaw L_PropBasis L_PropSafe L_PropDegree S_TensorApi L_Debug.
Local Open Scope N_scope.

Lemma mapM_guard {A B} (f : A -> outcome B) g h l : (forall x, f x = if g x : bool then Ret (h x) else Panic) ->
  mapM f l = if forallb g l then Ret (map h l) else Panic.
Proof.
  intros H. induction l as [|x l IH]; [reflexivity|]. cbn [mapM forallb map]. rewrite H.
  destruct (g x); [|reflexivity]. cbn [bind andb]. rewrite IH. destruct (forallb g l); reflexivity.
Qed.
Lemma for_each_guard {A T} (f : T -> A -> outcome T) g h l : (forall s x, f s x = if g x : bool then Ret (h s x) else Panic) ->
  forall s, for_each l f s = if forallb g l then Ret (fold_left h l s) else Panic.
Proof.
  intros H. induction l as [|x l IH]; intros s; [reflexivity|]. cbn [for_each forallb fold_left]. rewrite H.
  destruct (g x); [|reflexivity]. cbn [bind andb]. apply IH.
Qed.
Lemma seqN_seq a m : seqN a m = map (fun i => a + N.of_nat i) (seq 0 m).
Proof.
  revert a. induction m as [|m IH]; intros a; [reflexivity|]. cbn [seqN seq map]. rewrite IH, <- seq_shift, map_map.
  f_equal; [lia|]. apply map_ext. intros i. lia.
Qed.
Lemma forallb_rev {A} (g : A -> bool) l : forallb g (rev l) = forallb g l.
Proof.
  induction l as [|x l IH]; [reflexivity|]. cbn [rev forallb]. rewrite forallb_app, IH. cbn [forallb].
  rewrite andb_true_r. apply andb_comm.
Qed.
Lemma forallb_map {A B} (f : A -> B) (g : B -> bool) l : forallb g (map f l) = forallb (fun x => g (f x)) l.
Proof. induction l as [|x l IH]; [reflexivity|]. cbn [map forallb]. rewrite IH. reflexivity. Qed.
Lemma readable_all n s d :
  forallb (fun i => (i * letter_bits n <? 64) && (bits_at (letter_bits n) d (i * letter_bits n) + 1 <? 2 ^ 32)) (range 0 s)
  = readable (letter_bits n) s d.
Proof.
  unfold readable, range, stored_letters. rewrite N.sub_0_r, seqN_seq, map_rev, forallb_rev, !forallb_map.
  set (b := letter_bits n). pose proof (lbits_pos n) as Hb. fold b in Hb.
  destruct (N.ltb_spec ((s - 1) * b) 64) as [H|H]; cbn [andb].
  - assert (G : forall l, (forall i, In i l -> (i < N.to_nat s)%nat) ->
      forallb (fun i => (0 + N.of_nat i) * b <? 64) l = true).
    { intros l Hl. apply forallb_forall. intros i Hi. specialize (Hl i Hi). apply N.ltb_lt. nia. }
    specialize (G (seq 0 (N.to_nat s))). rewrite <- (andb_true_l (forallb (fun x => _ + 1 <? _) _)).
    rewrite <- G by (intros i Hi; apply in_seq in Hi; lia). clear.
    induction (seq 0 (N.to_nat s)) as [|i l IH]; [reflexivity|]. cbn [forallb]. rewrite IH, N.add_0_l.
    destruct (N.of_nat i * b <? 64), (bits_at b d (N.of_nat i * b) + 1 <? 2 ^ 32); cbn [andb]; try reflexivity.
    rewrite andb_false_r. reflexivity.
  - destruct (forallb _ _) eqn:E; [|reflexivity]. exfalso. rewrite forallb_forall in E.
    assert (I : In (N.to_nat (s - 1)) (seq 0 (N.to_nat s))).
    { apply in_seq. destruct (N.eq_dec s 0) as [->|]; [cbn in H; lia|]. lia. }
    specialize (E _ I). apply andb_prop in E. destruct E as [E _]. apply N.ltb_lt in E. lia.
Qed.

Section KeyIndex.
  Context (p : profile) (n : N) (k : tkey) (Hn : n < 2 ^ 32) (Hd : tk_data k < 2 ^ 64).
  Notation b := (letter_bits n).
  Notation letter i := (bits_at b (tk_data k) (N.of_nat i * b) + 1).
  Notation around i := ((bits_at b (tk_data k) ((N.of_nat i * b) mod 64) + 1) mod 2 ^ 32).
  Definition horner (ls : list N) (r : N) : N := fold_left (fun acc a => acc * n + a) ls r.

  Lemma horner_mono ls r : 1 <= n -> r <= horner ls r.
  Proof.
    intros H1. revert r. induction ls as [|a ls IH]; intros r; [apply N.le_refl|]. cbn [horner fold_left].
    eapply N.le_trans; [|apply IH]. nia.
  Qed.
  Lemma letter_le i : letter i <= 2 ^ 32.
  Proof. pose proof (bits_at_lt b (tk_data k) (N.of_nat i * b) (lbits_le n Hn)). lia. Qed.
  Lemma seq_down i : rev (seq 0 (S i)) = i :: rev (seq 0 i).
  Proof. rewrite seq_S, rev_app_distr. reflexivity. Qed.

  Lemma loop_checked i r : overflow_checks p = true -> r < 2 ^ 64 ->
    tb_key_to_index_loop p n k i r =
      let ls := map (fun i => letter i) (rev (seq 0 i)) in
      if ((N.of_nat i - 1) * b <? 64) && forallb (fun a => a <? 2 ^ 32) ls && (horner ls r <? 2 ^ 64)
      then Ret (horner ls r) else Panic.
  Proof.
    intros Hp. revert r. induction i as [|i IH]; intros r Hr.
    - cbn [tb_key_to_index_loop seq rev map horner fold_left forallb]. cbv zeta.
      change ((N.of_nat 0 - 1) * b) with 0. cbn [horner fold_left]. destruct (N.ltb_spec r (2 ^ 64)); [reflexivity|lia].
    - cbn [tb_key_to_index_loop]. rewrite seq_down. cbn [map horner fold_left forallb]. cbv zeta.
      change (fold_left (fun acc a => acc * n + a)) with horner.
      rewrite (proj1 (c105_get_letter p n k (N.of_nat i) Hn Hd) Hp).
      replace (N.of_nat (S i) - 1) with (N.of_nat i) by lia.
      rewrite umul_checked by exact Hp. pose proof (letter_le i) as Hl.
      pose proof (lbits_pos n) as Hb1.
      set (x := bits_at b (tk_data k) (N.of_nat i * b) + 1) in *.
      set (ls := map (fun i => letter i) (rev (seq 0 i))).
      assert (B : (N.of_nat i * b <? 64) = true -> ((N.of_nat i - 1) * b <? 64) = true).
      { intros H. apply N.ltb_lt in H. apply N.ltb_lt. nia. }
      destruct (N.ltb_spec (r * n) (2 ^ 64)) as [H1|H1]; cbn [bind].
      + destruct ((N.of_nat i * b <? 64) && (x <? 2 ^ 32)) eqn:E; cbn [bind].
        * apply andb_prop in E. destruct E as [E1 E2]. rewrite E1, E2. cbn [andb].
          rewrite uadd_checked by exact Hp. destruct (N.ltb_spec (r * n + x) (2 ^ 64)) as [H2|H2]; cbn [bind].
          -- rewrite (IH _ H2). cbv zeta. fold ls. rewrite (B E1). reflexivity.
          -- destruct (N.eq_dec n 0) as [->|Hn0]; [lia|].
             pose proof (horner_mono ls (r * n + x) ltac:(lia)) as M.
             destruct (N.ltb_spec (horner ls (r * n + x)) (2 ^ 64)); [lia|]. rewrite andb_false_r. reflexivity.
        * destruct (N.of_nat i * b <? 64); cbn [andb] in *; [rewrite E; reflexivity|reflexivity].
      + destruct (N.eq_dec n 0) as [->|Hn0]; [lia|].
        pose proof (horner_mono ls (r * n + x) ltac:(lia)) as M.
        destruct (N.ltb_spec (horner ls (r * n + x)) (2 ^ 64)); [lia|]. rewrite andb_false_r. reflexivity.
  Qed.
  Lemma horner_mod ls r r' : r mod 2 ^ 64 = r' mod 2 ^ 64 -> horner ls r mod 2 ^ 64 = horner ls r' mod 2 ^ 64.
  Proof.
    revert r r'. induction ls as [|a ls IH]; intros r r' H; [exact H|]. cbn [horner fold_left]. apply IH.
    rewrite (N.add_mod (r * n)), (N.add_mod (r' * n)) by lia. f_equal. f_equal.
    rewrite (N.mul_mod r), (N.mul_mod r') by lia. rewrite H. reflexivity.
  Qed.
  Lemma loop_around i r : overflow_checks p = false -> r < 2 ^ 64 ->
    tb_key_to_index_loop p n k i r = Ret (horner (map (fun i => around i) (rev (seq 0 i))) r mod 2 ^ 64).
  Proof.
    intros Hp. revert r. induction i as [|i IH]; intros r Hr.
    - cbn [tb_key_to_index_loop seq rev map horner fold_left]. rewrite N.mod_small by exact Hr. reflexivity.
    - cbn [tb_key_to_index_loop]. rewrite seq_down. cbn [map horner fold_left].
      change (fold_left (fun acc a => acc * n + a)) with horner.
      rewrite (proj2 (c105_get_letter p n k (N.of_nat i) Hn Hd) Hp). rewrite umul_unchecked by exact Hp. cbn [bind].
      rewrite uadd_unchecked by exact Hp. cbn [bind]. rewrite IH by (apply N.mod_lt; lia). f_equal. apply horner_mod.
      rewrite N.mod_mod by lia. rewrite N.add_mod_idemp_l by lia. reflexivity.
  Qed.
  Lemma take_none j m : ti_take p n (mk_tkiter j (mk_tkey j (tk_data k))) m = Ret (repeat None m).
  Proof.
    induction m as [|m IH]; [reflexivity|]. cbn [ti_take]. unfold ti_next. cbn [ti_index ti_key tk_size].
    rewrite N.eqb_refl. cbn [bind]. rewrite IH. reflexivity.
  Qed.
  Lemma next_some r : tk_size k < 2 ^ 32 -> N.of_nat (S r) <= tk_size k ->
    ti_next p n (mk_tkiter (tk_size k - N.of_nat (S r)) k)
    = (l <- tk_get_letter p n k (N.of_nat r) ;; Ret (mk_tkiter (tk_size k - N.of_nat r) k, Some l)).
  Proof.
    intros Hs Hr. unfold ti_next. cbn [ti_index ti_key].
    destruct (N.eqb_spec (tk_size k - N.of_nat (S r)) (tk_size k)) as [E|_]; [lia|].
    rewrite uadd_ok by lia. cbn [bind]. replace (tk_size k - N.of_nat (S r) + 1) with (tk_size k - N.of_nat r) by lia.
    rewrite usub_ok by lia. cbn [bind]. replace (tk_size k - (tk_size k - N.of_nat r)) with (N.of_nat r) by lia.
    reflexivity.
  Qed.
  Lemma take_checked m : overflow_checks p = true -> tk_size k < 2 ^ 32 -> forall r, N.of_nat r <= tk_size k ->
    ti_take p n (mk_tkiter (tk_size k - N.of_nat r) k) m =
      let ls := firstn m (map (fun i => letter i) (rev (seq 0 r))) in
      if (Nat.eqb m 0 || ((N.of_nat r - 1) * b <? 64)) && forallb (fun a => a <? 2 ^ 32) ls
      then Ret (map Some ls ++ repeat None (m - r)) else Panic.
  Proof.
    intros Hp Hs. induction m as [|m IH]; intros r Hr; [reflexivity|]. cbv zeta. cbn [Nat.eqb orb]. destruct r as [|r].
    - cbn [seq rev map firstn forallb app]. rewrite N.sub_0_r.
      pose proof (take_none (tk_size k) (S m)) as E. destruct k as [s d]. cbn [tk_size tk_data] in *. rewrite E. reflexivity.
    - cbn [ti_take]. rewrite (next_some r Hs Hr), seq_down. cbn [map firstn forallb].
      rewrite (proj1 (c105_get_letter p n k (N.of_nat r) Hn Hd) Hp).
      replace (N.of_nat (S r) - 1) with (N.of_nat r) by lia. pose proof (lbits_pos n) as Hb1.
      set (x := bits_at b (tk_data k) (N.of_nat r * b) + 1) in *.
      destruct (N.ltb_spec (N.of_nat r * b) 64) as [H1|H1]; [|reflexivity]. cbn [andb].
      destruct (x <? 2 ^ 32); [|reflexivity]. cbn [bind andb]. rewrite (IH r) by lia. cbv zeta.
      assert (B : ((N.of_nat r - 1) * b <? 64) = true) by (apply N.ltb_lt; nia). rewrite B, orb_true_r. cbn [andb].
      destruct (forallb (fun a => a <? 2 ^ 32) (firstn m (map (fun i => letter i) (rev (seq 0 r))))); reflexivity.
  Qed.
  Lemma take_around m : overflow_checks p = false -> tk_size k < 2 ^ 32 -> forall r, N.of_nat r <= tk_size k ->
    ti_take p n (mk_tkiter (tk_size k - N.of_nat r) k) m =
      Ret (map Some (firstn m (map (fun i => around i) (rev (seq 0 r)))) ++ repeat None (m - r)).
  Proof.
    intros Hp Hs. induction m as [|m IH]; intros r Hr; [reflexivity|]. destruct r as [|r].
    - cbn [seq rev map firstn app]. rewrite N.sub_0_r.
      pose proof (take_none (tk_size k) (S m)) as E. destruct k as [s d]. cbn [tk_size tk_data] in *. rewrite E. reflexivity.
    - cbn [ti_take]. rewrite (next_some r Hs Hr), seq_down. cbn [map firstn].
      rewrite (proj2 (c105_get_letter p n k (N.of_nat r) Hn Hd) Hp). cbn [bind]. rewrite (IH r) by lia. reflexivity.
  Qed.
End KeyIndex.

(** * C112 *)
Lemma c112_key_to_index : forall (p : profile) (n : N) (k : tkey),
  let b := letter_bits n in let s := tk_size k in let d := tk_data k in
  n < 2 ^ 32 -> d < 2 ^ 64 ->
  (overflow_checks p = true -> tb_key_to_index p n k =
     let i := windex n (stored_letters b s d) in
     if readable b s d && (i <? 2 ^ 64) then Ret i else Panic)
  /\ (overflow_checks p = false -> tb_key_to_index p n k = Ret (windex n (letters_around b s d) mod 2 ^ 64)).
Proof.
  intros p n k b s d Hn Hd. unfold tb_key_to_index. split; intros Hp.
  - rewrite (loop_checked p n k Hn Hd _ 0 Hp) by lia. cbv zeta. rewrite N2Nat.id. reflexivity.
  - rewrite (loop_around p n k Hn Hd _ 0 Hp) by lia. reflexivity.
Qed.
(** the letters that the iterator over a key gives in [m] calls of next *)
Lemma c112_iterate : forall (p : profile) (n : N) (k : tkey) (m : nat),
  let b := letter_bits n in let s := tk_size k in let d := tk_data k in
  n < 2 ^ 32 -> d < 2 ^ 64 -> s < 2 ^ 32 -> (1 <= m)%nat ->
  (overflow_checks p = true -> ti_take p n (ti_new k) m =
     let ls := firstn m (stored_letters b s d) in
     if ((s - 1) * b <? 64) && forallb (fun a => a <? 2 ^ 32) ls
     then Ret (map Some ls ++ repeat None (m - N.to_nat s)) else Panic)
  /\ (overflow_checks p = false -> ti_take p n (ti_new k) m =
     Ret (map Some (firstn m (letters_around b s d)) ++ repeat None (m - N.to_nat s))).
Proof.
  intros p n k m b s d Hn Hd Hs Hm.
  assert (E : ti_new k = mk_tkiter (tk_size k - N.of_nat (N.to_nat s)) k).
  { rewrite N2Nat.id. unfold ti_new, s. rewrite N.sub_diag. reflexivity. }
  rewrite E. split; intros Hp.
  - rewrite (take_checked p n k Hn Hd m Hp Hs) by (rewrite N2Nat.id; apply N.le_refl). cbv zeta. rewrite N2Nat.id.
    destruct m as [|m]; [lia|]. reflexivity.
  - rewrite (take_around p n k Hn Hd m Hp Hs) by (rewrite N2Nat.id; apply N.le_refl). reflexivity.
Qed.
(** to_letters and Debug read the letters the other way round *)
Lemma c112_letters : forall (p : profile) (n : N) (k : tkey),
  let b := letter_bits n in let s := tk_size k in let d := tk_data k in
  n < 2 ^ 32 -> d < 2 ^ 64 ->
  (overflow_checks p = true ->
     tk_to_letters p n k = (if readable b s d then Ret (rev (stored_letters b s d)) else Panic)
     /\ tk_debug p n k = (if readable b s d then Ret (debug_text (rev (stored_letters b s d))) else Panic))
  /\ (overflow_checks p = false ->
     tk_to_letters p n k = Ret (rev (letters_around b s d))
     /\ tk_debug p n k = Ret (debug_text (rev (letters_around b s d)))).
Proof.
  intros p n k b s d Hn Hd. split; intros Hp.
  - assert (E : tk_to_letters p n k = if readable b s d then Ret (rev (stored_letters b s d)) else Panic).
    { unfold tk_to_letters.
      rewrite (mapM_guard _ (fun i => (i * b <? 64) && (bits_at b d (i * b) + 1 <? 2 ^ 32)) (fun i => bits_at b d (i * b) + 1)).
      2:{ intros i. exact (proj1 (c105_get_letter p n k i Hn Hd) Hp). }
      unfold b. rewrite readable_all. fold b s. destruct (readable b s d); [|reflexivity]. f_equal.
      unfold stored_letters, range. rewrite N.sub_0_r, seqN_seq, map_map, <- map_rev, rev_involutive.
      apply map_ext. intros i. rewrite N.add_0_l. reflexivity. }
    split; [exact E|]. destruct (readable b s d) eqn:Rd; [exact (debug_letters p n k _ E)|].
    unfold tk_debug.
    rewrite (for_each_guard _ (fun i => (i * b <? 64) && (bits_at b d (i * b) + 1 <? 2 ^ 32))
      (fun acc i => if 0 <? i then (acc ++ ", " ++ u32_text (bits_at b d (i * b) + 1))%string
                    else (acc ++ u32_text (bits_at b d (i * b) + 1))%string)).
    2:{ intros acc i. unfold tk_debug_step. rewrite (proj1 (c105_get_letter p n k i Hn Hd) Hp). fold b d.
        destruct ((i * b <? 64) && (bits_at b d (i * b) + 1 <? 2 ^ 32)); [|reflexivity]. cbn [bind].
        destruct (0 <? i); reflexivity. }
    unfold b. rewrite readable_all. fold b s. rewrite Rd. reflexivity.
  - assert (E : tk_to_letters p n k = Ret (rev (letters_around b s d))).
    { unfold tk_to_letters.
      rewrite (mapM_guard _ (fun _ => true) (fun i => (bits_at b d (i * b mod 64) + 1) mod 2 ^ 32)).
      2:{ intros i. exact (proj2 (c105_get_letter p n k i Hn Hd) Hp). }
      replace (forallb (fun _ => true) (range 0 (tk_size k))) with true by (symmetry; apply forallb_forall; reflexivity).
      f_equal. unfold letters_around, range. rewrite N.sub_0_r, seqN_seq, map_map, <- map_rev, rev_involutive.
      apply map_ext. intros i. rewrite N.add_0_l. reflexivity. }
    split; [exact E|exact (debug_letters p n k _ E)].
Qed.
Lemma c112_dimension_for_key : forall (p : profile) (n : N) (k : tkey),
  let d := tk_size k + 1 in
  2 <= n < 2 ^ 32 -> tk_size k < 2 ^ 32 ->
  (overflow_checks p = true -> tb_vector_dimension_for_key p n k =
     if n ^ d <? 2 ^ 64 then Ret (count_below n (N.to_nat d)) else Panic)
  /\ (overflow_checks p = false -> tb_vector_dimension_for_key p n k = Ret (wrapped_start n (d mod 2 ^ 32))).
Proof.
  intros p n k d Hn Hs. unfold tb_vector_dimension_for_key, tb_degree. split; intros Hp.
  - rewrite uadd_checked by exact Hp. fold d. destruct (N.ltb_spec (n ^ d) (2 ^ 64)) as [H|H].
    + pose proof (pow_u64_exp n d (proj1 Hn) H) as He. destruct (N.ltb_spec d (2 ^ 32)); [|lia]. cbn [bind].
      rewrite (c11_start_of_degree p n d (proj1 Hn) H). rewrite words_below_length, N2Nat.id. reflexivity.
    + destruct (N.ltb_spec d (2 ^ 32)); [|reflexivity]. cbn [bind].
      exact (proj1 (c11_panics p n d) Hp H).
  - rewrite uadd_unchecked by exact Hp. cbn [bind]. fold d.
    rewrite (proj1 (c103_start_of_degree p n (d mod 2 ^ 32) Hp (proj2 Hn))).
    destruct (N.eqb_spec n 1); [lia|reflexivity].
Qed.
(** from_key_scalar with any key: too small a buffer is made exactly if the index is not below the dimension *)
Lemma c112_from_key : forall (S R : Type) (so : scalar_ops S R) (p : profile) (n : N) (k : tkey) (c : S),
  let b := letter_bits n in let s := tk_size k in let d := tk_data k in
  let run := vr_from_key_scalar (dense_ops so (tensor_basis p n)) k c in
  2 <= n < 2 ^ 32 -> d < 2 ^ 64 -> s < 2 ^ 32 ->
  (overflow_checks p = true ->
     let i := windex n (stored_letters b s d) in let dim := count_below n (N.to_nat (s + 1)) in
     let fine := (n ^ (s + 1) <? 2 ^ 64) && readable b s d && (i <? 2 ^ 64) in
     (fine = false -> run = Panic)
     /\ (fine = true -> i < dim -> exists v, run = Ret v /\ dv_size v = dim)
     /\ (fine = true -> dim <= i -> run = UB))
  /\ (overflow_checks p = false ->
     let i := windex n (letters_around b s d) mod 2 ^ 64 in let dim := wrapped_start n ((s + 1) mod 2 ^ 32) in
     (i < dim -> exists v, run = Ret v /\ dv_size v = dim) /\ (dim <= i -> run = UB)).
Proof.
  intros S R so p n k c b s d run Hn Hd Hs.
  destruct (c112_key_to_index p n k (proj2 Hn) Hd) as [I1 I2].
  destruct (c112_dimension_for_key p n k Hn Hs) as [D1 D2]. split; intros Hp.
  - specialize (I1 Hp). specialize (D1 Hp). cbv zeta in I1. fold b s d in I1, D1. intros i dim fine. fold i in I1.
    assert (E : fine = true -> tb_key_to_index p n k = Ret i /\ tb_vector_dimension_for_key p n k = Ret dim).
    { intros F. unfold fine in F. apply andb_prop in F. destruct F as [F F3]. apply andb_prop in F. destruct F as [F1 F2].
      rewrite F2, F3 in I1. rewrite F1 in D1. split; [exact I1|exact D1]. }
    split; [|split].
    + intros F. unfold run. cbn [dense_ops with_defaults v_req dense_required vr_from_key_scalar].
      unfold dv_from_key_scalar. cbn [tensor_basis ob_dim_for_key ob_key_to_index]. rewrite D1, I1.
      unfold fine in F. destruct (n ^ (s + 1) <? 2 ^ 64); [|reflexivity]. cbn [andb] in F. rewrite F. reflexivity.
    + intros F Hlt. destruct (E F) as [E1 E2].
      exact (proj1 (c58_from_key_exact tkey S R so (tensor_basis p n) k c dim i E2 E1) Hlt).
    + intros F Hge. destruct (E F) as [E1 E2].
      exact (proj2 (c58_from_key_exact tkey S R so (tensor_basis p n) k c dim i E2 E1) Hge).
  - intros i dim. exact (c58_from_key_exact tkey S R so (tensor_basis p n) k c dim i (D2 Hp) (I2 Hp)).
Qed.
Example c112_example :
  tb_key_to_index dev 5 (mk_tkey 2 63) = Ret 48 /\ stored_letters (letter_bits 5) 2 63 = [8; 8] /\ windex 5 [8; 8] = 48
  /\ count_below 5 3 = 31 /\ vr_from_key_scalar (dense_ops qc_ops (tensor_basis dev 5)) (mk_tkey 2 63) (q 1) = UB
  /\ tb_key_to_index dev 4294967295 (mk_tkey 2 18446744073709551614) = Panic    (* the first letter would be 2^32 *)
  /\ stored_letters (letter_bits 127) 10 10489068180659619969 = [2; 18; 73; 42; 126; 126; 41; 72; 18; 2]
  /\ windex 127 [2; 18; 73; 42; 126; 126; 41; 72; 18; 2] = 2 ^ 64 /\ tb_key_to_index dev 127 (mk_tkey 10 10489068180659619969) = Panic
  /\ tb_key_to_index release 127 (mk_tkey 10 10489068180659619969) = Ret 0
  /\ tb_key_to_index dev 127 (mk_tkey 10 10489068180659619968) = Ret (2 ^ 64 - 1)
  /\ tb_key_to_index release 3 (mk_tkey 33 2) = Ret (windex 3 (3 :: repeat 1 31 ++ [3]) mod 2 ^ 64)
  /\ tb_key_to_index dev 3 (mk_tkey 33 2) = Panic
  /\ ti_take dev 5 (ti_new (mk_tkey 2 62)) 4 = Ret [Some 8; Some 7; None; None]
  /\ ti_take dev 3 (ti_new (mk_tkey 33 2)) 1 = Panic
  /\ tk_to_letters dev 5 (mk_tkey 2 62) = Ret [7; 8] /\ tk_debug dev 5 (mk_tkey 2 62) = Ret "(7, 8)"%string
  /\ tk_debug dev 3 (mk_tkey 33 2) = Panic
  /\ ti_take release 3 (ti_new (mk_tkey 33 2)) 2 = Ret [Some 3; Some 1].
Proof. repeat split; vm_compute; reflexivity. Qed.
