(** Lemmas about the in-place tensor product of dense vectors. *)
From Verif Require Import Machine MachineLemmas S_Words L_Words M_Scalar M_Vector M_Dense M_TensorKey M_TensorBasis
  S_TensorApi S_Vector S_Tensor L_TensorKey L_TensorBasis L_Dense M_Algebra L_Algebra.

Lemma rev_range_incl_nil a b : b < a -> rev_range_incl a b = [].
Proof. intros H. unfold rev_range_incl, range_incl. replace (N.to_nat (b + 1 - a)) with 0%nat by lia. reflexivity. Qed.
Lemma seqN_snoc a k : seqN a (Datatypes.S k) = seqN a k ++ [a + N.of_nat k].
Proof.
  revert a; induction k as [|k IH]; intros a.
  - cbn. rewrite N.add_0_r. reflexivity.
  - change (seqN a (Datatypes.S (Datatypes.S k))) with (a :: seqN (a + 1) (Datatypes.S k)). rewrite IH.
    cbn [seqN app]. do 3 f_equal. lia.
Qed.
Lemma rev_range_incl_head a b : a <= b -> exists tl, rev_range_incl a b = b :: tl.
Proof.
  intros H. unfold rev_range_incl, range_incl. replace (N.to_nat (b + 1 - a)) with (Datatypes.S (N.to_nat (b - a))) by lia.
  rewrite seqN_snoc, rev_app_distr. cbn [rev app]. eexists. f_equal. lia.
Qed.
Lemma rev_range_incl_cons a b : a <= b + 1 -> rev_range_incl a (b + 1) = (b + 1) :: rev_range_incl a b.
Proof.
  intros H. unfold rev_range_incl, range_incl.
  replace (N.to_nat (b + 1 + 1 - a)) with (Datatypes.S (N.to_nat (b + 1 - a))) by lia.
  rewrite seqN_snoc, rev_app_distr. cbn [rev app]. f_equal. lia.
Qed.
Lemma rev_range_incl_one a : rev_range_incl a a = [a].
Proof. unfold rev_range_incl, range_incl. replace (N.to_nat (a + 1 - a)) with 1%nat by lia. reflexivity. Qed.
Lemma rev_range_incl_last a b : a <= b -> exists l, rev_range_incl a b = l ++ [a].
Proof.
  intros H. unfold rev_range_incl, range_incl. replace (N.to_nat (b + 1 - a)) with (Datatypes.S (N.to_nat (b - a))) by lia.
  cbn [seqN rev]. eexists. reflexivity.
Qed.

Section Inplace.
  Context {S R : Type} (so : scalar_ops S R) (p : profile) (n : N) (Hn : 2 <= n) (func : S -> S).
  Notation zero := (s_zero so).
  Notation cb d := (count_below n (N.to_nat d)).
  Notation cbS d := (count_below n (Datatypes.S (N.to_nat d))).
  Implicit Types self y : dvec S.

  Lemma cb_strict a b : a < b -> cb a < cb b.
  Proof. intros. apply count_below_strict; lia. Qed.
  Lemma cb_le a b : a <= b -> cb a <= cb b.
  Proof. intros. apply count_below_mono; lia. Qed.
  Lemma cb_0 : cb 0 = 0. Proof. reflexivity. Qed.
  Lemma cbS_0 : cbS 0 = 1. Proof. reflexivity. Qed.
  Lemma cbS_as_cb d : cbS d = cb (d + 1).
  Proof. f_equal. lia. Qed.
  Lemma pow_fits a b : a <= b -> n ^ b < 2 ^ 64 -> n ^ a < 2 ^ 64.
  Proof. intros H P. pose proof (pow_le n a b). lia. Qed.

  Lemma block_slice y d : stored_to n y d -> slice_unchecked (dv_as_slice y) (cb d) (cbS d) = Ret (degree_block n y d).
  Proof.
    intros H. unfold slice_unchecked, degree_block, dv_as_slice. unfold stored_to, dv_size in H.
    pose proof (cbS_cb n d) as E. destruct (N.leb_spec (cb d) (cbS d)); [|lia].
    destruct (N.leb_spec (cbS d) (len (dv_elems y))); [|lia]. cbn [andb]. do 3 f_equal. lia.
  Qed.
  Lemma block_len y d : stored_to n y d -> len (degree_block n y d) = n ^ d.
  Proof.
    intros H. unfold degree_block. unfold stored_to, dv_size in H. pose proof (cbS_cb n d) as E.
    apply len_firstn. rewrite len_skipn. lia.
  Qed.
  Lemma block_get y d i : i < n ^ d -> slice_get (degree_block n y d) i = slice_get (dv_elems y) (cb d + i).
  Proof.
    intros H. unfold degree_block. rewrite slice_get_firstn. destruct (N.ltb_spec i (n ^ d)); [|lia]. apply slice_get_skipn.
  Qed.

  (** multiplying one degree of self in place by all coefficients of one degree of y *)
  Definition scan (y : dvec S) (d : N) (x : S) : S :=
    fold_left (fun a b => func (s_mul so a b)) (degree_block n y d) x.
  Lemma assign_ok self y out d : stored_to n self out -> stored_to n y d ->
    exists e, (let v := dv_as_mut self in
               o <- slice_unchecked (dv_elems v) (cb out) (cbS out) ;;
               r <- slice_unchecked (dv_as_slice y) (cb d) (cbS d) ;;
               Ret (dv_write v (splice (dv_elems v) (cb out) (multiply_buffer_inplace so o r func))))
              = Ret (after self false e)
      /\ len e = dv_size self
      /\ forall i, slice_get e i = if (cb out <=? i) && (i <? cbS out)
                                   then option_map (scan y d) (slice_get (dv_elems self) i)
                                   else slice_get (dv_elems self) i.
  Proof.
    intros Hs Hy. cbv zeta. rewrite as_mut_elems, (block_slice y d Hy). unfold stored_to, dv_size in Hs.
    pose proof (cbS_cb n out) as E.
    destruct (slice_unchecked_ok (dv_elems self) (cb out) (cbS out)) as (o & -> & Ho & Go); [lia|exact Hs|].
    cbn [bind]. rewrite write_as_mut. eexists. split; [reflexivity|].
    assert (Hl : len (multiply_buffer_inplace so o (degree_block n y d) func) = cbS out - cb out)
      by (unfold multiply_buffer_inplace; rewrite len_map; exact Ho).
    assert (Hfit : cb out + len (multiply_buffer_inplace so o (degree_block n y d) func) <= len (dv_elems self)) by lia.
    split; [apply splice_len; exact Hfit|]. intros i. rewrite splice_get by exact Hfit. rewrite Hl.
    replace (cb out + (cbS out - cb out)) with (cbS out) by lia.
    destruct (N.leb_spec (cb out) i), (N.ltb_spec i (cbS out)); cbn [andb]; try reflexivity.
    unfold multiply_buffer_inplace. rewrite slice_get_map, Go by lia.
    replace (cb out + (i - cb out)) with i by lia. reflexivity.
  Qed.

  (** multiplying through a split *)
  Lemma split_UB self y lmax d e f : n ^ (lmax + 1) < 2 ^ 64 -> cb lmax <= dv_size self ->
    lmax <= d \/ (1 <= d /\ e = f) ->
    mul_split so p n y func self lmax (cb d, cbS d) (cb f, cbS f) (cb e, cbS e) = UB.
  Proof.
    intros P Hs Hd. unfold mul_split. rewrite start_of_degree_ok; [|exact Hn|apply (pow_fits _ (lmax + 1)); [lia|exact P]].
    cbn [bind fst snd]. rewrite as_mut_elems. unfold split_at_mut. unfold dv_size in Hs.
    destruct (N.leb_spec (cb lmax) (len (dv_elems self))); [|lia]. cbn [bind].
    set (a := firstn (N.to_nat (cb lmax)) (dv_elems self)). set (b := skipn (N.to_nat (cb lmax)) (dv_elems self)).
    assert (La : len a = cb lmax) by (apply len_firstn; exact Hs).
    pose proof (cbS_cb n d) as Ed. pose proof (cbS_cb n e) as Ee. pose proof (cbS_cb n f) as Ef.
    assert (0 < n ^ d) by (apply pow_pos; lia). assert (0 < n ^ f) by (apply pow_pos; lia).
    destruct (N.le_gt_cases (cbS e) (len b)) as [He|He]; [|rewrite slice_unchecked_UB by (right; exact He); reflexivity].
    destruct (slice_unchecked_ok b (cb e) (cbS e)) as (o & -> & Ho & _); [lia|exact He|]. cbn [bind].
    destruct (N.le_gt_cases (cbS d) (len a)) as [Hl|Hl]; [|rewrite slice_unchecked_UB by (right; exact Hl); reflexivity].
    destruct Hd as [Hd|[Hd ->]]; [exfalso; pose proof (cb_le lmax d Hd); lia|].
    destruct (slice_unchecked_ok a (cb d) (cbS d)) as (x & -> & Hx & _); [lia|exact Hl|]. cbn [bind].
    destruct (N.le_gt_cases (cbS f) (len (dv_as_slice y))) as [Hf|Hf];
      [|rewrite slice_unchecked_UB by (right; exact Hf); reflexivity].
    destruct (slice_unchecked_ok (dv_as_slice y) (cb f) (cbS f)) as (r & -> & Hr & _); [lia|exact Hf|]. cbn [bind].
    rewrite buffer_UB; [reflexivity|]. rewrite Ho, Hx, Hr.
    replace (cbS f - cb f) with (n ^ f) by lia. replace (cbS d - cb d) with (n ^ d) by lia.
    assert (1 < n ^ d) by (apply N.pow_gt_1; lia). nia.
  Qed.
  Lemma split_ok self y lmax e : n ^ (lmax + 1) < 2 ^ 64 -> 1 <= lmax -> cb lmax + cbS e <= dv_size self ->
    stored_to n y e ->
    exists z, mul_split so p n y func self lmax (cb 0, cbS 0) (cb e, cbS e) (cb e, cbS e) = Ret (after self false z)
      /\ len z = dv_size self
      /\ forall i, slice_get z i = if (cb lmax + cb e <=? i) && (i <? cb lmax + cbS e)
                                   then Some (s_add so (coef so self i) (func (s_mul so (coef so self 0) (coef so y (i - cb lmax)))))
                                   else slice_get (dv_elems self) i.
  Proof.
    intros P Hlm Hs Hy. unfold mul_split. rewrite start_of_degree_ok; [|exact Hn|apply (pow_fits _ (lmax + 1)); [lia|exact P]].
    cbn [bind fst snd]. rewrite as_mut_elems. unfold split_at_mut. unfold dv_size in Hs.
    destruct (N.leb_spec (cb lmax) (len (dv_elems self))) as [Hc|]; [|lia]. cbn [bind].
    set (a := firstn (N.to_nat (cb lmax)) (dv_elems self)). set (b := skipn (N.to_nat (cb lmax)) (dv_elems self)).
    assert (La : len a = cb lmax) by (apply len_firstn; exact Hc).
    assert (Lb : len b = len (dv_elems self) - cb lmax) by apply len_skipn.
    pose proof (cbS_cb n e) as Ee. pose proof (cb_le 1 lmax Hlm) as H1. change (cb 1) with 1 in H1.
    destruct (slice_unchecked_ok b (cb e) (cbS e)) as (o & -> & Ho & Go); [lia|lia|]. cbn [bind].
    rewrite cb_0, cbS_0. destruct (slice_unchecked_ok a 0 1) as (x & -> & Hx & Gx); [lia|lia|]. cbn [bind].
    rewrite (block_slice y e Hy). cbn [bind]. pose proof (block_len y e Hy) as Lr.
    destruct (buffer_ok so func o x (degree_block n y e)) as (o' & -> & Ho' & _ & Hin).
    { rewrite Ho, Hx, Lr. lia. }
    cbn [bind]. rewrite write_as_mut. eexists. split; [reflexivity|].
    assert (Hfit : cb e + len o' <= len b) by lia.
    split; [rewrite len_app, splice_len by exact Hfit; unfold dv_size; lia|].
    intros i. rewrite slice_get_app, La. unfold a, b. rewrite slice_get_firstn.
    destruct (N.ltb_spec i (cb lmax)) as [Hi|Hi].
    { destruct (N.leb_spec (cb lmax + cb e) i); [lia|]. reflexivity. }
    fold b. rewrite splice_get by exact Hfit. rewrite Ho', Ho.
    destruct (N.leb_spec (cb e) (i - cb lmax)), (N.leb_spec (cb lmax + cb e) i); try lia; cbn [andb].
    2: { unfold b. rewrite slice_get_skipn. f_equal. lia. }
    destruct (N.ltb_spec (i - cb lmax) (cb e + (cbS e - cb e))), (N.ltb_spec i (cb lmax + cbS e)); try lia.
    2: { unfold b. rewrite slice_get_skipn. f_equal. lia. }
    assert (Sx : slice_get x 0 = Some (coef so self 0)).
    { rewrite Gx by lia. unfold a. rewrite slice_get_firstn. destruct (N.ltb_spec (0 + 0) (cb lmax)); [|lia].
      unfold coef, dv_as_slice. destruct (slice_get_some (dv_elems self) (0 + 0)) as [x0 E0]; [lia|].
      change (0 + 0) with 0 in *. rewrite E0. reflexivity. }
    specialize (Hin 0 (i - cb lmax - cb e) (coef so self 0) (coef so y (i - cb lmax)) (coef so self i) Sx).
    rewrite N.mul_0_l, N.add_0_l in Hin. apply Hin.
    - rewrite block_get by lia. replace (cb e + (i - cb lmax - cb e)) with (i - cb lmax) by lia.
      unfold coef, dv_as_slice. unfold stored_to, dv_size in Hy.
      destruct (slice_get_some (dv_elems y) (i - cb lmax)) as [x0 E0]; [lia|]. rewrite E0. reflexivity.
    - rewrite Go by lia. unfold b. rewrite slice_get_skipn. replace (cb lmax + (cb e + (i - cb lmax - cb e))) with i by lia.
      unfold coef, dv_as_slice. destruct (slice_get_some (dv_elems self) i) as [x0 E0]; [lia|]. rewrite E0. reflexivity.
  Qed.

  (** one round of the outer loop, when the left factor's least degree does not underflow *)
  Lemma min_le_l a b : N.min a b <= a. Proof. lia. Qed.
  Lemma body_zero y l r self out : r <= out -> 1 <= out -> n ^ (out + 1) < 2 ^ 64 -> stored_to n self out ->
    mul_into_body so p n y func l r 1 true self out = UB.
  Proof.
    intros Hr Ho P Hs. unfold mul_into_body. rewrite !usub_ok by lia. cbn [bind]. rewrite usub_ok by lia. cbn [bind].
    rewrite !degree_range_ok; try exact Hn; try exact P.
    2: { apply (pow_fits _ (out + 1)); [lia|exact P]. }
    2: { apply (pow_fits _ (out + 1)); [lia|exact P]. }
    cbn [bind N.eqb Pos.eqb]. rewrite split_UB; [reflexivity| | |].
    - apply (pow_fits _ (out + 1)); [lia|exact P].
    - unfold stored_to in Hs. pose proof (cb_le (N.min (out - 1) l) (out + 1) ltac:(lia)). rewrite <- cbS_as_cb in *. lia.
    - left. lia.
  Qed.
  Lemma body_one y l r self out : r <= out -> 1 <= out -> out <= l + r -> n ^ (out + 1) < 2 ^ 64 -> stored_to n self out ->
    mul_into_body so p n y func l r 1 false self out = if r =? 0 then Ret self else UB.
  Proof.
    intros Hr Ho Hl P Hs. unfold mul_into_body. rewrite !usub_ok by lia. cbn [bind]. rewrite usub_ok by lia. cbn [bind].
    rewrite N.sub_0_r. destruct (N.eqb_spec r 0) as [->|Hr0].
    - rewrite rev_range_incl_nil by lia. reflexivity.
    - destruct (rev_range_incl_head (out - r) (N.min (out - 1) l)) as [tl ->]; [lia|]. cbn [for_each].
      unfold mul_into_inner. rewrite !usub_ok by lia. cbn [bind].
      rewrite !degree_range_ok; try exact Hn; try (apply (pow_fits _ (out + 1)); [lia|exact P]). cbn [bind].
      rewrite split_UB; [reflexivity| | |].
      + apply (pow_fits _ (out + 1)); [lia|exact P].
      + unfold stored_to in Hs. pose proof (cb_le (N.min (out - 1) l) (out + 1) ltac:(lia)). rewrite <- cbS_as_cb in *. lia.
      + left. lia.
  Qed.
  (** the general case: multiply the degree in place, then go on *)
  Lemma body_other y l r self out : r <= out -> 1 <= out -> 1 <= l -> out <= l + r -> n ^ (out + 1) < 2 ^ 64 ->
    stored_to n self out -> stored_to n y r ->
    exists e, len e = dv_size self
      /\ (forall i, slice_get e i = if (cb out <=? i) && (i <? cbS out)
                                    then option_map (scan y (out - N.min out l)) (slice_get (dv_elems self) i)
                                    else slice_get (dv_elems self) i)
      /\ mul_into_body so p n y func l r 0 true self out
         = for_each (rev_range_incl (out - r) (N.min out l - 1)) (mul_into_inner so p n y func out (N.min out l))
             (after self false e).
  Proof.
    intros Hr Ho Hl Hlr P Hs Hy.
    destruct (assign_ok self y out (out - N.min out l) Hs) as (e & E & He & Hg).
    { apply (stored_mono n Hn y _ r); [lia|exact Hy]. }
    exists e. split; [exact He|]. split; [exact Hg|]. unfold mul_into_body.
    rewrite !usub_ok by lia. cbn [bind]. rewrite N.sub_0_r. rewrite usub_ok by lia. cbn [bind].
    rewrite !degree_range_ok; try exact Hn; try (apply (pow_fits _ (out + 1)); [lia|exact P]). cbn [bind fst snd].
    change (0 =? 1) with false. cbv iota. cbv zeta in E |- *. rewrite E. cbn [bind]. rewrite usub_ok by lia. reflexivity.
  Qed.
  Lemma inner_UB y self out lmax d : d <= out -> lmax <= out -> 1 <= d -> n ^ (out + 1) < 2 ^ 64 -> cb lmax <= dv_size self ->
    mul_into_inner so p n y func out lmax self d = UB.
  Proof.
    intros Hd Hl H1 P Hs. unfold mul_into_inner. rewrite !usub_ok by lia. cbn [bind].
    rewrite !degree_range_ok; try exact Hn; try (apply (pow_fits _ (out + 1)); [lia|exact P]). cbn [bind].
    apply split_UB; [apply (pow_fits _ (out + 1)); [lia|exact P]|exact Hs|]. right. split; [exact H1|reflexivity].
  Qed.
  Lemma inner_unit y self out lmax : lmax <= out -> n ^ (out + 1) < 2 ^ 64 ->
    mul_into_inner so p n y func out lmax self 0 = mul_split so p n y func self lmax (cb 0, cbS 0) (cb out, cbS out) (cb out, cbS out).
  Proof.
    intros Hl P. unfold mul_into_inner. rewrite !usub_ok by lia. cbn [bind]. rewrite !N.sub_0_r.
    rewrite !degree_range_ok; try exact Hn; try (apply (pow_fits _ (out + 1)); [lia|exact P]). reflexivity.
  Qed.
  Lemma split_short self y lmax e : n ^ (lmax + 1) < 2 ^ 64 -> cb lmax <= dv_size self -> dv_size self < cb lmax + cbS e ->
    mul_split so p n y func self lmax (cb 0, cbS 0) (cb e, cbS e) (cb e, cbS e) = UB.
  Proof.
    intros P Hc Hs. unfold mul_split. rewrite start_of_degree_ok; [|exact Hn|apply (pow_fits _ (lmax + 1)); [lia|exact P]].
    cbn [bind fst snd]. rewrite as_mut_elems. unfold split_at_mut. unfold dv_size in Hs, Hc.
    destruct (N.leb_spec (cb lmax) (len (dv_elems self))) as [_|]; [|lia]. cbn [bind].
    rewrite slice_unchecked_UB; [reflexivity|]. right. rewrite len_skipn. lia.
  Qed.

  (** ** The whole product *)
  Context (x y : dvec S) (l r t : N).
  Notation m := (N.min t (l + r)).
  Notation c := (coef so y 0).
  Context (Hy : filled n y r).
  Notation run := (multiply_into_impl so p n x y func (Some t)).
  Notation is0 := (s_eqb so c zero).
  Notation is1 := (s_eqb so c (s_one so)).

  Lemma y_unit : slice_get (dv_elems y) 0 = Some c.
  Proof.
    unfold filled, dv_size in Hy. pose proof (cb_le 1 (r + 1) ltac:(lia)) as H. rewrite <- cbS_as_cb in H. change (cb 1) with 1 in H.
    destruct (slice_get_some (dv_elems y) 0) as [v E]; [lia|]. unfold coef, dv_as_slice. rewrite E. reflexivity.
  Qed.
  Lemma offset_assign_eq : offset_assign so y
    = if is0 then (1, true) else if is1 then (1, false) else (0, true).
  Proof. unfold offset_assign, dv_as_slice. rewrite y_unit. reflexivity. Qed.
  Lemma y_block_0 : degree_block n y 0 = [c].
  Proof.
    pose proof y_unit as E. unfold degree_block. change (N.to_nat (n ^ 0)) with 1%nat. change (N.to_nat (cb 0)) with 0%nat.
    unfold slice_get in E. cbn in E. destruct (dv_elems y) as [|v e]; [discriminate|]. cbn. congruence.
  Qed.
  Lemma scan_0 v : scan y 0 v = func (s_mul so v c).
  Proof. unfold scan. rewrite y_block_0. reflexivity. Qed.
  Lemma stored_y d : d <= r -> stored_to n y d.
  Proof. intros H. unfold stored_to. rewrite Hy. apply count_below_mono. lia. Qed.

  (** the last round, of degree 1 *)
  Lemma round_1 self : r = 1 -> 1 <= l -> stored_to n self 2 -> n ^ 2 < 2 ^ 64 ->
    exists z, mul_into_body so p n y func l r 0 true self 1 = Ret z /\ dv_size z = dv_size self
      /\ forall i, coef so z i =
           let v := if (1 <=? i) && (i <=? n) then func (s_mul so (coef so self i) c) else coef so self i in
           if (2 <=? i) && (i <=? n + 1) then s_add so v (func (s_mul so (coef so self 0) (coef so y (i - 1)))) else v.
  Proof.
    intros Hr Hl Hs P. assert (C1 : cb 1 = 1) by reflexivity. assert (C2 : cbS 1 = 1 + n).
    { rewrite cbS_cb, C1, N.pow_1_r. reflexivity. }
    assert (C3 : cbS 2 = 1 + n + n * n).
    { rewrite cbS_cb. change (cb 2) with (cbS 1). rewrite C2, N.pow_2_r. reflexivity. }
    unfold stored_to in Hs. rewrite C3 in Hs.
    destruct (body_other y l r self 1) as (e & He & Hg & ->); [lia|lia|lia|lia|exact P| |apply stored_y; lia|].
    { unfold stored_to. lia. }
    rewrite Hr. replace (N.min 1 l) with 1 by lia. change (1 - 1) with 0. rewrite rev_range_incl_one. cbn [for_each].
    rewrite inner_unit by (assumption || lia).
    destruct (split_ok (after self false e) y 1 1 P ltac:(lia)) as (z & -> & Lz & Gz).
    { change (cb 1 + cbS 1 <= len e). rewrite He, C1, C2. nia. }
    { apply stored_y. lia. }
    cbn [bind]. eexists. split; [reflexivity|]. split; [change (len z = dv_size self); rewrite Lz; exact He|].
    replace (1 - N.min 1 l) with 0 in Hg by lia.
    assert (Ge : forall i, coef so (after self false e) i
                 = if (1 <=? i) && (i <=? n) then func (s_mul so (coef so self i) c) else coef so self i).
    { intros i. unfold coef at 1, dv_as_slice. cbn [after dv_elems]. rewrite Hg, C1, C2.
      destruct (N.leb_spec 1 i), (N.ltb_spec i (1 + n)), (N.leb_spec i n); try lia; cbn [andb]; try reflexivity.
      destruct (slice_get_some (dv_elems self) i) as [v Ev].
      { change (len (dv_elems self)) with (dv_size self). nia. }
      unfold coef, dv_as_slice. rewrite Ev. cbn [option_map]. apply scan_0. }
    intros i. cbv zeta. rewrite <- Ge. unfold coef at 1, dv_as_slice. cbn [after dv_elems]. rewrite Gz, C1, C2.
    destruct (N.leb_spec (1 + 1) i), (N.leb_spec 2 i); try lia; cbn [andb]; [|reflexivity].
    destruct (N.ltb_spec i (1 + (1 + n))), (N.leb_spec i (n + 1)); try lia; [|reflexivity].
    rewrite (Ge 0). reflexivity.
  Qed.

  Context (Hx : filled n x l).
  Context (Pl : n ^ (l + 1) < 2 ^ 64) (Pr : n ^ (r + 1) < 2 ^ 64) (Pm : n ^ (m + 1) < 2 ^ 64).
  Lemma run_start : exists self1,
    run = for_each (rev_range_incl 1 m)
            (mul_into_body so p n y func l r (fst (offset_assign so y)) (snd (offset_assign so y))) self1
    /\ dv_size self1 = N.max (cbS l) (cbS m) /\ (forall i, coef so self1 i = coef so x i)
    /\ (m <= l -> self1 = x).
  Proof.
    unfold multiply_into_impl.
    rewrite (degree_ok p n Hn x l (filled_degree n Hn x l Hx) Pl), (degree_ok p n Hn y r (filled_degree n Hn y r Hy) Pr).
    cbn [bind]. pose proof (pow_u64_exp n _ Hn Pl). pose proof (pow_u64_exp n _ Hn Pr).
    rewrite product_degree_ok by lia. cbn [bind].
    destruct (grow_ok so p n Hn x l m (filled_degree n Hn x l Hx) Pl (fun _ => Pm)) as (e & -> & He & Hw). cbn [bind].
    destruct (offset_assign so y) as [offset assign]. cbn [fst snd].
    destruct (N.ltb_spec l m) as [H1|H1].
    - exists (after x true e). split; [reflexivity|]. split; [|split; [|lia]].
      + change (dv_size (after x true e)) with (len e). rewrite He by exact H1. rewrite N.max_r; [reflexivity|].
        apply count_below_mono. lia.
      + intros i. destruct (every_word n i ltac:(lia)) as (w & Hwo & <-). apply (Hw H1 w Hwo).
    - exists x. split; [reflexivity|]. split; [|split; reflexivity]. rewrite Hx, N.max_l; [reflexivity|].
      apply count_below_mono. lia.
  Qed.
  Lemma run_zero_degree : m = 0 -> run = Ret x.
  Proof.
    intros H. destruct run_start as (self1 & -> & _ & _ & E). rewrite E by lia. rewrite H. reflexivity.
  Qed.
  Lemma run_c0 : 1 <= m -> r <= m -> is0 = true -> run = UB.
  Proof.
    intros Hm Hr H0. destruct run_start as (self1 & -> & Hs & _). rewrite offset_assign_eq, H0. cbn [fst snd].
    destruct (rev_range_incl_head 1 m Hm) as [tl ->]. cbn [for_each]. rewrite body_zero; [reflexivity|assumption..|].
    unfold stored_to. rewrite Hs. lia.
  Qed.
  Lemma run_c1_unit : r = 0 -> is0 = false -> is1 = true -> run = Ret x.
  Proof.
    intros Hr H0 H1. destruct run_start as (self1 & -> & Hs & _ & E). rewrite offset_assign_eq, H0, H1. cbn [fst snd].
    rewrite E by lia. rewrite E in Hs by lia.
    assert (G : forall k, k <= m -> for_each (rev_range_incl 1 k) (mul_into_body so p n y func l r 1 false) x = Ret x).
    { intros k. induction k as [|k IH] using N.peano_ind; intros Hk; [reflexivity|].
      rewrite <- N.add_1_r in *. rewrite rev_range_incl_cons by lia. cbn [for_each].
      rewrite body_one; [|lia|lia|lia| |].
      - destruct (N.eqb_spec r 0); [|lia]. cbn [bind]. apply IH. lia.
      - apply (pow_fits _ (m + 1)); [lia|exact Pm].
      - unfold stored_to. rewrite Hs. pose proof (cbS_mono n Hn (k + 1) m Hk). lia. }
    apply G. lia.
  Qed.
  Lemma run_c1 : 1 <= r -> r <= m -> is0 = false -> is1 = true -> run = UB.
  Proof.
    intros Hr Hm H0 H1. destruct run_start as (self1 & -> & Hs & _ & E). rewrite offset_assign_eq, H0, H1. cbn [fst snd].
    destruct (rev_range_incl_head 1 m ltac:(lia)) as [tl ->]. cbn [for_each]. rewrite body_one; [|lia|lia|lia|exact Pm|].
    - destruct (N.eqb_spec r 0); [lia|reflexivity].
    - unfold stored_to. rewrite Hs. lia.
  Qed.
  Lemma run_scalar : r = 0 -> is0 = false -> is1 = false ->
    exists z, run = Ret z /\ dv_size z = dv_size x /\ forall i, coef so z i = if (1 <=? i) && (i <? cbS m) then func (s_mul so (coef so x i) c) else coef so x i.
  Proof.
    intros Hr H0 H1. destruct run_start as (self1 & -> & Hs & _ & E). rewrite offset_assign_eq, H0, H1. cbn [fst snd].
    rewrite E by lia. rewrite E in Hs by lia. clear E self1.
    assert (G : forall k, k <= m -> forall self, dv_size self = dv_size x ->
      exists z, for_each (rev_range_incl 1 k) (mul_into_body so p n y func l r 0 true) self = Ret z
        /\ dv_size z = dv_size x
        /\ forall i, coef so z i = if (1 <=? i) && (i <? cbS k) then func (s_mul so (coef so self i) c) else coef so self i).
    { intros k. induction k as [|k IH] using N.peano_ind; intros Hk self Hself.
      - exists self. split; [reflexivity|]. split; [exact Hself|]. intros i. rewrite cbS_0.
        destruct (N.leb_spec 1 i), (N.ltb_spec i 1); reflexivity || lia.
      - rewrite <- N.add_1_r in *. rewrite rev_range_incl_cons by lia. cbn [for_each].
        destruct (body_other y l r self (k + 1)) as (e & He & Hg & ->); [lia|lia|lia|lia| | |apply stored_y; lia|].
        { apply (pow_fits _ (m + 1)); [lia|exact Pm]. }
        { unfold stored_to. rewrite Hself, Hs. pose proof (cbS_mono n Hn (k + 1) m Hk). lia. }
        rewrite rev_range_incl_nil by lia. cbn [for_each bind].
        destruct (IH ltac:(lia) (after self false e)) as (z & -> & Hz & Gz).
        { change (len e = dv_size x). congruence. }
        exists z. split; [reflexivity|]. split; [exact Hz|]. intros i. rewrite Gz.
        assert (Ge : coef so (after self false e) i
                     = if (cb (k + 1) <=? i) && (i <? cbS (k + 1)) then func (s_mul so (coef so self i) c) else coef so self i).
        { unfold coef at 1, dv_as_slice. cbn [after dv_elems]. rewrite Hg.
          replace (k + 1 - N.min (k + 1) l) with 0 by lia.
          destruct (N.leb_spec (cb (k + 1)) i), (N.ltb_spec i (cbS (k + 1))); cbn [andb]; try reflexivity.
          destruct (slice_get_some (dv_elems self) i) as [v Ev].
          { change (len (dv_elems self)) with (dv_size self). rewrite Hself, Hs. pose proof (cbS_mono n Hn (k + 1) m Hk). lia. }
          unfold coef, dv_as_slice. rewrite Ev. cbn [option_map]. apply scan_0. }
        rewrite Ge. rewrite <- (cbS_as_cb k) in *. pose proof (cbS_mono n Hn k (k + 1) ltac:(lia)).
        assert (1 <= cbS k) by (pose proof (cbS_mono n Hn 0 k ltac:(lia)); rewrite cbS_0 in *; lia).
        destruct (N.leb_spec 1 i), (N.ltb_spec i (cbS k)), (N.leb_spec (cbS k) i), (N.ltb_spec i (cbS (k + 1)));
          cbn [andb]; reflexivity || lia. }
    destruct (G m ltac:(lia) x eq_refl) as (z & E & Hz & Gz). exists z. split; [exact E|]. split; [exact Hz|exact Gz].
  Qed.
  Lemma run_panic : overflow_checks p = true -> r = 1 -> l = 0 -> 1 <= m -> is0 = false -> is1 = false -> run = Panic.
  Proof.
    intros Hp Hr Hl Hm H0 H1. destruct run_start as (self1 & -> & Hs & _ & E). rewrite offset_assign_eq, H0, H1. cbn [fst snd].
    assert (Em : m = 1) by lia. rewrite Em in *. rewrite rev_range_incl_one. cbn [for_each].
    unfold mul_into_body. rewrite !usub_ok by lia. cbn [bind]. rewrite usub_ok by lia. cbn [bind].
    rewrite !degree_range_ok; try exact Hn; try (apply (pow_fits _ (1 + 1)); [lia|exact Pm]). cbn [bind fst snd].
    change (0 =? 1) with false. cbv iota.
    destruct (assign_ok self1 y 1 (1 - N.min (1 - 0) l)) as (e & E' & _ & _).
    { unfold stored_to. rewrite Hs. lia. }
    { apply stored_y. lia. }
    cbv zeta in E' |- *. rewrite E'. cbn [bind]. rewrite usub_panic by (assumption || lia). reflexivity.
  Qed.
  Lemma run_high : overflow_checks p = true -> 2 <= r -> 1 <= m -> ~ returns run.
  Proof.
    intros Hp Hr Hm [z Ez]. destruct run_start as (self1 & E & _). rewrite E in Ez. clear E.
    destruct (rev_range_incl_last 1 m Hm) as [tl El]. rewrite El in Ez. rewrite for_each_app in Ez.
    destruct (for_each tl _ self1); cbn [bind] in Ez; try discriminate.
    cbn [for_each] in Ez. unfold mul_into_body in Ez. rewrite usub_panic in Ez by (assumption || lia). discriminate.
  Qed.
  (** r = 1 *)
  Lemma run_1_UB : r = 1 -> 1 <= l -> 1 <= m -> ~ (l = 1 /\ m = 2) -> ~ (2 <= l /\ m = 1) ->
    is0 = false -> is1 = false -> run = UB.
  Proof.
    intros Hr Hl Hm N1 N2 H0 H1. destruct run_start as (self1 & -> & Hs & _). rewrite offset_assign_eq, H0, H1. cbn [fst snd].
    (* a round at a degree 2 <= out <= l is undefined *)
    assert (B : forall self out, dv_size self = dv_size self1 -> 2 <= out -> out <= l -> out <= m ->
      mul_into_body so p n y func l r 0 true self out = UB).
    { intros self out Hself H2 Hol Hom.
      destruct (body_other y l r self out) as (e & He & _ & ->); [lia|lia|lia|lia| | |apply stored_y; lia|].
      { apply (pow_fits _ (m + 1)); [lia|exact Pm]. }
      { unfold stored_to. rewrite Hself, Hs. pose proof (cbS_mono n Hn out m Hom). lia. }
      destruct (rev_range_incl_head (out - r) (N.min out l - 1)) as [tl ->]; [lia|]. cbn [for_each].
      rewrite inner_UB; [reflexivity|lia|lia|lia|apply (pow_fits _ (m + 1)); [lia|exact Pm]|].
      change (cb (N.min out l) <= len e). rewrite He, Hself, Hs. pose proof (cb_le (N.min out l) (m + 1) ltac:(lia)) as H.
      rewrite <- cbS_as_cb in H. lia. }
    destruct (N.le_gt_cases m l) as [Hml|Hml].
    - destruct (N.eq_dec m 1) as [Em|Em].
      + (* l = 1, m = 1: the slice behind the split is too short *)
        assert (El : l = 1) by lia. rewrite Em in *. rewrite rev_range_incl_one. cbn [for_each].
        destruct (body_other y l r self1 1) as (e & He & _ & ->); [lia|lia|lia|lia|exact Pm| |apply stored_y; lia|].
        { unfold stored_to. rewrite Hs. lia. }
        rewrite Hr. replace (N.min 1 l - 1) with 0 by lia. change (1 - 1) with 0. rewrite rev_range_incl_one. cbn [for_each].
        rewrite inner_unit by (assumption || lia). rewrite El. change (N.min 1 1) with 1. rewrite split_short; [reflexivity|exact Pm| |].
        * change (cb 1 <= len e). rewrite He, Hs. rewrite El. pose proof (cb_le 1 2 ltac:(lia)). change (cbS 1) with (cb 2). lia.
        * change (len e < cb 1 + cbS 1). rewrite He, Hs, El. change (cb 1) with 1. lia.
      + destruct (rev_range_incl_head 1 m Hm) as [tl ->]. cbn [for_each]. rewrite B by lia. reflexivity.
    - assert (Em : m = l + 1) by lia. assert (2 <= l) by lia. rewrite Em in *. rewrite rev_range_incl_cons by lia. cbn [for_each].
      destruct (body_other y l r self1 (l + 1)) as (e & He & _ & ->); [lia|lia|lia|lia|exact Pm| |apply stored_y; lia|].
      { unfold stored_to. rewrite Hs. lia. }
      rewrite rev_range_incl_nil by lia. cbn [for_each bind].
      destruct (rev_range_incl_head 1 l ltac:(lia)) as [tl ->]. cbn [for_each].
      rewrite B; [reflexivity| |lia|lia|lia]. change (len e = dv_size self1). exact He.
  Qed.
  Lemma run_1_grown : r = 1 -> l = 1 -> m = 2 -> is0 = false -> is1 = false ->
    exists z, run = Ret z /\ filled n z 2
      /\ forall i, coef so z i =
           let v := if i =? 0 then coef so x 0
                    else if i <=? n then func (s_mul so (coef so x i) c)
                    else if i <=? n + n * n then scan y 1 zero else zero in
           if (2 <=? i) && (i <=? n + 1) then s_add so v (func (s_mul so (coef so x 0) (coef so y (i - 1)))) else v.
  Proof.
    intros Hr Hl Hm H0 H1. destruct run_start as (self1 & -> & Hs & Hc & _). rewrite offset_assign_eq, H0, H1. cbn [fst snd].
    rewrite Hm in *. change 2 with (1 + 1) at 1. rewrite rev_range_incl_cons by lia. cbn [for_each]. change (1 + 1) with 2.
    assert (C1 : cb 1 = 1) by reflexivity. assert (C2 : cbS 1 = 1 + n).
    { rewrite cbS_cb, C1, N.pow_1_r. reflexivity. }
    assert (C2' : cb 2 = 1 + n) by exact C2.
    assert (C3 : cbS 2 = 1 + n + n * n).
    { rewrite cbS_cb, C2', N.pow_2_r. reflexivity. }
    rewrite Hl in Hs. rewrite N.max_r in Hs by lia.
    destruct (body_other y l r self1 2) as (e & He & Hg & ->); [lia|lia|lia|lia|exact Pm| |apply stored_y; lia|].
    { unfold stored_to. lia. }
    rewrite rev_range_incl_nil by lia. cbn [for_each bind].
    rewrite rev_range_incl_one. cbn [for_each].
    destruct (round_1 (after self1 false e) Hr ltac:(lia)) as (z & -> & Lz & Gz).
    { unfold stored_to. change (cbS 2 <= len e). lia. }
    { apply (pow_fits _ (2 + 1)); [lia|exact Pm]. }
    cbn [bind]. exists z. split; [reflexivity|]. split.
    { unfold filled. rewrite Lz. change (len e = cbS 2). lia. }
    replace (2 - N.min 2 l) with 1 in Hg by lia.
    assert (Xz : forall i, n < i -> coef so x i = zero).
    { intros i Hi. apply coef_out. rewrite Hx, Hl, C2. lia. }
    assert (Ge : forall i, coef so (after self1 false e) i
                 = if (1 + n <=? i) && (i <=? n + n * n) then scan y 1 zero else coef so x i).
    { intros i. unfold coef at 1, dv_as_slice. cbn [after dv_elems]. rewrite Hg, C2', C3. rewrite <- Hc.
      destruct (N.leb_spec (1 + n) i), (N.ltb_spec i (1 + n + n * n)), (N.leb_spec i (n + n * n)); try lia; cbn [andb]; try reflexivity.
      destruct (slice_get_some (dv_elems self1) i) as [v Ev].
      { change (len (dv_elems self1)) with (dv_size self1). lia. }
      assert (v = zero) as ->.
      { specialize (Hc i). rewrite (Xz i) in Hc by lia. unfold coef, dv_as_slice in Hc. rewrite Ev in Hc. exact Hc. }
      rewrite Ev. reflexivity. }
    intros i. rewrite Gz. rewrite !Ge. cbv zeta.
    destruct (N.leb_spec (1 + n) 0); [lia|]. cbn [andb].
    assert (Ev : (if (1 <=? i) && (i <=? n)
                  then func (s_mul so (if (1 + n <=? i) && (i <=? n + n * n) then scan y 1 zero else coef so x i) c)
                  else if (1 + n <=? i) && (i <=? n + n * n) then scan y 1 zero else coef so x i)
                 = (if i =? 0 then coef so x 0 else if i <=? n then func (s_mul so (coef so x i) c)
                    else if i <=? n + n * n then scan y 1 zero else zero)).
    { destruct (N.eqb_spec i 0) as [->|Hi0].
      - destruct (N.leb_spec 1 0), (N.leb_spec (1 + n) 0); try lia. reflexivity.
      - destruct (N.leb_spec 1 i), (N.leb_spec i n), (N.leb_spec (1 + n) i), (N.leb_spec i (n + n * n)); try lia; cbn [andb];
          try reflexivity; apply Xz; lia. }
    rewrite Ev. reflexivity.
  Qed.
  Lemma run_1_kept : r = 1 -> 2 <= l -> m = 1 -> is0 = false -> is1 = false ->
    exists z, run = Ret z /\ filled n z l
      /\ forall i, coef so z i =
           let v := if (1 <=? i) && (i <=? n) then func (s_mul so (coef so x i) c) else coef so x i in
           if (2 <=? i) && (i <=? n + 1) then s_add so v (func (s_mul so (coef so x 0) (coef so y (i - 1)))) else v.
  Proof.
    intros Hr Hl Hm H0 H1. destruct run_start as (self1 & -> & Hs & Hc & E). rewrite offset_assign_eq, H0, H1. cbn [fst snd].
    rewrite (E ltac:(lia)) in *. rewrite Hm. rewrite rev_range_incl_one. cbn [for_each].
    destruct (round_1 x Hr ltac:(lia)) as (z & -> & Lz & Gz).
    { unfold stored_to. rewrite Hx. apply count_below_mono. lia. }
    { apply (pow_fits _ (l + 1)); [lia|exact Pl]. }
    cbn [bind]. exists z. split; [reflexivity|]. split; [unfold filled; rewrite Lz; exact Hx|exact Gz].
  Qed.
End Inplace.
