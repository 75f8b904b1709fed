(** Property lemmas C87-C89 (restated as theorems in P_Slices.v). *)
From Coq Require Import QArith Qcanon.
From Verif Require Import Machine MachineLemmas S_Words L_Words M_TensorKey L_TensorKey M_TensorBasis
  L_TensorBasis M_Scalar M_Vector M_Dense M_Slices S_Slices S_Vector S_Tensor I_Scalars L_Dense L_PropKey L_Algebra
  L_Inplace L_PropSafe.
Local Open Scope N_scope.

(** the half open range of an index *)
Lemma index_range_spec l ix : l < 2 ^ 64 ->
  (fits l ix -> exists b, index_range l ix = Some (first_of ix, b) /\ first_of ix <= b <= l
     /\ forall i, first_of ix <= i -> (i < b <-> names ix i /\ i < l))
  /\ (~ fits l ix -> index_range l ix = None).
Proof.
  intros Hl. unfold index_range.
  destruct ix as [j|a b|a|b| |a b|b]; cbn [fits first_of names]; split; intros H.
  - destruct (N.ltb_spec j l); [|lia]. exists (j + 1). repeat split; lia.
  - destruct (N.ltb_spec j l); [lia|]. reflexivity.
  - destruct (N.leb_spec a b), (N.leb_spec b l); try lia. cbn [andb]. exists b. repeat split; lia.
  - destruct (N.leb_spec a b), (N.leb_spec b l); try lia; reflexivity.
  - destruct (N.leb_spec a l), (N.leb_spec l l); try lia. cbn [andb]. exists l. repeat split; lia.
  - destruct (N.leb_spec a l), (N.leb_spec l l); try lia; reflexivity.
  - destruct (N.leb_spec 0 b), (N.leb_spec b l); try lia. cbn [andb]. exists b. repeat split; lia.
  - destruct (N.leb_spec 0 b), (N.leb_spec b l); try lia; reflexivity.
  - exists l. repeat split; lia.
  - destruct H. exact I.
  - change (2 ^ 64) with 18446744073709551616 in *. destruct (N.eqb_spec b (18446744073709551616 - 1)); [lia|].
    destruct (N.leb_spec a (b + 1)), (N.leb_spec (b + 1) l); try lia. cbn [andb]. exists (b + 1). repeat split; lia.
  - destruct (N.eqb_spec b (2 ^ 64 - 1)); [reflexivity|].
    destruct (N.leb_spec a (b + 1)), (N.leb_spec (b + 1) l); try lia; reflexivity.
  - change (2 ^ 64) with 18446744073709551616 in *. destruct (N.eqb_spec b (18446744073709551616 - 1)); [lia|].
    destruct (N.leb_spec 0 (b + 1)), (N.leb_spec (b + 1) l); try lia. cbn [andb]. exists (b + 1). repeat split; lia.
  - destruct (N.eqb_spec b (2 ^ 64 - 1)); [reflexivity|].
    destruct (N.leb_spec 0 (b + 1)), (N.leb_spec (b + 1) l); try lia; reflexivity.
Qed.
Lemma sub_get {A} (l : list A) a b j : b <= len l ->
  slice_get (firstn (N.to_nat (b - a)) (skipn (N.to_nat a) l)) j = if a + j <? b then slice_get l (a + j) else None.
Proof.
  intros Hb. rewrite slice_get_firstn, slice_get_skipn.
  destruct (N.ltb_spec j (b - a)), (N.ltb_spec (a + j) b); try lia; reflexivity.
Qed.
Lemma sub_len {A} (l : list A) a b : a <= b <= len l -> len (firstn (N.to_nat (b - a)) (skipn (N.to_nat a) l)) = b - a.
Proof. intros H. apply len_firstn. rewrite len_skipn. lia. Qed.

Lemma skip_skip {A} a b (l : list A) : skipn a (skipn b l) = skipn (a + b) l.
Proof. revert l; induction b as [|b IH]; intros l; [f_equal; lia|]. rewrite Nat.add_succ_r. destruct l; [now rewrite !skipn_nil|apply IH]. Qed.

(** * C87 *)
Lemma c87_get : forall (S : Type) (v : dvec S) (ix : slice_index), dv_size v < 2 ^ 64 ->
  (fits (dv_size v) ix -> exists s, dv_get_slice v ix = Some s
     /\ (forall j, names ix (first_of ix + j) -> slice_get s j = slice_get (dv_as_slice v) (first_of ix + j))
     /\ (forall j, ~ names ix (first_of ix + j) -> slice_get s j = None))
  /\ (~ fits (dv_size v) ix -> dv_get_slice v ix = None).
Proof.
  intros S v ix Hl. destruct (index_range_spec (dv_size v) ix Hl) as [Hok Hno]. unfold dv_get_slice, slice_get_index.
  change (len (dv_as_slice v)) with (dv_size v). split; intros H.
  - destruct (Hok H) as (b & -> & Hb & Hi). eexists. split; [reflexivity|]. split; intros j Hj.
    + rewrite sub_get by exact (proj2 Hb). specialize (Hi (first_of ix + j) ltac:(lia)).
      destruct (N.ltb_spec (first_of ix + j) b); [reflexivity|]. symmetry. apply slice_get_none.
      destruct (N.le_gt_cases (dv_size v) (first_of ix + j)) as [L|L]; [exact L|].
      pose proof (proj2 Hi (conj Hj L)). lia.
    + rewrite sub_get by exact (proj2 Hb). specialize (Hi (first_of ix + j) ltac:(lia)).
      destruct (N.ltb_spec (first_of ix + j) b) as [L|]; [|reflexivity]. destruct Hj. apply (proj1 Hi L).
  - rewrite (Hno H). reflexivity.
Qed.
Lemma c87_degree : forall (S R : Type) (so : scalar_ops S R) (p : profile) (n d a b : N) (v : dvec S),
  2 <= n < 2 ^ 32 -> n ^ (d + 1) < 2 ^ 64 ->
  tb_start_of_degree p n d = Ret a -> tb_start_of_degree p n (d + 1) = Ret b ->
  (stored_to n v d -> exists s, dv_get_slice v (IRange a b) = Some s /\ len s = n ^ d
     /\ forall w k, word_ok n w -> len w = d -> tk_from_letters p n w = Ret k ->
          exists i, tb_key_to_index p n k = Ret (a + i) /\ i < n ^ d
            /\ vr_get (dense_ops so (tensor_basis p n)) v k = Ret (slice_get s i))
  /\ (~ stored_to n v d -> dv_get_slice v (IRange a b) = None).
Proof.
  intros S R so p n d a b v Hn Hp Ha Hb.
  assert (Hp' : n ^ d < 2 ^ 64).
  { apply N.le_lt_trans with (2 := Hp). apply N.pow_le_mono_r; lia. }
  rewrite start_of_degree_ok in Ha by (assumption || lia). rewrite start_of_degree_ok in Hb by (assumption || lia).
  injection Ha as <-. injection Hb as <-. replace (N.to_nat (d + 1)) with (Datatypes.S (N.to_nat d)) by lia.
  unfold stored_to. pose proof (cbS_cb n d) as E. unfold dv_get_slice, slice_get_index, index_range.
  change (len (dv_as_slice v)) with (dv_size v).
  destruct (N.leb_spec (count_below n (N.to_nat d)) (count_below n (Datatypes.S (N.to_nat d)))); [|lia].
  destruct (N.leb_spec (count_below n (Datatypes.S (N.to_nat d))) (dv_size v)) as [L|L]; cbn [andb]; split; intros H0; try lia.
  - eexists. split; [reflexivity|]. split; [rewrite sub_len by (unfold dv_size in L; unfold dv_as_slice; lia); lia|].
    intros w k Hw Hwd Ek. apply from_letters_inv in Ek; try assumption; try lia. destruct Ek as [F ->].
    exists (windex n w - count_below n (N.to_nat d)).
    pose proof (windex_lower n w Hw) as W1. pose proof (windex_upper n w Hw) as W2. 
    replace (length w) with (N.to_nat d) in W1, W2 by (unfold len in Hwd; lia).
    cbn [dense_ops with_defaults v_req dense_required vr_get]. unfold dv_get. cbn [tensor_basis ob_key_to_index].
    rewrite key_to_index_ok by (assumption || lia). repeat split; try lia.
    + f_equal. lia.
    + rewrite sub_get by (unfold dv_as_slice; unfold dv_size in L; lia).
      match goal with |- context [if ?x <? ?y then _ else _] => destruct (N.ltb_spec x y) end; [|lia].
      cbn [bind]. do 2 f_equal. lia.
  - reflexivity.
Qed.
Example c87_example :
  let v := dv_from (map q [1; 2; 3; 4; 5; 6; 7; 8]%Z) in
  dv_get_slice v (IRange 1 3) = Some [q 2; q 3] /\ dv_get_slice v (IIncl 3 6) = Some (map q [4; 5; 6; 7]%Z)
  /\ dv_get_slice v (IRange 3 2) = None /\ dv_get_slice v (IIncl 3 2) = Some [] /\ dv_get_slice v (IRange 8 8) = Some []
  /\ dv_get_slice v (IFrom 9) = None /\ dv_get_slice v (IAt 7) = Some [q 8]
  /\ (a <- tb_start_of_degree dev 2 2 ;; b <- tb_start_of_degree dev 2 3 ;; Ret (dv_get_slice v (IRange a b)))
     = Ret (Some (map q [4; 5; 6; 7]%Z))
  /\ (a <- tb_start_of_degree dev 2 3 ;; b <- tb_start_of_degree dev 2 4 ;; Ret (dv_get_slice v (IRange a b))) = Ret None.
Proof. repeat split; vm_compute; reflexivity. Qed.

(** * C88 *)
Lemma c88_access : forall (S : Type) (v z : dvec S) (ix : slice_index) r, dv_size v < 2 ^ 64 ->
  dv_get_mut_slice v ix = (z, r) ->
  dv_elems z = dv_elems v /\ dv_lender z = dv_lender v
  /\ dv_kind z = match dv_kind v with Borrowed => Owned | kd => kd end
  /\ ((exists s f, r = Some (s, f)) <-> fits (dv_size v) ix)
  /\ option_map fst r = dv_get_slice v ix.
Proof.
  intros S v z ix r Hl E. destruct (index_range_spec (dv_size v) ix Hl) as [Hok Hno]. unfold dv_get_mut_slice in E.
  injection E as <- <-.
  assert (Ee : dv_elems (dv_as_mut v) = dv_elems v) by (destruct v as [[] ? ?]; reflexivity).
  rewrite !Ee. unfold dv_get_slice, slice_get_index, dv_as_slice. change (len (dv_elems v)) with (dv_size v).
  split; [reflexivity|]. split; [destruct v as [[] ? ?]; reflexivity|]. split; [destruct v as [[] ? ?]; reflexivity|].
  assert (D : fits (dv_size v) ix \/ ~ fits (dv_size v) ix).
  { destruct ix; cbn [fits]; lia. }
  destruct D as [D|D].
  - destruct (Hok D) as (b & -> & _). split; [|reflexivity]. split; [intros _; exact D|]. intros _. do 2 eexists. reflexivity.
  - rewrite (Hno D). split; [|reflexivity]. split; [intros (s & f & [=])|]. intros F. destruct (D F).
Qed.
Lemma c88_write : forall (S : Type) (v z : dvec S) (ix : slice_index) (s s' : list S) f, dv_size v < 2 ^ 64 ->
  dv_get_mut_slice v ix = (z, Some (s, f)) -> length s' = length s ->
  dv_size (f s') = dv_size v /\ dv_kind (f s') = dv_kind z
  /\ dv_lender (f s') = match dv_kind v with BorrowedMut => dv_elems (f s') | _ => dv_lender v end
  /\ (forall i, first_of ix <= i -> names ix i -> i < dv_size v ->
        slice_get (dv_elems (f s')) i = slice_get s' (i - first_of ix))
  /\ (forall i, i < first_of ix \/ ~ names ix i -> slice_get (dv_elems (f s')) i = slice_get (dv_elems v) i)
  /\ dv_elems (f s) = dv_elems v.
Proof.
  intros S v z ix s s' f Hl E Hs.
  destruct (c88_access S v z ix _ Hl E) as (E1 & E2 & E3 & E4 & _).
  assert (D : fits (dv_size v) ix) by (apply (proj1 E4); do 2 eexists; reflexivity).
  destruct (proj1 (index_range_spec (dv_size v) ix Hl) D) as (b & Eb & Hb & Hi).
  unfold dv_get_mut_slice in E.
  assert (Ee : dv_elems (dv_as_mut v) = dv_elems v) by (destruct v as [[] ? ?]; reflexivity).
  rewrite !Ee in E. change (len (dv_elems v)) with (dv_size v) in E. rewrite Eb in E. injection E as <- <- <-.
  rewrite Ee in *. clear E1.
  set (a := first_of ix) in *.
  assert (Ls : len (firstn (N.to_nat (b - a)) (skipn (N.to_nat a) (dv_elems v))) = b - a) by (apply sub_len; exact Hb).
  assert (Ls' : len s' = b - a) by (rewrite <- Ls; unfold len; rewrite Hs; reflexivity).
  cbn [dv_write dv_size dv_elems dv_kind dv_lender].
  repeat apply conj.
  - unfold dv_size. cbn [dv_write dv_elems]. apply splice_len. unfold dv_size in Hb. lia.
  - reflexivity.
  - destruct v as [[] ? ?]; reflexivity.
  - intros i H1 H2 H3. rewrite splice_get by (unfold dv_size in Hb; lia). pose proof (proj2 (Hi i H1) (conj H2 H3)) as H4.
    destruct (N.leb_spec a i), (N.ltb_spec i (a + len s')); try lia. reflexivity.
  - intros i H. rewrite splice_get by (unfold dv_size in Hb; lia).
    destruct (N.leb_spec a i), (N.ltb_spec i (a + len s')); cbn [andb]; try reflexivity.
    destruct H as [H|H]; [lia|]. destruct H. apply (proj1 (Hi i ltac:(assumption))). lia.
  - unfold splice. replace (N.to_nat a + length (firstn (N.to_nat (b - a)) (skipn (N.to_nat a) (dv_elems v))))%nat
      with (N.to_nat (b - a) + N.to_nat a)%nat by (unfold len in Ls; lia).
    rewrite <- skip_skip, firstn_skipn. apply firstn_skipn.
Qed.
Example c88_example :
  (let '(z, r) := dv_get_mut_slice (dv_borrow_mut (map q [1; 2; 3; 4]%Z)) (IRange 1 3) in
   option_map (fun '(s, f) => (s, f [q 8; q 9])) r)
  = Some ([q 2; q 3], mk_dvec BorrowedMut (map q [1; 8; 9; 4]%Z) (map q [1; 8; 9; 4]%Z))
  /\ (let '(z, r) := dv_get_mut_slice (dv_borrow (map q [1; 2; 3; 4]%Z)) (IIncl 2 3) in
      option_map (fun '(s, f) => (s, f [q 8; q 9])) r)
     = Some ([q 3; q 4], mk_dvec Owned (map q [1; 2; 8; 9]%Z) (map q [1; 2; 3; 4]%Z))
  /\ (let '(z, r) := dv_get_mut_slice (dv_borrow (map q [1; 2; 3; 4]%Z)) (IFrom 5) in (dv_kind z, r)) = (Owned, None).
Proof. repeat split; vm_compute; reflexivity. Qed.

(** * C89 *)
Lemma c89_from_degree : forall (S R : Type) (so : scalar_ops S R) (p : profile) (n d : N),
  2 <= n < 2 ^ 32 -> n ^ d < 2 ^ 64 ->
  exists v, dv_from_degree so (tensor_basis p n) d = Ret v
    /\ dv_kind v = Owned
    /\ dv_degree (tensor_basis p n) v = Ret (d - 1)
    /\ forall w k, word_ok n w -> tk_from_letters p n w = Ret k ->
         vr_get (dense_ops so (tensor_basis p n)) v k = Ret (if len w <? d then Some (s_zero so) else None).
Proof.
  intros S R so p n d Hn Hp. unfold dv_from_degree. cbn [tensor_basis ob_start_of_degree].
  rewrite start_of_degree_ok by (assumption || lia). cbn [bind]. eexists. split; [reflexivity|]. split; [reflexivity|].
  assert (Hs : dv_size (dv_from_dimension so (count_below n (N.to_nat d))) = count_below n (N.to_nat d)).
  { unfold dv_size. cbn [dv_from_dimension dv_from dv_elems]. rewrite len_repeat. lia. }
  split.
  - unfold dv_degree. rewrite Hs. destruct (N.eq_dec d 0) as [->|Hd]; [reflexivity|].
    destruct (last_word n (N.to_nat (d - 1)) ltac:(lia)) as [Hw Hi].
    replace (Datatypes.S (N.to_nat (d - 1))) with (N.to_nat d) in Hi by lia.
    destruct (N.eqb_spec (count_below n (N.to_nat d)) 0); [lia|].
    replace (count_below n (N.to_nat d) - 1) with (windex n (repeat n (N.to_nat (d - 1)))) by lia.
    cbn [tensor_basis ob_index_to_degree].
    assert (Hl : len (repeat n (N.to_nat (d - 1))) = d - 1) by (rewrite len_repeat; lia).
    rewrite index_to_degree_ok; [rewrite Hl; reflexivity|lia|exact Hw|right; rewrite Hl; split; [lia|]].
    replace (d - 1 + 1) with d by lia. exact Hp.
  - intros w k Hw Ek. apply from_letters_inv in Ek; try assumption; try lia. destruct Ek as [F ->].
    cbn [dense_ops with_defaults v_req dense_required vr_get]. unfold dv_get. cbn [tensor_basis ob_key_to_index].
    rewrite key_to_index_ok by (assumption || lia). cbn [bind]. f_equal.
    pose proof (windex_lower n w Hw) as W1. pose proof (windex_upper n w Hw) as W2.
    unfold dv_size in Hs. destruct (N.ltb_spec (len w) d) as [L|L].
    + assert (W3 : windex n w < count_below n (N.to_nat d)).
      { pose proof (count_below_mono n (Datatypes.S (length w)) (N.to_nat d) ltac:(unfold len in L; lia)). lia. }
      cbn [dv_from_dimension dv_from dv_as_slice dv_elems]. rewrite slice_get_repeat.
      destruct (N.ltb_spec (windex n w) (N.of_nat (N.to_nat (count_below n (N.to_nat d))))); [reflexivity|lia].
    + apply slice_get_none. unfold dv_as_slice. rewrite Hs.
      pose proof (count_below_mono n (N.to_nat d) (length w) ltac:(unfold len in L; lia)). lia.
Qed.
Example c89_example : (v <- dv_from_degree qc_ops (tensor_basis dev 3) 2 ;; Ret (dv_elems v)) = Ret (repeat (q 0) 4).
Proof. vm_compute. reflexivity. Qed.
