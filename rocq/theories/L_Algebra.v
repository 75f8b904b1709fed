(** Lemmas about the tensor product of dense vectors. *)
From Verif Require Import Machine MachineLemmas S_Words L_Words M_Scalar M_Vector M_Dense M_TensorKey M_TensorBasis
  S_TensorApi S_Vector S_Tensor L_TensorKey L_TensorBasis L_Dense M_Algebra.

(** ** Slices *)
Lemma slice_get_firstn {A} (l : list A) m i :
  slice_get (firstn (N.to_nat m) l) i = if i <? m then slice_get l i else None.
Proof.
  unfold slice_get. rewrite nth_error_firstn.
  destruct (Nat.ltb_spec (N.to_nat i) (N.to_nat m)), (N.ltb_spec i m); reflexivity || lia.
Qed.
Lemma slice_get_skipn {A} (l : list A) m i : slice_get (skipn (N.to_nat m) l) i = slice_get l (m + i).
Proof. unfold slice_get. rewrite nth_error_skipn. f_equal. lia. Qed.
Lemma slice_get_app {A} (l m : list A) i :
  slice_get (l ++ m) i = if i <? len l then slice_get l i else slice_get m (i - len l).
Proof.
  unfold slice_get, len. destruct (N.ltb_spec i (N.of_nat (length l))).
  - apply nth_error_app1. lia.
  - rewrite nth_error_app2 by lia. f_equal. lia.
Qed.
Lemma len_firstn {A} (l : list A) m : m <= len l -> len (firstn (N.to_nat m) l) = m.
Proof. unfold len. rewrite firstn_length. lia. Qed.
Lemma len_skipn {A} (l : list A) m : len (skipn (N.to_nat m) l) = len l - m.
Proof. unfold len. rewrite skipn_length. lia. Qed.
Lemma slice_unchecked_ok {A} (l : list A) a b : a <= b -> b <= len l ->
  exists s, slice_unchecked l a b = Ret s /\ len s = b - a
    /\ forall i, i < b - a -> slice_get s i = slice_get l (a + i).
Proof.
  intros H1 H2. unfold slice_unchecked. destruct (N.leb_spec a b); [|lia].
  destruct (N.leb_spec b (len l)); [|lia]. cbn [andb]. eexists. split; [reflexivity|]. split.
  - apply len_firstn. rewrite len_skipn. lia.
  - intros i Hi. rewrite slice_get_firstn. destruct (N.ltb_spec i (b - a)); [|lia]. apply slice_get_skipn.
Qed.
Lemma slice_unchecked_UB {A} (l : list A) a b : b < a \/ len l < b -> slice_unchecked l a b = UB.
Proof.
  intros H. unfold slice_unchecked. destruct (N.leb_spec a b), (N.leb_spec b (len l)); reflexivity || lia.
Qed.
Lemma splice_len {A} (l s : list A) a : a + len s <= len l -> len (splice l a s) = len l.
Proof.
  intros H. unfold splice. rewrite !len_app, len_firstn by lia. unfold len in *. rewrite skipn_length. lia.
Qed.
Lemma splice_get {A} (l s : list A) a i : a + len s <= len l ->
  slice_get (splice l a s) i
  = if (a <=? i) && (i <? a + len s) then slice_get s (i - a) else slice_get l i.
Proof.
  intros H. unfold splice. rewrite !slice_get_app. rewrite len_firstn by lia.
  replace (N.to_nat a + length s)%nat with (N.to_nat (a + len s)) by (unfold len; lia).
  rewrite slice_get_firstn, slice_get_skipn.
  destruct (N.ltb_spec i a), (N.leb_spec a i); try lia; cbn [andb]; [reflexivity|].
  destruct (N.ltb_spec (i - a) (len s)), (N.ltb_spec i (a + len s)); try lia; [reflexivity|].
  f_equal. lia.
Qed.

(** ** The buffer *)
Section Buffer.
  Context {S R : Type} (so : scalar_ops S R) (func : S -> S).
  Notation step x := (fun '(o, i) rhs_v =>
          match slice_get o i with
          | Some z => Ret (list_set o (N.to_nat i) (s_add so z (func (s_mul so x rhs_v))), i + 1)
          | None => UB
          end).

  Lemma buffer_row x r o i : i + len r <= len o ->
    exists o', for_each r (step x) (o, i) = Ret (o', i + len r) /\ len o' = len o
      /\ (forall k, k < i \/ i + len r <= k -> slice_get o' k = slice_get o k)
      /\ (forall b y z, slice_get r b = Some y -> slice_get o (i + b) = Some z ->
            slice_get o' (i + b) = Some (s_add so z (func (s_mul so x y)))).
  Proof.
    revert o i; induction r as [|y r IH]; intros o i H.
    - exists o. split; [cbn; rewrite N.add_0_r; reflexivity|]. split; [reflexivity|]. split; [reflexivity|].
      intros b y z Hb. unfold slice_get in Hb. destruct (N.to_nat b); discriminate.
    - rewrite len_cons in H. destruct (slice_get_some o i ltac:(lia)) as [z Hz].
      cbn [for_each]. rewrite Hz. cbn [bind].
      set (o1 := list_set o (N.to_nat i) (s_add so z (func (s_mul so x y)))).
      assert (Hl : len o1 = len o) by apply len_list_set.
      assert (Hg : forall k, slice_get o1 k = if k =? i then Some (s_add so z (func (s_mul so x y)))
                                              else slice_get o k)
        by (intros k; apply slice_get_list_set; lia).
      destruct (IH o1 (i + 1)) as (o' & E & Hl' & Hout & Hin); [lia|].
      exists o'. split; [rewrite E, len_cons; do 2 f_equal; lia|]. split; [congruence|]. split.
      + intros k Hk. rewrite len_cons in Hk. rewrite Hout by lia. rewrite Hg.
        destruct (N.eqb_spec k i); [lia|reflexivity].
      + intros b y' z' Hb Hz'. destruct (N.eq_dec b 0) as [->|Hb0].
        * rewrite N.add_0_r in *. cbn in Hb. injection Hb as <-. rewrite Hz in Hz'. injection Hz' as <-.
          rewrite Hout by lia. rewrite Hg, N.eqb_refl. reflexivity.
        * replace (i + b) with (i + 1 + (b - 1)) by lia. apply Hin.
          -- unfold slice_get in *. replace (N.to_nat b) with (Datatypes.S (N.to_nat (b - 1))) in Hb by lia.
             exact Hb.
          -- rewrite Hg. destruct (N.eqb_spec (i + 1 + (b - 1)) i); [lia|]. rewrite <- Hz'. f_equal. lia.
  Qed.

  Lemma buffer_rows l r o i : i + len l * len r <= len o ->
    exists o', for_each l (fun st x => for_each r (step x) st) (o, i) = Ret (o', i + len l * len r)
      /\ len o' = len o
      /\ (forall k, k < i \/ i + len l * len r <= k -> slice_get o' k = slice_get o k)
      /\ (forall a b x y z, slice_get l a = Some x -> slice_get r b = Some y ->
            slice_get o (i + a * len r + b) = Some z ->
            slice_get o' (i + a * len r + b) = Some (s_add so z (func (s_mul so x y)))).
  Proof.
    revert o i; induction l as [|x l IH]; intros o i H.
    - exists o. split; [cbn; rewrite N.add_0_r; reflexivity|]. split; [reflexivity|]. split; [reflexivity|].
      intros a b x y z Ha. unfold slice_get in Ha. destruct (N.to_nat a); discriminate.
    - rewrite len_cons, N.mul_add_distr_r, N.mul_1_l in H. cbn [for_each].
      destruct (buffer_row x r o i ltac:(lia)) as (o1 & E1 & Hl1 & Hout1 & Hin1). rewrite E1. cbn [bind].
      destruct (IH o1 (i + len r) ltac:(lia)) as (o' & E & Hl & Hout & Hin). exists o'.
      split; [rewrite E, len_cons; do 2 f_equal; lia|]. split; [congruence|]. split.
      + intros k Hk. rewrite len_cons in Hk. rewrite Hout by lia. apply Hout1. lia.
      + intros a b x' y z Ha Hb Hz. pose proof (slice_get_lt r b y Hb) as Hbl.
        destruct (N.eq_dec a 0) as [->|Ha0].
        * rewrite N.mul_0_l, N.add_0_r in *. cbn in Ha. injection Ha as <-. rewrite Hout by lia.
          apply Hin1; assumption.
        * assert (Ha1 : slice_get l (a - 1) = Some x').
          { unfold slice_get in *. replace (N.to_nat a) with (Datatypes.S (N.to_nat (a - 1))) in Ha by lia.
            exact Ha. }
          assert (Ei : i + a * len r + b = i + len r + (a - 1) * len r + b) by nia.
          rewrite Ei in *. apply Hin; [assumption..|]. rewrite Hout1; [exact Hz|].
          right. generalize ((a - 1) * len r). intros; lia.
  Qed.

  Lemma buffer_ok out l r : len l * len r <= len out ->
    exists o', multiply_into_buffer so out l r func = Ret o' /\ len o' = len out
      /\ (forall k, len l * len r <= k -> slice_get o' k = slice_get out k)
      /\ (forall a b x y z, slice_get l a = Some x -> slice_get r b = Some y ->
            slice_get out (a * len r + b) = Some z ->
            slice_get o' (a * len r + b) = Some (s_add so z (func (s_mul so x y)))).
  Proof.
    intros H. unfold multiply_into_buffer.
    destruct (buffer_rows l r out 0 ltac:(lia)) as (o' & E & Hl & Hout & Hin). rewrite E. cbn [bind].
    exists o'. split; [reflexivity|]. split; [exact Hl|]. split.
    - intros k Hk. apply Hout. lia.
    - intros a b x y z Ha Hb Hz. apply (Hin a b x y z Ha Hb Hz).
  Qed.

  Lemma buffer_row_UB x r o i : len o < i + len r -> i <= len o -> for_each r (step x) (o, i) = UB.
  Proof.
    revert o i; induction r as [|y r IH]; intros o i H Hi; [cbn in H; lia|].
    rewrite len_cons in H. cbn [for_each]. destruct (slice_get o i) eqn:E; cbn [bind]; [|reflexivity].
    apply slice_get_lt in E. apply IH; rewrite len_list_set; lia.
  Qed.
  Lemma buffer_UB out l r : len out < len l * len r -> multiply_into_buffer so out l r func = UB.
  Proof.
    intros H. unfold multiply_into_buffer.
    assert (G : forall o i, len o < i + len l * len r -> i <= len o ->
              for_each l (fun st x => for_each r (step x) st) (o, i) = UB).
    { clear. induction l as [|x l IH]; intros o i H Hi; [cbn in H; lia|].
      rewrite len_cons, N.mul_add_distr_r, N.mul_1_l in H. cbn [for_each].
      destruct (N.lt_ge_cases (len o) (i + len r)) as [H1|H1].
      - rewrite buffer_row_UB by assumption. reflexivity.
      - destruct (buffer_row x r o i H1) as (o1 & -> & Hl & _). cbn [bind].
        apply IH; rewrite Hl; lia. }
    rewrite G; [reflexivity|lia|lia].
  Qed.
End Buffer.

(** ** Words and positions *)
Lemma word_ok_app n u v : word_ok n (u ++ v) <-> word_ok n u /\ word_ok n v.
Proof. apply Forall_app. Qed.
Lemma word_ok_firstn n d w : word_ok n w -> word_ok n (firstn d w).
Proof. intros H. rewrite <- (firstn_skipn d w) in H. apply word_ok_app in H. apply H. Qed.
Lemma word_ok_skipn n d w : word_ok n w -> word_ok n (skipn d w).
Proof. intros H. rewrite <- (firstn_skipn d w) in H. apply word_ok_app in H. apply H. Qed.
Lemma every_word n i : 0 < n -> exists w, word_ok n w /\ windex n w = i.
Proof.
  intros Hn. destruct (windex_surj n (N.to_nat (i + 1)) i Hn) as (w & Hw & _ & E); [|eauto].
  assert (forall D, N.of_nat D <= count_below n D) as G.
  { intros D. induction D as [|D IH]; [apply N.le_0_l|]. rewrite count_below_S.
    pose proof (pow_pos n (N.of_nat D) Hn). lia. }
  specialize (G (N.to_nat (i + 1))). lia.
Qed.
Lemma len_to_nat {A} (w : list A) : N.to_nat (len w) = length w.
Proof. unfold len. lia. Qed.
Lemma below_iff n w (d : nat) : 0 < n -> word_ok n w -> (windex n w < count_below n d <-> (length w < d)%nat).
Proof.
  intros Hn Hw. pose proof (windex_lower n w Hw). pose proof (windex_upper n w Hw). split; intros Hd.
  - destruct (Nat.lt_ge_cases (length w) d) as [|Hge]; [assumption|].
    pose proof (count_below_mono n d (length w) Hge). lia.
  - pose proof (count_below_mono n (Datatypes.S (length w)) d ltac:(lia)). lia.
Qed.

(** the degrees of the left factor, in the order of the inner loop *)
Definition lo (r out : N) : N := if r <? out then out - r else 0.
Lemma lo_eq r out : lo r out = out - r.
Proof. unfold lo. destruct (N.ltb_spec r out); lia. Qed.
Definition ds_of (l r out : N) : list N := rev_range_incl (lo r out) (N.min out l).

Lemma product_degree_ok p l r t : l < 64 -> r < 64 ->
  product_degree p l r (Some t) = Ret (N.min t (l + r)).
Proof.
  intros. unfold product_degree. rewrite uadd_ok; [reflexivity|].
  assert (128 < 2 ^ 32) by reflexivity. lia.
Qed.

Section Product.
  Context {S R : Type} (so : scalar_ops S R) (p : profile) (n : N) (Hn : 2 <= n).
  Notation zero := (s_zero so).
  Notation wc := (wcoef so n).
  Notation cb d := (count_below n (N.to_nat d)).
  Notation cbS d := (count_below n (Datatypes.S (N.to_nat d))).

  Lemma cbS_mono a b : a <= b -> cbS a <= cbS b.
  Proof. intros. apply count_below_mono. lia. Qed.
  Lemma cbS_cb a : cbS a = cb a + n ^ a.
  Proof. rewrite count_below_S, N2Nat.id. reflexivity. Qed.

  (** the degree of a vector *)
  Lemma degree_ok (v : dvec S) d : has_degree n v d -> n ^ (d + 1) < 2 ^ 64 ->
    dv_degree (tensor_basis p n) v = Ret d.
  Proof.
    intros Hd Hp. unfold dv_degree. destruct Hd as [[H0 ->]|[H1 H2]].
    - rewrite H0. reflexivity.
    - destruct (N.eqb_spec (dv_size v) 0) as [H0|H0]; [lia|].
      destruct (every_word n (dv_size v - 1) ltac:(lia)) as (w & Hw & Ew). rewrite <- Ew. change (tb_index_to_degree p n (windex n w) = Ret d).
      assert (length w = N.to_nat d) as El.
      { pose proof (below_iff n w (N.to_nat d) ltac:(lia) Hw) as B1.
        pose proof (below_iff n w (Datatypes.S (N.to_nat d)) ltac:(lia) Hw) as B2. lia. }
      assert (len w = d) as Ed by (unfold len; lia).
      rewrite (index_to_degree_ok p n w); [congruence|lia|assumption|].
      right. rewrite Ed. split; assumption.
  Qed.
  Lemma has_degree_fun (v : dvec S) d e : has_degree n v d -> has_degree n v e -> d = e.
  Proof.
    intros [[H0 ->]|[H1 H2]] [[G0 ->]|[G1 G2]]; try reflexivity; try lia.
    destruct (N.lt_trichotomy d e) as [H|[H|H]]; [|assumption|].
    - pose proof (count_below_mono n (Datatypes.S (N.to_nat d)) (N.to_nat e) ltac:(lia)). lia.
    - pose proof (count_below_mono n (Datatypes.S (N.to_nat e)) (N.to_nat d) ltac:(lia)). lia.
  Qed.
  Lemma filled_degree (v : dvec S) d : filled n v d -> has_degree n v d.
  Proof.
    intros H. right. unfold filled in H. rewrite H. split; [|lia].
    apply count_below_strict; lia.
  Qed.
  Lemma new_degree : has_degree n (@dv_new S) 0.
  Proof. left. split; reflexivity. Qed.
  Lemma wcoef_beyond (v : dvec S) d w : has_degree n v d -> word_ok n w -> d < len w -> wc v w = zero.
  Proof.
    intros Hd Hw Hl. apply coef_out. pose proof (windex_lower n w Hw) as H.
    pose proof (count_below_mono n (Datatypes.S (N.to_nat d)) (length w) ltac:(unfold len in Hl; lia)).
    destruct Hd as [[E0 _]|[_ E2]]; lia.
  Qed.
  Lemma wcoef_stored (v : dvec S) d w : stored_to n v d -> word_ok n w -> len w <= d ->
    slice_get (dv_elems v) (windex n w) = Some (wc v w).
  Proof.
    intros Hs Hw Hl. unfold wcoef, coef, dv_as_slice.
    destruct (slice_get_some (dv_elems v) (windex n w)) as [x ->]; [|reflexivity].
    pose proof (proj2 (below_iff n w (Datatypes.S (N.to_nat d)) ltac:(lia) Hw)) as H.
    unfold stored_to, dv_size, len in *. lia.
  Qed.
  Lemma wcoef_ext (l l' : list S) : len l = len l' ->
    (forall w, word_ok n w -> windex n w < len l ->
       wc (dv_from l) w = wc (dv_from l') w) -> l = l'.
  Proof.
    intros Hl H. apply slice_get_ext. intros i. destruct (N.lt_ge_cases i (len l)) as [Hi|Hi].
    - destruct (every_word n i ltac:(lia)) as (w & Hw & <-). specialize (H w Hw Hi).
      unfold wcoef, coef, dv_as_slice in H. cbn [dv_from dv_elems] in H.
      destruct (slice_get_some l (windex n w) Hi) as [a Ea].
      destruct (slice_get_some l' (windex n w) ltac:(lia)) as [b Eb]. rewrite Ea, Eb in *. congruence.
    - rewrite !slice_get_none by lia. reflexivity.
  Qed.

  (** position of a word made of two parts, within the words of its length *)
  Lemma windex_split w d : word_ok n w -> (d <= length w)%nat ->
    windex n w = count_below n (length w)
      + (rank n (firstn d w) * n ^ N.of_nat (length w - d) + rank n (skipn d w)).
  Proof.
    intros Hw Hd. rewrite (windex_rank n w Hw). f_equal.
    rewrite <- (firstn_skipn d w) at 1. rewrite rank_app. do 3 f_equal.
    unfold len. rewrite skipn_length. reflexivity.
  Qed.

  (** one round of the inner loop *)
  Context (func : S -> S).
  Definition round (x y : dvec S) (out d : N) (w : word) (a : S) : S :=
    if len w =? out then
      s_add so a (func (s_mul so (wc x (firstn (N.to_nat d) w)) (wc y (skipn (N.to_nat d) w))))
    else a.

  Lemma body_ok x y out d self : n ^ (out + 1) < 2 ^ 64 -> d <= out ->
    stored_to n self out -> stored_to n x d -> stored_to n y (out - d) ->
    exists l, mul_add_body so p n x y func out self d = Ret (after self false l)
      /\ len l = dv_size self
      /\ forall w, word_ok n w -> wc (dv_from l) w = round x y out d w (wc self w).
  Proof.
    intros Hp Hd Hs Hx Hy. unfold mul_add_body.
    assert (Hpd : n ^ (d + 1) < 2 ^ 64) by (pose proof (pow_le n (d + 1) (out + 1)); lia).
    assert (Hpr : n ^ (out - d + 1) < 2 ^ 64) by (pose proof (pow_le n (out - d + 1) (out + 1)); lia).
    rewrite (degree_range_ok p n out Hn Hp), (degree_range_ok p n d Hn Hpd),
      (degree_range_ok p n (out - d) Hn Hpr). cbn [bind].
    rewrite as_mut_elems. unfold stored_to, dv_size in Hs, Hx, Hy.
    pose proof (cbS_cb out) as Eo. pose proof (cbS_cb d) as Ed. pose proof (cbS_cb (out - d)) as Er.
    assert (Hpp : n ^ out = n ^ d * n ^ (out - d)) by (rewrite <- N.pow_add_r; f_equal; lia).
    destruct (slice_unchecked_ok (dv_elems self) (cb out) (cbS out)) as (o & -> & Ho & Go); [lia|exact Hs|].
    destruct (slice_unchecked_ok (dv_as_slice x) (cb d) (cbS d)) as (lx & -> & Hlx & Gx); [lia|exact Hx|].
    destruct (slice_unchecked_ok (dv_as_slice y) (cb (out - d)) (cbS (out - d))) as (ly & -> & Hly & Gy);
      [lia|exact Hy|]. cbn [bind].
    replace (cbS out - cb out) with (n ^ out) in * by lia.
    replace (cbS d - cb d) with (n ^ d) in * by lia.
    replace (cbS (out - d) - cb (out - d)) with (n ^ (out - d)) in * by lia.
    destruct (buffer_ok so func o lx ly ltac:(rewrite Ho, Hlx, Hly; lia)) as (o' & -> & Ho' & _ & Hin).
    cbn [bind]. rewrite write_as_mut. eexists. split; [reflexivity|].
    assert (Hfit : cb out + len o' <= len (dv_elems self)) by lia.
    split; [apply splice_len; exact Hfit|].
    intros w Hw. unfold round.
    unfold wcoef at 1, coef at 1, dv_as_slice at 1. cbn [dv_from dv_elems].
    rewrite splice_get by exact Hfit. rewrite Ho', Ho.
    destruct (N.eqb_spec (len w) out) as [El|El].
    - assert (Hdw : (N.to_nat d <= length w)%nat) by (unfold len in El; lia).
      pose proof (windex_split w (N.to_nat d) Hw Hdw) as Ew.
      replace (length w) with (N.to_nat out) in Ew by (unfold len in El; lia).
      pose proof (word_ok_firstn n (N.to_nat d) w Hw) as Hu.
      pose proof (word_ok_skipn n (N.to_nat d) w Hw) as Hv.
      set (u := firstn (N.to_nat d) w) in *. set (v := skipn (N.to_nat d) w) in *.
      assert (Lu : len u = d) by (unfold len, u in *; rewrite firstn_length; lia).
      assert (Lv : len v = out - d) by (unfold len, v in *; rewrite skipn_length; lia).
      replace (N.of_nat (N.to_nat out - N.to_nat d)) with (out - d) in Ew by lia.
      pose proof (rank_bound n u Hu) as Bu. pose proof (rank_bound n v Hv) as Bv.
      rewrite Lu in Bu. rewrite Lv in Bv. pose proof (windex_upper n w Hw) as Uw.
      replace (length w) with (N.to_nat out) in Uw by (unfold len in El; lia).
      destruct (N.leb_spec (cb out) (windex n w)); [|lia].
      destruct (N.ltb_spec (windex n w) (cb out + n ^ out)); [|lia]. cbn [andb].
      replace (windex n w - cb out) with (rank n u * len ly + rank n v) by (rewrite Hly; lia).
      rewrite (Hin (rank n u) (rank n v) (wc x u) (wc y v) (wc self w)); [reflexivity|..].
      + rewrite Gx by exact Bu.
        replace (cb d + rank n u) with (windex n u)
          by (rewrite (windex_rank n u Hu); do 2 f_equal; unfold len in Lu; lia).
        apply (wcoef_stored x d); [exact Hx|exact Hu|lia].
      + rewrite Gy by exact Bv.
        replace (cb (out - d) + rank n v) with (windex n v)
          by (rewrite (windex_rank n v Hv); do 2 f_equal; unfold len in Lv; lia).
        apply (wcoef_stored y (out - d)); [exact Hy|exact Hv|lia].
      + replace (rank n u * len ly + rank n v) with (windex n w - cb out) by (rewrite Hly; lia).
        rewrite Go by lia. replace (cb out + (windex n w - cb out)) with (windex n w) by lia.
        apply (wcoef_stored self out); [exact Hs|exact Hw|lia].
    - replace ((cb out <=? windex n w) && (windex n w <? cb out + n ^ out)) with false; [reflexivity|].
      symmetry. apply andb_false_iff.
      pose proof (below_iff n w (N.to_nat out) ltac:(lia) Hw) as B1.
      pose proof (below_iff n w (Datatypes.S (N.to_nat out)) ltac:(lia) Hw) as B2.
      destruct (N.leb_spec (cb out) (windex n w)); [right|left; reflexivity].
      apply N.ltb_ge. unfold len in El. lia.
  Qed.

  Lemma body_UB x y out d self : n ^ (out + 1) < 2 ^ 64 -> d <= out ->
    ~ (stored_to n self out /\ stored_to n x d /\ stored_to n y (out - d)) ->
    mul_add_body so p n x y func out self d = UB.
  Proof.
    intros Hp Hd H. unfold mul_add_body.
    assert (Hpd : n ^ (d + 1) < 2 ^ 64) by (pose proof (pow_le n (d + 1) (out + 1)); lia).
    assert (Hpr : n ^ (out - d + 1) < 2 ^ 64) by (pose proof (pow_le n (out - d + 1) (out + 1)); lia).
    rewrite (degree_range_ok p n out Hn Hp), (degree_range_ok p n d Hn Hpd),
      (degree_range_ok p n (out - d) Hn Hpr). cbn [bind].
    rewrite as_mut_elems. unfold stored_to, dv_size in H.
    pose proof (cbS_cb out) as Eo. pose proof (cbS_cb d) as Ed. pose proof (cbS_cb (out - d)) as Er.
    destruct (N.le_gt_cases (cbS out) (len (dv_elems self))) as [H1|H1];
      [|rewrite slice_unchecked_UB by (right; exact H1); reflexivity].
    destruct (slice_unchecked_ok (dv_elems self) (cb out) (cbS out)) as (o & -> & _); [lia|exact H1|].
    cbn [bind]. destruct (N.le_gt_cases (cbS d) (len (dv_elems x))) as [H2|H2];
      [|rewrite slice_unchecked_UB by (right; exact H2); reflexivity].
    destruct (slice_unchecked_ok (dv_as_slice x) (cb d) (cbS d)) as (lx & -> & _); [lia|exact H2|].
    cbn [bind]. destruct (N.le_gt_cases (cbS (out - d)) (len (dv_elems y))) as [H3|H3];
      [|rewrite slice_unchecked_UB by (right; exact H3); reflexivity].
    exfalso. apply H. repeat split; assumption.
  Qed.

  Lemma after_after (v : dvec S) g l l' : after (after v g l) false l' = after v g l'.
  Proof. destruct v as [[] e b], g; reflexivity. Qed.
  (** the state after a loop: the same, or written to *)
  Definition kept (s s' : dvec S) : Prop := s' = s \/ s' = after s false (dv_elems s').
  Lemma kept_trans a b c : kept a b -> kept b c -> kept a c.
  Proof.
    intros [->|H] [->|H']; try (left; reflexivity); try (right; assumption).
    right. rewrite H', H, after_after. reflexivity.
  Qed.
  Lemma wc_elems (v v' : dvec S) w : dv_elems v = dv_elems v' -> wc v w = wc v' w.
  Proof. intros H. unfold wcoef, coef, dv_as_slice. rewrite H. reflexivity. Qed.

  (** the inner loop *)
  Lemma inner_ok x y out ds : n ^ (out + 1) < 2 ^ 64 ->
    (forall d, In d ds -> d <= out /\ stored_to n x d /\ stored_to n y (out - d)) ->
    forall self, stored_to n self out ->
    exists z, for_each ds (mul_add_body so p n x y func out) self = Ret z
      /\ dv_size z = dv_size self /\ kept self z /\ (ds <> [] -> z = after self false (dv_elems z))
      /\ forall w, word_ok n w -> wc z w = fold_left (fun a d => round x y out d w a) ds (wc self w).
  Proof.
    intros Hp. induction ds as [|d ds IH]; intros Hds self Hs.
    - exists self. repeat split; [left; reflexivity|congruence].
    - destruct (Hds d (or_introl eq_refl)) as (Hd & Hx & Hy). cbn [for_each fold_left].
      destruct (body_ok x y out d self Hp Hd Hs Hx Hy) as (l & -> & Hl & Hw). cbn [bind].
      destruct (IH ltac:(intros d' Hd'; apply Hds; right; exact Hd') (after self false l))
        as (z & E & Hz & Hk & _ & Hzw).
      { unfold stored_to in *. cbn [dv_size]. unfold dv_size. cbn [after dv_elems]. lia. }
      assert (Hk1 : kept self (after self false l)) by (right; reflexivity).
      exists z. split; [exact E|]. split; [rewrite Hz; exact Hl|].
      split; [eapply kept_trans; eassumption|]. split.
      + intros _. destruct Hk as [->|Hk]; [reflexivity|]. rewrite Hk, after_after. reflexivity.
      + intros w Hwo. rewrite (Hzw w Hwo). f_equal. rewrite <- (Hw w Hwo). apply wc_elems. reflexivity.
  Qed.

  Lemma round_other x y out w ds a : len w <> out ->
    fold_left (fun a d => round x y out d w a) ds a = a.
  Proof.
    intros H. induction ds as [|d ds IH]; [reflexivity|]. cbn [fold_left].
    assert (round x y out d w a = a) as ->; [|exact IH].
    unfold round. destruct (N.eqb_spec (len w) out); [contradiction|reflexivity].
  Qed.

  Lemma stored_mono (v : dvec S) a b : a <= b -> stored_to n v b -> stored_to n v a.
  Proof. intros H. unfold stored_to. pose proof (cbS_mono a b H). lia. Qed.

  (** the outer loop *)
  Lemma outer_ok x y l r m outs : n ^ (m + 1) < 2 ^ 64 -> m <= l + r ->
    stored_to n x (N.min m l) -> stored_to n y (N.min m r) ->
    (forall out, In out outs -> out <= m) -> NoDup outs ->
    forall self, stored_to n self m ->
    exists z, for_each outs (fun v out_deg =>
                for_each (rev_range_incl (if r <? out_deg then out_deg - r else 0) (N.min out_deg l))
                  (mul_add_body so p n x y func out_deg) v) self = Ret z
      /\ dv_size z = dv_size self /\ kept self z /\ (outs <> [] -> z = after self false (dv_elems z))
      /\ forall w, word_ok n w -> wc z w =
           if in_dec N.eq_dec (len w) outs
           then fold_left (fun a d => round x y (len w) d w a) (ds_of l r (len w)) (wc self w)
           else wc self w.
  Proof.
    intros Hp Hlr Hx Hy. induction outs as [|out outs IH]; intros Hm Hnd self Hs.
    - exists self. repeat split; [left; reflexivity|congruence].
    - cbn [for_each]. assert (Ho : out <= m) by (apply Hm; left; reflexivity).
      assert (Hpo : n ^ (out + 1) < 2 ^ 64) by (pose proof (pow_le n (out + 1) (m + 1)); lia).
      fold (lo r out). fold (ds_of l r out).
      assert (Hds : forall d, In d (ds_of l r out) -> d <= out /\ stored_to n x d /\ stored_to n y (out - d)).
      { intros d Hd. unfold ds_of in Hd. apply in_rev_range_incl in Hd. rewrite lo_eq in Hd.
        split; [lia|]. split; [apply (stored_mono x d (N.min m l)); [lia|exact Hx]
                              |apply (stored_mono y _ (N.min m r)); [lia|exact Hy]]. }
      assert (Hne : ds_of l r out <> []).
      { intros E. assert (In (N.min out l) (ds_of l r out)) as Hi; [|rewrite E in Hi; exact Hi].
        apply in_rev_range_incl. rewrite lo_eq. lia. }
      destruct (inner_ok x y out _ Hpo Hds self (stored_mono self out m Ho Hs)) as (s1 & -> & Hz1 & Hk1 & Hn1 & Hw1).
      cbn [bind]. inversion Hnd as [|? ? Hnin Hnd']; subst.
      destruct (IH ltac:(intros o Hin; apply Hm; right; exact Hin) Hnd' s1) as (z & E & Hz & Hk & _ & Hw).
      { unfold stored_to in *. rewrite Hz1. exact Hs. }
      exists z. split; [exact E|]. split; [congruence|]. split; [eapply kept_trans; eassumption|]. split.
      + intros _. specialize (Hn1 Hne). destruct Hk as [->|Hk]; [exact Hn1|]. rewrite Hk, Hn1, after_after. reflexivity.
      + intros w Hwo. rewrite (Hw w Hwo), (Hw1 w Hwo).
        destruct (in_dec N.eq_dec (len w) outs) as [Hi|Hi], (in_dec N.eq_dec (len w) (out :: outs)) as [Hj|Hj].
        * f_equal. assert (len w <> out) by (intros E1; apply Hnin; rewrite <- E1; exact Hi).
          apply round_other; assumption.
        * exfalso. apply Hj. right. exact Hi.
        * destruct Hj as [<-|Hj]; [reflexivity|contradiction].
        * assert (len w <> out) by (intros E1; apply Hj; left; symmetry; exact E1).
          apply round_other; assumption.
  Qed.

  (** enlarging the result *)
  Lemma grow_ok self s m : has_degree n self s -> n ^ (s + 1) < 2 ^ 64 -> (s < m -> n ^ (m + 1) < 2 ^ 64) ->
    exists l, grow_to_degree so p n self m = Ret (if s <? m then after self true l else self)
      /\ (s < m -> len l = cbS m)
      /\ (s < m -> forall w, word_ok n w -> wc (dv_from l) w = wc self w).
  Proof.
    intros Hs Hps Hpm. unfold grow_to_degree. rewrite (degree_ok self s Hs Hps). cbn [bind].
    destruct (N.ltb_spec s m) as [Hlt|Hge].
    - specialize (Hpm Hlt). pose proof (pow_u64_exp n _ Hn Hpm).
      rewrite uadd_ok by lia. cbn [bind]. rewrite start_of_degree_ok by assumption. cbn [bind].
      rewrite resize_eq. eexists. split; [reflexivity|].
      replace (N.to_nat (m + 1)) with (Datatypes.S (N.to_nat m)) by lia.
      split; [intros _; apply len_vec_resize|]. intros _ w Hw.
      unfold wcoef, coef, dv_as_slice. cbn [dv_from dv_elems]. rewrite slice_get_vec_resize.
      destruct (N.ltb_spec (windex n w) (cbS m)) as [Hi|Hi]; [reflexivity|].
      rewrite slice_get_none; [reflexivity|].
      pose proof (count_below_mono n (Datatypes.S (N.to_nat s)) (Datatypes.S (N.to_nat m)) ltac:(lia)).
      destruct Hs as [[E0 _]|[_ E2]]; unfold dv_size in *; lia.
    - exists []. split; [reflexivity|]. split; intros; lia.
  Qed.
  Lemma fold_round x y w ds a :
    fold_left (fun a d => round x y (len w) d w a) ds a
    = fold_left (fun a d => s_add so a (func (s_mul so (wc x (firstn (N.to_nat d) w)) (wc y (skipn (N.to_nat d) w))))) ds a.
  Proof.
    revert a; induction ds as [|d ds IH]; intros a; [reflexivity|]. cbn [fold_left]. rewrite IH.
    unfold round at 1. rewrite N.eqb_refl. reflexivity.
  Qed.
End Product.

(** ** Splittings *)
Definition split_at (w : word) (d : N) : word * word := (firstn (N.to_nat d) w, skipn (N.to_nat d) w).
Lemma seqN_shift a k : map (fun d => d + 1) (seqN a k) = seqN (a + 1) k.
Proof. revert a; induction k as [|k IH]; intros a; [reflexivity|]. cbn [seqN map]. rewrite IH. reflexivity. Qed.
Lemma splits_seq w : splits w = map (split_at w) (range_incl 0 (len w)).
Proof.
  unfold range_incl. induction w as [|a w IH]; [reflexivity|].
  replace (N.to_nat (len (a :: w) + 1 - 0)) with (Datatypes.S (length (a :: w))) by (unfold len; lia).
  cbn [length]. replace (N.to_nat (len w + 1 - 0)) with (Datatypes.S (length w)) in IH by (unfold len; lia).
  cbn [splits]. rewrite IH. cbn [seqN map]. unfold split_at at 3. cbn [N.to_nat firstn skipn]. f_equal.
  change (split_at (a :: w) (0 + 1)) with ([a], w).
  change (split_at w 0) with (@nil N, w). cbn [fst snd]. f_equal.
  rewrite <- (seqN_shift (0 + 1)), !map_map. apply map_ext_in. intros d _. unfold split_at.
  replace (N.to_nat (d + 1)) with (Datatypes.S (N.to_nat d)) by lia. reflexivity.
Qed.
Lemma in_splits w u v : In (u, v) (splits w) <-> w = u ++ v.
Proof.
  revert u v; induction w as [|a w IH]; intros u v; cbn [splits In].
  - split; [intros [H|[]]; injection H as <- <-; reflexivity|].
    intros H. symmetry in H. apply app_eq_nil in H. destruct H as [-> ->]. left. reflexivity.
  - rewrite in_map_iff. split.
    + intros [H|([u' v'] & H & Hin)]; [injection H as <- <-; reflexivity|].
      cbn [fst snd] in H. injection H as <- <-. apply IH in Hin. rewrite Hin. reflexivity.
    + intros H. destruct u as [|b u]; [left; cbn in H; subst; reflexivity|]. right.
      cbn [app] in H. injection H as <- H. exists (u, v). split; [reflexivity|]. apply IH. exact H.
Qed.
Lemma filter_map {A B} (f : A -> B) (P : B -> bool) l : filter P (map f l) = map f (filter (fun x => P (f x)) l).
Proof. induction l as [|a l IH]; [reflexivity|]. cbn. destruct (P (f a)); cbn; rewrite IH; reflexivity. Qed.
Lemma filter_rev {A} (P : A -> bool) l : filter P (rev l) = rev (filter P l).
Proof.
  induction l as [|a l IH]; [reflexivity|]. cbn [rev filter]. rewrite filter_app, IH. cbn.
  destruct (P a); cbn; [reflexivity|rewrite app_nil_r; reflexivity].
Qed.
Lemma filter_seq_between a k x y :
  filter (fun d => (x <=? d) && (d <=? y)) (seqN a k)
  = seqN (N.max a x) (N.to_nat (N.min (a + N.of_nat k) (y + 1) - N.max a x)).
Proof.
  revert a; induction k as [|k IH]; intros a.
  - cbn [seqN filter]. replace (N.to_nat _) with O by lia. reflexivity.
  - cbn [seqN filter]. rewrite IH. destruct (N.leb_spec x a) as [H|H].
    + destruct (N.leb_spec a y) as [H1|H1]; cbn [andb].
      * replace (N.to_nat (N.min (a + N.of_nat (Datatypes.S k)) (y + 1) - N.max a x))
          with (Datatypes.S (N.to_nat (N.min (a + 1 + N.of_nat k) (y + 1) - N.max (a + 1) x))) by lia.
        cbn [seqN]. f_equal; [lia|]. f_equal; lia.
      * replace (N.to_nat _) with O by lia. replace (N.to_nat _) with O by lia. reflexivity.
    + cbn [andb]. replace (N.max (a + 1) x) with (N.max a x) by lia. f_equal. lia.
Qed.
Lemma filter_ext_in' {A} (P Q : A -> bool) l : (forall x, In x l -> P x = Q x) -> filter P l = filter Q l.
Proof. apply filter_ext_in. Qed.
Lemma splits_filtered l r w :
  filter (fun uv => (len (fst uv) <=? l) && (len (snd uv) <=? r)) (rev (splits w))
  = map (split_at w) (ds_of l r (len w)).
Proof.
  rewrite filter_rev, splits_seq, filter_map, <- map_rev. f_equal. unfold ds_of, rev_range_incl. f_equal.
  rewrite lo_eq. unfold range_incl.
  rewrite (filter_ext_in' _ (fun d => (len w - r <=? d) && (d <=? N.min (len w) l))).
  - rewrite filter_seq_between. f_equal; lia.
  - intros d Hd. apply in_seqN in Hd. unfold split_at. cbn [fst snd].
    assert (len (firstn (N.to_nat d) w) = N.min d (len w)) as -> by (unfold len; rewrite firstn_length; lia).
    assert (len (skipn (N.to_nat d) w) = len w - d) as -> by (unfold len; rewrite skipn_length; lia).
    destruct (N.leb_spec (N.min d (len w)) l), (N.leb_spec (len w - d) r), (N.leb_spec (len w - r) d),
      (N.leb_spec d (N.min (len w) l)); cbn [andb]; reflexivity || lia.
Qed.

Section Result.
  Context {S R : Type} (so : scalar_ops S R) (p : profile) (n : N) (Hn : 2 <= n).
  Notation zero := (s_zero so).
  Notation wc := (wcoef so n).
  Notation cbS d := (count_below n (Datatypes.S (N.to_nat d))).

  Lemma fold_map {A B C} (g : A -> B) (h : C -> B -> C) l c :
    fold_left h (map g l) c = fold_left (fun c a => h c (g a)) l c.
  Proof. revert c; induction l as [|a l IH]; intros c; [reflexivity|]. apply IH. Qed.

  Theorem mul_add_ok func self x y s l r t (m := N.min t (l + r)) :
    has_degree n self s -> has_degree n x l -> has_degree n y r ->
    n ^ (s + 1) < 2 ^ 64 -> n ^ (l + 1) < 2 ^ 64 -> n ^ (r + 1) < 2 ^ 64 -> n ^ (m + 1) < 2 ^ 64 ->
    s < m \/ stored_to n self m -> stored_to n x (N.min m l) -> stored_to n y (N.min m r) ->
    exists e, multiply_and_add_into_impl so p n self x y func (Some t) = Ret (after self (s <? m) e)
      /\ len e = (if s <? m then cbS m else dv_size self)
      /\ forall w, word_ok n w -> wc (dv_from e) w =
           if len w <=? m
           then fold_left (fun a c => s_add so a (func c)) (terms so l r (wc x) (wc y) w) (wc self w)
           else wc self w.
  Proof.
    intros Hs Hl Hr Ps Pl Pr Pm Hself Hx Hy. unfold multiply_and_add_into_impl.
    rewrite (degree_ok p n Hn x l Hl Pl), (degree_ok p n Hn y r Hr Pr). cbn [bind].
    pose proof (pow_u64_exp n _ Hn Pl). pose proof (pow_u64_exp n _ Hn Pr).
    rewrite product_degree_ok by lia. cbn [bind]. fold m.
    destruct (grow_ok so p n Hn self s m Hs Ps (fun _ => Pm)) as (g & -> & Hg & Hgw). cbn [bind].
    set (s1 := if s <? m then after self true g else self).
    assert (S1 : stored_to n s1 m).
    { unfold s1. destruct (N.ltb_spec s m) as [H1|H1].
      - unfold stored_to, dv_size. cbn [after dv_elems]. rewrite (Hg H1). lia.
      - destruct Hself; [lia|assumption]. }
    assert (S2 : forall w, word_ok n w -> wc s1 w = wc self w).
    { intros w Hw. unfold s1. destruct (N.ltb_spec s m) as [H1|H1]; [|reflexivity].
      rewrite <- (Hgw H1 w Hw). apply wc_elems. reflexivity. }
    destruct (outer_ok so p n Hn func x y l r m (rev_range_incl 0 m)) with (self := s1)
      as (z & E & Hz & _ & Hk & Hw); try assumption; [lia| | |].
    { intros out Ho. apply in_rev_range_incl in Ho. lia. }
    { unfold rev_range_incl. apply NoDup_rev. unfold range_incl. generalize 0 as a, (N.to_nat (m + 1 - 0)) as k.
      clear. intros a k. revert a; induction k as [|k IH]; intros a; cbn [seqN]; constructor; [|apply IH].
      rewrite in_seqN. lia. }
    rewrite E. exists (dv_elems z).
    assert (Hne : rev_range_incl 0 m <> []).
    { intros E0. assert (In 0 (rev_range_incl 0 m)) as Hi by (apply in_rev_range_incl; lia).
      rewrite E0 in Hi. exact Hi. }
    split.
    { rewrite (Hk Hne). unfold s1. destruct (s <? m); [|reflexivity]. rewrite after_after. reflexivity. }
    split.
    { change (len (dv_elems z)) with (dv_size z). rewrite Hz. unfold s1.
      destruct (N.ltb_spec s m) as [H1|H1]; [|reflexivity]. unfold dv_size. cbn [after dv_elems]. apply Hg. exact H1. }
    intros w Hwo. rewrite (wc_elems so n (dv_from (dv_elems z)) z w eq_refl). rewrite (Hw w Hwo).
    rewrite (S2 w Hwo). destruct (N.leb_spec (len w) m) as [H1|H1];
      destruct (in_dec N.eq_dec (len w) (rev_range_incl 0 m)) as [H2|H2].
    - rewrite fold_round. unfold terms. rewrite splits_filtered, map_map, fold_map. reflexivity.
    - exfalso. apply H2. apply in_rev_range_incl. lia.
    - apply in_rev_range_incl in H2. lia.
    - reflexivity.
  Qed.

  Lemma for_each_UB {A B} (xs : list A) (body : B -> A -> outcome B) (Inv : B -> Prop) (bad : A -> bool) s :
    (forall s x, Inv s -> In x xs -> bad x = true -> body s x = UB) ->
    (forall s x, Inv s -> In x xs -> bad x = false -> exists s', body s x = Ret s' /\ Inv s') ->
    existsb bad xs = true -> Inv s -> for_each xs body s = UB.
  Proof.
    intros Hb Hg. revert s; induction xs as [|x xs IH]; intros s He Hs; [discriminate|].
    cbn [for_each existsb] in *. destruct (bad x) eqn:Ex.
    - rewrite (Hb s x Hs (or_introl eq_refl) Ex). reflexivity.
    - destruct (Hg s x Hs (or_introl eq_refl) Ex) as (s' & -> & Hs'). cbn [bind]. apply IH; [| |exact He|exact Hs'].
      + intros s0 x0 H0 Hx. apply Hb; [exact H0|right; exact Hx].
      + intros s0 x0 H0 Hx. apply Hg; [exact H0|right; exact Hx].
  Qed.

  Theorem mul_add_UB func self x y s l r t (m := N.min t (l + r)) :
    has_degree n self s -> has_degree n x l -> has_degree n y r ->
    n ^ (s + 1) < 2 ^ 64 -> n ^ (l + 1) < 2 ^ 64 -> n ^ (r + 1) < 2 ^ 64 -> n ^ (m + 1) < 2 ^ 64 ->
    ~ ((s < m \/ stored_to n self m) /\ stored_to n x (N.min m l) /\ stored_to n y (N.min m r)) ->
    multiply_and_add_into_impl so p n self x y func (Some t) = UB.
  Proof.
    intros Hs Hl Hr Ps Pl Pr Pm Hbad. unfold multiply_and_add_into_impl.
    rewrite (degree_ok p n Hn x l Hl Pl), (degree_ok p n Hn y r Hr Pr). cbn [bind].
    pose proof (pow_u64_exp n _ Hn Pl). pose proof (pow_u64_exp n _ Hn Pr).
    rewrite product_degree_ok by lia. cbn [bind]. fold m.
    destruct (grow_ok so p n Hn self s m Hs Ps (fun _ => Pm)) as (g & -> & Hg & Hgw). cbn [bind].
    set (s1 := if s <? m then after self true g else self).
    assert (S1 : stored_to n s1 m <-> s < m \/ stored_to n self m).
    { unfold s1. destruct (N.ltb_spec s m) as [H1|H1].
      - split; [intros; left; exact H1|]. intros _. unfold stored_to, dv_size. cbn [after dv_elems].
        rewrite (Hg H1). lia.
      - split; [intros; right; assumption|]. intros [|]; [lia|assumption]. }
    rewrite <- S1 in Hbad.
    assert (E : rev_range_incl 0 m = m :: rev (seqN 0 (N.to_nat m))).
    { unfold rev_range_incl, range_incl. replace (N.to_nat (m + 1 - 0)) with (Datatypes.S (N.to_nat m)) by lia.
      rewrite seqN_snoc, rev_app_distr. cbn [rev app]. f_equal. lia. }
    rewrite E. cbn [for_each]. clear E. fold (lo r m). fold (ds_of l r m).
    set (bad := fun d => negb ((cbS m <=? dv_size s1) && (cbS d <=? dv_size x) && (cbS (m - d) <=? dv_size y))).
    rewrite (for_each_UB _ _ (fun v => dv_size v = dv_size s1) bad); [reflexivity| | | |reflexivity].
    - intros v d Hv Hd Hb. unfold ds_of in Hd. apply in_rev_range_incl in Hd. rewrite lo_eq in Hd.
      apply body_UB; [assumption|assumption|lia|]. intros (G1 & G2 & G3). unfold bad in Hb.
      apply negb_true_iff in Hb. unfold stored_to in *. rewrite Hv in G1.
      apply andb_false_iff in Hb. destruct Hb as [Hb|Hb]; [|apply N.leb_gt in Hb; lia].
      apply andb_false_iff in Hb. destruct Hb as [Hb|Hb]; apply N.leb_gt in Hb; lia.
    - intros v d Hv Hd Hb. unfold ds_of in Hd. apply in_rev_range_incl in Hd. rewrite lo_eq in Hd.
      unfold bad in Hb. apply negb_false_iff in Hb. apply andb_prop in Hb. destruct Hb as [Hb B3].
      apply andb_prop in Hb. destruct Hb as [B1 B2]. apply N.leb_le in B1, B2, B3.
      destruct (body_ok so p n Hn func x y m d v) as (e & Ee & He & _); try assumption; [lia| |].
      + unfold stored_to. rewrite Hv. exact B1.
      + eexists. split; [exact Ee|]. unfold dv_size at 1. cbn [after dv_elems]. lia.
    - apply existsb_exists.
      destruct (N.le_gt_cases (cbS m) (dv_size s1)) as [G1|G1];
        [destruct (N.le_gt_cases (cbS (N.min m l)) (dv_size x)) as [G2|G2]|].
      + exists (m - r). split; [apply in_rev_range_incl; rewrite lo_eq; lia|]. unfold bad.
        apply negb_true_iff. apply andb_false_iff. right. apply N.leb_gt.
        replace (m - (m - r)) with (N.min m r) by lia.
        destruct (N.lt_ge_cases (dv_size y) (cbS (N.min m r))) as [|G3]; [assumption|].
        exfalso. apply Hbad. repeat split; assumption.
      + exists (N.min m l). split; [apply in_rev_range_incl; rewrite lo_eq; lia|]. unfold bad.
        apply negb_true_iff. apply andb_false_iff. left. apply andb_false_iff. right. apply N.leb_gt. exact G2.
      + exists (N.min m l). split; [apply in_rev_range_incl; rewrite lo_eq; lia|]. unfold bad.
        apply negb_true_iff. apply andb_false_iff. left. apply andb_false_iff. left. apply N.leb_gt. exact G1.
  Qed.
End Result.
