(** Lemmas about the model of dense vectors. *)
From Verif Require Import Machine MachineLemmas M_Scalar M_Vector M_Dense S_Vector.
From Coq Require Import Sorted Permutation.

Lemma slice_get_some {A} (l : list A) i : i < len l -> exists x, slice_get l i = Some x.
Proof.
  intros H. unfold slice_get. destruct (nth_error l (N.to_nat i)) eqn:E; [eauto|].
  apply nth_error_None in E. unfold len in H. lia.
Qed.
Lemma slice_get_none {A} (l : list A) i : len l <= i -> slice_get l i = None.
Proof. intros H. apply nth_error_None. unfold len in H. lia. Qed.
Lemma slice_get_lt {A} (l : list A) i x : slice_get l i = Some x -> i < len l.
Proof.
  intros H. destruct (N.lt_ge_cases i (len l)); [assumption|]. rewrite slice_get_none in H by assumption.
  discriminate.
Qed.
Lemma slice_get_ext {A} (l m : list A) : (forall i, slice_get l i = slice_get m i) -> l = m.
Proof.
  intros H. apply nth_error_ext. intros i. specialize (H (N.of_nat i)). unfold slice_get in H.
  rewrite Nat2N.id in H. exact H.
Qed.
Lemma slice_get_map {A B} (f : A -> B) l i : slice_get (map f l) i = option_map f (slice_get l i).
Proof. unfold slice_get. apply nth_error_map. Qed.
Lemma slice_get_repeat {A} (x : A) m i : slice_get (repeat x m) i = if i <? N.of_nat m then Some x else None.
Proof.
  unfold slice_get. destruct (N.ltb_spec i (N.of_nat m)).
  - apply nth_error_repeat_lt. lia.
  - apply nth_error_None. rewrite repeat_length. lia.
Qed.
Lemma len_map {A B} (f : A -> B) l : len (map f l) = len l.
Proof. unfold len. rewrite map_length. reflexivity. Qed.
Lemma len_list_set {A} (l : list A) i x : len (list_set l i x) = len l.
Proof. unfold len. rewrite list_set_length. reflexivity. Qed.
Lemma slice_get_list_set {A} (l : list A) i j x : i < len l ->
  slice_get (list_set l (N.to_nat i) x) j = if j =? i then Some x else slice_get l j.
Proof.
  intros H. unfold slice_get. destruct (N.eqb_spec j i) as [->|Hn].
  - apply list_set_same. unfold len in H. lia.
  - apply list_set_other. lia.
Qed.
Lemma len_vec_resize {A} (l : list A) n x : len (vec_resize l n x) = n.
Proof. unfold len. rewrite vec_resize_length. lia. Qed.
Lemma slice_get_vec_resize {A} (l : list A) n x i :
  slice_get (vec_resize l n x) i
  = if i <? n then Some (match slice_get l i with Some y => y | None => x end) else None.
Proof.
  unfold slice_get. destruct (N.ltb_spec i n) as [H|H].
  - unfold vec_resize. destruct (Nat.lt_ge_cases (N.to_nat i) (length (firstn (N.to_nat n) l))) as [Hl|Hl].
    + rewrite nth_error_app1 by exact Hl. rewrite firstn_length in Hl.
      rewrite nth_error_firstn. destruct (Nat.ltb_spec (N.to_nat i) (N.to_nat n)); [|lia].
      destruct (nth_error l (N.to_nat i)) eqn:E; [reflexivity|]. apply nth_error_None in E. lia.
    + rewrite nth_error_app2 by exact Hl. rewrite firstn_length in *.
      rewrite nth_error_repeat_lt by lia. destruct (nth_error l (N.to_nat i)) eqn:E; [|reflexivity].
      assert (N.to_nat i < length l)%nat by (apply nth_error_Some; congruence). lia.
  - apply nth_error_None. rewrite vec_resize_length. lia.
Qed.

Lemma zip_apply_length {S T} (op : S -> T -> S) l r : length (zip_apply op l r) = length l.
Proof. revert r; induction l as [|x l IH]; intros [|y r]; cbn; auto. Qed.
Lemma zip_apply_get {S T} (op : S -> T -> S) l r i : slice_get (zip_apply op l r) i =
  match slice_get l i, slice_get r i with
  | Some x, Some y => Some (op x y) | a, _ => a end.
Proof.
  unfold slice_get. generalize (N.to_nat i) as j. clear i.
  revert r; induction l as [|x l IH]; intros [|y r] [|j]; cbn; try reflexivity.
  - destruct (nth_error l j); reflexivity.
  - apply IH.
Qed.

Section Dense.
  Context {K S R : Type} (so : scalar_ops S R) (ob : obasis K).
  Notation zero := (s_zero so).

  (** the elements that add_inplace and sub_inplace leave *)
  Definition comb (op : S -> S -> S) (l r : list S) : list S :=
    zip_apply op (if len l <? len r then vec_resize l (len r) zero else l) r.
  Lemma comb_get op l r i : slice_get (comb op l r) i = combine so op (slice_get l i) (slice_get r i).
  Proof.
    unfold comb. rewrite zip_apply_get. destruct (N.ltb_spec (len l) (len r)) as [H|H].
    - rewrite slice_get_vec_resize. destruct (N.ltb_spec i (len r)) as [H1|H1].
      + destruct (slice_get_some r i H1) as [y ->]. destruct (slice_get l i); reflexivity.
      + rewrite (slice_get_none r i H1), (slice_get_none l i) by lia. reflexivity.
    - destruct (slice_get l i) eqn:E; [destruct (slice_get r i); reflexivity|].
      rewrite slice_get_none; [reflexivity|]. destruct (N.lt_ge_cases i (len l)) as [H1|H1]; [|lia].
      destruct (slice_get_some l i H1). congruence.
  Qed.
  Lemma comb_len op l r : len (comb op l r) = N.max (len l) (len r).
  Proof.
    unfold comb. unfold len at 1. rewrite zip_apply_length. fold (len (if len l <? len r then vec_resize l (len r) zero else l)).
    destruct (N.ltb_spec (len l) (len r)); [rewrite len_vec_resize|]; lia.
  Qed.

  (** storage after an operation that writes and, if [grow], has to reallocate *)
  Definition kind_after (k : storage) (grow : bool) : storage :=
    match k with BorrowedMut => if grow then Owned else BorrowedMut | _ => Owned end.
  Definition lender_after (v : dvec S) (grow : bool) (l : list S) : list S :=
    match dv_kind v with BorrowedMut => if grow then dv_lender v else l | _ => dv_lender v end.
  Definition after (v : dvec S) (grow : bool) (l : list S) : dvec S :=
    mk_dvec (kind_after (dv_kind v) grow) l (lender_after v grow l).

  Lemma as_mut_elems (v : dvec S) : dv_elems (dv_as_mut v) = dv_elems v.
  Proof. destruct v as [[] l b]; reflexivity. Qed.
  Lemma write_as_mut (v : dvec S) l : dv_write (dv_as_mut v) l = after v false l.
  Proof. destruct v as [[] l' b]; reflexivity. Qed.

  Lemma resize_eq v n : dv_resize so v n = Ret (after v true (vec_resize (dv_elems v) n zero)).
  Proof. destruct v as [[] l b]; reflexivity. Qed.
  Lemma uminus_inplace_eq v : dv_uminus_inplace so v = Ret (after v false (map (s_uminus so) (dv_elems v))).
  Proof. unfold dv_uminus_inplace. rewrite write_as_mut, as_mut_elems. reflexivity. Qed.
  Lemma lmultiply_inplace_eq v s : dv_scalar_lmultiply_inplace so v s
    = Ret (after v false (map (fun x => s_mul so x s) (dv_elems v))).
  Proof. destruct v as [[] l b]; reflexivity. Qed.
  Lemma rdivide_inplace_eq v r : dv_scalar_rdivide_inplace so v r
    = Ret (after v false (map (fun x => s_div so x r) (dv_elems v))).
  Proof. destruct v as [[] l b]; reflexivity. Qed.
  Lemma add_inplace_eq v w : dv_add_inplace so v w
    = Ret (after v (dv_size v <? dv_size w) (comb (s_add so) (dv_elems v) (dv_elems w))).
  Proof.
    unfold dv_add_inplace, comb, dv_size, dv_as_slice.
    destruct v as [[] l b], w as [kw r bw]; cbn;
      destruct (len l <? len r) eqn:E; cbn; reflexivity.
  Qed.
  Lemma sub_inplace_eq v w : dv_sub_inplace so v w
    = Ret (after v (dv_size v <? dv_size w) (comb (s_sub so) (dv_elems v) (dv_elems w))).
  Proof.
    unfold dv_sub_inplace, comb, dv_size, dv_as_slice.
    destruct v as [[] l b], w as [kw r bw]; cbn;
      destruct (len l <? len r) eqn:E; cbn; reflexivity.
  Qed.
  Lemma get_mut_eq v k i : ob_key_to_index ob k = Ret i ->
    dv_get_mut ob v k = Ret (dv_as_mut v,
      match slice_get (dv_elems v) i with
      | Some x => Some (x, fun y => after v false (list_set (dv_elems v) (N.to_nat i) y))
      | None => None end).
  Proof.
    intros H. unfold dv_get_mut. rewrite H. cbn [bind].
    destruct v as [[] l b]; cbn; reflexivity.
  Qed.
  Lemma as_mut_wf (v : dvec S) : dv_wf v -> dv_as_mut v = after v false (dv_elems v).
  Proof. destruct v as [[] l b]; cbn; try reflexivity. intros ->. reflexivity. Qed.
  Lemma erase_eq v k i : ob_key_to_index ob k = Ret i ->
    dv_erase so ob v k = Ret (match slice_get (dv_elems v) i with
      | Some x => after v false (list_set (dv_elems v) (N.to_nat i) zero)
      | None => dv_as_mut v end).
  Proof. intros H. unfold dv_erase. rewrite (get_mut_eq _ _ _ H). cbn. destruct (slice_get (dv_elems v) i); reflexivity. Qed.
  Lemma scaled_eq y s : dflt_scalar_lmultiply (dense_required so ob) y s
    = Ret (dv_from (map (fun x => s_mul so x s) (dv_elems y))).
  Proof. reflexivity. Qed.
  Lemma divided_eq y r : dflt_scalar_rdivide (dense_required so ob) y r
    = Ret (dv_from (map (fun x => s_div so x r) (dv_elems y))).
  Proof. reflexivity. Qed.
  Lemma fused_add_mul_eq x y s : dflt_add_scalar_rmultiply (dense_required so ob) x y s
    = Ret (after x (dv_size x <? dv_size y) (comb (s_add so) (dv_elems x) (map (fun c => s_mul so c s) (dv_elems y)))).
  Proof.
    unfold dflt_add_scalar_rmultiply, dflt_scalar_rmultiply, dflt_scalar_ldivide. rewrite scaled_eq. cbn [bind dense_required vr_add_inplace vr_sub_inplace].
    rewrite add_inplace_eq. unfold dv_size. cbn [dv_from dv_elems]. rewrite len_map. reflexivity.
  Qed.
  Lemma fused_add_mul_l_eq x y s : dflt_add_scalar_lmultiply (dense_required so ob) x y s
    = Ret (after x (dv_size x <? dv_size y) (comb (s_add so) (dv_elems x) (map (fun c => s_mul so c s) (dv_elems y)))).
  Proof.
    unfold dflt_add_scalar_lmultiply, dflt_scalar_rmultiply, dflt_scalar_ldivide. rewrite scaled_eq. cbn [bind dense_required vr_add_inplace vr_sub_inplace].
    rewrite add_inplace_eq. unfold dv_size. cbn [dv_from dv_elems]. rewrite len_map. reflexivity.
  Qed.
  Lemma fused_sub_mul_eq x y s : dflt_sub_scalar_rmultiply (dense_required so ob) x y s
    = Ret (after x (dv_size x <? dv_size y) (comb (s_sub so) (dv_elems x) (map (fun c => s_mul so c s) (dv_elems y)))).
  Proof.
    unfold dflt_sub_scalar_rmultiply, dflt_scalar_rmultiply, dflt_scalar_ldivide. rewrite scaled_eq. cbn [bind dense_required vr_add_inplace vr_sub_inplace].
    rewrite sub_inplace_eq. unfold dv_size. cbn [dv_from dv_elems]. rewrite len_map. reflexivity.
  Qed.
  Lemma fused_sub_mul_l_eq x y s : dflt_sub_scalar_lmultiply (dense_required so ob) x y s
    = Ret (after x (dv_size x <? dv_size y) (comb (s_sub so) (dv_elems x) (map (fun c => s_mul so c s) (dv_elems y)))).
  Proof.
    unfold dflt_sub_scalar_lmultiply, dflt_scalar_rmultiply, dflt_scalar_ldivide. rewrite scaled_eq. cbn [bind dense_required vr_add_inplace vr_sub_inplace].
    rewrite sub_inplace_eq. unfold dv_size. cbn [dv_from dv_elems]. rewrite len_map. reflexivity.
  Qed.
  Lemma fused_add_div_eq x y r : dflt_add_scalar_rdivide (dense_required so ob) x y r
    = Ret (after x (dv_size x <? dv_size y) (comb (s_add so) (dv_elems x) (map (fun c => s_div so c r) (dv_elems y)))).
  Proof.
    unfold dflt_add_scalar_rdivide, dflt_scalar_rmultiply, dflt_scalar_ldivide. rewrite divided_eq. cbn [bind dense_required vr_add_inplace vr_sub_inplace].
    rewrite add_inplace_eq. unfold dv_size. cbn [dv_from dv_elems]. rewrite len_map. reflexivity.
  Qed.
  Lemma fused_add_div_l_eq x y r : dflt_add_scalar_ldivide (dense_required so ob) x y r
    = Ret (after x (dv_size x <? dv_size y) (comb (s_add so) (dv_elems x) (map (fun c => s_div so c r) (dv_elems y)))).
  Proof.
    unfold dflt_add_scalar_ldivide, dflt_scalar_rmultiply, dflt_scalar_ldivide. rewrite divided_eq. cbn [bind dense_required vr_add_inplace vr_sub_inplace].
    rewrite add_inplace_eq. unfold dv_size. cbn [dv_from dv_elems]. rewrite len_map. reflexivity.
  Qed.
  Lemma fused_sub_div_eq x y r : dflt_sub_scalar_rdivide (dense_required so ob) x y r
    = Ret (after x (dv_size x <? dv_size y) (comb (s_sub so) (dv_elems x) (map (fun c => s_div so c r) (dv_elems y)))).
  Proof.
    unfold dflt_sub_scalar_rdivide, dflt_scalar_rmultiply, dflt_scalar_ldivide. rewrite divided_eq. cbn [bind dense_required vr_add_inplace vr_sub_inplace].
    rewrite sub_inplace_eq. unfold dv_size. cbn [dv_from dv_elems]. rewrite len_map. reflexivity.
  Qed.
  Lemma fused_sub_div_l_eq x y r : dflt_sub_scalar_ldivide (dense_required so ob) x y r
    = Ret (after x (dv_size x <? dv_size y) (comb (s_sub so) (dv_elems x) (map (fun c => s_div so c r) (dv_elems y)))).
  Proof.
    unfold dflt_sub_scalar_ldivide, dflt_scalar_rmultiply, dflt_scalar_ldivide. rewrite divided_eq. cbn [bind dense_required vr_add_inplace vr_sub_inplace].
    rewrite sub_inplace_eq. unfold dv_size. cbn [dv_from dv_elems]. rewrite len_map. reflexivity.
  Qed.

  Lemma after_wf v g l : dv_wf (after v g l).
  Proof. destruct v as [[] l' b], g; cbn; exact I || reflexivity. Qed.
  (** ** from_iterator *)
  Definition at_index (i : N) (l : list (N * S)) : list S := given (N.eqb i) l.
  Lemma at_index_cons i j s l : at_index i ((j, s) :: l) = if i =? j then s :: at_index i l else at_index i l.
  Proof. unfold at_index, given. cbn. destruct (i =? j); reflexivity. Qed.
  Lemma at_index_insert i x l : at_index i (sorted_insert x l) = at_index i (x :: l).
  Proof.
    destruct x as [j s]. induction l as [|[j' s'] l IH]; [reflexivity|]. cbn [sorted_insert fst].
    destruct (N.leb_spec j j') as [H|H]; [reflexivity|].
    rewrite at_index_cons, IH, !at_index_cons. destruct (N.eqb_spec i j), (N.eqb_spec i j'); reflexivity || lia.
  Qed.
  Lemma at_index_sort i l : at_index i (sort_by_index l) = at_index i l.
  Proof.
    induction l as [|[j s] l IH]; [reflexivity|]. cbn [sort_by_index].
    rewrite at_index_insert, !at_index_cons, IH. reflexivity.
  Qed.
  Lemma in_insert (x y : N * S) l : In y (sorted_insert x l) <-> y = x \/ In y l.
  Proof.
    induction l as [|z l IH]; cbn; [intuition auto|]. destruct (fst x <=? fst z); cbn; [intuition auto|].
    rewrite IH. intuition auto.
  Qed.
  Lemma in_sort (y : N * S) l : In y (sort_by_index l) <-> In y l.
  Proof. induction l as [|x l IH]; cbn; [reflexivity|]. rewrite in_insert, IH. intuition auto. Qed.
  Lemma insert_sorted (x : N * S) l : StronglySorted (fun a b => fst a <= fst b) l ->
    StronglySorted (fun a b => fst a <= fst b) (sorted_insert x l).
  Proof.
    induction l as [|y l IH]; intros Hs; cbn; [repeat constructor|].
    inversion Hs as [|? ? Hs' Hf]; subst. rewrite Forall_forall in Hf.
    destruct (N.leb_spec (fst x) (fst y)) as [H|H].
    - constructor; [exact Hs|]. apply Forall_forall. intros z [<-|Hz]; [lia|]. specialize (Hf z Hz). lia.
    - constructor; [apply IH; exact Hs'|]. apply Forall_forall. intros z Hz. apply in_insert in Hz.
      destruct Hz as [->|Hz]; [lia|]. apply Hf; exact Hz.
  Qed.
  Lemma sort_sorted (l : list (N * S)) : StronglySorted (fun a b => fst a <= fst b) (sort_by_index l).
  Proof. induction l as [|x l IH]; cbn; [constructor|]. apply insert_sorted. exact IH. Qed.
  Lemma sort_last (l : list (N * S)) x t : rev (sort_by_index l) = x :: t ->
    In x l /\ forall y, In y l -> fst y <= fst x.
  Proof.
    intros H. pose proof (sort_sorted l) as Hs. set (s := sort_by_index l) in *.
    assert (E : s = rev t ++ [x]) by (rewrite <- (rev_involutive s), H; reflexivity).
    assert (Hin : forall y, In y s <-> In y l) by (intros; apply in_sort).
    split; [apply Hin; rewrite E; apply in_or_app; right; left; reflexivity|].
    intros y Hy. apply (proj2 (Hin y)) in Hy. clear Hin H. rewrite E in Hs, Hy. clear E s.
    induction (rev t) as [|z u IH]; cbn in *; [destruct Hy as [->|[]]; lia|].
    inversion Hs as [|? ? Hs' Hf]; subst. destruct Hy as [->|Hy]; [|apply IH; assumption].
    rewrite Forall_forall in Hf. apply Hf. apply in_or_app. right; left; reflexivity.
  Qed.
  Lemma sort_nil (l : list (N * S)) : rev (sort_by_index l) = [] -> l = [].
  Proof.
    intros H. destruct l as [|x l]; [reflexivity|]. exfalso.
    assert (In x (sort_by_index (x :: l))) as Hx by (apply in_sort; left; reflexivity).
    apply in_rev in Hx. rewrite H in Hx. exact Hx.
  Qed.
  Lemma add_at_ok (l : list S) (e : N * S) : fst e < len l ->
    dv_add_at_unchecked so (dv_from l) e
    = Ret (dv_from (list_set l (N.to_nat (fst e))
                      (s_add so (match slice_get l (fst e) with Some x => x | None => zero end) (snd e)))).
  Proof.
    intros H. unfold dv_add_at_unchecked. cbn. destruct (slice_get_some l (fst e) H) as [x ->]. reflexivity.
  Qed.
  Lemma add_all_ok (es : list (N * S)) (l : list S) : Forall (fun e => fst e < len l) es ->
    exists l', for_each es (dv_add_at_unchecked so) (dv_from l) = Ret (dv_from l') /\ len l' = len l
      /\ forall i, slice_get l' i
           = option_map (fun x => fold_left (s_add so) (at_index i es) x) (slice_get l i).
  Proof.
    revert l; induction es as [|[j s] es IH]; intros l H; cbn [for_each].
    - exists l. split; [reflexivity|]. split; [reflexivity|]. intros i. cbn.
      destruct (slice_get l i); reflexivity.
    - inversion H as [|? ? Hj Ht]; subst. cbn [fst] in Hj. rewrite add_at_ok by exact Hj. cbn [bind fst snd].
      set (l1 := list_set _ _ _). assert (Hl : len l1 = len l) by apply len_list_set.
      destruct (IH l1) as (l' & E & Hl' & Hg); [rewrite Hl; exact Ht|].
      exists l'. split; [exact E|]. split; [congruence|]. intros i. rewrite Hg. unfold l1.
      rewrite slice_get_list_set by exact Hj. rewrite at_index_cons.
      destruct (N.eqb_spec i j) as [->|Hn]; [|reflexivity].
      destruct (slice_get_some l j Hj) as [x ->]. reflexivity.
  Qed.
  Lemma mapM_index (items : list (K * S)) (f : K -> N) :
    Forall (fun e => ob_key_to_index ob (fst e) = Ret (f (fst e))) items ->
    mapM (fun e => i <- ob_key_to_index ob (fst e) ;; Ret (i, snd e)) items
    = Ret (map (fun e => (f (fst e), snd e)) items).
  Proof.
    induction 1 as [|[k s] l H HF IH]; [reflexivity|]. cbn [mapM fst snd map] in *. rewrite H. cbn [bind].
    rewrite IH. reflexivity.
  Qed.
  Lemma from_iterator_ok (items : list (K * S)) (f : K -> N) :
    Forall (fun e => ob_key_to_index ob (fst e) = Ret (f (fst e))) items ->
    (items = [] /\ dv_from_iterator so ob items = Ret (dv_from []))
    \/ exists k s, In (k, s) items /\ (forall e, In e items -> f (fst e) <= f k) /\
       forall d, ob_dim_for_index ob (f k) = Ret d -> f k < d ->
       exists l, dv_from_iterator so ob items = Ret (dv_from l) /\ len l = d
         /\ forall i, i < d -> slice_get l i
              = Some (sum_from_zero so (given (fun k' => i =? f k') items)).
  Proof.
    intros HF. unfold dv_from_iterator. rewrite (mapM_index items f HF). cbn [bind].
    set (vec := map _ items).
    destruct (rev (sort_by_index vec)) as [|[j s] t] eqn:E.
    - left. apply sort_nil in E. split; [destruct items; [reflexivity|discriminate]|reflexivity].
    - right. apply sort_last in E. destruct E as [Hin Hmax]. cbn [fst] in Hmax.
      unfold vec in Hin. apply in_map_iff in Hin. destruct Hin as ([k s'] & E1 & Hin).
      cbn [fst snd] in E1. injection E1 as <- <-. exists k, s'. split; [exact Hin|]. split.
      { intros e He. apply (Hmax (f (fst e), snd e)). apply in_map_iff. exists e. auto. }
      intros d Hd Hlt. cbn [fst]. rewrite Hd. cbn [bind].
      destruct (add_all_ok (sort_by_index vec) (repeat zero (N.to_nat d))) as (l & E2 & Hl & Hg).
      + apply Forall_forall. intros e He. apply (proj1 (in_sort e vec)) in He. rewrite len_repeat.
        specialize (Hmax e He). lia.
      + exists l. split; [exact E2|]. rewrite len_repeat in Hl. split; [lia|]. intros i Hi.
        rewrite Hg, slice_get_repeat. destruct (N.ltb_spec i (N.of_nat (N.to_nat d))); [|lia]. cbn.
        f_equal. unfold sum_from_zero. rewrite at_index_sort. f_equal.
        unfold at_index, given, vec. clear. induction items as [|[k s] l IH]; [reflexivity|]. cbn.
        destruct (i =? f k); cbn; rewrite IH; reflexivity.
  Qed.
  (** ** Equality *)
  Lemma slice_eqb_spec (eqb : S -> S -> bool) (a b : list S) :
    slice_eqb eqb a b = true <->
    len a = len b /\ forall i x y, slice_get a i = Some x -> slice_get b i = Some y -> eqb x y = true.
  Proof.
    revert b; induction a as [|x a IH]; intros [|y b]; cbn [slice_eqb].
    - split; [|reflexivity]. intros _. split; [reflexivity|]. intros i u v H.
      unfold slice_get in H. destruct (N.to_nat i); discriminate.
    - split; [discriminate|]. intros [H _]. rewrite len_cons, len_nil in H. lia.
    - split; [discriminate|]. intros [H _]. rewrite len_cons, len_nil in H. lia.
    - rewrite andb_true_iff, IH, !len_cons. split.
      + intros (Hxy & Hl & Hi). split; [lia|]. intros i u v Hu Hv. unfold slice_get in *.
        destruct (N.to_nat i) as [|j] eqn:Ej; cbn in Hu, Hv; [congruence|].
        apply (Hi (N.of_nat j)); rewrite Nat2N.id; assumption.
      + intros (Hl & Hi). split; [apply (Hi 0); reflexivity|]. split; [lia|]. intros i u v Hu Hv.
        apply (Hi (i + 1)); unfold slice_get in *; replace (N.to_nat (i + 1)) with (Datatypes.S (N.to_nat i)) by lia; assumption.
  Qed.
  Lemma coef_out v i : dv_size v <= i -> coef so v i = zero.
  Proof. intros H. unfold coef, dv_as_slice. rewrite slice_get_none; auto. Qed.
  Lemma coef_in v i x : slice_get (dv_elems v) i = Some x -> coef so v i = x.
  Proof. intros H. unfold coef, dv_as_slice. rewrite H. reflexivity. Qed.
End Dense.
