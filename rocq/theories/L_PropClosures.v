(** Property lemmas C90-C91 (restated as theorems in P_Closures.v). *)
From Coq Require Import QArith Qcanon.
From Verif Require Import Machine MachineLemmas S_Words L_Words M_Scalar M_Vector M_Dense M_TensorKey M_TensorBasis
  S_TensorApi S_Vector S_Tensor I_Scalars L_TensorKey L_TensorBasis L_Dense M_Algebra L_Algebra M_AlgebraFn S_AlgebraFn
  L_AlgebraFn.
Local Open Scope N_scope.

(** * C90 *)
Lemma nodup_by {A B} (f : A -> list B) (g : B -> A) (xs : list A) :
  NoDup xs -> (forall x, In x xs -> NoDup (f x)) -> (forall x y, In x xs -> In y (f x) -> g y = x) -> NoDup (flat_map f xs).
Proof.
  intros Hx Hf Hg. induction xs as [|x xs IH]; [constructor|]. cbn [flat_map]. inversion Hx as [|? ? Hnin Hx']; subst.
  assert (Hr : NoDup (flat_map f xs)).
  { apply IH; [exact Hx'| |]; intros; [apply Hf|eapply Hg]; try right; eassumption. }
  assert (Hd : forall y, In y (f x) -> ~ In y (flat_map f xs)).
  { intros y Hy Hin. apply in_flat_map in Hin. destruct Hin as (x' & Hx1 & Hy').
    apply Hnin. rewrite <- (Hg x y (or_introl eq_refl) Hy), (Hg x' y (or_intror Hx1) Hy'). exact Hx1. }
  specialize (Hf x (or_introl eq_refl)). revert Hf Hd. clear - Hr. generalize (f x) as l. induction l as [|y l IH]; [trivial|].
  intros Hn Hd. inversion Hn as [|? ? H1 H2]; subst. cbn [app]. constructor.
  - rewrite in_app_iff. intros [H|H]; [exact (H1 H)|]. exact (Hd y (or_introl eq_refl) H).
  - apply IH; [exact H2|]. intros z Hz. apply Hd. right. exact Hz.
Qed.
Lemma rev_range_nodup a b : NoDup (rev_range_incl a b).
Proof.
  unfold rev_range_incl. apply NoDup_rev. unfold range_incl. generalize (N.to_nat (b + 1 - a)) as k. intros k.
  revert a; induction k as [|k IH]; intros a; cbn [seqN]; constructor; [|apply IH]. rewrite in_seqN. lia.
Qed.
(** the calls: every pair of words in range, once *)
Lemma c90_pairs : forall (n l r m : N),
  NoDup (product_pairs n l r m)
  /\ forall u v, In (u, v) (product_pairs n l r m)
       <-> word_ok n u /\ word_ok n v /\ len u <= l /\ len v <= r /\ len u + len v <= m.
Proof.
  intros n l r m. split.
  - unfold product_pairs. apply (nodup_by _ (fun uv => len (fst uv) + len (snd uv))); [apply rev_range_nodup| |].
    + intros k Hk. apply in_rev_range_incl in Hk. apply (nodup_by _ (fun uv => len (fst uv))).
      * apply NoDup_filter, rev_range_nodup.
      * intros d _. apply (NoDup_map_inv (fun uv => fst uv ++ snd uv)). rewrite prod_words. apply words_nodup.
      * intros d [u v] Hd Hin. apply in_prod_iff in Hin. destruct Hin as [Hu _]. apply in_words_of_length in Hu.
        cbn [fst]. unfold len. lia.
    + intros k [u v] Hk Hin. apply in_flat_map in Hin. destruct Hin as (d & Hd & Hin). apply filter_In in Hd.
      destruct Hd as [Hd _]. apply in_rev_range_incl in Hd. apply in_prod_iff in Hin. destruct Hin as [Hu Hv].
      apply in_words_of_length in Hu, Hv. cbn [fst snd]. unfold len. lia.
  - intros u v. apply pairs_in.
Qed.
(** with any closure: what it is called on, in which order, where its results go, and what is left if it panics *)
Lemma c90_calls : forall (S R St : Type) (so : scalar_ops S R) (p : profile) (n : N)
    (func : St -> S -> St * option S) (self x y : dvec S) (s l r t : N) (st st' : St) (bs : list S) (ok : bool),
  2 <= n -> has_degree n self s -> has_degree n x l -> has_degree n y r ->
  n ^ (s + 1) < 2 ^ 64 -> n ^ (l + 1) < 2 ^ 64 -> n ^ (r + 1) < 2 ^ 64 -> n ^ (N.min t (l + r) + 1) < 2 ^ 64 ->
  s < N.min t (l + r) \/ stored_to n self (N.min t (l + r)) ->
  stored_to n x (N.min (N.min t (l + r)) l) -> stored_to n y (N.min (N.min t (l + r)) r) ->
  let calls := product_pairs n l r (N.min t (l + r)) in
  run_calls func st (map (fun uv => s_mul so (wcoef so n x (fst uv)) (wcoef so n y (snd uv))) calls) = (bs, st', ok) ->
  exists z, multiply_and_add_into_impl_fn so p n func self x y st (Some t)
            = (if ok then Done (z, st') else Thrown (z, st'))
    /\ dv_size z = (if s <? N.min t (l + r) then N.of_nat (length (words_below n (N.to_nat (N.min t (l + r) + 1)))) else dv_size self)
    /\ forall w, word_ok n w -> wcoef so n z w = added_to so w (List.combine calls bs) (wcoef so n self w).
Proof.
  intros S R St so p n func self x y s l r t st st' bs ok Hn Hs Hl Hr Ps Pl Pr Pm Hself Hx Hy calls E.
  destruct (mul_add_fn so p n Hn func self x y s l r t st bs st' ok Hs Hl Hr Ps Pl Pr Pm Hself Hx Hy E) as (e & H1 & H2 & H3).
  exists (after self (s <? N.min t (l + r)) e). split; [exact H1|]. split.
  - unfold dv_size at 1. cbn [after dv_elems]. rewrite H2. destruct (s <? _); [|reflexivity].
    rewrite words_below_length, N2Nat.id. f_equal. lia.
  - intros w Hw. refine (eq_trans _ (H3 w Hw)). apply wc_elems. reflexivity.
Qed.
(** a closure that counts its calls in units of 1, and panics at its fifth call *)
Definition counting (k : N) (x : Qc) : N * option Qc := (k + 1, if k =? 4 then None else Some x).
Example c90_example :
  let x := dv_from (map q [1; 2; 3]%Z) in let y := dv_from (map q [5; 7; 11]%Z) in
  multiply_and_add_into_impl_fn qc_ops dev 2 counting dv_new x y 10 (Some 2)
  = Done (dv_from (map q [5; 17; 26; 14; 22; 21; 33]%Z), 19)
  /\ multiply_and_add_into_impl_fn qc_ops dev 2 counting dv_new x y 0 (Some 2)
     = Thrown (dv_from (map q [0; 0; 0; 14; 22; 21; 33]%Z), 5)
  /\ length (product_pairs 2 1 1 2) = 9%nat.
Proof. repeat split; vm_compute; reflexivity. Qed.

(** * C91 *)
(** the same outcome, a panic leaving some vector *)
Definition same_outcome {S St} (st : St) (r : res (dvec S * St)) (o : outcome (dvec S)) : Prop :=
  match o with
  | Ret z => r = Done (z, st)
  | Panic => exists z, r = Thrown (z, st)
  | UB => r = Undefined
  | Diverge => r = Endless
  end.
Section Pure.
  Context {S R St : Type} (so : scalar_ops S R) (p : profile) (n : N) (f : S -> S) (st : St).
  Notation func := (fun (s : St) (a : S) => (s, Some (f a))).
  Notation same := (@same_outcome S St st).

  Lemma same_eval {A} (m : outcome A) v (k : A -> res (dvec S * St)) (k' : A -> outcome (dvec S)) :
    (forall a, same (k a) (k' a)) -> same (eval m (v, st) k) (bind m k').
  Proof. intros H. destruct m; cbn [eval bind]; [apply H|exists v; reflexivity|reflexivity|reflexivity]. Qed.
  Lemma same_seq r o k (k' : dvec S -> outcome (dvec S)) : same r o -> (forall v, same (k (v, st)) (k' v)) ->
    same (match r with Done x' => k x' | Thrown x' => Thrown x' | Undefined => Undefined | Endless => Endless end) (bind o k').
  Proof.
    intros H Hk. destruct o; cbn [same_outcome bind] in *; [rewrite H; apply Hk|destruct H as [z ->]; exists z; reflexivity|rewrite H; reflexivity..].
  Qed.
  Lemma same_loop {A} (xs : list A) body body' v : (forall v a, same (body (v, st) a) (body' v a)) ->
    same (loop xs body (v, st)) (for_each xs body' v).
  Proof.
    intros H. revert v; induction xs as [|a xs IH]; intros v; [reflexivity|]. cbn [loop for_each].
    apply (same_seq (body (v, st) a) (body' v a) (loop xs body) (for_each xs body')); [apply H|exact IH].
  Qed.
  Lemma row_pure r x o i :
    loop r (fun '(o, i, s) rhs_v =>
              match slice_get o i with
              | None => Undefined
              | Some y => let '(s', b) := func s (s_mul so x rhs_v) in
                          match b with
                          | None => Thrown (o, i, s')
                          | Some b => Done (list_set o (N.to_nat i) (s_add so y b), i + 1, s')
                          end
              end) (o, i, st)
    = match for_each r (fun '(o, i) rhs_v =>
          match slice_get o i with
          | Some z => Ret (list_set o (N.to_nat i) (s_add so z (f (s_mul so x rhs_v))), i + 1)
          | None => UB
          end) (o, i) with Ret (o', i') => Done (o', i', st) | _ => Undefined end.
  Proof.
    revert o i; induction r as [|y r IH]; intros o i; [reflexivity|]. cbn [loop for_each].
    destruct (slice_get o i); [|reflexivity]. cbn [bind]. apply IH.
  Qed.
  Lemma buffer_pure out l r :
    multiply_into_buffer_fn so func out l r st
    = match multiply_into_buffer so out l r f with Ret o => Done (o, st) | _ => Undefined end.
  Proof.
    unfold multiply_into_buffer_fn, multiply_into_buffer. generalize out as o, 0 as i.
    induction l as [|x l IH]; intros o i; [reflexivity|]. cbn [loop for_each]. rewrite row_pure.
    destruct (for_each r _ (o, i)) as [[o' i']| | |]; cbn [bind]; try reflexivity. apply IH.
  Qed.
  Lemma buffer_total out l r : multiply_into_buffer so out l r f <> Panic /\ multiply_into_buffer so out l r f <> Diverge.
  Proof.
    unfold multiply_into_buffer.
    assert (H : forall (l : list S) o i, exists m, for_each l (fun st0 lhs_v =>
        for_each r (fun '(o, i) rhs_v => match slice_get o i with
          | Some x => Ret (list_set o (N.to_nat i) (s_add so x (f (s_mul so lhs_v rhs_v))), i + 1)
          | None => UB end) st0) (o, i) = m /\ (m = UB \/ exists o' i', m = Ret (o', i'))).
    { clear l out. intros l. induction l as [|x l IH]; intros o i; [eexists; split; [reflexivity|right; do 2 eexists; reflexivity]|].
      cbn [for_each].
      assert (G : forall o i, exists m, for_each r (fun '(o, i) rhs_v => match slice_get o i with
          | Some z => Ret (list_set o (N.to_nat i) (s_add so z (f (s_mul so x rhs_v))), i + 1)
          | None => UB end) (o, i) = m /\ (m = UB \/ exists o' i', m = Ret (o', i'))).
      { clear. induction r as [|y r IH]; intros o i; [eexists; split; [reflexivity|right; do 2 eexists; reflexivity]|].
        cbn [for_each]. destruct (slice_get o i); cbn [bind]; [apply IH|]. eexists. split; [reflexivity|left; reflexivity]. }
      destruct (G o i) as (m & -> & [->|(o' & i' & ->)]); cbn [bind]; [eexists; split; [reflexivity|left; reflexivity]|apply IH]. }
    destruct (H l out 0) as (m & -> & [->|(o' & i' & ->)]); cbn [bind]; split; discriminate.
  Qed.
  Lemma same_buffer g out l r :
    same (put_back g (multiply_into_buffer_fn so func out l r st))
         (o <- multiply_into_buffer so out l r f ;; Ret (g o)).
  Proof.
    rewrite buffer_pure. destruct (buffer_total out l r) as [H1 H2].
    destruct (multiply_into_buffer so out l r f); cbn [put_back bind]; try reflexivity; contradiction.
  Qed.
  Lemma inplace_pure out r : multiply_inplace_fn so func out r st = Done (multiply_buffer_inplace so out r f, st).
  Proof.
    unfold multiply_inplace_fn, multiply_buffer_inplace.
    set (g := fun x => fold_left (fun y rhs_v => f (s_mul so y rhs_v)) r x).
    assert (E : forall pre post, out = pre ++ post ->
      loop (seqN (len pre) (length post)) (fun x i => loop r (fun '(o, s) rhs_v =>
            match slice_get o i with
            | None => Undefined
            | Some y => Done (list_set o (N.to_nat i) (f (s_mul so y rhs_v)), s)
            end) x) (map g pre ++ post, st) = Done (map g out, st)).
    { intros pre post. revert pre; induction post as [|y post IH]; intros pre E.
      - rewrite app_nil_r in *. subst pre. reflexivity.
      - cbn [length seqN loop].
        assert (Row : forall r0 a, loop r0 (fun '(o, s) rhs_v =>
            match slice_get o (len pre) with
            | None => Undefined
            | Some y => Done (list_set o (N.to_nat (len pre)) (f (s_mul so y rhs_v)), s)
            end) (map g pre ++ a :: post, st)
            = Done (map g pre ++ fold_left (fun y rhs_v => f (s_mul so y rhs_v)) r0 a :: post, st)).
        { clear. induction r0 as [|b r0 IH]; intros a; [reflexivity|]. cbn [loop fold_left].
          assert (slice_get (map g pre ++ a :: post) (len pre) = Some a) as ->.
          { unfold slice_get, len. rewrite Nat2N.id, nth_error_app2 by (rewrite map_length; lia).
            rewrite map_length, Nat.sub_diag. reflexivity. }
          assert (forall c, list_set (map g pre ++ a :: post) (N.to_nat (len pre)) c = map g pre ++ c :: post) as ->; [|apply IH].
          intros c. unfold len. rewrite Nat2N.id, <- (map_length g pre). apply list_set_app_mid. }
        rewrite Row. specialize (IH (pre ++ [y])). rewrite map_app, <- !app_assoc in IH. cbn [map app] in IH.
        replace (len (pre ++ [y])) with (len pre + 1) in IH by (rewrite len_app; reflexivity). apply IH. exact E. }
    specialize (E [] out eq_refl). cbn [map app] in E. unfold range. rewrite N.sub_0_r.
    replace (N.to_nat (len out)) with (length out) by (unfold len; lia). exact E.
  Qed.

  Lemma body_same lhs rhs out v d :
    same (mul_add_body_fn so p n func lhs rhs out (v, st) d) (mul_add_body so p n lhs rhs f out v d).
  Proof.
    unfold mul_add_body_fn, mul_add_body.
    apply same_eval; intros [oa ob]. apply same_eval; intros o. apply same_eval; intros [la lb]. apply same_eval; intros l.
    apply same_eval; intros [ra rb]. apply same_eval; intros r. apply same_buffer.
  Qed.
  Lemma split_same rhs v lm lr rr or :
    same (mul_split_fn so p n func rhs (v, st) lm lr rr or) (mul_split so p n rhs f v lm lr rr or).
  Proof.
    unfold mul_split_fn, mul_split. apply same_eval; intros mid. apply same_eval; intros [a b].
    apply same_eval; intros o. apply same_eval; intros l. apply same_eval; intros r. 
    apply (same_buffer (fun o => dv_write (dv_as_mut v) (a ++ splice b (fst or) o))).
  Qed.
  Lemma into_body_same rhs ld rd off asg v out :
    same (mul_into_body_fn so p n func rhs ld rd off asg (v, st) out) (mul_into_body so p n rhs f ld rd off asg v out).
  Proof.
    unfold mul_into_body_fn, mul_into_body. apply same_eval; intros lmin. apply same_eval; intros oo. cbv zeta.
    apply (same_seq _ _ (fun x1 => eval (usub 32 p (N.min oo ld) (if asg then 1 else 0)) x1 (fun last =>
        loop (rev_range_incl lmin last) (mul_into_inner_fn so p n func rhs out (N.min oo ld)) x1))).
    - destruct asg; [|reflexivity]. apply same_eval; intros d. apply same_eval; intros rr. apply same_eval; intros or.
      destruct (off =? 1); [apply same_eval; intros lr; apply split_same|].
      cbn [fst snd]. apply same_eval; intros o. apply same_eval; intros r. rewrite inplace_pure. reflexivity.
    - intros v1. apply same_eval; intros last. apply same_loop. intros v2 d. unfold mul_into_inner_fn, mul_into_inner.
      do 5 (apply same_eval; intros ?). apply split_same.
  Qed.
End Pure.
Lemma c91_pure_closures : forall (S R St : Type) (so : scalar_ops S R) (p : profile) (n : N) (f : S -> S) (st : St)
    (self lhs rhs : dvec S) (t : option N),
  let func := fun (s : St) (a : S) => (s, Some (f a)) in
  same_outcome st (multiply_and_add_into_impl_fn so p n func self lhs rhs st t)
                  (multiply_and_add_into_impl so p n self lhs rhs f t)
  /\ same_outcome st (multiply_into_impl_fn so p n func self rhs st t) (multiply_into_impl so p n self rhs f t).
Proof.
  intros S R St so p n f st self lhs rhs t func. split.
  - unfold multiply_and_add_into_impl_fn, multiply_and_add_into_impl. do 4 (apply same_eval; intros ?).
    apply same_loop. intros v out. cbv zeta. apply same_loop. intros v1 d. apply body_same.
  - unfold multiply_into_impl_fn, multiply_into_impl. do 4 (apply same_eval; intros ?).
    destruct (offset_assign so rhs) as [off asg]. apply same_loop. intros v out. apply into_body_same.
Qed.
Example c91_example :
  multiply_into_impl_fn qc_ops dev 2 (fun (s : unit) a => (s, Some a)) (dv_from (map q [0; 2; 3]%Z)) (dv_from [q 5]) tt (Some 1)
  = Done (dv_from (map q [0; 10; 15]%Z), tt).
Proof. vm_compute. reflexivity. Qed.

(** * C96: How many scalar products a product computes *)
Lemma seqN_nodup k : forall a, NoDup (seqN a k).
Proof. induction k as [|k IH]; intros a; cbn [seqN]; constructor; [|apply IH]. rewrite in_seqN. lia. Qed.
Lemma same_length {A} (xs ys : list A) : NoDup xs -> NoDup ys -> (forall x, In x xs <-> In x ys) -> length xs = length ys.
Proof. intros H1 H2 H. apply Permutation.Permutation_length, Permutation.NoDup_Permutation; assumption. Qed.
Lemma flat_map_const {A B} (f : A -> list B) (xs : list A) c : (forall x, In x xs -> length (f x) = c) ->
  length (flat_map f xs) = (length xs * c)%nat.
Proof.
  induction xs as [|x xs IH]; intros H; [reflexivity|]. cbn [flat_map length]. rewrite app_length, (H x (or_introl eq_refl)), IH; [lia|].
  intros y Hy. apply H. right. exact Hy.
Qed.
Lemma flat_map_rev_len {A B} (f : A -> list B) (xs : list A) : length (flat_map f (rev xs)) = length (flat_map f xs).
Proof.
  induction xs as [|x xs IH]; [reflexivity|]. cbn [rev flat_map]. rewrite flat_map_app, !app_length, IH. cbn [flat_map].
  rewrite app_nil_r. lia.
Qed.
Lemma pairs_count n l r m : N.of_nat (length (product_pairs n l r m)) = pairs_below n l r (N.to_nat (m + 1)).
Proof.
  unfold product_pairs, rev_range_incl at 2. rewrite flat_map_rev_len. unfold range_incl. rewrite N.sub_0_r.
  generalize (N.to_nat (m + 1)) as K. intros K.
  induction K as [|k IH]; [reflexivity|]. rewrite seqN_snoc, flat_map_app, app_length, Nat2N.inj_add, IH. cbn [pairs_below]. f_equal.
  cbn [flat_map]. rewrite app_nil_r, N.add_0_l.
  rewrite (flat_map_const _ _ (N.to_nat (n ^ N.of_nat k))).
  - rewrite Nat2N.inj_mul, N2Nat.id. f_equal.
    rewrite (same_length _ (seqN (N.of_nat k - r) (N.to_nat (N.min l (N.of_nat k) + 1 - (N.of_nat k - r))))).
    + rewrite seqN_length. lia.
    + apply NoDup_filter, rev_range_nodup.
    + apply seqN_nodup.
    + intros d. rewrite filter_In, in_rev_range_incl, in_seqN, Bool.andb_true_iff, !N.leb_le. lia.
  - intros d Hd. apply filter_In in Hd. destruct Hd as [Hd _]. apply in_rev_range_incl in Hd.
    rewrite prod_length, !words_of_length_length, !N2Nat.id, <- N2Nat.inj_mul, <- N.pow_add_r. do 2 f_equal. lia.
Qed.
Lemma c96_counting_closure : forall (S R : Type) (so : scalar_ops S R) (p : profile) (n : N) (f : S -> S)
    (self x y : dvec S) (s l r t c : N),
  2 <= n -> has_degree n self s -> has_degree n x l -> has_degree n y r ->
  n ^ (s + 1) < 2 ^ 64 -> n ^ (l + 1) < 2 ^ 64 -> n ^ (r + 1) < 2 ^ 64 -> n ^ (N.min t (l + r) + 1) < 2 ^ 64 ->
  s < N.min t (l + r) \/ stored_to n self (N.min t (l + r)) ->
  stored_to n x (N.min (N.min t (l + r)) l) -> stored_to n y (N.min (N.min t (l + r)) r) ->
  exists z, multiply_and_add_into_impl_fn so p n (fun c a => (c + 1, Some (f a))) self x y c (Some t)
            = Done (z, c + pairs_below n l r (N.to_nat (N.min t (l + r) + 1))).
Proof.
  intros S R so p n f self x y s l r t c Hn Hs Hl Hr Ps Pl Pr Pm Hself Hx Hy.
  assert (Run : forall args c0, run_calls (fun c a => (c + 1, Some (f a))) c0 args = (map f args, c0 + N.of_nat (length args), true)).
  { induction args as [|a args IH]; intros c0; cbn [run_calls map length]; [rewrite N.add_0_r; reflexivity|].
    rewrite IH. do 2 f_equal. lia. }
  destruct (c90_calls S R N so p n _ self x y s l r t c _ _ _ Hn Hs Hl Hr Ps Pl Pr Pm Hself Hx Hy (Run _ c)) as (z & E & _).
  exists z. rewrite E. do 2 f_equal. f_equal. rewrite map_length. apply pairs_count.
Qed.
(** nothing is truncated: the product of the numbers of words *)
Lemma words_below_nodup n d : NoDup (words_below n d).
Proof.
  assert (E : forall d, words_below n d = flat_map (words_of_length n) (seq 0 d)).
  { clear d. induction d as [|d IH]; [reflexivity|]. cbn [words_below]. rewrite seq_S, flat_map_app, IH. cbn [flat_map].
    rewrite app_nil_r. reflexivity. }
  rewrite E. apply (nodup_by _ (@length N)); [apply seq_NoDup|intros; apply words_nodup|].
  intros x w _ Hw. apply in_words_of_length in Hw. apply Hw.
Qed.
Lemma list_prod_nodup {A B} (xs : list A) (ys : list B) : NoDup xs -> NoDup ys -> NoDup (list_prod xs ys).
Proof.
  intros Hx Hy.
  assert (E : list_prod xs ys = flat_map (fun x => map (pair x) ys) xs).
  { clear. induction xs as [|x xs IH]; [reflexivity|]. cbn [list_prod flat_map]. rewrite IH. reflexivity. }
  rewrite E. apply (nodup_by _ fst); [exact Hx| |].
  - intros x _. apply FinFun.Injective_map_NoDup; [|exact Hy]. intros a b Q. injection Q as ->. reflexivity.
  - intros x [a b] _ Hin. apply in_map_iff in Hin. destruct Hin as (c & Q & _). injection Q as -> _. reflexivity.
Qed.
Lemma c96_all_words : forall (n l r m : N), l + r <= m ->
  pairs_below n l r (N.to_nat (m + 1))
  = N.of_nat (length (words_below n (N.to_nat (l + 1)))) * N.of_nat (length (words_below n (N.to_nat (r + 1)))).
Proof.
  intros n l r m Hm. rewrite <- pairs_count, <- Nat2N.inj_mul, <- prod_length. f_equal. apply same_length.
  - apply c90_pairs.
  - apply list_prod_nodup; apply words_below_nodup.
  - intros [u v]. destruct (c90_pairs n l r m) as [_ P]. rewrite P, in_prod_iff, !in_words_below. unfold len.
    split; [intros (A & B & C & D & _)|intros [[A C] [B D]]]; repeat split; try assumption; lia.
Qed.
(** a counting closure, as an example of C90 and C96 *)
Example c96_example :
  let x := dv_from (map q [1; 2; 3]%Z) in let y := dv_from (map q [5; 7; 11]%Z) in
  multiply_and_add_into_impl_fn qc_ops dev 2 (fun c a => (c + 1, Some a)) dv_new x y 10 (Some 2)
  = Done (dv_from (map q [5; 17; 26; 14; 22; 21; 33]%Z), 10 + pairs_below 2 1 1 3)
  /\ pairs_below 2 1 1 3 = 9 /\ pairs_below 2 1 1 2 = 5 /\ pairs_below 3 4 2 7 = 121 * 13.
Proof. repeat split; vm_compute; reflexivity. Qed.
