(** Property lemmas C118 (restated as theorems in P_Borrow.v). *)
From Coq Require Import QArith Qcanon Ring_theory Ring.
From Verif Require Import Machine MachineLemmas M_Scalar M_Vector M_Dense M_Algebra M_TensorKey M_TensorBasis S_Words S_Vector S_Tensor S_TensorProg
  I_Scalars L_Dense L_Algebra L_PropTensorProg S_Borrow.
Local Open Scope N_scope.

Lemma same_bind {A B C D} (P : A -> B -> Prop) (Q : C -> D -> Prop) x y f g :
  same_outcome P x y -> (forall a b, P a b -> same_outcome Q (f a) (g b)) -> same_outcome Q (bind x f) (bind y g).
Proof. intros H F. destruct x, y; cbn in *; try contradiction; auto. Qed.
Lemma same_bind_eq {A C D} (Q : C -> D -> Prop) (x : outcome A) f g :
  (forall a, same_outcome Q (f a) (g a)) -> same_outcome Q (bind x f) (bind x g).
Proof. intros F. destruct x; cbn; auto. Qed.
Lemma same_for_each {X A B} (P : A -> B -> Prop) (l : list X) f g a b :
  P a b -> (forall a b x, P a b -> same_outcome P (f a x) (g b x)) -> same_outcome P (for_each l f a) (for_each l g b).
Proof.
  intros H F. revert a b H. induction l as [|x l IH]; intros a b H; cbn [for_each]; [exact H|].
  apply (same_bind P); [apply F, H|]. exact IH.
Qed.

Section Same.
  Context {S R : Type} (so : scalar_ops S R).
  Notation sc := (@same_coeffs S).
  Notation same := (same_outcome sc).
  Lemma as_mut_elems (v : dvec S) : dv_elems (dv_as_mut v) = dv_elems v.
  Proof. unfold dv_as_mut. destruct v as [[] l b]; reflexivity. Qed.
  Lemma write_elems (v : dvec S) l : dv_elems (dv_write v l) = l.
  Proof. reflexivity. Qed.
  Lemma resize_elems (v : dvec S) m : exists r, dv_resize so v m = Ret r /\ dv_elems r = vec_resize (dv_elems v) m (s_zero so).
  Proof. unfold dv_resize, dv_to_owned_with_size. destruct v as [[] l b]; cbn; eexists; split; reflexivity. Qed.
  Lemma size_same (x y : dvec S) : sc x y -> dv_size x = dv_size y.
  Proof. unfold same_coeffs, dv_size. congruence. Qed.
  Lemma same_resize x y m : sc x y -> same (dv_resize so x m) (dv_resize so y m).
  Proof.
    intros H. destruct (resize_elems x m) as (r & -> & E), (resize_elems y m) as (r' & -> & E'). cbn. unfold same_coeffs in *. congruence.
  Qed.
  Lemma same_uminus x y : sc x y -> same (dv_uminus_inplace so x) (dv_uminus_inplace so y).
  Proof. intros H. unfold dv_uminus_inplace. cbn. unfold same_coeffs in *. rewrite !write_elems, !as_mut_elems, H. reflexivity. Qed.
  Lemma to_owned_elems (x : dvec S) : dv_elems (match dv_kind x with Borrowed => dv_assign_owned x (dv_elems x) | _ => x end) = dv_elems x.
  Proof. destruct x as [[] l b]; reflexivity. Qed.
  Lemma same_lmul x y s : sc x y -> same (dv_scalar_lmultiply_inplace so x s) (dv_scalar_lmultiply_inplace so y s).
  Proof.
    intros H. unfold dv_scalar_lmultiply_inplace. cbn. unfold same_coeffs in *.
    rewrite !write_elems, !as_mut_elems, !to_owned_elems, H. reflexivity.
  Qed.
  Lemma same_rdiv x y s : sc x y -> same (dv_scalar_rdivide_inplace so x s) (dv_scalar_rdivide_inplace so y s).
  Proof. intros H. unfold dv_scalar_rdivide_inplace. cbn. unfold same_coeffs in *. rewrite !write_elems, !as_mut_elems, H. reflexivity. Qed.
  Lemma same_add x y u v : sc x y -> sc u v -> same (dv_add_inplace so x u) (dv_add_inplace so y v).
  Proof.
    intros H G. unfold dv_add_inplace. rewrite (size_same u v G).
    set (x0 := match dv_kind x with Borrowed => _ | _ => _ end). set (y0 := match dv_kind y with Borrowed => _ | _ => _ end).
    assert (H0 : sc x0 y0) by (unfold same_coeffs, x0, y0; rewrite !to_owned_elems; exact H).
    rewrite (size_same x0 y0 H0). apply (same_bind sc).
    - destruct (dv_size y0 <? dv_size v); [apply same_resize|]; exact H0.
    - intros a b E. cbn. unfold same_coeffs, dv_as_slice in *. rewrite !write_elems, !as_mut_elems, E, G. reflexivity.
  Qed.
  Lemma same_sub x y u v : sc x y -> sc u v -> same (dv_sub_inplace so x u) (dv_sub_inplace so y v).
  Proof.
    intros H G. unfold dv_sub_inplace. rewrite (size_same u v G), (size_same x y H). apply (same_bind sc).
    - destruct (dv_size y <? dv_size v); [apply same_resize|]; exact H.
    - intros a b E. cbn. unfold same_coeffs, dv_as_slice in *. rewrite !write_elems, !as_mut_elems, E, G. reflexivity.
  Qed.
  Section Keys.
    Context {K : Type} (ob : obasis K).
    (** the reference of get_mut sees the same value, and writing through it has the same effect *)
    Definition same_ref (a b : dvec S * option (mut_ref S (dvec S))) : Prop :=
      sc (fst a) (fst b)
      /\ match snd a, snd b with
         | Some (u, f), Some (v, g) => u = v /\ forall s, sc (f s) (g s)
         | None, None => True
         | _, _ => False
         end.
    Lemma same_get_mut x y k : sc x y -> same_outcome same_ref (dv_get_mut ob x k) (dv_get_mut ob y k).
    Proof.
      intros H. unfold dv_get_mut. rewrite !as_mut_elems, H. apply same_bind_eq. intros i. cbn. split.
      - cbn. unfold same_coeffs. rewrite !as_mut_elems. exact H.
      - cbn. destruct (slice_get (dv_elems y) i); [|exact I]. split; [reflexivity|]. intros q. reflexivity.
    Qed.
    Lemma same_erase x y k : sc x y -> same (dv_erase so ob x k) (dv_erase so ob y k).
    Proof.
      intros H. unfold dv_erase. apply (same_bind same_ref); [apply same_get_mut, H|]. intros [a r] [b q] [E F]. cbn in *.
      destruct r as [[u f]|], q as [[v g]|]; try contradiction; [apply F|exact E].
    Qed.
    Lemma same_insert x y k s : sc x y -> same (dv_insert_single ob x k s) (dv_insert_single ob y k s).
    Proof. intros H. unfold dv_insert_single. apply same_bind_eq. intros i. exact H. Qed.
    Lemma same_key_add x y k s : sc x y ->
      same (ke_add_scalar_multiply so (dense_ops so ob) x k s) (ke_add_scalar_multiply so (dense_ops so ob) y k s).
    Proof.
      intros H. unfold ke_add_scalar_multiply. apply (same_bind same_ref); [exact (same_get_mut x y k H)|]. intros [a r] [b q] [E F]. cbn in E, F.
      destruct r as [[u f]|], q as [[v g]|]; try contradiction; [destruct F as [-> F]; apply F|exact (same_insert a b k s E)].
    Qed.
    Lemma same_key_sub x y k s : sc x y ->
      same (ke_sub_scalar_multiply so (dense_ops so ob) x k s) (ke_sub_scalar_multiply so (dense_ops so ob) y k s).
    Proof.
      intros H. unfold ke_sub_scalar_multiply. apply (same_bind same_ref); [exact (same_get_mut x y k H)|]. intros [a r] [b q] [E F]. cbn in E, F.
      destruct r as [[u f]|], q as [[v g]|]; try contradiction; [destruct F as [-> F]; apply F|exact (same_insert a b k _ E)].
    Qed.
    Lemma same_degree x y : sc x y -> dv_degree ob x = dv_degree ob y.
    Proof. intros H. unfold dv_degree. rewrite (size_same x y H). reflexivity. Qed.
  End Keys.

  Section Products.
    Context (p : profile) (n : N).
    Lemma same_grow x y m : sc x y -> same (grow_to_degree so p n x m) (grow_to_degree so p n y m).
    Proof.
      intros H. unfold grow_to_degree. rewrite (same_degree _ x y H). apply same_bind_eq. intros d.
      destruct (d <? m); [|exact H]. apply same_bind_eq. intros m1. apply same_bind_eq. intros size. apply same_resize, H.
    Qed.
    Lemma same_mul_add x y u v a b func t : sc x y -> sc u v -> sc a b ->
      same (multiply_and_add_into_impl so p n x u a func t) (multiply_and_add_into_impl so p n y v b func t).
    Proof.
      intros H G F. unfold multiply_and_add_into_impl. rewrite (same_degree _ u v G), (same_degree _ a b F).
      apply same_bind_eq. intros l. apply same_bind_eq. intros r. apply same_bind_eq. intros m.
      apply (same_bind sc); [apply same_grow, H|]. clear x y H. intros x y H.
      apply same_for_each; [exact H|]. clear x y H. intros x y o H. apply same_for_each; [exact H|]. clear x y H. intros x y e H.
      unfold mul_add_body, dv_as_slice. rewrite !as_mut_elems, H, G, F.
      apply same_bind_eq. intros [oa ob]. apply same_bind_eq. intros out. apply same_bind_eq. intros [la lb].
      apply same_bind_eq. intros ll. apply same_bind_eq. intros [ra rb]. apply same_bind_eq. intros rr.
      apply same_bind_eq. intros out'. reflexivity.
    Qed.
    Lemma same_mul_split x y a b func m lr rr or : sc x y -> sc a b ->
      same (mul_split so p n a func x m lr rr or) (mul_split so p n b func y m lr rr or).
    Proof.
      intros H F. unfold mul_split, dv_as_slice. rewrite !as_mut_elems, H, F.
      apply same_bind_eq. intros mid. apply same_bind_eq. intros [c d]. apply same_bind_eq. intros out.
      apply same_bind_eq. intros l. apply same_bind_eq. intros r. apply same_bind_eq. intros out'. reflexivity.
    Qed.
    Lemma same_mul_into x y a b func t : sc x y -> sc a b ->
      same (multiply_into_impl so p n x a func t) (multiply_into_impl so p n y b func t).
    Proof.
      intros H F. unfold multiply_into_impl. rewrite (same_degree _ x y H), (same_degree _ a b F).
      apply same_bind_eq. intros l. apply same_bind_eq. intros r. apply same_bind_eq. intros m.
      apply (same_bind sc); [apply same_grow, H|]. clear x y H. intros x y H.
      unfold offset_assign, dv_as_slice. rewrite F. destruct (match slice_get (dv_elems b) 0 with Some _ => _ | None => _ end) as [off asg].
      apply same_for_each; [exact H|]. clear x y H. intros x y o H. unfold mul_into_body.
      apply same_bind_eq. intros lmin. apply same_bind_eq. intros oo. apply (same_bind sc).
      - destruct asg; [|exact H]. apply same_bind_eq. intros d. apply same_bind_eq. intros rr. apply same_bind_eq. intros or.
        destruct (off =? 1).
        + apply same_bind_eq. intros lr. apply same_mul_split; assumption.
        + unfold dv_as_slice. rewrite !as_mut_elems, H, F. apply same_bind_eq. intros out. apply same_bind_eq. intros q. reflexivity.
      - clear x y H. intros x y H. apply same_bind_eq. intros last. apply same_for_each; [exact H|]. clear x y H. intros x y e H.
        unfold mul_into_inner. apply same_bind_eq. intros rd. apply same_bind_eq. intros rd'. apply same_bind_eq. intros rr.
        apply same_bind_eq. intros or. apply same_bind_eq. intros lr. apply same_mul_split; assumption.
    Qed.

    Notation vo := (dense_ops so (tensor_basis p n)).
    Definition same_vars (st st' : nat -> dvec S) : Prop := forall i, sc (st i) (st' i).
    Lemma same_set st st' d v v' : same_vars st st' -> sc v v' -> same_vars (set_var st d v) (set_var st' d v').
    Proof. intros H E i. unfold set_var. destruct (Nat.eqb i d); [exact E|apply H]. Qed.
    Lemma same_finish st st' d x y : same_vars st st' -> same x y ->
      same_outcome same_vars (v <- x ;; Ret (set_var st d v)) (v <- y ;; Ret (set_var st' d v)).
    Proof. intros H E. apply (same_bind sc); [exact E|]. intros a b F. apply same_set; assumption. Qed.
    Lemma same_cmd st st' (c : tcmd S R) : same_vars st st' ->
      (is_clear c = true -> dv_kind (st (changed c)) <> BorrowedMut /\ dv_kind (st' (changed c)) <> BorrowedMut) ->
      same_outcome same_vars (run_cmd so p n st c) (run_cmd so p n st' c).
    Proof.
      intros H Hc. destruct c; cbn [run_cmd]; cbn [is_clear changed] in Hc;
        try (apply same_finish; [exact H|]);
        try (apply same_bind_eq; intros k; apply same_finish; [exact H|]);
        try (first [apply same_uminus|apply same_lmul|apply same_rdiv|apply same_add|apply same_sub|apply same_erase
                   |apply same_key_add|apply same_key_sub|apply same_mul_add]; apply H).
      - apply same_set; [exact H|reflexivity].
      - destruct (vr_from_key_scalar vo k c); cbn; auto. reflexivity.
      - cbn. unfold same_coeffs. cbn. exact (H a).
      - destruct (Hc eq_refl) as [A B]. cbn. unfold dv_clear.
        destruct (dv_kind (st d)); try contradiction; destruct (dv_kind (st' d)); try contradiction; reflexivity.
      - apply (same_bind sc); [apply same_lmul; exact (H a)|]. intros y y' E. apply same_add; [apply H|exact E].
      - apply (same_bind sc); [apply same_rdiv; exact (H a)|]. intros y y' E. apply same_sub; [apply H|exact E].
      - apply same_mul_add; [reflexivity|apply H|apply H].
      - apply (same_bind sc); [apply same_mul_add; [reflexivity|apply H|apply H]|]. intros y y' E. apply same_mul_add; [exact E|apply H|apply H].
      - apply (same_bind sc); [apply same_lmul; exact (H a)|]. intros y y' E. apply same_sub; [apply H|exact E].
      - apply (same_bind sc); [apply same_rdiv; exact (H a)|]. intros y y' E. apply same_add; [apply H|exact E].
      - destruct (dv_from_degree so (tensor_basis p n) e); cbn; auto. reflexivity.
      - destruct (vr_from_iterator vo k); cbn; auto. reflexivity.
      - apply same_bind_eq. intros k. apply (same_bind same_ref); [exact (same_get_mut _ _ _ k (H d))|]. intros [a r] [b q] [E F]. cbn in E, F.
        destruct r as [[u f]|], q as [[v g]|]; try contradiction; (apply same_set; [exact H|]); [apply F|exact E].
    Qed.
  End Products.
End Same.

(** ** The buffers that were lent *)
Section Keeps.
  Context {S R : Type} (so : scalar_ops S R).
  Notation V := (dvec S).
  (** what a method may do to a vector and to the buffer behind it; [G]: it was allowed to move to its own storage *)
  Definition keeps (G : Prop) (v r : V) : Prop :=
    match dv_kind v with
    | Owned => dv_kind r = Owned /\ dv_lender r = dv_lender v
    | Borrowed => (r = v \/ dv_kind r = Owned) /\ dv_lender r = dv_lender v
    | BorrowedMut => dv_kind r = BorrowedMut /\ dv_lender r = dv_elems r /\ dv_size r = dv_size v
                     \/ dv_kind r = Owned /\ dv_lender r = dv_lender v /\ G
    end.
  Definition touch (v r : V) : Prop := r = v \/ exists l, len l = dv_size v /\ r = dv_write (dv_as_mut v) l.
  Lemma touch_trans u v w : touch u v -> touch v w -> touch u w.
  Proof.
    intros [->|(l & Hl & ->)] [->|(l' & Hl' & ->)]; [left; reflexivity|right; eauto|right; eauto|].
    right. exists l'. split; [rewrite Hl'; unfold dv_size; cbn [dv_write dv_elems]; exact Hl|].
    unfold dv_as_mut, dv_write. destruct u as [[] e b]; reflexivity.
  Qed.
  Lemma touch_keeps G v r : dv_wf v -> touch v r -> keeps G v r.
  Proof.
    unfold dv_wf, keeps. intros W [->|(l & Hl & ->)].
    - destruct (dv_kind v) eqn:E; auto.
    - destruct v as [[] e b]; cbn in *; auto.
  Qed.
  Lemma keeps_touch (G : Prop) v u r : keeps G v u -> touch u r -> keeps G v r.
  Proof.
    intros K [->|(l & Hl & ->)]; [exact K|]. unfold keeps in *. destruct v as [kv ev bv], u as [ku eu bu]. cbn in *.
    destruct kv; cbn in *.
    - destruct K as [-> ->]. auto.
    - destruct K as [[E| ->] ->]; [injection E as -> ->|]; cbn; auto.
    - destruct K as [(-> & -> & E)|(-> & -> & g)]; cbn.
      + left. split; [reflexivity|]. split; [reflexivity|]. unfold dv_size in *. cbn in *. congruence.
      + right. auto.
  Qed.
  Lemma keeps_wf (G : Prop) v r : dv_wf v -> keeps G v r -> dv_wf r.
  Proof.
    unfold keeps, dv_wf. intros W K. destruct (dv_kind v) eqn:E.
    - destruct K as [-> _]. exact I.
    - destruct K as [[->| ->] _]; [rewrite E; exact W|exact I].
    - destruct K as [(-> & K & _)|(-> & _)]; [exact K|exact I].
  Qed.
  Lemma resize_keeps (G : Prop) v m r : dv_resize so v m = Ret r -> G -> keeps G v r.
  Proof.
    intros E g. unfold dv_resize, dv_to_owned_with_size in E. destruct v as [[] e b]; cbn in E; injection E as <-; cbn; auto.
  Qed.
  Lemma map_touch (v : V) f : touch v (dv_write (dv_as_mut v) (map f (dv_elems (dv_as_mut v)))).
  Proof. right. eexists. split; [|reflexivity]. unfold dv_size, len. rewrite map_length, as_mut_elems. reflexivity. Qed.
  Lemma zip_len {T} (op : S -> T -> S) l r : len (zip_apply op l r) = len l.
  Proof. revert r. induction l as [|x l IH]; intros [|y r]; cbn [zip_apply]; try reflexivity. cbn [zip_apply]. rewrite !len_cons, IH. reflexivity. Qed.
  Lemma zip_touch {T} (v : V) op (r : list T) : touch v (dv_write (dv_as_mut v) (zip_apply op (dv_elems (dv_as_mut v)) r)).
  Proof. right. eexists. split; [|reflexivity]. rewrite zip_len, as_mut_elems. reflexivity. Qed.
  Lemma own_touch (v : V) : dv_as_mut (match dv_kind v with Borrowed => dv_assign_owned v (dv_elems v) | _ => v end) = dv_as_mut v.
  Proof. destruct v as [[] e b]; reflexivity. Qed.
  Lemma uminus_touch v r : dv_uminus_inplace so v = Ret r -> touch v r.
  Proof. intros E. injection E as <-. apply map_touch. Qed.
  Lemma lmul_touch v s r : dv_scalar_lmultiply_inplace so v s = Ret r -> touch v r.
  Proof. intros E. unfold dv_scalar_lmultiply_inplace in E. rewrite own_touch in E. injection E as <-. apply map_touch. Qed.
  Lemma rdiv_touch v s r : dv_scalar_rdivide_inplace so v s = Ret r -> touch v r.
  Proof. intros E. injection E as <-. apply map_touch. Qed.
  Lemma add_keeps v u r : dv_wf v -> dv_add_inplace so v u = Ret r -> keeps (dv_size v < dv_size u) v r.
  Proof.
    intros W E. unfold dv_add_inplace in E. set (v0 := match dv_kind v with Borrowed => _ | _ => _ end) in E.
    assert (Z : dv_size v0 = dv_size v) by (unfold dv_size, v0; rewrite to_owned_elems; reflexivity).
    assert (K0 : keeps (dv_size v < dv_size u) v v0).
    { unfold v0, keeps. unfold dv_wf in W. destruct v as [[] e b]; cbn in *; auto. }
    rewrite Z in E. destruct (N.ltb_spec (dv_size v) (dv_size u)) as [L|L].
    - destruct (dv_resize so v0 (dv_size u)) as [v1| | |] eqn:Er; try discriminate. cbn [bind] in E. injection E as <-.
      apply keeps_touch with v1; [|apply zip_touch]. unfold v0 in Er. destruct v as [[] e b]; cbn in Er; injection Er as <-; cbn; auto.
    - cbn [bind] in E. injection E as <-. apply keeps_touch with v0; [exact K0|apply zip_touch].
  Qed.
  Lemma sub_keeps v u r : dv_wf v -> dv_sub_inplace so v u = Ret r -> keeps (dv_size v < dv_size u) v r.
  Proof.
    intros W E. unfold dv_sub_inplace in E. destruct (N.ltb_spec (dv_size v) (dv_size u)) as [L|L].
    - destruct (dv_resize so v (dv_size u)) as [v1| | |] eqn:Er; try discriminate. cbn [bind] in E. injection E as <-.
      apply keeps_touch with v1; [|apply zip_touch]. exact (resize_keeps _ _ _ _ Er L).
    - cbn [bind] in E. injection E as <-. apply touch_keeps; [exact W|apply zip_touch].
  Qed.
  Lemma get_mut_touch {K} (ob : obasis K) v k u q : dv_get_mut ob v k = Ret (u, q) ->
    touch v u /\ match q with Some (_, f) => forall s, touch v (f s) | None => True end.
  Proof.
    unfold dv_get_mut. intros E. destruct (ob_key_to_index ob k); try discriminate. cbn [bind] in E. injection E as <- <-.
    assert (T : touch v (dv_as_mut v)).
    { destruct (dv_kind v) eqn:Ek; [left|right; exists (dv_elems v); split; [reflexivity|]|left];
        unfold dv_as_mut; rewrite Ek; try reflexivity. }
    split; [exact T|]. destruct (slice_get _ a); [|exact I]. intros q. right. eexists. split; [|reflexivity].
    rewrite len_list_set, as_mut_elems. reflexivity.
  Qed.
  Lemma for_each_rel {X A} (P : A -> A -> Prop) (l : list X) f a b : (forall a, P a a) -> (forall a b c, P a b -> P b c -> P a c) ->
    (forall a x b, f a x = Ret b -> P a b) -> for_each l f a = Ret b -> P a b.
  Proof.
    intros Rf Tr F. revert a. induction l as [|x l IH]; intros a E; cbn [for_each] in E; [injection E as <-; apply Rf|].
    destruct (f a x) as [c| | |] eqn:Ec; try discriminate. exact (Tr _ _ _ (F _ _ _ Ec) (IH _ E)).
  Qed.
  Lemma buffer_len out l r func o : multiply_into_buffer so out l r func = Ret o -> len o = len out.
  Proof.
    unfold multiply_into_buffer. intros E.
    match type of E with bind ?x _ = _ => destruct x as [[o1 i1]| | |] eqn:E1; try discriminate end. injection E as <-.
    apply (for_each_rel (fun a b : list S * N => len (fst b) = len (fst a))) in E1; [exact E1|reflexivity|congruence|].
    clear. intros a x b E. apply (for_each_rel (fun a b : list S * N => len (fst b) = len (fst a))) in E; [exact E|reflexivity|congruence|].
    clear. intros [o i] y b E. destruct (slice_get o i); try discriminate. injection E as <-. apply len_list_set.
  Qed.
  Lemma slice_len {A} (l : list A) a b s : slice_unchecked l a b = Ret s -> a + len s <= len l.
  Proof.
    unfold slice_unchecked. destruct (N.leb_spec a b); [|discriminate]. destruct (N.leb_spec b (len l)); [|discriminate].
    intros E. injection E as <-. unfold len in *. rewrite firstn_length, skipn_length. lia.
  Qed.
  Lemma body_touch p n lhs rhs func o v e r : mul_add_body so p n lhs rhs func o v e = Ret r -> touch v r.
  Proof.
    unfold mul_add_body. intros E. destruct (tb_degree_range p n o) as [[oa ob]| | |]; try discriminate. cbn [bind] in E.
    destruct (slice_unchecked (dv_elems (dv_as_mut v)) oa ob) as [out| | |] eqn:Eo; try discriminate. cbn [bind] in E.
    destruct (tb_degree_range p n e) as [[la lb]| | |]; try discriminate. cbn [bind] in E.
    destruct (slice_unchecked (dv_as_slice lhs) la lb) as [l| | |]; try discriminate. cbn [bind] in E.
    destruct (tb_degree_range p n (o - e)) as [[ra rb]| | |]; try discriminate. cbn [bind] in E.
    destruct (slice_unchecked (dv_as_slice rhs) ra rb) as [q| | |]; try discriminate. cbn [bind] in E.
    destruct (multiply_into_buffer so out l q func) as [out'| | |] eqn:Eb; try discriminate. cbn [bind] in E. injection E as <-.
    right. eexists. split; [|reflexivity]. rewrite splice_len; [rewrite as_mut_elems; reflexivity|].
    rewrite (buffer_len _ _ _ _ _ Eb). exact (slice_len _ _ _ _ Eo).
  Qed.
  Lemma mul_keeps p n v lhs rhs func t r : dv_wf v -> multiply_and_add_into_impl so p n v lhs rhs func t = Ret r ->
    keeps (exists e l q t', dv_degree (tensor_basis p n) v = Ret e /\ dv_degree (tensor_basis p n) lhs = Ret l
             /\ dv_degree (tensor_basis p n) rhs = Ret q /\ t = Some t' /\ e < t' /\ e < l + q) v r.
  Proof.
    intros W E. unfold multiply_and_add_into_impl in E.
    destruct (dv_degree (tensor_basis p n) lhs) as [l| | |] eqn:El; try discriminate. cbn [bind] in E.
    destruct (dv_degree (tensor_basis p n) rhs) as [q| | |] eqn:Eq; try discriminate. cbn [bind] in E.
    unfold product_degree in E. destruct t as [t|]; [|discriminate].
    destruct (uadd 32 p l q) as [m| | |] eqn:Em; try discriminate. cbn [bind] in E.
    assert (Lm : m <= l + q).
    { clear - Em. unfold uadd, overflowed in Em. destruct (_ <? _) in Em; [injection Em as <-; lia|]. destruct (overflow_checks p); [discriminate|].
      injection Em as <-. apply N.mod_le. discriminate. }
    unfold grow_to_degree in E. destruct (dv_degree (tensor_basis p n) v) as [e| | |] eqn:Ee; try discriminate. cbn [bind] in E.
    assert (T : forall v1, for_each (rev_range_incl 0 (N.min t m)) (fun v out_deg =>
        for_each (rev_range_incl (if q <? out_deg then out_deg - q else 0) (N.min out_deg l)) (mul_add_body so p n lhs rhs func out_deg) v) v1 = Ret r ->
        touch v1 r).
    { intros v1. apply for_each_rel; [left; reflexivity|exact touch_trans|]. clear. intros a x b.
      apply for_each_rel; [left; reflexivity|exact touch_trans|]. clear. intros a y b. apply body_touch. }
    destruct (N.ltb_spec e (N.min t m)) as [L|L].
    - destruct (uadd 32 p (N.min t m) 1) as [m1| | |]; try discriminate. cbn [bind] in E.
      destruct (tb_start_of_degree p n m1) as [size| | |]; try discriminate. cbn [bind] in E.
      destruct (dv_resize so v size) as [v1| | |] eqn:Er; try discriminate. cbn [bind] in E.
      apply keeps_touch with v1; [|apply T, E]. apply (resize_keeps _ _ _ _ Er).
      exists e, l, q, t. repeat split; try assumption; lia.
    - cbn [bind] in E. apply touch_keeps; [exact W|]. apply T, E.
  Qed.

  Context (p : profile) (n : N).
  Notation vo := (dense_ops so (tensor_basis p n)).
  Lemma touch_size v r : touch v r -> dv_size r = dv_size v.
  Proof. intros [->|(l & Hl & ->)]; [reflexivity|exact Hl]. Qed.
  Lemma key_add_touch v k s r : ke_add_scalar_multiply so vo v k s = Ret r -> touch v r.
  Proof.
    unfold ke_add_scalar_multiply. intros E. destruct (vr_get_mut vo v k) as [[u q]| | |] eqn:Y; try discriminate. cbn [bind] in E.
    destruct (get_mut_touch _ _ _ _ _ Y) as [A B]. destruct q as [[x f]|]; [injection E as <-; apply B|].
    cbn in E. unfold dv_insert_single in E. destruct (ob_key_to_index _ _) in E; try discriminate. injection E as <-. exact A.
  Qed.
  Lemma key_sub_touch v k s r : ke_sub_scalar_multiply so vo v k s = Ret r -> touch v r.
  Proof.
    unfold ke_sub_scalar_multiply. intros E. destruct (vr_get_mut vo v k) as [[u q]| | |] eqn:Y; try discriminate. cbn [bind] in E.
    destruct (get_mut_touch _ _ _ _ _ Y) as [A B]. destruct q as [[x f]|]; [injection E as <-; apply B|].
    cbn in E. unfold dv_insert_single in E. destruct (ob_key_to_index _ _) in E; try discriminate. injection E as <-. exact A.
  Qed.
  (** a command changes one variable only; unless it replaces it or clears it, it treats it as [keeps] says *)
  Lemma cmd_others st (c : tcmd S R) z i : run_cmd so p n st c = Ret z -> i <> changed c -> z i = st i.
  Proof.
    intros E H. assert (D : forall d v, z = set_var st d v -> d = changed c -> z i = st i).
    { intros d v -> ->. unfold set_var. destruct (Nat.eqb_spec i (changed c)); [contradiction|reflexivity]. }
    destruct c; cbn [run_cmd] in E; unfold bind in E;
      repeat match type of E with match ?x with _ => _ end = _ => destruct x; try discriminate E end;
      injection E as E; symmetry in E; exact (D _ _ E eq_refl).
  Qed.
  Lemma set_same {A} (st : nat -> A) d v : set_var st d v d = v.
  Proof. unfold set_var. rewrite Nat.eqb_refl. reflexivity. Qed.
  Lemma cmd_keeps st (c : tcmd S R) z : run_cmd so p n st c = Ret z -> replaces c = false ->
    dv_wf (st (changed c)) -> keeps (needs_room p n st c) (st (changed c)) (z (changed c)).
  Proof.
    intros E Hr W. destruct c; try discriminate; cbn [changed needs_room] in *; cbn [run_cmd] in E.
    Local Ltac one E := match type of E with bind ?x _ = _ => let y := fresh "y" in let Y := fresh "Y" in destruct x as [y| | |] eqn:Y; try discriminate E; cbn [bind] in E end.
    Local Ltac fin E := injection E as <-; rewrite set_same.
    - one E. fin E. clear W. cbn in Y. unfold dv_clear in Y. unfold keeps. destruct (st d) as [[] e b]; cbn in Y; injection Y as <-; cbn; auto.
      left. unfold dv_size, len. cbn. rewrite map_length. auto.
    - one E. one E. fin E. unfold vr_erase in Y0. cbn in Y0. unfold dv_erase in Y0. one Y0. destruct y1 as [u q]. injection Y0 as <-.
      destruct (get_mut_touch _ _ _ _ _ Y1) as [A B]. apply touch_keeps; [exact W|]. destruct q as [[x f]|]; [apply B|exact A].
    - one E. fin E. apply touch_keeps; [exact W|]. exact (uminus_touch _ _ Y).
    - one E. fin E. apply touch_keeps; [exact W|]. exact (lmul_touch _ _ _ Y).
    - one E. fin E. apply touch_keeps; [exact W|]. exact (rdiv_touch _ _ _ Y).
    - one E. fin E. exact (add_keeps _ _ _ W Y).
    - one E. fin E. exact (sub_keeps _ _ _ W Y).
    - one E. fin E. change (bind (dv_scalar_lmultiply_inplace so (dv_clone (st a)) c) (dv_add_inplace so (st d)) = Ret y) in Y. one Y.
      apply (add_keeps _ _ _ W) in Y. replace (dv_size (st a)) with (dv_size y0); [exact Y|]. exact (touch_size _ _ (lmul_touch _ _ _ Y0)).
    - one E. fin E. change (bind (dv_scalar_rdivide_inplace so (dv_clone (st a)) r) (dv_sub_inplace so (st d)) = Ret y) in Y. one Y.
      apply (sub_keeps _ _ _ W) in Y. replace (dv_size (st a)) with (dv_size y0); [exact Y|]. exact (touch_size _ _ (rdiv_touch _ _ _ Y0)).
    - one E. fin E. exact (mul_keeps _ _ _ _ _ _ _ _ W Y).
    - one E. fin E. exact (mul_keeps _ _ _ _ _ _ _ _ W Y).
    - one E. fin E. change (bind (dv_scalar_lmultiply_inplace so (dv_clone (st a)) c) (dv_sub_inplace so (st d)) = Ret y) in Y. one Y.
      apply (sub_keeps _ _ _ W) in Y. replace (dv_size (st a)) with (dv_size y0); [exact Y|]. exact (touch_size _ _ (lmul_touch _ _ _ Y0)).
    - one E. fin E. change (bind (dv_scalar_rdivide_inplace so (dv_clone (st a)) r) (dv_add_inplace so (st d)) = Ret y) in Y. one Y.
      apply (add_keeps _ _ _ W) in Y. replace (dv_size (st a)) with (dv_size y0); [exact Y|]. exact (touch_size _ _ (rdiv_touch _ _ _ Y0)).
    - one E. one E. destruct y0 as [u q]. fin E. destruct (get_mut_touch _ _ _ _ _ Y0) as [A B]. apply touch_keeps; [exact W|].
      destruct q as [[x f]|]; [apply B|exact A].
    - one E. one E. fin E. apply touch_keeps; [exact W|]. exact (key_add_touch _ _ _ _ Y0).
    - one E. one E. fin E. apply touch_keeps; [exact W|]. exact (key_sub_touch _ _ _ _ Y0).
  Qed.
  Lemma cmd_new st (c : tcmd S R) z : run_cmd so p n st c = Ret z -> replaces c = true -> dv_kind (z (changed c)) = Owned.
  Proof.
    intros E H. assert (M : forall a x y f t r, dv_kind a = Owned -> multiply_and_add_into_impl so p n a x y f t = Ret r -> dv_kind r = Owned).
    { intros a x y f t r Ha Er. apply mul_keeps in Er; unfold keeps, dv_wf in *; rewrite Ha in *; [apply Er|exact I]. }
    destruct c; try discriminate; cbn [changed] in *; cbn [run_cmd] in E.
    - fin E. reflexivity.
    - one E. one E. fin E. cbn in Y0. unfold dv_from_key_scalar in Y0. one Y0. one Y0. one Y0. injection Y0 as <-. reflexivity.
    - one E. fin E. injection Y as <-. reflexivity.
    - one E. fin E. unfold alg_multiply in Y. exact (M dv_new _ _ _ _ _ eq_refl Y).
    - one E. fin E. unfold alg_commutator in Y. one Y. exact (M y0 _ _ _ _ _ (M dv_new _ _ _ _ _ eq_refl Y0) Y).
    - one E. fin E. unfold dv_from_degree in Y. one Y. injection Y as <-. reflexivity.
    - one E. one E. fin E. change (dv_from_iterator so (tensor_basis p n) y = Ret y0) in Y0. unfold dv_from_iterator in Y0. one Y0.
      destruct (rev (sort_by_index y1)); [injection Y0 as <-; reflexivity|]. one Y0.
      apply (for_each_rel (fun a b : V => dv_kind a = Owned -> dv_kind b = Owned)) in Y0; [exact Y0|auto|auto| |reflexivity].
      clear. intros a x b E Ha. unfold dv_add_at_unchecked in E. cbn zeta in E. destruct (slice_get _ _) in E; try discriminate.
      injection E as <-. destruct a as [[] e l]; try discriminate Ha; reflexivity.
  Qed.
  Lemma cmd_wf st (c : tcmd S R) z : run_cmd so p n st c = Ret z -> (forall i, dv_wf (st i)) -> forall i, dv_wf (z i).
  Proof.
    intros E W i. destruct (Nat.eq_dec i (changed c)) as [->|N]; [|rewrite (cmd_others st c z i E N); apply W].
    destruct (replaces c) eqn:Er; [unfold dv_wf; rewrite (cmd_new st c z E Er); exact I|].
    exact (keeps_wf _ _ _ (W _) (cmd_keeps st c z E Er (W _))).
  Qed.
  Lemma cmd_not_mut st (c : tcmd S R) z : run_cmd so p n st c = Ret z -> (forall i, dv_wf (st i) /\ dv_kind (st i) <> BorrowedMut) ->
    forall i, dv_wf (z i) /\ dv_kind (z i) <> BorrowedMut.
  Proof.
    intros E W i. split; [apply (cmd_wf st c z E); intros j; apply W|].
    destruct (Nat.eq_dec i (changed c)) as [->|N]; [|rewrite (cmd_others st c z i E N); apply W].
    destruct (replaces c) eqn:Er; [rewrite (cmd_new st c z E Er); discriminate|].
    destruct (W (changed c)) as [Wf K]. pose proof (cmd_keeps st c z E Er Wf) as H. unfold keeps in H.
    destruct (dv_kind (st (changed c))) eqn:Ek; try contradiction.
    - destruct H as [-> _]. discriminate.
    - destruct H as [[->| ->] _]; congruence.
  Qed.
End Keeps.

(** * C118 *)
(** Without clear, how the tensors hold their coefficients makes no difference to the outcome of a program. *)
Lemma c118_kinds : forall (S R : Type) (so : scalar_ops S R) (p : profile) (n : N) (cs : list (tcmd S R)) (st st' : nat -> dvec S),
  Forall (fun c => is_clear c = false) cs -> (forall i, same_coeffs (st i) (st' i)) ->
  same_outcome (fun z z' => forall i, same_coeffs (z i) (z' i)) (run_prog so p n st cs) (run_prog so p n st' cs).
Proof.
  intros S R so p n cs. induction cs as [|c cs IH]; intros st st' F H; [exact H|]. inversion_clear F as [|? ? Fc Fs]. cbn [run_prog].
  apply (same_bind same_vars); [apply same_cmd; [exact H|congruence]|]. intros z z' Hz. apply IH; assumption.
Qed.
(** With clear too, if no tensor has a [&mut] buffer. *)
Lemma c118_shared : forall (S R : Type) (so : scalar_ops S R) (p : profile) (n : N) (cs : list (tcmd S R)) (st st' : nat -> dvec S),
  (forall i, dv_wf (st i) /\ dv_kind (st i) <> BorrowedMut) -> (forall i, dv_wf (st' i) /\ dv_kind (st' i) <> BorrowedMut) ->
  (forall i, same_coeffs (st i) (st' i)) ->
  same_outcome (fun z z' => forall i, same_coeffs (z i) (z' i)) (run_prog so p n st cs) (run_prog so p n st' cs).
Proof.
  intros S R so p n cs. induction cs as [|c cs IH]; intros st st' W W' H; [exact H|]. cbn [run_prog].
  pose proof (same_cmd so p n st st' c H (fun _ => conj (proj2 (W _)) (proj2 (W' _)))) as E.
  destruct (run_cmd so p n st c) as [z| | |] eqn:Ez, (run_cmd so p n st' c) as [z'| | |] eqn:Ez'; cbn in E; try contradiction; cbn; auto.
  apply IH; [exact (cmd_not_mut so p n st c z Ez W)|exact (cmd_not_mut so p n st' c z' Ez' W')|exact E].
Qed.
(** With clear and a [&mut] buffer it does: clear leaves an owned tensor without storage, and one with a [&mut]
    buffer with the storage it had, all zero; a product is undefined on the first and not on the second. *)
Lemma c118_clear_visible : exists (S R : Type) (so : scalar_ops S R) (n : N) (cs : list (tcmd S R)) (st st' : nat -> dvec S),
  (forall i, dv_wf (st i) /\ dv_wf (st' i)) /\ (forall i, same_coeffs (st i) (st' i))
  /\ (forall p, run_prog so p n st cs = UB) /\ (forall p, exists z, run_prog so p n st' cs = Ret z).
Proof.
  exists Qc, Qc, qc_ops, 2, [CClear 0; CAddMul 1 0 0 (Some 1)], (fun _ => dv_from [q 1; q 2; q 3]), (fun _ => dv_borrow_mut [q 1; q 2; q 3]).
  split; [intros i; split; [exact I|reflexivity]|]. split; [reflexivity|]. split; intros [[] []]; vm_compute; try reflexivity; eexists; reflexivity.
Qed.
(** The products that are not commands. *)
Lemma c118_inplace : forall (S R : Type) (so : scalar_ops S R) (p : profile) (n : N) (x x' y y' : dvec S) (t : option N) (s : S) (r : R),
  same_coeffs x x' -> same_coeffs y y' ->
  same_outcome same_coeffs (alg_multiply_inplace so p n x y t) (alg_multiply_inplace so p n x' y' t)
  /\ same_outcome same_coeffs (alg_mul_scal_lprod so p n x y s t) (alg_mul_scal_lprod so p n x' y' s t)
  /\ same_outcome same_coeffs (alg_mul_scal_rprod so p n x y s t) (alg_mul_scal_rprod so p n x' y' s t)
  /\ same_outcome same_coeffs (alg_mul_rat_ldiv so p n x y r t) (alg_mul_rat_ldiv so p n x' y' r t)
  /\ same_outcome same_coeffs (alg_mul_rat_rdiv so p n x y s t) (alg_mul_rat_rdiv so p n x' y' s t).
Proof. intros. repeat apply conj; apply same_mul_into; assumption. Qed.
(** A variable that no command changes is what it was, with its buffer. *)
Lemma c118_unchanged : forall (S R : Type) (so : scalar_ops S R) (p : profile) (n : N) (cs : list (tcmd S R)) (st z : nat -> dvec S) (i : nat),
  Forall (fun c => i <> changed c) cs -> run_prog so p n st cs = Ret z -> z i = st i.
Proof.
  intros S R so p n cs. induction cs as [|c cs IH]; intros st z i F E; cbn [run_prog] in E; [injection E as <-; reflexivity|].
  inversion_clear F as [|? ? Fc Fs]. destruct (run_cmd so p n st c) as [y| | |] eqn:Ey; try discriminate. cbn [bind] in E.
  rewrite (IH y z i Fs E). exact (cmd_others so p n st c y i Ey Fc).
Qed.
(** The buffer behind a shared borrow (and whatever lies behind an owned tensor) is never written. *)
Lemma c118_borrowed_protected : forall (S R : Type) (so : scalar_ops S R) (p : profile) (n : N) (cs : list (tcmd S R))
    (st z : nat -> dvec S) (i : nat),
  (forall j, dv_wf (st j)) -> dv_kind (st i) <> BorrowedMut -> Forall (fun c => i = changed c -> replaces c = false) cs ->
  run_prog so p n st cs = Ret z -> dv_lender (z i) = dv_lender (st i).
Proof.
  intros S R so p n cs. induction cs as [|c cs IH]; intros st z i W K F E; cbn [run_prog] in E; [injection E as <-; reflexivity|].
  inversion_clear F as [|? ? Fc Fs]. destruct (run_cmd so p n st c) as [y| | |] eqn:Ey; try discriminate. cbn [bind] in E.
  assert (H : dv_kind (y i) <> BorrowedMut /\ dv_lender (y i) = dv_lender (st i)).
  { destruct (Nat.eq_dec i (changed c)) as [Ei|N]; [|rewrite (cmd_others so p n st c y i Ey N); auto].
    pose proof (cmd_keeps so p n st c y Ey (Fc Ei) (W _)) as H. rewrite <- Ei in H. unfold keeps in H.
    destruct (dv_kind (st i)) eqn:Ek; try contradiction.
    - destruct H as [-> H]. split; [discriminate|exact H].
    - destruct H as [[-> | ->] H]; (split; [congruence|exact H]). }
  rewrite (IH y z i (cmd_wf so p n st c y Ey W) (proj1 H) Fs E). exact (proj2 H).
Qed.
(** The buffer behind a [&mut] borrow holds the coefficients of the tensor until a command needs more room. *)
Lemma c118_borrowed_mut : forall (S R : Type) (so : scalar_ops S R) (p : profile) (n : N) (cs : list (tcmd S R))
    (st z : nat -> dvec S) (i : nat),
  (forall j, dv_wf (st j)) -> dv_kind (st i) = BorrowedMut -> Forall (fun c => i = changed c -> replaces c = false) cs ->
  run_prog so p n st cs = Ret z ->
  exists before after y, cs = before ++ after /\ run_prog so p n st before = Ret y
    /\ dv_kind (y i) = BorrowedMut /\ dv_size (y i) = dv_size (st i) /\ dv_lender (z i) = dv_elems (y i)
    /\ match after with [] => z i = y i | c :: _ => i = changed c /\ needs_room p n y c end.
Proof.
  intros S R so p n cs. induction cs as [|c cs IH]; intros st z i W K F E; cbn [run_prog] in E.
  - injection E as <-. exists [], [], st. repeat split; auto. specialize (W i). unfold dv_wf in W. rewrite K in W. exact W.
  - inversion_clear F as [|? ? Fc Fs]. destruct (run_cmd so p n st c) as [y| | |] eqn:Ey; try discriminate. cbn [bind] in E.
    pose proof (cmd_wf so p n st c y Ey W) as Wy.
    assert (On : dv_kind (y i) = BorrowedMut -> dv_size (y i) = dv_size (st i) ->
      exists before after y, c :: cs = before ++ after /\ run_prog so p n st before = Ret y
        /\ dv_kind (y i) = BorrowedMut /\ dv_size (y i) = dv_size (st i) /\ dv_lender (z i) = dv_elems (y i)
        /\ match after with [] => z i = y i | c :: _ => i = changed c /\ needs_room p n y c end).
    { intros Ky Sy. destruct (IH y z i Wy Ky Fs E) as (b & a & x & -> & Ex & Kx & Sx & Lx & M).
      exists (c :: b), a, x. split; [reflexivity|]. cbn [run_prog]. rewrite Ey. cbn [bind]. repeat split; auto. congruence. }
    destruct (Nat.eq_dec i (changed c)) as [Ei|N]; [|pose proof (cmd_others so p n st c y i Ey N) as Ho; apply On; congruence].
    pose proof (cmd_keeps so p n st c y Ey (Fc Ei) (W _)) as H. rewrite <- Ei in H. unfold keeps in H. rewrite K in H.
    destruct H as [(Ky & _ & Sy)|(Ky & Ly & G)]; [apply On; assumption|].
    exists [], (c :: cs), st. repeat split; auto.
    rewrite (c118_borrowed_protected S R so p n cs y z i Wy ltac:(congruence) Fs E), Ly.
    specialize (W i). unfold dv_wf in W. rewrite K in W. exact W.
Qed.
(** Programs without clear on tensors that may borrow have the meaning that C111 gives them on owned ones. *)
Lemma c118_refinement : forall (S R : Type) (so : scalar_ops S R) (p : profile) (n D : N) (cs : list (tcmd S R))
    (st : nat -> dvec S) (a : nat -> atensor S),
  field_laws so -> 2 <= n < 2 ^ 32 -> n ^ (D + 1) < 2 ^ 64 -> Forall (fun c => is_clear c = false) cs ->
  (forall i, stands_for so n D (dv_from (dv_elems (st i))) (a i)) -> Forall (cmd_within n D) cs ->
  match mean_prog so a cs with
  | Ret a' => exists z, run_prog so p n st cs = Ret z /\ forall i, stands_for so n D (dv_from (dv_elems (z i))) (a' i)
  | Panic => run_prog so p n st cs = Panic
  | UB => run_prog so p n st cs = UB
  | Diverge => False
  end.
Proof.
  intros S R so p n D cs st a FL Hn PD Fc H F.
  pose proof (c111_refinement S R so p n D cs (fun i => dv_from (dv_elems (st i))) a FL Hn PD H F) as M.
  pose proof (c118_kinds S R so p n cs (fun i => dv_from (dv_elems (st i))) st Fc (fun i => eq_refl)) as E.
  destruct (mean_prog so a cs) as [a'| | |].
  - destruct M as (z & Ez & Hz). rewrite Ez in E. destruct (run_prog so p n st cs) as [z'| | |]; cbn in E; try contradiction.
    exists z'. split; [reflexivity|]. intros i. specialize (Hz i). rewrite <- (E i).
    destruct Hz as (A & B & C). split; [reflexivity|]. split; assumption.
  - rewrite M in E. destruct (run_prog so p n st cs); cbn in E; try contradiction. reflexivity.
  - rewrite M in E. destruct (run_prog so p n st cs); cbn in E; try contradiction. reflexivity.
  - exact M.
Qed.

(** variable 0 owns its coefficients, 1 borrows them, 2 has a [&mut] buffer: the program updates 2 in its buffer,
    then a product moves it to its own storage, and 1 is updated in a copy *)
Example c118_example :
  let l := [q 1; q 2; q 3] in
  let st := fun i => match i with 0 => dv_from l | 1 => dv_borrow l | _ => dv_borrow_mut l end%nat in
  let st' := fun _ : nat => dv_from l in
  let cs := [CScale 2 (q 2); CAdd 1 0; CSet 2 [1] (q 9); CAddMul 2 0 1 (Some 2); CNeg 2] in
  (forall i, dv_wf (st i)) /\ (forall i, same_coeffs (st i) (st' i)) /\ Forall (fun c => is_clear c = false) cs
  /\ Forall (cmd_within 2 5) cs
  /\ (z <- run_prog qc_ops dev 2 st cs ;; Ret (map (fun i => vals (z i)) [0; 1; 2]%nat))
     = Ret [qz [1; 2; 3]%Z; qz [2; 4; 6]%Z; qz [-4; -17; -18; -8; -12; -12; -18]%Z]
  /\ (z <- run_prog qc_ops dev 2 st' cs ;; Ret (map (fun i => vals (z i)) [0; 1; 2]%nat))
     = Ret [qz [1; 2; 3]%Z; qz [2; 4; 6]%Z; qz [-4; -17; -18; -8; -12; -12; -18]%Z]
  /\ (z <- run_prog qc_ops dev 2 st cs ;; Ret (map (fun i => (dv_kind (z i), map this (dv_lender (z i)))) [1; 2]%nat))
     = Ret [(Owned, qz [1; 2; 3]%Z); (Owned, qz [2; 9; 6]%Z)]
  /\ (z <- run_prog qc_ops dev 2 st [CScale 2 (q 2); CAdd 1 0; CSet 2 [1] (q 9)] ;;
      Ret (dv_kind (z 2%nat), vals (z 2%nat), map this (dv_lender (z 2%nat)))) = Ret (BorrowedMut, qz [2; 9; 6]%Z, qz [2; 9; 6]%Z)
  /\ needs_room dev 2 st (CAddMul 2 0 1 (Some 2) : tcmd Qc Qc)
  /\ (forall i, stands_for qc_ops 2 5 (dv_from (dv_elems (st i))) (mk_atensor (Some 1) (wcoef qc_ops 2 (dv_from l)))).
Proof.
  cbv zeta.
  split; [intros [|[|i]]; reflexivity || exact I|]. split; [intros [|[|i]]; reflexivity|].
  split; [repeat constructor|]. split; [repeat constructor; cbn; try lia; vm_compute; congruence|].
  split; [vm_compute; reflexivity|]. split; [vm_compute; reflexivity|]. split; [vm_compute; reflexivity|]. split; [vm_compute; reflexivity|].
  split; [exists 1, 1, 1, 2; repeat split|].
  intros [|[|i]]; (split; [reflexivity|]); (split; [split; [lia|vm_compute; reflexivity]|]); reflexivity.
Qed.
