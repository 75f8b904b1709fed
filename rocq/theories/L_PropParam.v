(** Property lemmas C121 (restated as theorems in P_Param.v). *)
From Coq Require Import QArith Qcanon.
From Verif Require Import Machine MachineLemmas S_Words M_TensorKey M_TensorBasis M_Scalar M_Vector M_Dense M_Algebra M_FreeTensor I_Scalars
  S_TensorProg S_Borrow L_PropBorrow S_Param I_Dual.
Local Open Scope N_scope.

Section Lists.
  Context {A B : Type} (P : A -> B -> Prop).
  Notation FP := (Forall2 P).
  Lemma rel_length l l' : FP l l' -> length l = length l'.
  Proof. induction 1; cbn; congruence. Qed.
  Lemma rel_len l l' : FP l l' -> len l = len l'.
  Proof. intros H. unfold len. f_equal. exact (rel_length _ _ H). Qed.
  Lemma rel_get l l' i : FP l l' -> match slice_get l i, slice_get l' i with Some x, Some y => P x y | None, None => True | _, _ => False end.
  Proof.
    unfold slice_get. intros H. revert l l' H. induction (N.to_nat i) as [|k IH]; intros l l' H; destruct H; cbn; auto. apply IH. assumption.
  Qed.
  Lemma rel_set_nth l l' i x y : FP l l' -> P x y -> FP (list_set l i x) (list_set l' i y).
  Proof. intros H E. revert i. induction H as [|u v l l' Hu Hl IH]; intros [|i]; cbn; constructor; auto. Qed.
  Lemma rel_firstn l l' k : FP l l' -> FP (firstn k l) (firstn k l').
  Proof. intros H. revert k. induction H; intros [|k]; cbn; constructor; auto. Qed.
  Lemma rel_skipn l l' k : FP l l' -> FP (skipn k l) (skipn k l').
  Proof. intros H. revert k. induction H; intros [|k]; cbn; try constructor; auto. Qed.
  Lemma rel_repeat x y k : P x y -> FP (repeat x k) (repeat y k).
  Proof. intros H. induction k; cbn; constructor; auto. Qed.
  Lemma rel_resize l l' m x y : FP l l' -> P x y -> FP (vec_resize l m x) (vec_resize l' m y).
  Proof.
    intros H E. unfold vec_resize. rewrite (rel_length _ _ H). apply Forall2_app; [apply rel_firstn, H|apply rel_repeat, E].
  Qed.
  Lemma rel_splice l l' a s s' : FP l l' -> FP s s' -> FP (splice l a s) (splice l' a s').
  Proof.
    intros H E. unfold splice. rewrite (rel_length _ _ E). apply Forall2_app; [apply rel_firstn, H|]. apply Forall2_app; [exact E|apply rel_skipn, H].
  Qed.
  Lemma rel_slice l l' a b : FP l l' -> same_outcome FP (slice_unchecked l a b) (slice_unchecked l' a b).
  Proof.
    intros H. unfold slice_unchecked. rewrite (rel_len l l' H). destruct ((a <=? b) && (b <=? len l')); cbn; [|exact I].
    apply rel_firstn, rel_skipn, H.
  Qed.
  Lemma rel_set_unchecked l l' i x y : FP l l' -> P x y -> same_outcome FP (set_unchecked l i x) (set_unchecked l' i y).
  Proof.
    intros H E. unfold set_unchecked. rewrite (rel_len l l' H). destruct (i <? len l'); cbn; [|exact I]. apply rel_set_nth; assumption.
  Qed.
  Lemma rel_map {C D} (T : C -> D -> Prop) f g l l' : FP l l' -> (forall x y, P x y -> T (f x) (g y)) -> Forall2 T (map f l) (map g l').
  Proof. intros H F. induction H; cbn; constructor; auto. Qed.
  Lemma rel_for_each {X Y} (T : X -> Y -> Prop) (l : list A) (l' : list B) f g x y :
    FP l l' -> T x y -> (forall x y a b, T x y -> P a b -> same_outcome T (f x a) (g y b)) -> same_outcome T (for_each l f x) (for_each l' g y).
  Proof.
    intros H E F. revert x y E. induction H as [|a b l l' Ha Hl IH]; intros x y E; cbn [for_each]; [exact E|].
    apply (same_bind T); [apply F; assumption|]. exact IH.
  Qed.
  Lemma rel_zip (op : A -> A -> A) (op' : B -> B -> B) l l' s s' :
    (forall x x' y y', P x x' -> P y y' -> P (op x y) (op' x' y')) -> FP l l' -> FP s s' -> FP (zip_apply op l s) (zip_apply op' l' s').
  Proof.
    intros F H. revert s s'. induction H as [|x y l l' Hx Hl IH]; intros s s' E; cbn [zip_apply]; [constructor|].
    destruct E; constructor; auto.
  Qed.
  Lemma rel_rev l l' : FP l l' -> FP (rev l) (rev l').
  Proof. induction 1; cbn; [constructor|]. apply Forall2_app; [assumption|]. constructor; [assumption|constructor]. Qed.
  Lemma rel_mapM {C D} (T : C -> D -> Prop) f g l l' : FP l l' -> (forall x y, P x y -> same_outcome T (f x) (g y)) ->
    same_outcome (Forall2 T) (mapM f l) (mapM g l').
  Proof.
    intros H F. induction H as [|x y l l' Hx Hl IH]; cbn [mapM]; [constructor|].
    apply (same_bind T); [apply F, Hx|]. intros c d E. apply (same_bind (Forall2 T)); [exact IH|]. intros cs ds Es. constructor; assumption.
  Qed.
  Notation entry := (fun e e' => fst e = fst e' /\ P (snd e) (snd e')).
  Lemma rel_insert (x : N * A) (y : N * B) l l' : entry x y -> Forall2 entry l l' -> Forall2 entry (sorted_insert x l) (sorted_insert y l').
  Proof.
    intros E H. induction H as [|u v l l' Hu Hl IH]; cbn [sorted_insert]; [constructor; [exact E|constructor]|].
    destruct E as [E1 E2], Hu as [U1 U2]. rewrite E1, U1. destruct (fst y <=? fst v).
    - constructor; [exact (conj E1 E2)|]. constructor; [exact (conj U1 U2)|exact Hl].
    - constructor; [exact (conj U1 U2)|exact IH].
  Qed.
  Lemma rel_sort (l : list (N * A)) (l' : list (N * B)) : Forall2 entry l l' -> Forall2 entry (sort_by_index l) (sort_by_index l').
  Proof. induction 1; cbn [sort_by_index]; [constructor|]. apply rel_insert; assumption. Qed.
End Lists.

Section Param.
  Context {S R S' R' : Type} (P : S -> S' -> Prop) (Q : R -> R' -> Prop) (so : scalar_ops S R) (so' : scalar_ops S' R') (RO : related P Q so so').
  Notation VR := (vec_rel P).
  Notation same := (same_outcome VR).
  Lemma rel_as_mut v v' : VR v v' -> VR (dv_as_mut v) (dv_as_mut v').
  Proof. intros (K & E & L). unfold dv_as_mut. rewrite <- K. destruct (dv_kind v) eqn:Kv; (split; [cbn; congruence|cbn; auto]). Qed.
  Lemma rel_write v v' l l' : VR v v' -> Forall2 P l l' -> VR (dv_write v l) (dv_write v' l').
  Proof.
    intros (K & E & L) H. unfold dv_write. rewrite <- K. split; [reflexivity|]. split; [exact H|]. cbn. destruct (dv_kind v); assumption.
  Qed.
  Lemma rel_assign v v' l l' : VR v v' -> Forall2 P l l' -> VR (dv_assign_owned v l) (dv_assign_owned v' l').
  Proof. intros (K & E & L) H. split; [reflexivity|]. split; assumption. Qed.
  Lemma rel_from l l' : Forall2 P l l' -> VR (dv_from l) (dv_from l').
  Proof. intros H. split; [reflexivity|]. split; [exact H|constructor]. Qed.
  Lemma rel_size v v' : VR v v' -> dv_size v = dv_size v'.
  Proof. intros (_ & E & _). exact (rel_len P _ _ E). Qed.
  Lemma rel_elems v v' : VR v v' -> Forall2 P (dv_elems v) (dv_elems v').
  Proof. intros H. apply H. Qed.
  Lemma rel_vresize v v' m : VR v v' -> same (dv_resize so v m) (dv_resize so' v' m).
  Proof.
    intros H. pose proof H as (K & E & L). unfold dv_resize, dv_to_owned_with_size. rewrite <- K.
    assert (X : Forall2 P (vec_resize (dv_elems v) m (s_zero so)) (vec_resize (dv_elems v') m (s_zero so'))).
    { apply rel_resize; [exact E|exact (r_zero P Q so so' RO)]. }
    destruct (dv_kind v); cbn; [apply rel_write|apply rel_assign|apply rel_assign]; assumption.
  Qed.
  Lemma rel_uminus v v' : VR v v' -> same (dv_uminus_inplace so v) (dv_uminus_inplace so' v').
  Proof.
    intros H. cbn. apply rel_write; [apply rel_as_mut, H|]. apply (rel_map P); [apply rel_elems, rel_as_mut, H|]. apply (r_uminus P Q so so' RO).
  Qed.
  Lemma rel_toown v v' : VR v v' ->
    VR (match dv_kind v with Borrowed => dv_assign_owned v (dv_elems v) | _ => v end)
       (match dv_kind v' with Borrowed => dv_assign_owned v' (dv_elems v') | _ => v' end).
  Proof. exact (rel_as_mut v v'). Qed.
  Lemma rel_lmul v v' s s' : VR v v' -> P s s' -> same (dv_scalar_lmultiply_inplace so v s) (dv_scalar_lmultiply_inplace so' v' s').
  Proof.
    intros H E. unfold dv_scalar_lmultiply_inplace. pose proof (rel_toown v v' H) as H0.
    set (a := match dv_kind v with Borrowed => _ | _ => _ end) in *. set (b := match dv_kind v' with Borrowed => _ | _ => _ end) in *.
    apply rel_write; [apply rel_as_mut, H0|]. apply (rel_map P); [apply rel_elems, rel_as_mut, H0|]. intros x y X. apply (r_mul P Q so so' RO); assumption.
  Qed.
  Lemma rel_rdiv v v' s s' : VR v v' -> Q s s' -> same (dv_scalar_rdivide_inplace so v s) (dv_scalar_rdivide_inplace so' v' s').
  Proof.
    intros H E. apply rel_write; [apply rel_as_mut, H|]. apply (rel_map P); [apply rel_elems, rel_as_mut, H|].
    intros x y X. apply (r_div P Q so so' RO); assumption.
  Qed.
  Lemma rel_vadd v v' u u' : VR v v' -> VR u u' -> same (dv_add_inplace so v u) (dv_add_inplace so' v' u').
  Proof.
    intros H G. unfold dv_add_inplace. pose proof (rel_toown v v' H) as H0.
    set (a := match dv_kind v with Borrowed => _ | _ => _ end) in *. set (b := match dv_kind v' with Borrowed => _ | _ => _ end) in *.
    rewrite (rel_size a b H0), (rel_size u u' G). apply (same_bind VR).
    - destruct (dv_size b <? dv_size u'); [apply rel_vresize|]; exact H0.
    - intros x y X. apply rel_write; [apply rel_as_mut, X|]. apply rel_zip; [apply (r_add P Q so so' RO)|apply rel_elems, rel_as_mut, X|exact (rel_elems u u' G)].
  Qed.
  Lemma rel_vsub v v' u u' : VR v v' -> VR u u' -> same (dv_sub_inplace so v u) (dv_sub_inplace so' v' u').
  Proof.
    intros H G. unfold dv_sub_inplace. rewrite (rel_size v v' H), (rel_size u u' G). apply (same_bind VR).
    - destruct (dv_size v' <? dv_size u'); [apply rel_vresize|]; exact H.
    - intros x y X. apply rel_write; [apply rel_as_mut, X|]. apply rel_zip; [apply (r_sub P Q so so' RO)|apply rel_elems, rel_as_mut, X|exact (rel_elems u u' G)].
  Qed.
  Lemma rel_dim m : VR (dv_from_dimension so m) (dv_from_dimension so' m).
  Proof. apply rel_from, rel_repeat. exact (r_zero P Q so so' RO). Qed.
  Lemma rel_vclear v v' : VR v v' -> same (dv_clear so v) (dv_clear so' v').
  Proof.
    intros H. pose proof H as (K & E & L). unfold dv_clear. rewrite <- K. destruct (dv_kind v); cbn.
    - apply rel_write; [exact H|constructor].
    - apply rel_assign; [exact H|constructor].
    - apply rel_write; [exact H|]. apply (rel_map P); [exact E|]. intros x y _. exact (r_zero P Q so so' RO).
  Qed.
  Section Keys.
    Context {K : Type} (ob : obasis K).
    Lemma rel_from_key k s s' : P s s' -> same (dv_from_key_scalar so ob k s) (dv_from_key_scalar so' ob k s').
    Proof.
      intros E. unfold dv_from_key_scalar. apply same_bind_eq. intros size. apply same_bind_eq. intros i.
      apply (same_bind (Forall2 P)); [apply rel_set_unchecked; [apply rel_elems, rel_as_mut, rel_dim|exact E]|].
      intros l l' Hl. apply rel_write; [apply rel_as_mut, rel_dim|exact Hl].
    Qed.
    Lemma rel_from_iter (l : list (K * S)) (l' : list (K * S')) : Forall2 (fun e e' => fst e = fst e' /\ P (snd e) (snd e')) l l' ->
      same (dv_from_iterator so ob l) (dv_from_iterator so' ob l').
    Proof.
      intros H. unfold dv_from_iterator. apply (same_bind (Forall2 (fun (e : N * S) (e' : N * S') => fst e = fst e' /\ P (snd e) (snd e')))).
      - eapply rel_mapM; [exact H|]. intros [k s] [k' s'] [E1 E2]. cbn in *. subst k'. apply same_bind_eq. intros i. cbn. auto.
      - clear l l' H. intros l l' H. apply rel_sort in H. pose proof (rel_rev _ _ _ H) as Hr.
        destruct Hr as [|[i s] [i' s'] r r' [E1 E2] _]; [apply rel_from; constructor|]. cbn in E1. subst i'. cbn [fst].
        apply same_bind_eq. intros dim. eapply rel_for_each; [exact H|apply rel_dim|].
        intros v v' [j x] [j' x'] V [F1 F2]. cbn in F1, F2. subst j'. unfold dv_add_at_unchecked. cbn [fst snd].
        pose proof (rel_get P _ _ j (rel_elems _ _ (rel_as_mut v v' V))) as G.
        destruct (slice_get (dv_elems (dv_as_mut v)) j), (slice_get (dv_elems (dv_as_mut v')) j); try contradiction; [|exact I].
        cbn. apply rel_write; [apply rel_as_mut, V|]. apply rel_set_nth; [apply rel_elems, rel_as_mut, V|].
        apply (r_add P Q so so' RO); assumption.
    Qed.
    Definition ref_rel (a : dvec S * option (mut_ref S (dvec S))) (b : dvec S' * option (mut_ref S' (dvec S'))) : Prop :=
      VR (fst a) (fst b)
      /\ match snd a, snd b with
         | Some (u, f), Some (v, g) => P u v /\ forall s s', P s s' -> VR (f s) (g s')
         | None, None => True
         | _, _ => False
         end.
    Lemma rel_get_mut v v' k : VR v v' -> same_outcome ref_rel (dv_get_mut ob v k) (dv_get_mut ob v' k).
    Proof.
      intros H. apply rel_as_mut in H. unfold dv_get_mut. apply same_bind_eq. intros i. cbn. split; [exact H|]. cbn.
      pose proof (rel_get P _ _ i (rel_elems _ _ H)) as G.
      destruct (slice_get (dv_elems (dv_as_mut v)) i), (slice_get (dv_elems (dv_as_mut v')) i); try contradiction; [|exact I].
      split; [exact G|]. intros c c' E. apply rel_write; [exact H|]. apply rel_set_nth; [apply rel_elems, H|exact E].
    Qed.
    Lemma rel_erase_key v v' k : VR v v' -> same (dv_erase so ob v k) (dv_erase so' ob v' k).
    Proof.
      intros H. unfold dv_erase. apply (same_bind ref_rel); [apply rel_get_mut, H|]. intros [a r] [b q] [E F]. cbn in *.
      destruct r as [[u f]|], q as [[w g]|]; try contradiction; [apply F; exact (r_zero P Q so so' RO)|exact E].
    Qed.
    Lemma rel_read v v' k : VR v v' ->
      same_outcome (fun a b => match a, b with Some x, Some y => P x y | None, None => True | _, _ => False end) (dv_get ob v k) (dv_get ob v' k).
    Proof. intros H. unfold dv_get. apply same_bind_eq. intros i. exact (rel_get P _ _ i (rel_elems _ _ H)). Qed.
    Lemma rel_degree_eq v v' : VR v v' -> dv_degree ob v = dv_degree ob v'.
    Proof. intros H. unfold dv_degree. rewrite (rel_size v v' H). reflexivity. Qed.
    Notation vo := (dense_ops so ob). Notation vo' := (dense_ops so' ob).
    Lemma rel_ke_add v v' k s s' : VR v v' -> P s s' -> same (ke_add_scalar_multiply so vo v k s) (ke_add_scalar_multiply so' vo' v' k s').
    Proof.
      intros H E. unfold ke_add_scalar_multiply. apply (same_bind ref_rel); [exact (rel_get_mut v v' k H)|]. intros [a r] [b q] [V F]. cbn in V, F.
      destruct r as [[u f]|], q as [[w g]|]; try contradiction.
      - apply F. apply (r_add P Q so so' RO); [apply F|exact E].
      - change (same (i <- ob_key_to_index ob k ;; Ret a) (i <- ob_key_to_index ob k ;; Ret b)). apply same_bind_eq. intros i. exact V.
    Qed.
    Lemma rel_ke_sub v v' k s s' : VR v v' -> P s s' -> same (ke_sub_scalar_multiply so vo v k s) (ke_sub_scalar_multiply so' vo' v' k s').
    Proof.
      intros H E. unfold ke_sub_scalar_multiply. apply (same_bind ref_rel); [exact (rel_get_mut v v' k H)|]. intros [a r] [b q] [V F]. cbn in V, F.
      destruct r as [[u f]|], q as [[w g]|]; try contradiction.
      - apply F. apply (r_sub P Q so so' RO); [apply F|exact E].
      - change (same (i <- ob_key_to_index ob k ;; Ret a) (i <- ob_key_to_index ob k ;; Ret b)). apply same_bind_eq. intros i. exact V.
    Qed.
  End Keys.

  Section Products.
    Context (p : profile) (n : N) (func : S -> S) (func' : S' -> S') (Hf : forall x y, P x y -> P (func x) (func' y)).
    Lemma rel_grow v v' m : VR v v' -> same (grow_to_degree so p n v m) (grow_to_degree so' p n v' m).
    Proof.
      intros H. unfold grow_to_degree. rewrite (rel_degree_eq _ v v' H). apply same_bind_eq. intros d.
      destruct (d <? m); [|exact H]. apply same_bind_eq. intros m1. apply same_bind_eq. intros size. apply rel_vresize, H.
    Qed.
    Lemma rel_buffer o o' l l' r r' : Forall2 P o o' -> Forall2 P l l' -> Forall2 P r r' ->
      same_outcome (Forall2 P) (multiply_into_buffer so o l r func) (multiply_into_buffer so' o' l' r' func').
    Proof.
      intros Ho Hl Hr. unfold multiply_into_buffer.
      apply (same_bind (fun a b => Forall2 P (fst a) (fst b) /\ snd a = snd b)).
      - eapply rel_for_each; [exact Hl|split; [exact Ho|reflexivity]|]. intros x y a b X Ha.
        eapply rel_for_each; [exact Hr|exact X|]. intros [s i] [s' i'] c d [X1 X2] Hc. cbn in X1, X2. subst i'.
        pose proof (rel_get P _ _ i X1) as G. destruct (slice_get s i), (slice_get s' i); try contradiction; [|exact I].
        cbn. split; [|reflexivity]. apply rel_set_nth; [exact X1|]. apply (r_add P Q so so' RO); [exact G|]. apply Hf.
        apply (r_mul P Q so so' RO); assumption.
      - intros [s i] [s' i'] [X _]. exact X.
    Qed.
    Lemma rel_mul_add x x' a a' b b' t : VR x x' -> VR a a' -> VR b b' ->
      same (multiply_and_add_into_impl so p n x a b func t) (multiply_and_add_into_impl so' p n x' a' b' func' t).
    Proof.
      intros H G F. unfold multiply_and_add_into_impl. rewrite (rel_degree_eq _ a a' G), (rel_degree_eq _ b b' F).
      apply same_bind_eq. intros l. apply same_bind_eq. intros r. apply same_bind_eq. intros m.
      apply (same_bind VR); [apply rel_grow, H|]. clear x x' H. intros x y H.
      apply same_for_each; [exact H|]. clear x y H. intros x y o H. apply same_for_each; [exact H|]. clear x y H. intros x y e H.
      apply rel_as_mut in H. unfold mul_add_body, dv_as_slice.
      apply same_bind_eq. intros [oa ob]. apply (same_bind (Forall2 P)); [apply rel_slice, rel_elems, H|]. intros out out' Ho.
      apply same_bind_eq. intros [la lb]. apply (same_bind (Forall2 P)); [apply rel_slice, rel_elems, G|]. intros ll ll' Hl.
      apply same_bind_eq. intros [ra rb]. apply (same_bind (Forall2 P)); [apply rel_slice, rel_elems, F|]. intros rr rr' Hr.
      apply (same_bind (Forall2 P)); [apply rel_buffer; assumption|]. intros q q' Hq.
      apply rel_write; [exact H|]. apply rel_splice; [apply rel_elems, H|exact Hq].
    Qed.
    Lemma rel_split x y a b m lr rr or : VR x y -> VR a b -> same (mul_split so p n a func x m lr rr or) (mul_split so' p n b func' y m lr rr or).
    Proof.
      intros H F. apply rel_as_mut in H. unfold mul_split, dv_as_slice. apply same_bind_eq. intros mid.
      apply (same_bind (fun u v => Forall2 P (fst u) (fst v) /\ Forall2 P (snd u) (snd v))).
      - unfold split_at_mut. rewrite (rel_len P _ _ (rel_elems _ _ H)). destruct (mid <=? _); [|exact I].
        split; [apply rel_firstn|apply rel_skipn]; apply rel_elems, H.
      - intros [c d] [c' d'] [Hc Hd]. cbn in Hc, Hd. apply (same_bind (Forall2 P)); [apply rel_slice, Hd|]. intros out out' Ho.
        apply (same_bind (Forall2 P)); [apply rel_slice, Hc|]. intros l l' Hl.
        apply (same_bind (Forall2 P)); [apply rel_slice, rel_elems, F|]. intros r r' Hr.
        apply (same_bind (Forall2 P)); [apply rel_buffer; assumption|]. intros q q' Hq.
        apply rel_write; [exact H|]. apply Forall2_app; [exact Hc|]. apply rel_splice; assumption.
    Qed.
    Lemma rel_inplace_buffer o o' r r' : Forall2 P o o' -> Forall2 P r r' ->
      Forall2 P (multiply_buffer_inplace so o r func) (multiply_buffer_inplace so' o' r' func').
    Proof.
      intros Ho Hr. unfold multiply_buffer_inplace. apply (rel_map P); [exact Ho|]. intros x y Hx. revert x y Hx.
      induction Hr as [|u v r r' Hu Hr IH]; intros x y Hx; cbn [fold_left]; [exact Hx|]. apply IH, Hf.
      apply (r_mul P Q so so' RO); assumption.
    Qed.
    Context (EQ : related_eq P so so').
    Lemma rel_mul_into x y a b t : VR x y -> VR a b ->
      same (multiply_into_impl so p n x a func t) (multiply_into_impl so' p n y b func' t).
    Proof.
      intros H F. unfold multiply_into_impl. rewrite (rel_degree_eq _ x y H), (rel_degree_eq _ a b F).
      apply same_bind_eq. intros l. apply same_bind_eq. intros r. apply same_bind_eq. intros m.
      apply (same_bind VR); [apply rel_grow, H|]. clear x y H. intros x y H.
      assert (O : offset_assign so a = offset_assign so' b).
      { unfold offset_assign, dv_as_slice. pose proof (rel_get P _ _ 0 (rel_elems _ _ F)) as G.
        destruct (slice_get (dv_elems a) 0), (slice_get (dv_elems b) 0); try contradiction; [|reflexivity].
        rewrite (EQ _ _ _ _ G (r_zero P Q so so' RO)), (EQ _ _ _ _ G (r_one P Q so so' RO)). reflexivity. }
      rewrite O. destruct (offset_assign so' b) as [off asg].
      apply same_for_each; [exact H|]. clear x y H. intros x y o H. unfold mul_into_body.
      apply same_bind_eq. intros lmin. apply same_bind_eq. intros oo. apply (same_bind VR).
      - destruct asg; [|exact H]. apply same_bind_eq. intros d. apply same_bind_eq. intros rr. apply same_bind_eq. intros or.
        destruct (off =? 1).
        + apply same_bind_eq. intros lr. apply rel_split; assumption.
        + unfold dv_as_slice. apply rel_as_mut in H. apply (same_bind (Forall2 P)); [apply rel_slice, rel_elems, H|]. intros out out' Ho.
          apply (same_bind (Forall2 P)); [apply rel_slice, rel_elems, F|]. intros q q' Hq.
          apply rel_write; [exact H|]. apply rel_splice; [apply rel_elems, H|]. apply rel_inplace_buffer; assumption.
      - clear x y H. intros x y H. apply same_bind_eq. intros last. apply same_for_each; [exact H|]. clear x y H. intros x y e H.
        unfold mul_into_inner. apply same_bind_eq. intros rd. apply same_bind_eq. intros rd'. apply same_bind_eq. intros rr.
        apply same_bind_eq. intros or. apply same_bind_eq. intros lr. apply rel_split; assumption.
    Qed.
  End Products.

  Section Programs.
    Context (p : profile) (n : N).
    Definition vars_rel (st : nat -> dvec S) (st' : nat -> dvec S') : Prop := forall i, VR (st i) (st' i).
    Lemma rel_set_var st st' d v v' : vars_rel st st' -> VR v v' -> vars_rel (set_var st d v) (set_var st' d v').
    Proof. intros H E i. unfold set_var. destruct (Nat.eqb i d); [exact E|apply H]. Qed.
    Lemma rel_finish st st' d x y : vars_rel st st' -> same x y ->
      same_outcome vars_rel (v <- x ;; Ret (set_var st d v)) (v <- y ;; Ret (set_var st' d v)).
    Proof. intros H E. apply (same_bind VR); [exact E|]. intros a b F. apply rel_set_var; assumption. Qed.
    Lemma rel_id (x : S) (y : S') : P x y -> P ((fun v => v) x) ((fun v => v) y).
    Proof. auto. Qed.
    Lemma rel_nil : VR dv_new dv_new.
    Proof. apply rel_from. constructor. Qed.
    Lemma rel_own v v' : VR v v' -> VR (dv_from (dv_elems v)) (dv_from (dv_elems v')).
    Proof. intros H. apply rel_from, H. Qed.
    Lemma rel_cmd st st' c c' : vars_rel st st' -> cmd_rel P Q c c' -> same_outcome vars_rel (run_cmd so p n st c) (run_cmd so' p n st' c').
    Proof.
      intros H C. destruct C; cbn [run_cmd];
        try (apply rel_finish; [exact H|]);
        try (apply same_bind_eq; intros k; apply rel_finish; [exact H|]).
      - apply rel_set_var; [exact H|exact rel_nil].
      - apply rel_from_key. assumption.
      - apply rel_own, H.
      - apply rel_vclear, H.
      - apply rel_erase_key, H.
      - apply rel_uminus, H.
      - apply rel_lmul; [apply H|assumption].
      - apply rel_rdiv; [apply H|assumption].
      - apply rel_vadd; apply H.
      - apply rel_vsub; apply H.
      - apply (same_bind VR); [apply rel_lmul; [apply rel_own, H|assumption]|]. intros y y' E. apply rel_vadd; [apply H|exact E].
      - apply (same_bind VR); [apply rel_rdiv; [apply rel_own, H|assumption]|]. intros y y' E. apply rel_vsub; [apply H|exact E].
      - apply rel_mul_add; [exact rel_id|exact rel_nil|apply H|apply H].
      - apply (same_bind VR); [apply rel_mul_add; [exact rel_id|exact rel_nil|apply H|apply H]|]. intros y y' E.
        apply rel_mul_add; [exact (r_uminus P Q so so' RO)|exact E|apply H|apply H].
      - apply rel_mul_add; [exact rel_id|apply H|apply H|apply H].
      - apply rel_mul_add; [exact (r_uminus P Q so so' RO)|apply H|apply H|apply H].
      - apply (same_bind VR); [apply rel_lmul; [apply rel_own, H|assumption]|]. intros y y' E. apply rel_vsub; [apply H|exact E].
      - apply (same_bind VR); [apply rel_rdiv; [apply rel_own, H|assumption]|]. intros y y' E. apply rel_vadd; [apply H|exact E].
      - unfold dv_from_degree. apply same_bind_eq. intros m. apply rel_dim.
      - apply (same_bind (Forall2 (fun e e' => fst e = fst e' /\ P (snd e) (snd e')))).
        + eapply rel_mapM; [eassumption|]. intros [w s] [w' s'] [E1 E2]. cbn in *. subst w'. apply same_bind_eq. intros k. cbn. auto.
        + intros ks ks' Hk. apply rel_finish; [exact H|]. apply rel_from_iter. exact Hk.
      - apply same_bind_eq. intros k. apply (same_bind ref_rel); [exact (rel_get_mut _ _ _ k (H d))|]. intros [a r] [b q] [E F]. cbn in E, F.
        destruct r as [[u f]|], q as [[v g]|]; try contradiction; (apply rel_set_var; [exact H|]); [apply F; assumption|exact E].
      - apply rel_ke_add; [apply H|assumption].
      - apply rel_ke_sub; [apply H|assumption].
    Qed.
    Lemma rel_prog cs cs' st st' : vars_rel st st' -> Forall2 (cmd_rel P Q) cs cs' ->
      same_outcome vars_rel (run_prog so p n st cs) (run_prog so' p n st' cs').
    Proof.
      intros H F. revert st st' H. induction F as [|c c' cs cs' Hc F IH]; intros st st' H; cbn [run_prog]; [exact H|].
      apply (same_bind vars_rel); [apply rel_cmd; assumption|]. exact IH.
    Qed.
  End Programs.
End Param.

(** * C121 *)
(** Programs with related scalars do the same: whatever the scalars are and however large the tensors. *)
Lemma c121_programs : forall (S R S' R' : Type) (P : S -> S' -> Prop) (Q : R -> R' -> Prop) (so : scalar_ops S R) (so' : scalar_ops S' R')
    (p : profile) (n : N) (cs : list (tcmd S R)) (cs' : list (tcmd S' R')) (st : nat -> dvec S) (st' : nat -> dvec S'),
  related P Q so so' -> (forall i, vec_rel P (st i) (st' i)) -> Forall2 (cmd_rel P Q) cs cs' ->
  same_outcome (fun z z' => forall i, vec_rel P (z i) (z' i)) (run_prog so p n st cs) (run_prog so' p n st' cs').
Proof. intros S R S' R' P Q so so' p n cs cs' st st' RO H F. exact (rel_prog P Q so so' RO p n cs cs' st st' H F). Qed.
(** get, degree and == see related scalars *)
Lemma c121_reads : forall (S R S' R' : Type) (P : S -> S' -> Prop) (so : scalar_ops S R) (so' : scalar_ops S' R')
    (p : profile) (n : N) (v u : dvec S) (v' u' : dvec S') (k : tkey),
  vec_rel P v v' -> vec_rel P u u' ->
  same_outcome (fun a b => match a, b with Some x, Some y => P x y | None, None => True | _, _ => False end)
    (vr_get (dense_ops so (tensor_basis p n)) v k) (vr_get (dense_ops so' (tensor_basis p n)) v' k)
  /\ dv_degree (tensor_basis p n) v = dv_degree (tensor_basis p n) v'
  /\ (related_eq P so so' -> dv_eq so v u = dv_eq so' v' u').
Proof.
  intros S R S' R' P so so' p n v u v' u' k H G. split; [exact (rel_read P _ v v' k H)|]. split; [exact (rel_degree_eq P _ v v' H)|].
  intros EQ. unfold dv_eq. pose proof (rel_elems P v v' H) as E. pose proof (rel_elems P u u' G) as F. clear H G.
  revert F. generalize (dv_elems u) (dv_elems u'). induction E as [|x y l l' Hx Hl IH]; intros m m' F; destruct F; cbn; try reflexivity.
  rewrite (EQ x y x0 y0) by assumption. f_equal. apply IH. assumption.
Qed.
(** the in-place products, which compare coefficients with ZERO and ONE *)
Lemma c121_inplace : forall (S R S' R' : Type) (P : S -> S' -> Prop) (Q : R -> R' -> Prop) (so : scalar_ops S R) (so' : scalar_ops S' R')
    (p : profile) (n : N) (v u : dvec S) (v' u' : dvec S') (t : option N) (c : S) (c' : S') (r : R) (r' : R'),
  related P Q so so' -> related_eq P so so' -> vec_rel P v v' -> vec_rel P u u' -> P c c' -> Q r r' ->
  same_outcome (vec_rel P) (alg_multiply_inplace so p n v u t) (alg_multiply_inplace so' p n v' u' t)
  /\ same_outcome (vec_rel P) (alg_mul_scal_lprod so p n v u c t) (alg_mul_scal_lprod so' p n v' u' c' t)
  /\ same_outcome (vec_rel P) (alg_mul_scal_rprod so p n v u c t) (alg_mul_scal_rprod so' p n v' u' c' t)
  /\ same_outcome (vec_rel P) (alg_mul_rat_ldiv so p n v u r t) (alg_mul_rat_ldiv so' p n v' u' r' t)
  /\ same_outcome (vec_rel P) (alg_mul_rat_rdiv so p n v u c t) (alg_mul_rat_rdiv so' p n v' u' c' t).
Proof.
  intros S R S' R' P Q so so' p n v u v' u' t c c' r r' RO EQ H G C D.
  split; [|split; [|split; [|split]]]; apply (rel_mul_into P Q so so' RO); try assumption; intros x y X.
  - exact X.
  - apply (r_mul P Q so so' RO); assumption.
  - apply (r_mul P Q so so' RO); assumption.
  - apply (r_div P Q so so' RO); assumption.
  - apply (r_mul P Q so so' RO); assumption.
Qed.
(** exp, fmexp and log *)
Lemma c121_free_tensor : forall (S R S' R' : Type) (P : S -> S' -> Prop) (Q : R -> R' -> Prop) (so : scalar_ops S R) (so' : scalar_ops S' R')
    (p : profile) (n md : N) (v u : dvec S) (v' u' : dvec S'),
  related P Q so so' -> related_eq P so so' -> related_degrees P Q so so' -> vec_rel P v v' -> vec_rel P u u' ->
  same_outcome (vec_rel P) (ft_exp so p n md v) (ft_exp so' p n md v')
  /\ same_outcome (vec_rel P) (ft_fmexp so p n md v u) (ft_fmexp so' p n md v' u')
  /\ same_outcome (vec_rel P) (ft_log so p n md v) (ft_log so' p n md v').
Proof.
  intros S R S' R' P Q so so' p n md v u v' u' RO EQ DG H G.
  assert (U : same_outcome (vec_rel P) (vr_from_key (dense_ops so (tensor_basis p n)) tk_new) (vr_from_key (dense_ops so' (tensor_basis p n)) tk_new)).
  { apply (rel_from_key P Q so so' RO). exact (r_one P Q so so' RO). }
  assert (Mul : forall x x' y y' i t, vec_rel P x x' -> vec_rel P y y' ->
    same_outcome (vec_rel P) (alg_mul_rat_rdiv so p n x y (s_from_degree so i) t) (alg_mul_rat_rdiv so' p n x' y' (s_from_degree so' i) t)).
  { intros x x' y y' i t X Y. apply (rel_mul_into P Q so so' RO); try assumption. intros a b E. apply (r_mul P Q so so' RO); [exact E|apply DG]. }
  assert (Cl : forall x x', vec_rel P x x' ->
    same_outcome (vec_rel P) (trait_clear_unit so (dense_ops so (tensor_basis p n)) x) (trait_clear_unit so' (dense_ops so' (tensor_basis p n)) x')).
  { intros x x' X. exact (rel_erase_key P Q so so' RO (tensor_basis p n) x x' tk_new X). }
  split; [|split].
  - unfold ft_exp, trait_exp. apply (same_bind (vec_rel P)); [exact U|]. intros un un' Un. apply (same_bind (vec_rel P)); [exact U|]. intros r r' Hr.
    apply same_for_each; [exact Hr|]. intros a b i Ha. apply (same_bind (vec_rel P)); [apply Mul; assumption|]. intros c d Hc.
    apply (rel_vadd P Q so so' RO); assumption.
  - unfold ft_fmexp, trait_fmexp. apply (same_bind (vec_rel P)); [exact (rel_own P v v' H)|]. intros old old' Ho.
    apply (same_bind (vec_rel P)); [exact (rel_own P u u' G)|]. intros x0 x0' H0. apply (same_bind (vec_rel P)); [exact (Cl x0 x0' H0)|]. intros x x' Hx.
    apply same_for_each; [exact H|]. intros a b i Ha. apply same_bind_eq. intros t0. apply same_bind_eq. intros t.
    apply (same_bind (vec_rel P)); [apply Mul; assumption|]. intros c d Hc. apply (rel_vadd P Q so so' RO); assumption.
  - unfold ft_log, trait_log. apply (same_bind (vec_rel P)); [exact U|]. intros un un' Un.
    apply (same_bind (vec_rel P)); [exact (rel_own P v v' H)|]. intros x0 x0' H0. apply (same_bind (vec_rel P)); [exact (Cl x0 x0' H0)|]. intros x x' Hx.
    apply same_for_each; [exact (rel_nil P)|]. intros a b i Ha. apply (same_bind (vec_rel P)).
    + assert (Dv : same_outcome (vec_rel P) (dv_scalar_rdivide_inplace so (dv_from (dv_elems un)) (r_from_degree so i))
                     (dv_scalar_rdivide_inplace so' (dv_from (dv_elems un')) (r_from_degree so' i))).
      { apply (rel_rdiv P Q so so' RO); [exact (rel_own P un un' Un)|apply DG]. }
      destruct (i mod 2 =? 0); (apply (same_bind (vec_rel P)); [exact Dv|]); intros c d Hc;
        [apply (rel_vsub P Q so so' RO)|apply (rel_vadd P Q so so' RO)]; assumption.
    + intros c d Hc. apply (same_bind (vec_rel P)).
      * apply (rel_mul_add P Q so so' RO); [intros y y' Y; exact Y|exact (rel_nil P)|exact Hc|exact Hx].
      * intros _ _ _. exact Hc.
Qed.
(** homomorphisms of scalars *)
Lemma map_rel {A B} (h : A -> B) l : Forall2 (fun x y => h x = y) l (map h l).
Proof. induction l; cbn; constructor; auto. Qed.
Lemma rel_map_eq {A B} (h : A -> B) l l' : Forall2 (fun x y => h x = y) l l' -> l' = map h l.
Proof. induction 1; cbn; congruence. Qed.
Lemma vec_map_rel {S S'} (h : S -> S') v : vec_rel (fun x y => h x = y) v (vec_map h v).
Proof. split; [reflexivity|]. split; apply map_rel. Qed.
Lemma pairs_map_rel {S S'} (h : S -> S') (l : list (word * S)) :
  Forall2 (fun e e' => fst e = fst e' /\ h (snd e) = snd e') l (map (fun e => (fst e, h (snd e))) l).
Proof. induction l as [|e l IH]; cbn [map]; constructor; [split; reflexivity|exact IH]. Qed.
Lemma cmds_map_rel {S R S' R'} (h : S -> S') (g : R -> R') cs :
  Forall2 (cmd_rel (fun x y => h x = y) (fun r r' => g r = r')) cs (map (cmd_map h g) cs).
Proof.
  induction cs as [|c cs IH]; cbn [map]; constructor; [|exact IH]. destruct c; cbn [cmd_map]; constructor; try reflexivity. apply pairs_map_rel.
Qed.
Lemma c121_homomorphism : forall (S R S' R' : Type) (h : S -> S') (g : R -> R') (so : scalar_ops S R) (so' : scalar_ops S' R')
    (p : profile) (n : N) (cs : list (tcmd S R)) (st : nat -> dvec S),
  homomorphism h g so so' ->
  same_outcome (fun z z' => forall i, z' i = vec_map h (z i))
    (run_prog so p n st cs) (run_prog so' p n (fun i => vec_map h (st i)) (map (cmd_map h g) cs)).
Proof.
  intros S R S' R' h g so so' p n cs st Hh.
  pose proof (c121_programs S R S' R' _ _ so so' p n cs (map (cmd_map h g) cs) st (fun i => vec_map h (st i)) Hh) as X.
  specialize (X (fun i => vec_map_rel h (st i)) (cmds_map_rel h g cs)).
  destruct (run_prog so p n st cs), (run_prog so' p n _ _); cbn in *; auto. intros i. destruct (X i) as (K & E & L).
  apply rel_map_eq in E, L. unfold vec_map. rewrite <- E, <- L, K. destruct (a0 i); reflexivity.
Qed.
(** a program does not leave a set of scalars that the operations do not leave *)
Lemma c121_closed : forall (S R : Type) (T : S -> Prop) (U : R -> Prop) (so : scalar_ops S R) (p : profile) (n : N) (cs : list (tcmd S R))
    (st z : nat -> dvec S) (i : nat),
  closed T U so -> Forall (cmd_in T U) cs -> (forall i, Forall T (dv_elems (st i)) /\ Forall T (dv_lender (st i))) ->
  run_prog so p n st cs = Ret z -> Forall T (dv_elems (z i)).
Proof.
  intros S R T U so p n cs st z i (C1 & C2 & C3 & C4 & C5 & C6 & C7 & C8) Hc Hs E.
  pose (P := fun x y : S => x = y /\ T x). pose (Q := fun x y : R => x = y /\ U x).
  assert (RO : related P Q so so).
  { constructor; unfold P, Q; [auto|auto|auto|intros x x' [-> H]; auto|..]; intros x x' y y' [-> H] [-> G]; auto. }
  assert (D : forall l, Forall T l -> Forall2 P l l) by (induction 1; constructor; unfold P; auto).
  assert (CC : Forall2 (cmd_rel P Q) cs cs).
  { clear E. induction Hc as [|c cs Hc _ IH]; constructor; [|exact IH]. destruct c; cbn in Hc; constructor; unfold P, Q; auto.
    induction Hc; constructor; auto. }
  pose proof (c121_programs S R S R P Q so so p n cs cs st st RO (fun j => conj eq_refl (conj (D _ (proj1 (Hs j))) (D _ (proj2 (Hs j))))) CC) as X.
  rewrite E in X. cbn in X. destruct (X i) as (_ & F & _). revert F. generalize (dv_elems (z i)) at 1 3. intros l F.
  induction F as [|x y l l' [_ H] _ IH]; constructor; assumption.
Qed.
Example c121_example :
  let start := fun _ : nat => @dv_new dual in
  let cs := [CPairs 0 [([], du 4 1); ([1], du 2 0); ([2], du 0 3)]; CKey 1 [2] (du 5 2); CMul 2 0 0 (Some 1); CComm 3 0 1 (Some 2); CSubMul 2 0 1 (Some 1);
             CDivide 2 (q 2); CAddScaled 2 0 (du 1 7)] in
  let show := fun v : dvec dual => map (fun x => (this (fst x), this (snd x))) (dv_elems v) in
  (z <- run_prog dual_ops dev 2 start cs ;; Ret (show (z 2%nat), show (z 3%nat)))
    = Ret ([(12, 33); (10, 16); (- 10 # 1, 17 # 2)]%Q, [(0, 0); (0, 0); (0, 0); (0, 0); (10, 4); (- 10 # 1, - 4 # 1); (0, 0)]%Q)
  (** the first parts are those of the same program with rational scalars *)
  /\ (z <- run_prog qc_ops dev 2 (fun _ => dv_new) (map (cmd_map fst (fun r => r)) cs) ;; Ret (map this (dv_elems (z 2%nat))))
    = Ret [12; 10; - 10 # 1]%Q.
Proof. cbn zeta. split; vm_compute; reflexivity. Qed.
