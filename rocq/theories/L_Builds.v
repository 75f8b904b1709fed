(** Lemmas for C125: every function of the crate, in a build with more checks and in one with fewer. *)
From Coq Require Import String.
From Verif Require Import Machine MachineLemmas S_Builds M_Scalar M_TensorKey M_TensorBasis M_Vector M_Dense M_Algebra M_FreeTensor M_Display M_DegreeRange M_HallSet S_TensorProg.
From Verif Require M_HallKey M_AlgebraFn.
Local Open Scope N_scope.

Section Rules.
  Context {p p' : profile} (C : checks_more p p').
  Notation ps := panics_or_same.
  Lemma ps_refl {A} (m : outcome A) : ps m m.
  Proof. right. reflexivity. Qed.
  Lemma ps_panic {A} (m : outcome A) : ps Panic m.
  Proof. left. reflexivity. Qed.
  Lemma ps_bind {A B} (m m' : outcome A) (f f' : A -> outcome B) : ps m m' -> (forall a, ps (f a) (f' a)) -> ps (bind m f) (bind m' f').
  Proof. intros [-> | ->] H; [apply ps_panic|]. destruct m; cbn; [apply H|apply ps_refl..]. Qed.
  Lemma ps_overflowed v : ps (overflowed p v) (overflowed p' v).
  Proof.
    unfold overflowed. destruct C as [H _]. destruct (overflow_checks p) eqn:E; [apply ps_panic|]. destruct (overflow_checks p'); [discriminate (H eq_refl)|apply ps_refl].
  Qed.
  Lemma ps_uadd w a b : ps (uadd w p a b) (uadd w p' a b).
  Proof. unfold uadd. destruct (_ <? _); [apply ps_refl|apply ps_overflowed]. Qed.
  Lemma ps_usub w a b : ps (usub w p a b) (usub w p' a b).
  Proof. unfold usub. destruct (_ <=? _); [apply ps_refl|apply ps_overflowed]. Qed.
  Lemma ps_umul w a b : ps (umul w p a b) (umul w p' a b).
  Proof. unfold umul. destruct (_ <? _); [apply ps_refl|apply ps_overflowed]. Qed.
  Lemma ps_upow w a b : ps (upow w p a b) (upow w p' a b).
  Proof. unfold upow. destruct (_ <? _); [apply ps_refl|apply ps_overflowed]. Qed.
  Lemma ps_ushl w a b : ps (ushl w p a b) (ushl w p' a b).
  Proof. unfold ushl. destruct (_ <? _); [apply ps_refl|apply ps_overflowed]. Qed.
  Lemma ps_ushr w a b : ps (ushr w p a b) (ushr w p' a b).
  Proof. unfold ushr. destruct (_ <? _); [apply ps_refl|apply ps_overflowed]. Qed.
  Lemma ps_assert c : ps (debug_assert p c) (debug_assert p' c).
  Proof.
    unfold debug_assert. destruct C as [_ H]. destruct c; cbn [negb]; rewrite ?Bool.andb_false_r, ?Bool.andb_true_r; [apply ps_refl|].
    destruct (debug_assertions p) eqn:E; [apply ps_panic|]. destruct (debug_assertions p'); [discriminate (H eq_refl)|apply ps_refl].
  Qed.
  Lemma ps_isize z : ps (isize p z) (isize p' z).
  Proof.
    unfold isize. destruct (_ && _)%bool; [apply ps_refl|]. destruct C as [H _]. destruct (overflow_checks p) eqn:E; [apply ps_panic|].
    destruct (overflow_checks p'); [discriminate (H eq_refl)|apply ps_refl].
  Qed.
  Lemma ps_for_each {A S} (xs : list A) (b b' : S -> A -> outcome S) : (forall s x, ps (b s x) (b' s x)) -> forall s, ps (for_each xs b s) (for_each xs b' s).
  Proof. intros H. induction xs as [|x xs IH]; intros s; [apply ps_refl|]. cbn [for_each]. apply ps_bind; [apply H|exact IH]. Qed.
  Lemma ps_mapM {A B} (f f' : A -> outcome B) : (forall x, ps (f x) (f' x)) -> forall l, ps (mapM f l) (mapM f' l).
  Proof. intros H. induction l as [|x l IH]; [apply ps_refl|]. cbn [mapM]. apply ps_bind; [apply H|]. intros y. apply ps_bind; [exact IH|]. intros ys. apply ps_refl. Qed.
  (** loops: a step leaves with a panic or is the same *)
  Definition pstep {S A} (x x' : S + outcome A) : Prop := x = inr Panic \/ x' = x.
  Lemma pstep_refl {S A} (x : S + outcome A) : pstep x x.
  Proof. right. reflexivity. Qed.
  Lemma pstep_leave {S A} (m m' : outcome A) : ps m m' -> pstep (inr m : S + outcome A) (inr m').
  Proof. intros [-> | ->]; [left|right]; reflexivity. Qed.
  Lemma pstep_loop {S A} (st st' : S -> S + outcome A) : (forall s, pstep (st s) (st' s)) -> forall k s, pstep (loop k st s) (loop k st' s).
  Proof.
    intros H. induction k as [|k IH]; intros s; [apply H|]. cbn [loop]. destruct (IH s) as [E | E]; rewrite E; [left; reflexivity|].
    destruct (loop k st s) as [s1|r]; [apply IH|apply pstep_refl].
  Qed.
  Lemma ps_run_loop {S A} (st st' : S -> S + outcome A) : (forall s, pstep (st s) (st' s)) -> forall s, ps (run_loop st s) (run_loop st' s).
  Proof. intros H s. unfold run_loop. destruct (pstep_loop st st' H 64 s) as [E | E]; rewrite E; [apply ps_panic|apply ps_refl]. Qed.
  (** `match m with Ret a => … | Panic => leave with a panic | …` *)
  Lemma pstep_match {B S A} (m m' : outcome B) (f f' : B -> S + outcome A) : ps m m' -> (forall a, pstep (f a) (f' a)) ->
    pstep (match m with Ret a => f a | Panic => inr Panic | UB => inr UB | Diverge => inr Diverge end)
          (match m' with Ret a => f' a | Panic => inr Panic | UB => inr UB | Diverge => inr Diverge end).
  Proof. intros [-> | ->] H; [left; reflexivity|]. destruct m; [apply H|apply pstep_refl..]. Qed.
End Rules.

Ltac ps_known := fail.
Ltac ps1 :=
  lazymatch goal with
  | |- panics_or_same ?m ?m => apply ps_refl
  | |- panics_or_same Panic _ => apply ps_panic
  | |- pstep ?m ?m => apply pstep_refl
  | |- pstep (inr _) (inr _) => apply pstep_leave
  | |- panics_or_same (bind _ _) (bind _ _) => apply ps_bind; [|intros ?]
  | |- panics_or_same (for_each ?l _ _) (for_each ?l _ _) => apply ps_for_each; intros ? ?
  | |- panics_or_same (mapM _ ?l) (mapM _ ?l) => apply ps_mapM; intros ?
  | |- panics_or_same (run_loop _ ?s) (run_loop _ ?s) => apply ps_run_loop; intros ?
  | |- panics_or_same (uadd _ _ _ _) _ => apply ps_uadd; assumption
  | |- panics_or_same (usub _ _ _ _) _ => apply ps_usub; assumption
  | |- panics_or_same (umul _ _ _ _) _ => apply ps_umul; assumption
  | |- panics_or_same (upow _ _ _ _) _ => apply ps_upow; assumption
  | |- panics_or_same (ushl _ _ _ _) _ => apply ps_ushl; assumption
  | |- panics_or_same (ushr _ _ _ _) _ => apply ps_ushr; assumption
  | |- panics_or_same (debug_assert _ _) _ => apply ps_assert; assumption
  | |- panics_or_same (isize _ _) _ => apply ps_isize; assumption
  | |- pstep (match _ with Ret _ => _ | Panic => inr Panic | UB => _ | Diverge => _ end) _ => apply pstep_match; [|intros ?]
  | |- panics_or_same (match ?c with _ => _ end) (match ?c with _ => _ end) => destruct c
  | |- pstep (match ?c with _ => _ end) (match ?c with _ => _ end) => destruct c
  end.
Ltac ps := intros; cbn zeta; repeat (first [ps_known | ps1]; cbn zeta).

(** ** keys *)
Section Functions.
  Context {p p' : profile} (C : checks_more p p') (n : N).
  Notation "m ~~ m'" := (panics_or_same m m') (at level 70).
  Lemma ps_make_mask a b : make_mask p a b ~~ make_mask p' a b.
  Proof. unfold make_mask. ps. Qed.
  Lemma ps_from_letter l : tk_from_letter p l ~~ tk_from_letter p' l.
  Proof. unfold tk_from_letter. ps. Qed.
  Lemma ps_set_letter k i l : tk_set_letter p n k i l ~~ tk_set_letter p' n k i l.
  Proof. unfold tk_set_letter. ps. apply ps_make_mask. Qed.
  Lemma ps_from_letters l : tk_from_letters p n l ~~ tk_from_letters p' n l.
  Proof. unfold tk_from_letters, from_letters_step. ps. Qed.
  Lemma ps_get_letter_unadjusted k i : tk_get_letter_unadjusted p n k i ~~ tk_get_letter_unadjusted p' n k i.
  Proof. unfold tk_get_letter_unadjusted. ps. apply ps_make_mask. Qed.
  Lemma ps_get_letter k i : tk_get_letter p n k i ~~ tk_get_letter p' n k i.
  Proof. unfold tk_get_letter. ps. apply ps_get_letter_unadjusted. Qed.
  Lemma ps_concatenate a b : tk_concatenate p n a b ~~ tk_concatenate p' n a b.
  Proof. unfold tk_concatenate. ps. Qed.
  Lemma ps_to_letters k : tk_to_letters p n k ~~ tk_to_letters p' n k.
  Proof. unfold tk_to_letters. ps. apply ps_get_letter. Qed.
  Lemma ps_push_front_raw k l : tk_push_front_raw p n k l ~~ tk_push_front_raw p' n k l.
  Proof. unfold tk_push_front_raw, letter_mask. ps. apply ps_make_mask. Qed.
  Lemma ps_push_front k l : tk_push_front p n k l ~~ tk_push_front p' n k l.
  Proof. unfold tk_push_front. ps. apply ps_push_front_raw. Qed.
  Lemma ps_ti_next it : ti_next p n it ~~ ti_next p' n it.
  Proof. unfold ti_next. ps. apply ps_get_letter. Qed.
  Lemma ps_ti_take m : forall it, ti_take p n it m ~~ ti_take p' n it m.
  Proof. induction m as [|m IH]; intros it; [apply ps_refl|]. cbn [ti_take]. ps; [apply ps_ti_next|apply IH]. Qed.
  Lemma ps_tk_debug k : tk_debug p n k ~~ tk_debug p' n k.
  Proof. unfold tk_debug, tk_debug_step. ps. apply ps_get_letter. Qed.

  (** ** the basis *)
  Lemma ps_start d : tb_start_of_degree p n d ~~ tb_start_of_degree p' n d.
  Proof. unfold tb_start_of_degree. ps. Qed.
  Lemma ps_range d : tb_degree_range p n d ~~ tb_degree_range p' n d.
  Proof. unfold tb_degree_range. ps; apply ps_start. Qed.
  Lemma ps_index_to_degree i : tb_index_to_degree p n i ~~ tb_index_to_degree p' n i.
  Proof.
    unfold tb_index_to_degree, tb_index_to_degree_calling, tb_index_to_degree_impl, tb_index_to_degree_step. ps; apply ps_start.
  Qed.
  Lemma ps_key_to_index k : tb_key_to_index p n k ~~ tb_key_to_index p' n k.
  Proof.
    unfold tb_key_to_index. generalize (N.to_nat (tk_size k)) 0. induction n0 as [|i IH]; intros r; [apply ps_refl|]. cbn [tb_key_to_index_loop].
    ps; [apply ps_get_letter|apply IH].
  Qed.
  Lemma ps_index_to_key i : tb_index_to_key p n i ~~ tb_index_to_key p' n i.
  Proof. unfold tb_index_to_key, tb_index_to_key_step. ps; [apply ps_from_letter|apply ps_push_front_raw]. Qed.
  Lemma ps_dim_key k : tb_vector_dimension_for_key p n k ~~ tb_vector_dimension_for_key p' n k.
  Proof. unfold tb_vector_dimension_for_key. ps. apply ps_start. Qed.
  Lemma ps_dim_index i : tb_vector_dimension_for_index p n i ~~ tb_vector_dimension_for_index p' n i.
  Proof. unfold tb_vector_dimension_for_index. ps; [apply ps_index_to_degree|apply ps_start]. Qed.
  Lemma ps_bi_next it : bi_next p n it ~~ bi_next p' n it.
  Proof. unfold bi_next, bi_next_step. ps; auto using ps_push_front, ps_get_letter, ps_set_letter. Qed.
  Lemma ps_bi_take m : forall it, bi_take p n it m ~~ bi_take p' n it m.
  Proof. induction m as [|m IH]; intros it; [apply ps_refl|]. cbn [bi_take]. ps; [apply ps_bi_next|apply IH]. Qed.

  (** ** dense vectors *)
  Section Dense.
    Context {S R : Type} (so : scalar_ops S R).
    Notation B := (tensor_basis p n). Notation B' := (tensor_basis p' n).
    Lemma ps_from_key_scalar k (s : S) : dv_from_key_scalar so B k s ~~ dv_from_key_scalar so B' k s.
    Proof. unfold dv_from_key_scalar. ps; [apply ps_dim_key|apply ps_key_to_index]. Qed.
    Lemma ps_from_iterator l : dv_from_iterator so B l ~~ dv_from_iterator so B' l.
    Proof. unfold dv_from_iterator. ps; [apply ps_key_to_index|apply ps_dim_index]. Qed.
    Lemma ps_from_degree d : dv_from_degree so B d ~~ dv_from_degree so B' d.
    Proof. unfold dv_from_degree. ps. apply ps_start. Qed.
    Lemma ps_get (v : dvec S) k : dv_get B v k ~~ dv_get B' v k.
    Proof. unfold dv_get. ps. apply ps_key_to_index. Qed.
    Lemma ps_get_mut (v : dvec S) k : dv_get_mut B v k ~~ dv_get_mut B' v k.
    Proof. unfold dv_get_mut. ps. apply ps_key_to_index. Qed.
    Lemma ps_insert_single (v : dvec S) k s : dv_insert_single B v k s ~~ dv_insert_single B' v k s.
    Proof. unfold dv_insert_single. ps. apply ps_key_to_index. Qed.
    Lemma ps_erase v k : dv_erase so B v k ~~ dv_erase so B' v k.
    Proof. unfold dv_erase. ps. apply ps_get_mut. Qed.
    Lemma ps_degree (v : dvec S) : dv_degree B v ~~ dv_degree B' v.
    Proof. unfold dv_degree. ps. apply ps_index_to_degree. Qed.
    Ltac key_ext := ps; cbn [dense_ops with_defaults v_req dense_required vr_get_mut vr_insert_single]; auto using ps_get_mut, ps_insert_single.
    Lemma ps_add_scalar_multiply v k s : ke_add_scalar_multiply so (dense_ops so B) v k s ~~ ke_add_scalar_multiply so (dense_ops so B') v k s.
    Proof. unfold ke_add_scalar_multiply. key_ext. Qed.
    Lemma ps_sub_scalar_multiply v k s : ke_sub_scalar_multiply so (dense_ops so B) v k s ~~ ke_sub_scalar_multiply so (dense_ops so B') v k s.
    Proof. unfold ke_sub_scalar_multiply. key_ext. Qed.
    Lemma ps_add_scalar_divide v k s : ke_add_scalar_divide so (dense_ops so B) v k s ~~ ke_add_scalar_divide so (dense_ops so B') v k s.
    Proof. unfold ke_add_scalar_divide. key_ext. Qed.
    Lemma ps_sub_scalar_divide v k s : ke_sub_scalar_divide so (dense_ops so B) v k s ~~ ke_sub_scalar_divide so (dense_ops so B') v k s.
    Proof. unfold ke_sub_scalar_divide. key_ext. Qed.
    Lemma ps_display fuel show (v : dvec S) : dv_display p n fuel show v ~~ dv_display p' n fuel show v.
    Proof.
      unfold dv_display. generalize (tb_iter_keys n) ""%string. induction (dv_as_slice v) as [|x l IH]; intros it t; cbn [display_loop]; ps; auto using ps_bi_next.
    Qed.

    (** ** products *)
    Lemma ps_grow_to (v : dvec S) d : grow_to_degree so p n v d ~~ grow_to_degree so p' n v d.
    Proof. unfold grow_to_degree. ps; [apply ps_degree|apply ps_start]. Qed.
    Lemma ps_product_degree l r t : product_degree p l r t ~~ product_degree p' l r t.
    Proof. unfold product_degree. ps. Qed.
    Lemma ps_add_into (v x y : dvec S) f t : multiply_and_add_into_impl so p n v x y f t ~~ multiply_and_add_into_impl so p' n v x y f t.
    Proof. unfold multiply_and_add_into_impl, mul_add_body. ps; auto using ps_degree, ps_product_degree, ps_grow_to, ps_range. Qed.
    Lemma ps_split (y : dvec S) f v d a b c : mul_split so p n y f v d a b c ~~ mul_split so p' n y f v d a b c.
    Proof. unfold mul_split. ps. apply ps_start. Qed.
    Lemma ps_into (v y : dvec S) f t : multiply_into_impl so p n v y f t ~~ multiply_into_impl so p' n v y f t.
    Proof. unfold multiply_into_impl, mul_into_body, mul_into_inner. ps; auto using ps_degree, ps_product_degree, ps_grow_to, ps_range, ps_split. Qed.
    Lemma ps_commutator (x y : dvec S) t : alg_commutator so p n x y t ~~ alg_commutator so p' n x y t.
    Proof. unfold alg_commutator, alg_add_mul, alg_sub_mul. ps; apply ps_add_into. Qed.
    Lemma ps_clear_unit v : trait_clear_unit so (dense_ops so B) v ~~ trait_clear_unit so (dense_ops so B') v.
    Proof. unfold trait_clear_unit. ps. apply ps_get_mut. Qed.
    Ltac known := first [apply ps_from_key_scalar | apply ps_clear_unit | apply ps_into | apply ps_add_into | apply ps_refl].
    Lemma ps_exp md (x : dvec S) : ft_exp so p n md x ~~ ft_exp so p' n md x.
    Proof. unfold ft_exp, trait_exp, alg_mul_rat_rdiv. ps; known. Qed.
    Lemma ps_fmexp md (x y : dvec S) : ft_fmexp so p n md x y ~~ ft_fmexp so p' n md x y.
    Proof. unfold ft_fmexp, trait_fmexp, alg_mul_rat_rdiv. ps; known. Qed.
    Lemma ps_log md (x : dvec S) : ft_log so p n md x ~~ ft_log so p' n md x.
    Proof. unfold ft_log, trait_log, alg_multiply. ps; known. Qed.
    Lemma ps_run_cmd st (c : tcmd S R) : run_cmd so p n st c ~~ run_cmd so p' n st c.
    Proof.
      destruct c; unfold run_cmd; ps;
        first [apply ps_from_letters; assumption | apply ps_from_key_scalar | apply ps_erase | apply ps_add_into | apply ps_commutator | apply ps_from_degree
              | apply ps_from_iterator | apply ps_get_mut | apply ps_add_scalar_multiply | apply ps_sub_scalar_multiply | apply ps_refl].
    Qed.
    Lemma ps_run_prog cs : forall st, run_prog so p n st cs ~~ run_prog so p' n st cs.
    Proof. induction cs as [|c cs IH]; intros st; [apply ps_refl|]. cbn [run_prog]. apply ps_bind; [apply ps_run_cmd|exact IH]. Qed.
  End Dense.

  (** ** Hall sets *)
  Lemma ps_squarefree f : forall a b, is_squarefree_impl p f a b ~~ is_squarefree_impl p' f a b.
  Proof. induction f as [|f IH]; [intros; apply ps_refl|]. cbn [is_squarefree_impl]. ps. apply IH. Qed.
  Lemma ps_mobius_both f : (forall a b, mobius_impl p f a b ~~ mobius_impl p' f a b) /\ (forall a, mobius p f a ~~ mobius p' f a).
  Proof.
    induction f as [|f [IH1 IH2]]; [split; intros; apply ps_refl|]. split; cbn [mobius_impl mobius]; ps;
      first [apply IH1 | apply IH2 | apply ps_squarefree].
  Qed.
  Lemma ps_level_size f : forall w l d, hall_set_level_size_impl p f w l d ~~ hall_set_level_size_impl p' f w l d.
  Proof. induction f as [|f IH]; [intros; apply ps_refl|]. cbn [hall_set_level_size_impl]. unfold hall_set_level_term. ps; first [apply IH | apply ps_mobius_both]. Qed.
  Lemma ps_size_impl f : forall w d l, hall_set_size_impl p f w d l ~~ hall_set_size_impl p' f w d l.
  Proof. induction f as [|f IH]; [intros; apply ps_refl|]. cbn [hall_set_size_impl]. unfold hall_set_level_size. ps; first [apply IH | apply ps_level_size]. Qed.
  Lemma ps_size f w d : hall_set_size p f w d ~~ hall_set_size p' f w d.
  Proof. unfold hall_set_size. ps. apply ps_size_impl. Qed.
  Lemma ps_drm_new f d : drm_new p f n d ~~ drm_new p' f n d.
  Proof. unfold drm_new. ps. apply ps_size. Qed.
  Lemma ps_drm_grow f m d : drm_grow p f n m d ~~ drm_grow p' f n m d.
  Proof. unfold drm_grow. ps. apply ps_size. Qed.
  Lemma ps_hall_mask a b : M_HallKey.make_mask p a b ~~ M_HallKey.make_mask p' a b.
  Proof. unfold M_HallKey.make_mask. ps. Qed.
  Lemma ps_hk_get_key k : M_HallKey.hk_get_key p k ~~ M_HallKey.hk_get_key p' k.
  Proof. unfold M_HallKey.hk_get_key. ps. apply ps_hall_mask. Qed.
  Lemma ps_hk_get_lparent k : M_HallKey.hk_get_lparent p k ~~ M_HallKey.hk_get_lparent p' k.
  Proof. unfold M_HallKey.hk_get_lparent. ps. apply ps_hall_mask. Qed.
  Lemma ps_hk_get_rparent k : M_HallKey.hk_get_rparent p k ~~ M_HallKey.hk_get_rparent p' k.
  Proof. unfold M_HallKey.hk_get_rparent. ps. apply ps_hall_mask. Qed.
  Lemma ps_hk_size k : M_HallKey.hk_size p k ~~ M_HallKey.hk_size p' k.
  Proof. unfold M_HallKey.hk_size. ps. apply ps_hall_mask. Qed.
  Lemma ps_hk_make a b c d : M_HallKey.hk_make_key_data p a b c d ~~ M_HallKey.hk_make_key_data p' a b c d.
  Proof. unfold M_HallKey.hk_make_key_data. ps. Qed.
  Lemma ps_hk_from_letter l : M_HallKey.hk_from_letter p n l ~~ M_HallKey.hk_from_letter p' n l.
  Proof. unfold M_HallKey.hk_from_letter. ps. apply ps_hk_make. Qed.
  Lemma ps_hk_is_letter k : M_HallKey.hk_is_letter p k ~~ M_HallKey.hk_is_letter p' k.
  Proof. unfold M_HallKey.hk_is_letter. ps. apply ps_hk_size. Qed.
  Lemma ps_hk_to_index k : M_HallKey.hk_to_index p k ~~ M_HallKey.hk_to_index p' k.
  Proof. unfold M_HallKey.hk_to_index. ps. apply ps_hk_get_key. Qed.
  Lemma ps_hk_debug k : M_HallKey.hk_debug p k ~~ M_HallKey.hk_debug p' k.
  Proof. unfold M_HallKey.hk_debug. ps; auto using ps_hk_get_key, ps_hk_get_lparent, ps_hk_get_rparent, ps_hk_size. Qed.
  Lemma ps_hk_display k : M_HallKey.hk_display p k ~~ M_HallKey.hk_display p' k.
  Proof. unfold M_HallKey.hk_display. ps; auto using ps_hk_get_key, ps_hk_get_lparent, ps_hk_get_rparent, ps_hk_is_letter. Qed.
  Lemma ps_hi_range h d : hi_degree_range p h d ~~ hi_degree_range p' h d.
  Proof. unfold hi_degree_range. ps. Qed.
  Lemma ps_hi_grow f : forall h d, hi_grow_up p f h d ~~ hi_grow_up p' f h d.
  Proof. induction f as [|f IH]; [intros; apply ps_refl|]. cbn [hi_grow_up]. ps. apply IH. Qed.
  Lemma ps_new_object f pre : new_object p f n pre ~~ new_object p' f n pre.
  Proof. unfold new_object, hi_new. ps; [apply ps_drm_new|apply ps_hi_grow]. Qed.
  Lemma ps_ho_run o c : fst (ho_run p o c) ~~ fst (ho_run p' o c) /\ snd (ho_run p o c) = snd (ho_run p' o c).
  Proof.
    destruct c; split; try reflexivity; try apply ps_refl. cbn [ho_run fst]. destruct (ho_poisoned o); [apply ps_refl|]. unfold to_value. ps. apply ps_hi_range.
  Qed.
  Lemma ps_ho_runs cs : forall o, Forall2 panics_or_same (fst (ho_runs p o cs)) (fst (ho_runs p' o cs)) /\ snd (ho_runs p o cs) = snd (ho_runs p' o cs).
  Proof.
    induction cs as [|c cs IH]; intros o; [split; [constructor|reflexivity]|]. cbn [ho_runs]. destruct (ps_ho_run o c) as [H1 H2].
    destruct (ho_run p o c) as [r o1], (ho_run p' o c) as [r' o1']. cbn [fst snd] in *. subst o1'. destruct (IH o1) as [H3 H4].
    destruct (ho_runs p o1 cs) as [rs o2], (ho_runs p' o1 cs) as [rs' o2']. cbn [fst snd] in *. split; [constructor; assumption|exact H4].
  Qed.
  Lemma ps_hk_lparent o k : hk_lparent p o k ~~ hk_lparent p' o k.
  Proof. unfold hk_lparent. ps; [apply ps_hk_get_rparent|apply ps_refl|apply ps_hk_make]. Qed.
  Lemma ps_hk_parent o k : hk_parent p o k ~~ hk_parent p' o k.
  Proof. unfold hk_parent. ps; [apply ps_hk_get_rparent|apply ps_refl|apply ps_hk_make]. Qed.

  (** ** products with closures of every kind *)
  Section Closures.
    Import M_AlgebraFn.
    Context {S R St : Type} (so : scalar_ops S R) (func : St -> S -> St * option S).
    Notation "r === r'" := (throws_or_same r r') (at level 70).
    Lemma ts_refl {X} (r : res X) : r === r.
    Proof. right. reflexivity. Qed.
    Lemma ts_eval {A X} (m m' : outcome A) (x : X) k k' : m ~~ m' -> (forall a, k a === k' a) -> eval m x k === eval m' x k'.
    Proof. intros [-> | ->] H; [left; eexists; reflexivity|]. destruct m; cbn [eval]; [apply H|apply ts_refl..]. Qed.
    Lemma ts_loop {A X} (b b' : X -> A -> res X) (H : forall x a, b x a === b' x a) xs : forall x, loop xs b x === loop xs b' x.
    Proof.
      induction xs as [|a xs IH]; intros x; [apply ts_refl|]. cbn [loop]. destruct (H x a) as [[y ->] | ->]; [left; eexists; reflexivity|].
      destruct (b x a); [apply IH|apply ts_refl..].
    Qed.
    Ltac ts := repeat (cbn zeta; lazymatch goal with
      | |- ?r === ?r => apply ts_refl
      | |- eval _ _ _ === _ => apply ts_eval; [try (match goal with |- ?m ~~ ?m => apply ps_refl end)|intros ?]
      | |- loop _ _ _ === _ => apply ts_loop; intros ? ?
      | |- match ?c with _ => _ end === match ?c with _ => _ end => destruct c
      end).
    Lemma ts_split y x d a b c : mul_split_fn so p n func y x d a b c === mul_split_fn so p' n func y x d a b c.
    Proof. unfold mul_split_fn. ts. apply ps_start. Qed.
    Lemma ts_add_into (v x y : dvec S) st t : multiply_and_add_into_impl_fn so p n func v x y st t === multiply_and_add_into_impl_fn so p' n func v x y st t.
    Proof. unfold multiply_and_add_into_impl_fn, mul_add_body_fn. ts; auto using ps_degree, ps_product_degree, ps_grow_to, ps_range. Qed.
    Lemma ts_inner y o d x l : mul_into_inner_fn so p n func y o d x l === mul_into_inner_fn so p' n func y o d x l.
    Proof. unfold mul_into_inner_fn. ts; auto using ps_usub, ps_range, ts_split. Qed.
    Lemma ts_into (v y : dvec S) st t : multiply_into_impl_fn so p n func v y st t === multiply_into_impl_fn so p' n func v y st t.
    Proof.
      unfold multiply_into_impl_fn. ts; auto using ps_degree, ps_product_degree, ps_grow_to.
      unfold mul_into_body_fn. apply ts_eval; [auto using ps_usub|intros lmin]. apply ts_eval; [auto using ps_usub|intros oo].
      cbn zeta.
      match goal with |- match ?r with Done _ => _ | _ => _ end === match ?r' with Done _ => _ | _ => _ end => assert (H : r === r') end.
      { ts; auto using ps_usub, ps_range, ts_split. }
      destruct H as [[z ->] | ->]; [left; eexists; reflexivity|].
      ts; auto using ps_usub, ts_inner.
    Qed.
  End Closures.
End Functions.
