(** Proofs about shuffles: group-like and primitive tensors under the operations of the API. *)
From Coq Require Import QArith Qcanon Ring_theory Ring.
From Verif Require Import Machine MachineLemmas S_Words L_Words M_TensorKey L_TensorKey M_TensorBasis L_TensorBasis M_Scalar M_Vector
  M_Dense S_Vector S_Tensor S_Series S_FreeTensor I_Scalars I_FunAlgebra L_Dense L_Ring L_PropKey L_PropDense M_Algebra L_Algebra L_Conv
  L_PropAlgebra L_PropProducts L_Series M_FreeTensor L_ExactAlgebra L_ExpGroup L_PropExp S_Shuffle L_Shuffle L_ShuffleExp S_Lie.
Local Open Scope N_scope.

Section Dense.
  Context {S R : Type} (so : scalar_ops S R) (L : ring_laws so) (p : profile) (n : N) (Hn : 2 <= n).
  Let RT := ring_of so L.
  Add Ring scalars : RT.
  Notation wc := (wcoef so n).
  Notation ob := (tensor_basis p n).
  Notation vo := (dense_ops so ob).

  Lemma sub_elems (x y : dvec S) : vd_sub vo x y = Ret (dv_from (comb so (s_sub so) (dv_elems x) (dv_elems y))).
  Proof.
    cbn [dense_ops with_defaults v_def vd_sub]. unfold dflt_sub. cbn [dense_required vr_to_owned vr_sub_inplace].
    unfold dv_to_owned. cbn [bind]. rewrite sub_inplace_eq. unfold dv_as_slice. cbn [dv_from dv_elems]. reflexivity.
  Qed.
  Lemma wc_sub (x y : list S) w : wc (dv_from (comb so (s_sub so) x y)) w = s_sub so (wc (dv_from x) w) (wc (dv_from y) w).
  Proof.
    unfold wcoef, coef, dv_as_slice. cbn [dv_from dv_elems]. rewrite comb_get.
    destruct (slice_get x (windex n w)), (slice_get y (windex n w)); cbn [combine]; ring.
  Qed.
  Lemma prim_sub t f g : primitive so n t f -> primitive so n t g -> primitive so n t (fun w => s_sub so (f w) (g w)).
  Proof.
    intros Pf Pg. apply (prim_ext so n t (fun w => s_add so (f w) (s_mul so (s_uminus so (s_one so)) (g w)))).
    - intros w _ _. ring.
    - apply prim_add; [exact L|exact Pf|]. apply prim_scal; assumption.
  Qed.
  Lemma prim_neg t f : primitive so n t f -> primitive so n t (fun w => s_uminus so (f w)).
  Proof.
    intros Pf. apply (prim_ext so n t (fun w => s_mul so (s_uminus so (s_one so)) (f w))); [intros w _ _; ring|].
    apply prim_scal; assumption.
  Qed.
  Lemma multiply_group (x y : dvec S) a b t k :
    filled n x a -> filled n y b -> 1 <= N.min t (a + b) -> n ^ (a + 1) < 2 ^ 64 -> n ^ (b + 1) < 2 ^ 64 ->
    n ^ (N.min t (a + b) + 1) < 2 ^ 64 -> k <= t -> group_like so n k (wc x) -> group_like so n k (wc y) ->
    exists z, alg_multiply so p n x y (Some t) = Ret z /\ group_like so n k (wc z).
  Proof.
    intros Hx Hy Hm Pa Pb Pm Hk Gx Gy.
    destruct (multiply_conv so L p n Hn x y a b t Hx Hy Hm Pa Pb Pm) as (e & E & _ & W).
    exists (dv_from e). split; [exact E|]. apply (group_ext so n k (conv so (wc x) (wc y))).
    - intros w Hw Hl. rewrite (W w Hw). unfold tconv. destruct (N.leb_spec (len w) t); [reflexivity|lia].
    - apply group_conv; assumption.
  Qed.
  Lemma commutator_prim (x y : dvec S) a b t :
    filled n x a -> filled n y b -> 1 <= N.min t (a + b) -> n ^ (a + 1) < 2 ^ 64 -> n ^ (b + 1) < 2 ^ 64 ->
    n ^ (N.min t (a + b) + 1) < 2 ^ 64 -> primitive so n t (wc x) -> primitive so n t (wc y) ->
    exists z, alg_commutator so p n x y (Some t) = Ret z /\ filled n z (N.min t (a + b))
      /\ forall k, primitive so n k (wc z).
  Proof.
    intros Hx Hy Hm Pa Pb Pm Px Py.
    destruct (commutator_conv so L p n Hn x y a b t Hx Hy Hm Pa Pb Pm) as (e & E & Le & W).
    exists (dv_from e). split; [exact E|]. split; [exact Le|].
    assert (G : primitive so n t (wc (dv_from e))).
    { apply (prim_ext so n t (fun w => s_sub so (conv so (wc x) (wc y) w) (conv so (wc y) (wc x) w))).
      - intros w Hw Hl. rewrite (W w Hw). unfold bracket, tconv. destruct (N.leb_spec (len w) t); [reflexivity|lia].
      - apply prim_bracket; assumption. }
    intros k. split; [apply G|]. intros u v Hu Hv Nu Nv Hk.
    destruct (N.le_gt_cases (len u + len v) t) as [Ht|Ht]; [apply G; assumption|].
    rewrite (sh_ext so _ (fun _ => s_mul so (s_zero so) (s_zero so))).
    - rewrite (sh_scal so L). ring.
    - intros w Hi. destruct (shuffle_ok n u v w Hu Hv Hi) as [Hw Hl]. rewrite (W w Hw). unfold bracket, tconv.
      destruct (N.leb_spec (len w) t); [lia|]. ring.
  Qed.
  Lemma lie_prim (e : lie S) t : n < 2 ^ 32 -> 1 <= t -> n ^ (t + 1) < 2 ^ 64 -> letters_ok n e ->
    exists z d, lie_eval so p n t e = Ret z /\ 1 <= d <= t /\ filled n z d /\ forall k, primitive so n k (wc z).
  Proof.
    intros Hn32 Ht Pt. induction e as [a|e IH e' IH'|e IH e' IH'|e IH|c e IH|e IH e' IH']; cbn [letters_ok lie_eval]; intros Hl.
    - rewrite (from_letter_ok p n a Hl). cbn [bind].
      destruct (from_key_elems so p n Hn [a] Hn32) as (e & -> & Le & W).
      { split; [constructor; [exact Hl|constructor]|]. pose proof (max_depth_ge_2 n Hn32). cbn. lia. }
      { apply (pow_mono_fits n Hn _ t); [cbn; lia|exact Pt]. }
      exists (dv_from e), 1. split; [reflexivity|]. split; [lia|]. split; [exact Le|]. intros k. apply prim_letters; [exact L|].
      intros w Hw H. rewrite (W w Hw). unfold delta, word_eqb. destruct (list_eq_dec N.eq_dec [a] w) as [<-|]; [|reflexivity].
      exfalso. apply H. reflexivity.
    - destruct (IH (proj1 Hl)) as (x & a & -> & Ha & Fx & Px), (IH' (proj2 Hl)) as (y & b & -> & Hb & Fy & Py).
      cbn [bind]. rewrite add_elems. eexists _, (N.max a b). split; [reflexivity|]. split; [lia|].
      split; [apply comb_filled; assumption|]. intros k.
      apply (prim_ext so n k (fun w => s_add so (wc x w) (wc y w))); [intros w _ _; rewrite wc_add by exact L; reflexivity|].
      apply prim_add; auto.
    - destruct (IH (proj1 Hl)) as (x & a & -> & Ha & Fx & Px), (IH' (proj2 Hl)) as (y & b & -> & Hb & Fy & Py).
      cbn [bind]. rewrite sub_elems. eexists _, (N.max a b). split; [reflexivity|]. split; [lia|].
      split; [|intros k; apply (prim_ext so n k (fun w => s_sub so (wc x w) (wc y w)));
        [intros w _ _; rewrite wc_sub; reflexivity|apply prim_sub; auto]].
      pose proof (comb_filled so n Hn x y a b Fx Fy) as H. unfold filled, dv_size in *. cbn [dv_from dv_elems] in *.
      rewrite comb_len in *. exact H.
    - destruct (IH Hl) as (x & a & -> & Ha & Fx & Px). cbn [bind]. rewrite uminus_elems. eexists _, a.
      split; [reflexivity|]. split; [exact Ha|]. split.
      + unfold filled, dv_size in *. cbn [dv_from dv_elems]. unfold len in *. rewrite map_length. exact Fx.
      + intros k. apply (prim_ext so n k (fun w => s_uminus so (wc x w))); [|apply prim_neg; auto].
        intros w _ _. rewrite (wc_uminus so L n (dv_elems x) w). reflexivity.
    - destruct (IH Hl) as (x & a & -> & Ha & Fx & Px). cbn [bind]. rewrite scal_elems. eexists _, a.
      split; [reflexivity|]. split; [exact Ha|]. split.
      + unfold filled, dv_size in *. cbn [dv_from dv_elems]. unfold len in *. rewrite map_length. exact Fx.
      + intros k. apply (prim_ext so n k (fun w => s_mul so c (wc x w))); [|apply prim_scal; auto].
        intros w _ _. rewrite (wc_scal so L n (dv_elems x) c w). reflexivity.
    - destruct (IH (proj1 Hl)) as (x & a & -> & Ha & Fx & Px), (IH' (proj2 Hl)) as (y & b & -> & Hb & Fy & Py).
      cbn [bind]. destruct (commutator_prim x y a b t Fx Fy) as (z & -> & Fz & Pz); try assumption; try lia.
      1-3: apply (pow_mono_fits n Hn _ t); [lia|exact Pt].
      1-2: auto.
      exists z, (N.min t (a + b)). split; [reflexivity|]. split; [lia|]. split; assumption.
  Qed.
End Dense.

Section Exact.
  Context {V S R : Type} (so : scalar_ops S R) (p : profile) (n : N) (vo : vec_ops V tkey S R)
    (mulr : V -> V -> S -> option N -> outcome V) (mul : V -> V -> option N -> outcome V) (val : V -> word -> S)
    (F : field_laws so) (X : exact_algebra so n vo mulr mul val).
  Let L := l_ring so F.
  Let RT := ring_of so L.
  Add Ring scalars : RT.
  Notation zero := (s_zero so).
  Notation one := (s_one so).
  Infix "[+]" := (s_add so) (at level 50, left associativity).
  Infix "[*]" := (s_mul so) (at level 40, left associativity).
  Notation nu := (no_unit so).
  Notation fm md := (trait_fmexp so p md vo mulr).
  (** what one increment multiplies by *)
  Definition incr (md : N) (f : word -> S) : word -> S := exp_upto so md (nu f) (N.to_nat (md - 1)).

  Lemma exp_upto_group md f : primitive so n (md - 1) f -> group_like so n (md - 1) (exp_upto so md f (N.to_nat (md - 1))).
  Proof.
    intros P. apply (group_ext so n (md - 1) (efun so (md - 1) f)); [|apply exp_group; assumption].
    intros w Hw Hl. symmetry. apply (exp_efun so n (md - 1) md f ltac:(lia) w Hw Hl).
  Qed.
  Lemma exp_prim md x : primitive so n (md - 1) (val x) ->
    exists z, trait_exp so md vo mulr x = Ret z /\ group_like so n (md - 1) (val z).
  Proof.
    intros P. destruct (exact_exp so n vo mulr mul val L X md x) as (z & E & G). exists z. split; [exact E|].
    apply (group_ext so n (md - 1) (exp_upto so md (val x) (N.to_nat (md - 1)))); [|apply exp_upto_group; exact P].
    intros w Hw _. symmetry. apply G. exact Hw.
  Qed.
  Lemma fmexp_prim md x y : md < 2 ^ 32 -> group_like so n (md - 1) (val x) -> primitive so n (md - 1) (nu (val y)) ->
    exists z, fm md x y = Ret z /\ group_like so n (md - 1) (val z).
  Proof.
    intros Hmd Gx Py. destruct (exact_fmexp so p n vo mulr mul val L X md x y Hmd) as (z & E & G).
    exists z. split; [exact E|]. apply (group_ext so n (md - 1) (conv so (val x) (incr md (val y)))).
    - intros w Hw Hl. rewrite (G w Hw). destruct (N.leb_spec (len w) md); [reflexivity|lia].
    - apply group_conv; [exact L|exact Gx|]. apply exp_upto_group. exact Py.
  Qed.
  Lemma follow_prim md ys : forall x, md < 2 ^ 32 -> group_like so n (md - 1) (val x) ->
    Forall (fun y => primitive so n (md - 1) (nu (val y))) ys ->
    exists z, follow (fm md) x ys = Ret z /\ group_like so n (md - 1) (val z).
  Proof.
    induction ys as [|y ys IH]; intros x Hmd Gx Hy; cbn [follow]; [exists x; split; [reflexivity|exact Gx]|].
    inversion Hy as [|y' ys' Py Pys]; subst. destruct (fmexp_prim md x y Hmd Gx Py) as (z & -> & Gz). cbn [bind].
    apply IH; assumption.
  Qed.

  (** a path, as a product *)
  Definition total (md : N) (fs : list (word -> S)) : word -> S := fold_right (fun f g => conv so (incr md f) g) (unit_fun so) fs.
  Lemma follow_conv md ys : forall x, md < 2 ^ 32 -> exists z, follow (fm md) x ys = Ret z
    /\ forall w, word_ok n w -> val z w = if len w <=? md then conv so (val x) (total md (map val ys)) w else val x w.
  Proof.
    induction ys as [|y ys IH]; intros x Hmd; cbn [follow map total fold_right].
    - exists x. split; [reflexivity|]. intros w Hw. rewrite (conv_unit_r so L). destruct (len w <=? md); reflexivity.
    - destruct (exact_fmexp so p n vo mulr mul val L X md x y Hmd) as (a & -> & Ga). cbn [bind].
      destruct (IH a Hmd) as (z & E & G). exists z. split; [exact E|]. intros w Hw. rewrite (G w Hw), (Ga w Hw).
      destruct (N.leb_spec (len w) md) as [Hl|Hl]; [|reflexivity].
      rewrite <- (conv_assoc so L). apply conv_ext; [|reflexivity]. intros u v E'. rewrite Ga.
      + apply len_prefix in E'. destruct (N.leb_spec (len u) md); [reflexivity|lia].
      + rewrite E' in Hw. apply word_ok_app in Hw. apply Hw.
  Qed.
  Lemma total_app md fs gs w : total md (fs ++ gs) w = conv so (total md fs) (total md gs) w.
  Proof.
    revert w. induction fs as [|f fs IH]; intros w; cbn [app total fold_right].
    - rewrite (conv_unit_l so L). reflexivity.
    - fold (total md (fs ++ gs)) (total md fs). rewrite (conv_assoc so L). apply conv_ext; [reflexivity|]. intros u v _. apply IH.
  Qed.
  Lemma chen md ys zs : md < 2 ^ 32 -> exists u a b c d, vr_from_key vo tk_new = Ret u
    /\ follow (fm md) u ys = Ret a /\ follow (fm md) u zs = Ret b /\ follow (fm md) u (ys ++ zs) = Ret c
    /\ mul a b (Some md) = Ret d /\ forall w, word_ok n w -> val c w = val d w.
  Proof.
    intros Hmd. destruct (ea_unit _ _ _ _ _ _ X) as (u & Eu & Gu).
    destruct (follow_conv md ys u Hmd) as (a & Ea & Ga). destruct (follow_conv md zs u Hmd) as (b & Eb & Gb).
    destruct (follow_conv md (ys ++ zs) u Hmd) as (c & Ec & Gc). destruct (ea_mul _ _ _ _ _ _ X a b md) as (d & Ed & Gd).
    exists u, a, b, c, d. repeat (split; [assumption|]). intros w Hw. rewrite (Gc w Hw), (Gd w Hw). unfold tconv.
    assert (U : forall g v, word_ok n v -> conv so (val u) g v = g v).
    { intros g v Hv. refine (eq_trans _ (conv_unit_l so L g v)). apply conv_ext; [|reflexivity]. intros u' v' E. apply Gu.
      rewrite E in Hv. apply word_ok_app in Hv. apply Hv. }
    destruct (N.leb_spec (len w) md) as [Hl|Hl].
    - rewrite (U _ _ Hw), map_app, total_app. apply conv_ext; intros u' v' E; rewrite E in Hw; apply word_ok_app in Hw;
        apply len_prefix in E; symmetry.
      + rewrite Ga by apply Hw. destruct (N.leb_spec (len u') md); [apply U; apply Hw|lia].
      + rewrite Gb by apply Hw. destruct (N.leb_spec (len v') md); [apply U; apply Hw|lia].
    - rewrite (Gu w Hw). destruct w; [cbn in Hl; lia|reflexivity].
  Qed.

  (** going back along a path *)
  Lemma incr_inv md f g : (forall w, word_ok n w -> g w = s_uminus so (f w)) ->
    feq n (md - 1) (conv so (incr md f) (incr md g)) (unit_fun so).
  Proof.
    intros H. unfold incr. transitivity (conv so (efun so (md - 1) (nu f)) (efun so (md - 1) (nu g))).
    { apply conv_proper; apply exp_efun; lia. }
    rewrite (efun_add so F n (md - 1)); [|reflexivity|reflexivity|].
    - apply (efun_zero so F n). intros [|a u] Hu _; unfold fadd, fzero; cbn [no_unit]; [ring|]. rewrite (H _ Hu). ring.
    - intros u Hu _. apply (cv_neg_comm so n F); [|exact Hu]. apply (nu_neg so n F). exact H.
  Qed.
  Lemma total_back md ys : forall zs, Forall2 (fun y z => forall w, word_ok n w -> val z w = s_uminus so (val y w)) (rev ys) zs ->
    feq n (md - 1) (total md (map val (ys ++ zs))) (unit_fun so).
  Proof.
    induction ys as [|y ys IH]; intros zs H; cbn [rev] in H.
    - inversion H; subst. reflexivity.
    - apply Forall2_app_inv_l in H. destruct H as (zs' & zl & H & Hl & ->). inversion Hl as [|y' z ? ? Hz Hn']; subst. inversion Hn'; subst.
      cbn [map app]. cbn [total fold_right]. fold (total md (map val (ys ++ zs' ++ [z]))).
      transitivity (conv so (incr md (val y)) (conv so (total md (map val (ys ++ zs'))) (incr md (val z)))).
      + apply conv_proper; [reflexivity|]. intros w Hw Hl'. rewrite app_assoc, map_app, total_app.
        apply conv_ext; [reflexivity|]. intros u v _. cbn [map total fold_right]. apply (conv_unit_r so L).
      + transitivity (conv so (incr md (val y)) (conv so (unit_fun so) (incr md (val z)))).
        { apply conv_proper; [reflexivity|]. apply conv_proper; [apply IH; exact H|reflexivity]. }
        transitivity (conv so (incr md (val y)) (incr md (val z))); [|apply incr_inv; exact Hz].
        apply conv_proper; [reflexivity|]. intros w _ _. apply (conv_unit_l so L).
  Qed.
  Lemma back md x ys zs : md < 2 ^ 32 ->
    Forall2 (fun y z => forall w, word_ok n w -> val z w = s_uminus so (val y w)) (rev ys) zs ->
    exists z, follow (fm md) x (ys ++ zs) = Ret z /\ forall w, word_ok n w -> len w <> md -> val z w = val x w.
  Proof.
    intros Hmd H. destruct (follow_conv md (ys ++ zs) x Hmd) as (z & E & G). exists z. split; [exact E|].
    intros w Hw Hl. rewrite (G w Hw). destruct (N.leb_spec (len w) md) as [Hl'|]; [|reflexivity].
    refine (eq_trans _ (conv_unit_r so L (val x) w)).
    apply (conv_proper so n (md - 1) (val x) (val x)); [reflexivity|apply total_back; exact H|exact Hw|lia].
  Qed.

  (** a straight line *)
  Notation weight := (weight so).
  Lemma pw_linear f : (forall w, word_ok n w -> len w <> 1 -> f w = zero) ->
    forall k w, word_ok n w -> pw so f k w = if (length w =? k)%nat then weight f w else zero.
  Proof.
    intros Hf. assert (F0 : f [] = zero) by (apply Hf; [constructor|cbn; lia]).
    induction k as [|k IH]; intros w Hw; [destruct w; reflexivity|]. cbn [pw].
    rewrite (pw_comm so F n (len w) f f k (reflexivity _) w Hw (N.le_refl _)).
    destruct w as [|a w].
    - cbn. rewrite F0. ring.
    - rewrite conv_cons, F0. inversion Hw as [|a' w' Ha Hw']; subst.
      transitivity (conv so (fun u => f [a] [*] unit_fun so u) (pw so f k) w).
      + transitivity (conv so (der a f) (pw so f k) w); [ring|]. apply conv_ext; [|reflexivity]. intros u v E. unfold der.
        destruct u as [|b u]; cbn [unit_fun]; [ring|]. rewrite Hf; [ring| |unfold len; cbn [length]; lia].
        rewrite E in Hw'. apply word_ok_app in Hw'. constructor; [exact Ha|apply Hw'].
      + rewrite (conv_scal_l so L), (conv_unit_l so L), (IH w Hw'). cbn [length Nat.eqb]. destruct (length w =? k)%nat; [reflexivity|ring].
  Qed.
  Lemma ssum_one h j K : (j <= K)%nat -> (forall k, k <> j -> h k = zero) -> ssum so h K = h j.
  Proof.
    intros Hj Hz. induction K as [|K IH]; [replace j with O by lia; reflexivity|]. cbn [ssum].
    destruct (Nat.eq_dec j (Datatypes.S K)) as [->|Hne].
    - transitivity (zero [+] h (Datatypes.S K)); [|ring]. f_equal. clear IH Hj.
      assert (G : forall m, (m <= K)%nat -> ssum so h m = zero).
      { induction m as [|m IH]; intros Hm; cbn [ssum]; rewrite ?IH, ?Hz by lia; ring. }
      apply G. lia.
    - rewrite IH by lia. rewrite (Hz (Datatypes.S K)) by lia. ring.
  Qed.
  Lemma line md y : md < 2 ^ 32 -> (forall w, word_ok n w -> 2 <= len w -> val y w = zero) ->
    exists u z, vr_from_key vo tk_new = Ret u /\ fm md u y = Ret z
      /\ forall w, word_ok n w -> len w < md -> val z w = inv_fact so (length w) [*] weight (val y) w.
  Proof.
    intros Hmd Hy. destruct (ea_unit _ _ _ _ _ _ X) as (u & Eu & Gu).
    destruct (exact_fmexp so p n vo mulr mul val L X md u y Hmd) as (z & Ez & Gz). exists u, z. split; [exact Eu|]. split; [exact Ez|].
    intros w Hw Hl. rewrite (Gz w Hw). destruct (N.leb_spec (len w) md); [|lia].
    transitivity (exp_upto so md (nu (val y)) (N.to_nat (md - 1)) w).
    { refine (eq_trans _ (conv_unit_l so L _ w)). apply conv_ext; [|reflexivity]. intros u' v' E. apply Gu.
      rewrite E in Hw. apply word_ok_app in Hw. apply Hw. }
    rewrite (exp_efun so n (md - 1) md (nu (val y)) ltac:(lia) w Hw) by lia. unfold efun.
    assert (Hf : forall w, word_ok n w -> len w <> 1 -> nu (val y) w = zero).
    { intros [|a v] Hv H'; cbn [no_unit]; [reflexivity|]. apply Hy; [exact Hv|]. rewrite len_cons in *. lia. }
    rewrite (efun_ssum so), (ssum_one _ (length w)).
    - unfold dp, fscal. rewrite (pw_linear _ Hf _ w Hw), Nat.eqb_refl. reflexivity.
    - unfold len in Hl. lia.
    - intros k Hk. unfold dp, fscal. rewrite (pw_linear _ Hf _ w Hw). destruct (Nat.eqb_spec (length w) k); [congruence|]. ring.
  Qed.
  Lemma line_top md y u z : 1 <= md < 2 ^ 32 -> (forall w, word_ok n w -> 2 <= len w -> val y w = zero) ->
    vr_from_key vo tk_new = Ret u -> fm md u y = Ret z -> forall w, word_ok n w -> len w = md -> val z w = zero.
  Proof.
    intros Hmd Hy Eu Ez w Hw Hl. destruct (ea_unit _ _ _ _ _ _ X) as (u' & Eu' & Gu).
    assert (u' = u) by congruence. subst u'.
    destruct (exact_fmexp so p n vo mulr mul val L X md u y (proj2 Hmd)) as (z' & Ez' & Gz). assert (z' = z) by congruence. subst z'.
    rewrite (Gz w Hw). destruct (N.leb_spec (len w) md); [|lia].
    transitivity (exp_upto so md (nu (val y)) (N.to_nat (md - 1)) w).
    { refine (eq_trans _ (conv_unit_l so L _ w)). apply conv_ext; [|reflexivity]. intros u' v' E. apply Gu.
      rewrite E in Hw. apply word_ok_app in Hw. apply Hw. }
    assert (Hf : forall w, word_ok n w -> len w <> 1 -> nu (val y) w = zero).
    { intros [|a v] Hv H'; cbn [no_unit]; [reflexivity|]. apply Hy; [exact Hv|]. rewrite len_cons in *. lia. }
    unfold exp_upto. assert (G : forall K, (K < N.to_nat md)%nat -> series so md (inv_fact so) (nu (val y)) K w = zero).
    { assert (T : forall k, (k < N.to_nat md)%nat -> tpow so md (nu (val y)) k w = zero).
      { intros k Hk. rewrite (tpow_pw so n md md (nu (val y)) k (N.le_refl _) w Hw ltac:(lia)), (pw_linear _ Hf k w Hw).
        destruct (Nat.eqb_spec (length w) k); [unfold len in Hl; lia|reflexivity]. }
      induction K as [|K IH]; intros HK; cbn [series]; rewrite ?IH, ?T by lia; ring. }
    apply G. lia.
  Qed.
  Lemma inv_fact_nz : forall k, inv_fact so k <> zero.
  Proof.
    induction k as [|k IH]; cbn [inv_fact]; [apply (l_one_zero so F)|]. intros E. apply IH.
    set (i := s_inv so (r_from_degree so (N.of_nat (Datatypes.S k)))) in *.
    transitivity (s_from_degree so (N.of_nat (Datatypes.S k)) [*] i [*] inv_fact so k).
    - unfold i. rewrite (deg_inv so F). ring.
    - transitivity (s_from_degree so (N.of_nat (Datatypes.S k)) [*] (inv_fact so k [*] i)); [ring|]. rewrite E. ring.
  Qed.
  Lemma weight_ones f a k : f [a] = one -> weight f (repeat a k) = one.
  Proof. intros H. unfold S_Shuffle.weight. induction k as [|k IH]; cbn; [reflexivity|]. rewrite H, IH. ring. Qed.
  Lemma line_not_group md a y u z : 2 <= md < 2 ^ 32 -> 1 <= a <= n ->
    (forall w, word_ok n w -> 2 <= len w -> val y w = zero) -> val y [a] = one ->
    vr_from_key vo tk_new = Ret u -> fm md u y = Ret z -> ~ group_like so n md (val z).
  Proof.
    intros Hmd Ha Hy Ya Eu Ez [_ G]. destruct (line md y (proj2 Hmd) Hy) as (u' & z' & Eu' & Ez' & Gz).
    assert (u' = u) by congruence. subst u'. assert (z' = z) by congruence. subst z'.
    set (v := repeat a (N.to_nat (md - 1))).
    assert (Hv : word_ok n v) by (apply Forall_forall; intros x Hx; apply repeat_spec in Hx; subst x; exact Ha).
    assert (Lv : len v = md - 1) by (unfold len, v; rewrite repeat_length; lia).
    assert (Ha' : word_ok n [a]) by (constructor; [exact Ha|constructor]).
    assert (La : len [a] = 1) by reflexivity.
    specialize (G [a] v Ha' Hv ltac:(lia)).
    rewrite (sh_ext so _ (fun _ => zero [*] zero)) in G.
    2:{ intros w Hi. destruct (shuffle_ok n [a] v w Ha' Hv Hi) as [Hw Hl].
        rewrite (line_top md y u z ltac:(lia) Hy Eu Ez w Hw) by lia. ring. }
    rewrite (sh_scal so L) in G. rewrite (Gz [a] Ha' ltac:(lia)), (Gz v Hv ltac:(lia)) in G.
    change [a] with (repeat a 1) in G. unfold v in G. rewrite !weight_ones, !repeat_length in G by exact Ya.
    revert G. generalize (shuffle_sum so (fun _ => zero)). intros h G.
    destruct (l_integral so F (inv_fact so 1) (inv_fact so (N.to_nat (md - 1)))) as [E|E]; [|exact (inv_fact_nz 1 E)|exact (inv_fact_nz _ E)].
    transitivity (inv_fact so 1 [*] one [*] (inv_fact so (N.to_nat (md - 1)) [*] one)); [ring|]. rewrite G. ring.
  Qed.
End Exact.

(** * C100: the shuffle identities under the operations of dense tensors *)
Lemma c100_multiply : forall (S R : Type) (so : scalar_ops S R) (p : profile) (n t k a b : N) (x y : dvec S),
  ring_laws so -> 2 <= n -> filled n x a -> filled n y b -> 1 <= N.min t (a + b) ->
  n ^ (a + 1) < 2 ^ 64 -> n ^ (b + 1) < 2 ^ 64 -> n ^ (N.min t (a + b) + 1) < 2 ^ 64 ->
  k <= t -> group_like so n k (wcoef so n x) -> group_like so n k (wcoef so n y) ->
  exists z, alg_multiply so p n x y (Some t) = Ret z /\ group_like so n k (wcoef so n z).
Proof. intros S R so p n t k a b x y L Hn Hx Hy Hm Pa Pb Pm Hk. exact (multiply_group so L p n Hn x y a b t k Hx Hy Hm Pa Pb Pm Hk). Qed.
Lemma c100_commutator : forall (S R : Type) (so : scalar_ops S R) (p : profile) (n t a b : N) (x y : dvec S),
  ring_laws so -> 2 <= n -> filled n x a -> filled n y b -> 1 <= N.min t (a + b) ->
  n ^ (a + 1) < 2 ^ 64 -> n ^ (b + 1) < 2 ^ 64 -> n ^ (N.min t (a + b) + 1) < 2 ^ 64 ->
  primitive so n t (wcoef so n x) -> primitive so n t (wcoef so n y) ->
  exists z, alg_commutator so p n x y (Some t) = Ret z /\ forall k, primitive so n k (wcoef so n z).
Proof.
  intros S R so p n t a b x y L Hn Hx Hy Hm Pa Pb Pm Px Py.
  destruct (commutator_prim so L p n Hn x y a b t Hx Hy Hm Pa Pb Pm Px Py) as (z & E & _ & G). exists z. split; assumption.
Qed.
Lemma c100_lie : forall (S R : Type) (so : scalar_ops S R) (p : profile) (n t : N) (e : lie S),
  ring_laws so -> 2 <= n < 2 ^ 32 -> 1 <= t -> n ^ (t + 1) < 2 ^ 64 -> letters_ok n e ->
  exists z, lie_eval so p n t e = Ret z /\ forall k, primitive so n k (wcoef so n z).
Proof.
  intros S R so p n t e L Hn Ht Pt He.
  destruct (lie_prim so L p n (proj1 Hn) e t (proj2 Hn) Ht Pt He) as (z & d & E & _ & _ & G). exists z. split; assumption.
Qed.
(** [2e1 + e2, [e1, e2]] and the product of two exponentials *)
Example c100_example : let e := Bracket (Plus (Scaled (q 2) (Letter 1)) (Letter 2)) (Bracket (Letter 1) (Letter 2)) in
  (z <- lie_eval qc_ops dev 2 3 e ;; Ret (vals z)) = Ret (qz [0; 0; 0; 0; 0; 0; 0; 0; 2; -4; -1; 2; 2; -1; 0]%Z)
  /\ letters_ok 2 e
  /\ (let x := dv_from [q 1; q 1; q 0; Q2Qc (1 # 2); q 0; q 0; q 0] in
      let y := dv_from [q 1; q 0; q 1; q 0; q 0; q 0; Q2Qc (1 # 2)] in
      (z <- alg_multiply qc_ops dev 2 x y (Some 2) ;; Ret (vals z)) = Ret [1; 1; 1; 1 # 2; 1; 0; 1 # 2]%Q
      /\ filled 2 x 2 /\ filled 2 y 2
      /\ shuffle [1] [1; 2] = [[1; 1; 2]; [1; 1; 2]; [1; 2; 1]]).
Proof. vm_compute. repeat split; discriminate. Qed.

(** * C101: exponentials of primitive tensors are group-like below MAX_DEGREE *)
Lemma c101_exp : forall (V S R : Type) (so : scalar_ops S R) (n md : N) (vo : vec_ops V tkey S R)
    (mulr : V -> V -> S -> option N -> outcome V) (mul : V -> V -> option N -> outcome V) (val : V -> word -> S) (x : V),
  field_laws so -> exact_algebra so n vo mulr mul val -> primitive so n (md - 1) (val x) ->
  exists z, trait_exp so md vo mulr x = Ret z /\ group_like so n (md - 1) (val z).
Proof. intros V S R so n md vo mulr mul val x F X. exact (exp_prim so n vo mulr mul val F X md x). Qed.
Lemma c101_fmexp : forall (V S R : Type) (so : scalar_ops S R) (p : profile) (n md : N) (vo : vec_ops V tkey S R)
    (mulr : V -> V -> S -> option N -> outcome V) (mul : V -> V -> option N -> outcome V) (val : V -> word -> S) (x : V) (ys : list V),
  field_laws so -> exact_algebra so n vo mulr mul val -> md < 2 ^ 32 ->
  group_like so n (md - 1) (val x) -> Forall (fun y => primitive so n (md - 1) (no_unit so (val y))) ys ->
  exists z, follow (trait_fmexp so p md vo mulr) x ys = Ret z /\ group_like so n (md - 1) (val z).
Proof. intros V S R so p n md vo mulr mul val x ys F X. exact (follow_prim so p n vo mulr mul val F X md ys x). Qed.
(** not at MAX_DEGREE itself *)
Lemma c101_not_at_max_degree : forall (V S R : Type) (so : scalar_ops S R) (p : profile) (n md a : N) (vo : vec_ops V tkey S R)
    (mulr : V -> V -> S -> option N -> outcome V) (mul : V -> V -> option N -> outcome V) (val : V -> word -> S) (y u z : V),
  field_laws so -> exact_algebra so n vo mulr mul val -> 2 <= md < 2 ^ 32 -> 1 <= a <= n ->
  (forall w, word_ok n w -> 2 <= len w -> val y w = s_zero so) -> val y [a] = s_one so ->
  vr_from_key vo tk_new = Ret u -> trait_fmexp so p md vo mulr u y = Ret z -> ~ group_like so n md (val z).
Proof. intros V S R so p n md a vo mulr mul val y u z F X. exact (line_not_group so p n vo mulr mul val F X md a y u z). Qed.
Example c101_example : let y : word -> Qc := fun w => match w with [1] => q 1 | [2] => q 3 | [1; 2] => q 5 | [2; 1] => q (-5) | _ => q 0 end in
  (forall u v, u <> [] -> v <> [] -> len u + len v <= 2 -> shuffle_sum qc_ops y u v = q 0)
  /\ (z <- trait_fmexp qc_ops dev 3 (fun_ops qc_ops) fun_mul_rat_rdiv (unit_fun qc_ops) y ;;
      Ret (map this (map z [[]; [1]; [2]; [1; 1]; [1; 2]; [2; 1]; [2; 2]; [1; 1; 1]])))
     = Ret [1; 1; 3; 1 # 2; 13 # 2; -7 # 2; 9 # 2; 0]%Q.
Proof.
  split; [|vm_compute; reflexivity]. intros [|a [|a' u]] [|b [|b' v]] Hu Hv H; try congruence; try (unfold len in H; cbn [length] in H; lia).
  unfold shuffle_sum. cbn [shuffle map app fold_right].
  destruct a as [|[[pa|pa|]|[pa|pa|]|]]; try reflexivity; destruct b as [|[[pb|pb|]|[pb|pb|]|]]; try reflexivity.
Qed.

(** * C102: paths *)
Lemma c102_chen : forall (V S R : Type) (so : scalar_ops S R) (p : profile) (n md : N) (vo : vec_ops V tkey S R)
    (mulr : V -> V -> S -> option N -> outcome V) (mul : V -> V -> option N -> outcome V) (val : V -> word -> S) (ys zs : list V),
  field_laws so -> exact_algebra so n vo mulr mul val -> md < 2 ^ 32 ->
  exists u a b c d, vr_from_key vo tk_new = Ret u
    /\ follow (trait_fmexp so p md vo mulr) u ys = Ret a /\ follow (trait_fmexp so p md vo mulr) u zs = Ret b
    /\ follow (trait_fmexp so p md vo mulr) u (ys ++ zs) = Ret c
    /\ mul a b (Some md) = Ret d /\ forall w, word_ok n w -> val c w = val d w.
Proof. intros V S R so p n md vo mulr mul val ys zs F X. exact (chen so p n vo mulr mul val F X md ys zs). Qed.
Lemma c102_back : forall (V S R : Type) (so : scalar_ops S R) (p : profile) (n md : N) (vo : vec_ops V tkey S R)
    (mulr : V -> V -> S -> option N -> outcome V) (mul : V -> V -> option N -> outcome V) (val : V -> word -> S) (x : V) (ys zs : list V),
  field_laws so -> exact_algebra so n vo mulr mul val -> md < 2 ^ 32 ->
  Forall2 (fun y z => forall w, word_ok n w -> val z w = s_uminus so (val y w)) (rev ys) zs ->
  exists z, follow (trait_fmexp so p md vo mulr) x (ys ++ zs) = Ret z
    /\ forall w, word_ok n w -> len w <> md -> val z w = val x w.
Proof. intros V S R so p n md vo mulr mul val x ys zs F X. exact (back so p n vo mulr mul val F X md x ys zs). Qed.
Lemma c102_line : forall (V S R : Type) (so : scalar_ops S R) (p : profile) (n md : N) (vo : vec_ops V tkey S R)
    (mulr : V -> V -> S -> option N -> outcome V) (mul : V -> V -> option N -> outcome V) (val : V -> word -> S) (y : V),
  field_laws so -> exact_algebra so n vo mulr mul val -> md < 2 ^ 32 ->
  (forall w, word_ok n w -> 2 <= len w -> val y w = s_zero so) ->
  exists u z, vr_from_key vo tk_new = Ret u /\ trait_fmexp so p md vo mulr u y = Ret z
    /\ forall w, word_ok n w -> len w < md -> val z w = s_mul so (inv_fact so (length w)) (weight so (val y) w).
Proof. intros V S R so p n md vo mulr mul val y F X. exact (line so p n vo mulr mul val F X md y). Qed.
(** the three sides of a triangle: a line to (1, 0), a line up to (1, 2), and both taken back *)
Example c102_example : let y1 : word -> Qc := fun w => match w with [1] => q 1 | _ => q 0 end in
  let y2 : word -> Qc := fun w => match w with [2] => q 2 | _ => q 0 end in
  let neg (y : word -> Qc) : word -> Qc := fun w => Qcopp (y w) in
  let go ys := (z <- follow (trait_fmexp qc_ops dev 3 (fun_ops qc_ops) fun_mul_rat_rdiv) (unit_fun qc_ops) ys ;;
                Ret (map this (map z [[]; [1]; [2]; [1; 1]; [1; 2]; [2; 1]; [2; 2]]))) in
  go [y1; y2] = Ret [1; 1; 2; 1 # 2; 2; 0; 2]%Q /\ go [y2; y1] = Ret [1; 1; 2; 1 # 2; 0; 2; 2]%Q
  /\ go [y1; y2; neg y2; neg y1] = Ret [1; 0; 0; 0; 0; 0; 0]%Q.
Proof. vm_compute. repeat split. Qed.
