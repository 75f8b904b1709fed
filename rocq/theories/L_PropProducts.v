(** Property lemmas C31-C34 (restated as theorems in P_Products.v). *)
From Coq Require Import QArith Qcanon Ring_theory Ring.
From Verif Require Import Machine MachineLemmas S_Words L_Words M_TensorKey L_TensorKey M_TensorBasis
  L_TensorBasis M_Scalar M_Vector M_Dense S_Vector S_Tensor I_Scalars L_Dense L_Ring L_PropKey L_PropDense
  M_Algebra L_Algebra L_Conv L_PropAlgebra.
Local Open Scope N_scope.

(** * Products over a ring *)
Section Products.
  Context {S R : Type} (so : scalar_ops S R) (L : ring_laws so) (p : profile) (n : N) (Hn : 2 <= n).
  Let RT := ring_of so L.
  Add Ring scalars : RT.
  Notation wc := (wcoef so n).
  Notation cbS d := (count_below n (Datatypes.S (N.to_nat d))).
  Notation ob := (tensor_basis p n).

  Lemma filled_stored (v : dvec S) d e : filled n v d -> e <= d -> stored_to n v e.
  Proof. intros H He. unfold stored_to. rewrite H. apply count_below_mono. lia. Qed.
  Lemma pow_mono_fits a b : a <= b -> n ^ (b + 1) < 2 ^ 64 -> n ^ (a + 1) < 2 ^ 64.
  Proof. intros H P. pose proof (pow_le n (a + 1) (b + 1)). lia. Qed.
  Lemma tconv_beyond t (x y : dvec S) l r w : filled n x l -> filled n y r -> word_ok n w ->
    N.min t (l + r) < len w -> tconv so t (wc x) (wc y) w = s_zero so.
  Proof.
    intros Hx Hy Hw H. unfold tconv. destruct (N.leb_spec (len w) t) as [Ht|Ht]; [|reflexivity].
    apply conv_zero; [exact L|]. intros u v E. pose proof (len_prefix w u v E) as El. rewrite E in Hw.
    apply word_ok_app in Hw. destruct Hw as [Hu Hv].
    destruct (N.lt_ge_cases l (len u)) as [H1|H1].
    - rewrite (wcoef_beyond so n Hn x l u (filled_degree n Hn x l Hx) Hu H1). ring.
    - rewrite (wcoef_beyond so n Hn y r v (filled_degree n Hn y r Hy) Hv ltac:(lia)). ring.
  Qed.
  Lemma multiply_conv (x y : dvec S) l r t (m := N.min t (l + r)) :
    filled n x l -> filled n y r -> 1 <= m ->
    n ^ (l + 1) < 2 ^ 64 -> n ^ (r + 1) < 2 ^ 64 -> n ^ (m + 1) < 2 ^ 64 ->
    exists e, alg_multiply so p n x y (Some t) = Ret (dv_from e) /\ len e = cbS m
      /\ forall w, word_ok n w -> wc (dv_from e) w = tconv so t (wc x) (wc y) w.
  Proof.
    intros Hx Hy Hm Pl Pr Pm.
    destruct (multiply_elems so p n x y l r t Hn Hm (filled_degree n Hn x l Hx) (filled_degree n Hn y r Hy) Pl Pr Pm)
      as (e & E & He & Hw); [apply (filled_stored x l); [exact Hx|lia]|apply (filled_stored y r); [exact Hy|lia]|].
    exists e. split; [exact E|]. split; [exact He|]. intros w Hwo. rewrite (Hw w Hwo).
    destruct (N.leb_spec (len w) (N.min t (l + r))) as [H1|H1].
    - rewrite (c29_convolution S R so n x y l r w _ L Hn (filled_degree n Hn x l Hx) (filled_degree n Hn y r Hy) Hwo).
      unfold tconv. destruct (N.leb_spec (len w) t); [ring|lia].
    - symmetry. eapply tconv_beyond; eassumption.
  Qed.
  Lemma commutator_conv (x y : dvec S) l r t (m := N.min t (l + r)) :
    filled n x l -> filled n y r -> 1 <= m ->
    n ^ (l + 1) < 2 ^ 64 -> n ^ (r + 1) < 2 ^ 64 -> n ^ (m + 1) < 2 ^ 64 ->
    exists e, alg_commutator so p n x y (Some t) = Ret (dv_from e) /\ len e = cbS m
      /\ forall w, word_ok n w -> wc (dv_from e) w = bracket so t (wc x) (wc y) w.
  Proof.
    intros Hx Hy Hm Pl Pr Pm.
    destruct (multiply_conv x y l r t Hx Hy Hm Pl Pr Pm) as (e & E & He & Hw).
    unfold alg_commutator. change (alg_add_mul so p n dv_new x y (Some t)) with (alg_multiply so p n x y (Some t)).
    rewrite E. cbn [bind]. fold m in He.
    assert (Fe : filled n (dv_from e) m) by exact He.
    assert (Em : N.min t (r + l) = m) by (unfold m; lia).
    destruct (mul_add_ok so p n Hn (s_uminus so) (dv_from e) y x m r l t (filled_degree n Hn _ _ Fe)
      (filled_degree n Hn y r Hy) (filled_degree n Hn x l Hx) Pm Pr Pl) as (e' & E' & He' & Hw'); rewrite ?Em.
    { exact Pm. }
    { right. apply (filled_stored (dv_from e) m m Fe). lia. }
    { apply (filled_stored y r); [exact Hy|lia]. }
    { apply (filled_stored x l); [exact Hx|lia]. }
    rewrite Em in *. destruct (N.ltb_spec m m); [lia|]. exists e'. split; [exact E'|].
    split; [rewrite He'; exact He|]. intros w Hwo. rewrite (Hw' w Hwo), (Hw w Hwo). unfold bracket.
    destruct (N.leb_spec (len w) m) as [H1|H1].
    - rewrite terms_conv_opp; [|exact L| |].
      + f_equal. unfold tconv. destruct (N.leb_spec (len w) t); [reflexivity|lia].
      + intros u v Euv Hlt. rewrite Euv in Hwo. apply word_ok_app in Hwo. destruct Hwo.
        eapply wcoef_beyond; [exact Hn|apply filled_degree; eassumption|assumption|assumption].
      + intros u v Euv Hlt. rewrite Euv in Hwo. apply word_ok_app in Hwo. destruct Hwo.
        eapply wcoef_beyond; [exact Hn|apply filled_degree; eassumption|assumption|assumption].
    - rewrite (tconv_beyond t x y l r w Hx Hy Hwo H1), (tconv_beyond t y x r l w Hy Hx Hwo) by lia. ring.
  Qed.
  Lemma owned_ext (e e' : list S) : len e = len e' ->
    (forall w, word_ok n w -> wc (dv_from e) w = wc (dv_from e') w) -> dv_from e = dv_from e'.
  Proof. intros Hl H. f_equal. apply (wcoef_ext so n Hn); [exact Hl|]. intros w Hw _. apply H. exact Hw. Qed.

  (** vector operations on coefficients *)
  Lemma add_elems (x y : dvec S) : vd_add (dense_ops so ob) x y
    = Ret (dv_from (comb so (s_add so) (dv_elems x) (dv_elems y))).
  Proof.
    cbn [dense_ops with_defaults v_def vd_add]. unfold dflt_add. cbn [dense_required vr_to_owned vr_add_inplace].
    unfold dv_to_owned. cbn [bind]. rewrite add_inplace_eq. unfold dv_as_slice. cbn [dv_from dv_elems]. reflexivity.
  Qed.
  Lemma wc_add (x y : list S) w : wc (dv_from (comb so (s_add so) x y)) w
    = s_add so (wc (dv_from x) w) (wc (dv_from y) w).
  Proof.
    unfold wcoef, coef, dv_as_slice. cbn [dv_from dv_elems]. rewrite comb_get.
    destruct (slice_get x (windex n w)), (slice_get y (windex n w)); cbn [combine]; ring.
  Qed.
  Lemma scal_elems (x : dvec S) c : vd_scalar_lmultiply (dense_ops so ob) x c
    = Ret (dv_from (map (fun a => s_mul so a c) (dv_elems x))).
  Proof. reflexivity. Qed.
  Lemma wc_scal (x : list S) c w : wc (dv_from (map (fun a => s_mul so a c) x)) w = s_mul so c (wc (dv_from x) w).
  Proof.
    unfold wcoef, coef, dv_as_slice. cbn [dv_from dv_elems]. rewrite slice_get_map.
    destruct (slice_get x (windex n w)); cbn [option_map]; ring.
  Qed.
  Lemma uminus_elems (x : dvec S) : vd_uminus (dense_ops so ob) x = Ret (dv_from (map (s_uminus so) (dv_elems x))).
  Proof. reflexivity. Qed.
  Lemma wc_uminus (x : list S) w : wc (dv_from (map (s_uminus so) x)) w = s_uminus so (wc (dv_from x) w).
  Proof.
    unfold wcoef, coef, dv_as_slice. cbn [dv_from dv_elems]. rewrite slice_get_map.
    destruct (slice_get x (windex n w)); cbn [option_map]; ring.
  Qed.

  Lemma assoc_ok (x y z : dvec S) a b c t : filled n x a -> filled n y b -> filled n z c ->
    1 <= t -> 1 <= a + b -> 1 <= b + c ->
    n ^ (a + 1) < 2 ^ 64 -> n ^ (b + 1) < 2 ^ 64 -> n ^ (c + 1) < 2 ^ 64 -> n ^ (N.min t (a + b + c) + 1) < 2 ^ 64 ->
    exists v, (xy <- alg_multiply so p n x y (Some t) ;; alg_multiply so p n xy z (Some t)) = Ret v
      /\ (yz <- alg_multiply so p n y z (Some t) ;; alg_multiply so p n x yz (Some t)) = Ret v.
  Proof.
    intros Hx Hy Hz Ht Hab Hbc Pa Pb Pc Pm.
    assert (P1 : n ^ (N.min t (a + b) + 1) < 2 ^ 64) by (apply (pow_mono_fits _ (N.min t (a + b + c))); [lia|exact Pm]).
    assert (P2 : n ^ (N.min t (b + c) + 1) < 2 ^ 64) by (apply (pow_mono_fits _ (N.min t (a + b + c))); [lia|exact Pm]).
    destruct (multiply_conv x y a b t Hx Hy ltac:(lia) Pa Pb P1) as (e1 & -> & L1 & W1).
    destruct (multiply_conv y z b c t Hy Hz ltac:(lia) Pb Pc P2) as (e2 & -> & L2 & W2). cbn [bind].
    assert (M1 : N.min t (N.min t (a + b) + c) = N.min t (a + b + c)) by lia.
    assert (M2 : N.min t (a + N.min t (b + c)) = N.min t (a + b + c)) by lia.
    destruct (multiply_conv (dv_from e1) z (N.min t (a + b)) c t L1 Hz) as (e3 & -> & L3 & W3); rewrite ?M1; try assumption; [lia|].
    destruct (multiply_conv x (dv_from e2) a (N.min t (b + c)) t Hx L2) as (e4 & -> & L4 & W4); rewrite ?M2; try assumption; [lia|].
    rewrite M1 in L3. rewrite M2 in L4. exists (dv_from e3). split; [reflexivity|]. f_equal.
    apply owned_ext; [congruence|]. intros w Hw. rewrite (W3 w Hw), (W4 w Hw).
    rewrite (tconv_ext so t (wc x) (wc x) (wc (dv_from e2)) (tconv so t (wc y) (wc z))); [|reflexivity|].
    - rewrite <- tconv_assoc by exact L. apply tconv_ext; [|reflexivity]. intros u v E. symmetry. apply W1.
      rewrite E in Hw. apply word_ok_app in Hw. apply Hw.
    - intros u v E. apply W2. rewrite E in Hw. apply word_ok_app in Hw. apply Hw.
  Qed.
  Lemma comb_filled (x y : dvec S) a b : filled n x a -> filled n y b ->
    filled n (dv_from (comb so (s_add so) (dv_elems x) (dv_elems y))) (N.max a b).
  Proof.
    intros Hx Hy. unfold filled, dv_size in *. cbn [dv_from dv_elems]. rewrite comb_len, Hx, Hy.
    destruct (N.le_ge_cases a b) as [H|H].
    - rewrite (N.max_r (cbS a)) by (apply count_below_mono; lia). rewrite N.max_r by exact H. reflexivity.
    - rewrite (N.max_l (cbS a)) by (apply count_below_mono; lia). rewrite N.max_l by exact H. reflexivity.
  Qed.
  Lemma cbS_max a b : N.max (cbS a) (cbS b) = cbS (N.max a b).
  Proof.
    destruct (N.le_ge_cases a b) as [H|H].
    - rewrite (N.max_r (cbS a)) by (apply count_below_mono; lia). rewrite N.max_r by exact H. reflexivity.
    - rewrite (N.max_l (cbS a)) by (apply count_below_mono; lia). rewrite N.max_l by exact H. reflexivity.
  Qed.
  Lemma distr_l_ok (x x' y : dvec S) a a' b t : filled n x a -> filled n x' a' -> filled n y b ->
    1 <= t -> 1 <= a + b -> 1 <= a' + b ->
    n ^ (a + 1) < 2 ^ 64 -> n ^ (a' + 1) < 2 ^ 64 -> n ^ (b + 1) < 2 ^ 64 ->
    n ^ (N.min t (N.max a a' + b) + 1) < 2 ^ 64 ->
    exists v, (s <- vd_add (dense_ops so ob) x x' ;; alg_multiply so p n s y (Some t)) = Ret v
      /\ (u <- alg_multiply so p n x y (Some t) ;; u' <- alg_multiply so p n x' y (Some t) ;;
          vd_add (dense_ops so ob) u u') = Ret v.
  Proof.
    intros Hx Hx' Hy Ht Hab Hab' Pa Pa' Pb Pm. rewrite add_elems. cbn [bind].
    pose proof (comb_filled x x' a a' Hx Hx') as Hs.
    destruct (multiply_conv _ y (N.max a a') b t Hs Hy ltac:(lia)) as (e1 & -> & L1 & W1); [|exact Pb|exact Pm|].
    { destruct (N.max_spec a a') as [[_ ->]|[_ ->]]; assumption. }
    destruct (multiply_conv x y a b t Hx Hy ltac:(lia) Pa Pb) as (e2 & -> & L2 & W2).
    { apply (pow_mono_fits _ (N.min t (N.max a a' + b))); [lia|exact Pm]. }
    destruct (multiply_conv x' y a' b t Hx' Hy ltac:(lia) Pa' Pb) as (e3 & -> & L3 & W3).
    { apply (pow_mono_fits _ (N.min t (N.max a a' + b))); [lia|exact Pm]. }
    cbn [bind]. rewrite add_elems. exists (dv_from e1). split; [reflexivity|]. f_equal. cbn [dv_from dv_elems].
    apply owned_ext.
    - rewrite comb_len, L1, L2, L3, cbS_max. do 3 f_equal. lia.
    - intros w Hw. rewrite wc_add, (W1 w Hw), (W2 w Hw), (W3 w Hw).
      rewrite (tconv_ext so t (wc (dv_from (comb so (s_add so) (dv_elems x) (dv_elems x')))) (fun u => s_add so (wc x u) (wc x' u)) (wc y) (wc y)); [|intros; apply wc_add|reflexivity].
      symmetry. apply tconv_add_l. exact L.
  Qed.
  Lemma distr_r_ok (x y y' : dvec S) a b b' t : filled n x a -> filled n y b -> filled n y' b' ->
    1 <= t -> 1 <= a + b -> 1 <= a + b' ->
    n ^ (a + 1) < 2 ^ 64 -> n ^ (b + 1) < 2 ^ 64 -> n ^ (b' + 1) < 2 ^ 64 ->
    n ^ (N.min t (a + N.max b b') + 1) < 2 ^ 64 ->
    exists v, (s <- vd_add (dense_ops so ob) y y' ;; alg_multiply so p n x s (Some t)) = Ret v
      /\ (u <- alg_multiply so p n x y (Some t) ;; u' <- alg_multiply so p n x y' (Some t) ;;
          vd_add (dense_ops so ob) u u') = Ret v.
  Proof.
    intros Hx Hy Hy' Ht Hab Hab' Pa Pb Pb' Pm. rewrite add_elems. cbn [bind].
    pose proof (comb_filled y y' b b' Hy Hy') as Hs.
    destruct (multiply_conv x _ a (N.max b b') t Hx Hs ltac:(lia)) as (e1 & -> & L1 & W1); [exact Pa| |exact Pm|].
    { destruct (N.max_spec b b') as [[_ ->]|[_ ->]]; assumption. }
    destruct (multiply_conv x y a b t Hx Hy ltac:(lia) Pa Pb) as (e2 & -> & L2 & W2).
    { apply (pow_mono_fits _ (N.min t (a + N.max b b'))); [lia|exact Pm]. }
    destruct (multiply_conv x y' a b' t Hx Hy' ltac:(lia) Pa Pb') as (e3 & -> & L3 & W3).
    { apply (pow_mono_fits _ (N.min t (a + N.max b b'))); [lia|exact Pm]. }
    cbn [bind]. rewrite add_elems. exists (dv_from e1). split; [reflexivity|]. f_equal. cbn [dv_from dv_elems].
    apply owned_ext.
    - rewrite comb_len, L1, L2, L3, cbS_max. do 3 f_equal. lia.
    - intros w Hw. rewrite wc_add, (W1 w Hw), (W2 w Hw), (W3 w Hw).
      rewrite (tconv_ext so t (wc x) (wc x) (wc (dv_from (comb so (s_add so) (dv_elems y) (dv_elems y')))) (fun u => s_add so (wc y u) (wc y' u))); [|reflexivity|intros; apply wc_add].
      symmetry. apply tconv_add_r. exact L.
  Qed.
  Lemma scal_filled (x : dvec S) c a : filled n x a -> filled n (dv_from (map (fun v => s_mul so v c) (dv_elems x))) a.
  Proof. intros H. unfold filled, dv_size in *. cbn [dv_from dv_elems]. rewrite len_map. exact H. Qed.
  Lemma scal_ok (x y : dvec S) c a b t : filled n x a -> filled n y b -> 1 <= t -> 1 <= a + b ->
    n ^ (a + 1) < 2 ^ 64 -> n ^ (b + 1) < 2 ^ 64 -> n ^ (N.min t (a + b) + 1) < 2 ^ 64 ->
    exists v, (u <- alg_multiply so p n x y (Some t) ;; vd_scalar_lmultiply (dense_ops so ob) u c) = Ret v
      /\ (s <- vd_scalar_lmultiply (dense_ops so ob) x c ;; alg_multiply so p n s y (Some t)) = Ret v
      /\ (s <- vd_scalar_lmultiply (dense_ops so ob) y c ;; alg_multiply so p n x s (Some t)) = Ret v.
  Proof.
    intros Hx Hy Ht Hab Pa Pb Pm. rewrite !scal_elems. cbn [bind].
    destruct (multiply_conv x y a b t Hx Hy ltac:(lia) Pa Pb Pm) as (e1 & -> & L1 & W1). cbn [bind].
    rewrite scal_elems. cbn [dv_from dv_elems].
    destruct (multiply_conv _ y a b t (scal_filled x c a Hx) Hy ltac:(lia) Pa Pb Pm) as (e2 & -> & L2 & W2).
    destruct (multiply_conv x _ a b t Hx (scal_filled y c b Hy) ltac:(lia) Pa Pb Pm) as (e3 & -> & L3 & W3).
    eexists. split; [reflexivity|]. split; f_equal.
    - apply owned_ext; [rewrite len_map; congruence|]. intros w Hw. rewrite wc_scal, (W1 w Hw), (W2 w Hw).
      rewrite <- tconv_scal_l by exact L. apply tconv_ext; [intros; apply wc_scal|reflexivity].
    - apply owned_ext; [rewrite len_map; congruence|]. intros w Hw. rewrite wc_scal, (W1 w Hw), (W3 w Hw).
      rewrite <- tconv_scal_r by exact L. apply tconv_ext; [reflexivity|intros; apply wc_scal].
  Qed.
  (** the unit *)
  Lemma unit_filled : filled n (dv_from [s_one so]) 0.
  Proof. reflexivity. Qed.
  Lemma wc_unit w : word_ok n w -> wc (dv_from [s_one so]) w = unit_fun so w.
  Proof.
    intros Hw. destruct w as [|a w]; [reflexivity|].
    apply (wcoef_beyond so n Hn _ 0); [apply filled_degree; [exact Hn|exact unit_filled]|exact Hw|]. rewrite len_cons. lia.
  Qed.
  Lemma wc_trunc (x : dvec S) t w : wc (dv_from (firstn (N.to_nat (cbS t)) (dv_elems x))) w
    = if windex n w <? cbS t then wc x w else s_zero so.
  Proof.
    unfold wcoef, coef, dv_as_slice. cbn [dv_from dv_elems]. rewrite slice_get_firstn.
    destruct (windex n w <? cbS t); reflexivity.
  Qed.
  Lemma unit_ok (x : dvec S) a t : filled n x a -> 1 <= t -> 1 <= a -> n ^ (a + 1) < 2 ^ 64 ->
    alg_multiply so p n (dv_from [s_one so]) x (Some t) = Ret (dv_from (firstn (N.to_nat (cbS t)) (dv_elems x)))
    /\ alg_multiply so p n x (dv_from [s_one so]) (Some t) = Ret (dv_from (firstn (N.to_nat (cbS t)) (dv_elems x))).
  Proof.
    intros Hx Ht Ha Pa.
    assert (P0 : n ^ (0 + 1) < 2 ^ 64) by (apply (pow_mono_fits 0 a); [lia|exact Pa]).
    assert (Pm : n ^ (N.min t a + 1) < 2 ^ 64) by (apply (pow_mono_fits _ a); [lia|exact Pa]).
    assert (Ls : len (firstn (N.to_nat (cbS t)) (dv_elems x)) = cbS (N.min t a)).
    { unfold filled, dv_size in Hx. destruct (N.le_ge_cases t a) as [H|H].
      - rewrite len_firstn by (rewrite Hx; apply count_below_mono; lia). rewrite N.min_l by exact H. reflexivity.
      - rewrite firstn_all2.
        + rewrite N.min_r by exact H. exact Hx.
        + pose proof (count_below_mono n (Datatypes.S (N.to_nat a)) (Datatypes.S (N.to_nat t)) ltac:(lia)). unfold len in Hx. lia. }
    assert (Hif : forall w, word_ok n w -> (windex n w <? cbS t) = (len w <=? t)).
    { intros w Hw. pose proof (below_iff n w (Datatypes.S (N.to_nat t)) ltac:(lia) Hw) as B.
      destruct (N.ltb_spec (windex n w) (cbS t)), (N.leb_spec (len w) t); unfold len in *; try reflexivity; lia. }
    split.
    - destruct (multiply_conv _ x 0 a t unit_filled Hx) as (e & -> & Le & We); try assumption; [lia|].
      rewrite N.add_0_l in Le. f_equal. apply owned_ext; [congruence|]. intros w Hw.
      rewrite (We w Hw), wc_trunc, (Hif w Hw). unfold tconv. destruct (len w <=? t); [|reflexivity].
      rewrite (conv_ext so _ (unit_fun so) (wc x) (wc x)); [apply conv_unit_l; exact L| |reflexivity].
      intros u v E. apply wc_unit. rewrite E in Hw. apply word_ok_app in Hw. apply Hw.
    - destruct (multiply_conv x _ a 0 t Hx unit_filled) as (e & -> & Le & We); rewrite ?N.add_0_r in *; try assumption; [lia|].
      f_equal. apply owned_ext; [congruence|]. intros w Hw.
      rewrite (We w Hw), wc_trunc, (Hif w Hw). unfold tconv. destruct (len w <=? t); [|reflexivity].
      rewrite (conv_ext so (wc x) (wc x) _ (unit_fun so)); [apply conv_unit_r; exact L|reflexivity|].
      intros u v E. apply wc_unit. rewrite E in Hw. apply word_ok_app in Hw. apply Hw.
  Qed.
  (** basis elements *)
  Lemma from_key_elems w : n < 2 ^ 32 -> fits n w -> n ^ (len w + 1) < 2 ^ 64 ->
    exists e, vr_from_key (dense_ops so ob) (key_of n w) = Ret (dv_from e) /\ len e = cbS (len w)
      /\ forall u, word_ok n u -> wc (dv_from e) u = delta so w u.
  Proof.
    intros Hn32 F P. cbn [dense_ops with_defaults v_req dense_required vr_from_key].
    unfold dv_from_key, dv_from_key_scalar. cbn [tensor_basis ob_dim_for_key ob_key_to_index].
    rewrite dim_for_key_ok by assumption. cbn [bind]. rewrite key_to_index_ok by assumption. cbn [bind].
    cbn [dv_from_dimension dv_from dv_as_mut dv_kind dv_elems]. unfold set_unchecked. rewrite len_repeat, N2Nat.id.
    destruct F as [Fw Fl]. pose proof (windex_upper n w Fw) as U.
    destruct (N.ltb_spec (windex n w) (count_below n (Datatypes.S (length w)))); [|lia]. cbn [bind].
    unfold dv_write. cbn [dv_kind dv_lender]. eexists. split; [reflexivity|]. rewrite len_to_nat. split.
    - rewrite len_list_set, len_repeat, N2Nat.id. reflexivity.
    - intros u Hu. unfold wcoef, coef, dv_as_slice. cbn [dv_from dv_elems].
      rewrite slice_get_list_set by (rewrite len_repeat; lia). rewrite slice_get_repeat. unfold delta.
      destruct (word_eqb_spec w u) as [->|Hne]; [rewrite N.eqb_refl; reflexivity|].
      destruct (N.eqb_spec (windex n u) (windex n w)) as [E|_].
      + exfalso. apply Hne. symmetry. apply (windex_inj n); assumption.
      + match goal with |- context [if ?b then _ else _] => destruct b end; reflexivity.
  Qed.
End Products.

(** * C31 *)
Lemma c31_basis_product : forall (S R : Type) (so : scalar_ops S R) (p : profile) (n t : N) (u v : word)
    (k1 k2 k : tkey),
  ring_laws so -> 2 <= n < 2 ^ 32 -> word_ok n u -> word_ok n v ->
  tk_from_letters p n u = Ret k1 -> tk_from_letters p n v = Ret k2 -> tk_concatenate p n k1 k2 = Ret k ->
  1 <= len u + len v <= t -> len u + len v <= max_depth n -> n ^ (len u + len v + 1) < 2 ^ 64 ->
  (x <- vr_from_key (dense_ops so (tensor_basis p n)) k1 ;;
   y <- vr_from_key (dense_ops so (tensor_basis p n)) k2 ;; alg_multiply so p n x y (Some t))
  = vr_from_key (dense_ops so (tensor_basis p n)) k
  /\ returns (vr_from_key (dense_ops so (tensor_basis p n)) k).
Proof.
  intros S R so p n t u v k1 k2 k L Hn Hu Hv E1 E2 E Ht Hd P.
  assert (Hn2 : 2 <= n) by lia. apply from_letters_inv in E1, E2; try assumption; try lia.
  destruct E1 as [F1 ->], E2 as [F2 ->].
  assert (F : fits n (u ++ v)).
  { split; [apply word_ok_app; split; assumption|]. rewrite len_app. lia. }
  assert (k = key_of n (u ++ v)) as ->.
  { destruct (N.lt_ge_cases n (2 ^ 31)) as [H31|H31].
    - rewrite concatenate_ok in E by (try lia; try assumption; left; exact H31). congruence.
    - destruct u as [|a u]; [|rewrite concatenate_ok in E by (try lia; try assumption; right; discriminate); congruence].
      destruct (N.eq_dec (len v) 2) as [H2|H2].
      + rewrite concatenate_corner in E by (assumption || lia). cbn [app]. destruct (overflow_checks p); [discriminate|congruence].
      + rewrite (concatenate_gen p n [] v) in E; [congruence|lia|exact F|].
        rewrite (max_depth_32 n) in Hd by lia. rewrite (bpl_ge_32 n) by lia. change (len (@nil N)) with 0 in Hd. lia. }
  assert (P1 : n ^ (len u + 1) < 2 ^ 64) by (apply (pow_mono_fits n Hn2 _ (len u + len v)); [lia|exact P]).
  assert (P2 : n ^ (len v + 1) < 2 ^ 64) by (apply (pow_mono_fits n Hn2 _ (len u + len v)); [lia|exact P]).
  destruct (from_key_elems so p n Hn2 u ltac:(lia) F1 P1) as (e1 & -> & L1 & W1).
  destruct (from_key_elems so p n Hn2 v ltac:(lia) F2 P2) as (e2 & -> & L2 & W2).
  destruct (from_key_elems so p n Hn2 (u ++ v) ltac:(lia) F) as (e3 & -> & L3 & W3); [rewrite len_app; exact P|].
  cbn [bind]. split; [|eexists; reflexivity].
  assert (M : N.min t (len u + len v) = len u + len v) by lia.
  destruct (multiply_conv so L p n Hn2 (dv_from e1) (dv_from e2) (len u) (len v) t L1 L2) as (e & -> & Le & We);
    rewrite ?M; try assumption; [lia|]. f_equal.
  apply (owned_ext so n Hn2); [rewrite Le, L3, M, len_app; reflexivity|].
  intros w Hw. rewrite (We w Hw), (W3 w Hw). unfold tconv.
  rewrite (conv_ext so (wcoef so n (dv_from e1)) (delta so u) (wcoef so n (dv_from e2)) (delta so v)).
  - rewrite conv_delta by exact L. destruct (N.leb_spec (len w) t) as [H|H]; [reflexivity|].
    unfold delta. destruct (word_eqb_spec (u ++ v) w) as [Ew|]; [|reflexivity].
    rewrite <- Ew, len_app in H. lia.
  - intros a b Eab. apply W1. rewrite Eab in Hw. apply word_ok_app in Hw. apply Hw.
  - intros a b Eab. apply W2. rewrite Eab in Hw. apply word_ok_app in Hw. apply Hw.
Qed.
Lemma c31_truncated : forall (S R : Type) (so : scalar_ops S R) (p : profile) (n t : N) (u v : word)
    (k1 k2 : tkey),
  ring_laws so -> 2 <= n < 2 ^ 32 -> word_ok n u -> word_ok n v ->
  tk_from_letters p n u = Ret k1 -> tk_from_letters p n v = Ret k2 ->
  1 <= t < len u + len v ->
  n ^ (len u + 1) < 2 ^ 64 -> n ^ (len v + 1) < 2 ^ 64 -> n ^ (t + 1) < 2 ^ 64 ->
  exists z,
    (x <- vr_from_key (dense_ops so (tensor_basis p n)) k1 ;;
     y <- vr_from_key (dense_ops so (tensor_basis p n)) k2 ;; alg_multiply so p n x y (Some t)) = Ret z
    /\ filled n z t /\ forall w, word_ok n w -> wcoef so n z w = s_zero so.
Proof.
  intros S R so p n t u v k1 k2 L Hn Hu Hv E1 E2 Ht P1 P2 Pt.
  assert (Hn2 : 2 <= n) by lia. apply from_letters_inv in E1, E2; try assumption; try lia.
  destruct E1 as [F1 ->], E2 as [F2 ->].
  destruct (from_key_elems so p n Hn2 u ltac:(lia) F1 P1) as (e1 & -> & L1 & W1).
  destruct (from_key_elems so p n Hn2 v ltac:(lia) F2 P2) as (e2 & -> & L2 & W2).
  cbn [bind]. assert (M : N.min t (len u + len v) = t) by lia.
  destruct (multiply_conv so L p n Hn2 (dv_from e1) (dv_from e2) (len u) (len v) t L1 L2) as (e & -> & Le & We);
    rewrite ?M; try assumption; [lia|]. rewrite M in Le.
  eexists. split; [reflexivity|]. split; [exact Le|]. intros w Hw. rewrite (We w Hw). unfold tconv.
  destruct (N.leb_spec (len w) t) as [H|H]; [|reflexivity].
  rewrite (conv_ext so (wcoef so n (dv_from e1)) (delta so u) (wcoef so n (dv_from e2)) (delta so v)).
  - rewrite conv_delta by exact L. unfold delta. destruct (word_eqb_spec (u ++ v) w) as [Ew|]; [|reflexivity].
    rewrite <- Ew, len_app in H. lia.
  - intros a b Eab. apply W1. rewrite Eab in Hw. apply word_ok_app in Hw. apply Hw.
  - intros a b Eab. apply W2. rewrite Eab in Hw. apply word_ok_app in Hw. apply Hw.
Qed.
Example c31_example :
  let key l := match tk_from_letters dev 2 l with Ret k => k | _ => tk_new end in
  let from_key k := vr_from_key (dense_ops qc_ops (tensor_basis dev 2)) k in
  (x <- from_key (key [2]) ;; y <- from_key (key [1]) ;; z <- alg_multiply qc_ops dev 2 x y (Some 2) ;; Ret (vals z))
  = Ret (qz [0; 0; 0; 0; 0; 1; 0]%Z)
  /\ (x <- from_key (key [2; 1]) ;; Ret (vals x)) = Ret (qz [0; 0; 0; 0; 0; 1; 0]%Z)
  /\ tk_concatenate dev 2 (key [2]) (key [1]) = Ret (key [2; 1])
  /\ (x <- from_key (key [2]) ;; y <- from_key (key [1]) ;; z <- alg_multiply qc_ops dev 2 x y (Some 1) ;; Ret (vals z))
     = Ret (qz [0; 0; 0]%Z).
Proof. repeat split; vm_compute; reflexivity. Qed.

(** * C32 *)
Lemma c32_associative : forall (S R : Type) (so : scalar_ops S R) (p : profile) (n t : N) (x y z : dvec S) (a b c : N),
  ring_laws so -> 2 <= n -> filled n x a -> filled n y b -> filled n z c ->
  1 <= t -> 1 <= a + b -> 1 <= b + c ->
  n ^ (a + 1) < 2 ^ 64 -> n ^ (b + 1) < 2 ^ 64 -> n ^ (c + 1) < 2 ^ 64 -> n ^ (N.min t (a + b + c) + 1) < 2 ^ 64 ->
  exists v, (xy <- alg_multiply so p n x y (Some t) ;; alg_multiply so p n xy z (Some t)) = Ret v
    /\ (yz <- alg_multiply so p n y z (Some t) ;; alg_multiply so p n x yz (Some t)) = Ret v.
Proof. intros. eapply assoc_ok; eassumption. Qed.
Lemma c32_bilinear : forall (S R : Type) (so : scalar_ops S R) (p : profile) (n t : N) (x x' y y' : dvec S)
    (s : S) (a a' b b' : N),
  let vo := dense_ops so (tensor_basis p n) in
  ring_laws so -> 2 <= n -> filled n x a -> filled n x' a' -> filled n y b -> filled n y' b' ->
  1 <= t -> 1 <= a + b -> 1 <= a' + b -> 1 <= a + b' ->
  n ^ (a + 1) < 2 ^ 64 -> n ^ (a' + 1) < 2 ^ 64 -> n ^ (b + 1) < 2 ^ 64 -> n ^ (b' + 1) < 2 ^ 64 ->
  n ^ (N.min t (N.max a a' + N.max b b') + 1) < 2 ^ 64 ->
  (exists v, (u <- vd_add vo x x' ;; alg_multiply so p n u y (Some t)) = Ret v
     /\ (u <- alg_multiply so p n x y (Some t) ;; u' <- alg_multiply so p n x' y (Some t) ;; vd_add vo u u') = Ret v)
  /\ (exists v, (u <- vd_add vo y y' ;; alg_multiply so p n x u (Some t)) = Ret v
     /\ (u <- alg_multiply so p n x y (Some t) ;; u' <- alg_multiply so p n x y' (Some t) ;; vd_add vo u u') = Ret v)
  /\ (exists v, (u <- alg_multiply so p n x y (Some t) ;; vd_scalar_lmultiply vo u s) = Ret v
     /\ (u <- vd_scalar_lmultiply vo x s ;; alg_multiply so p n u y (Some t)) = Ret v
     /\ (u <- vd_scalar_lmultiply vo y s ;; alg_multiply so p n x u (Some t)) = Ret v).
Proof.
  intros S R so p n t x x' y y' s a a' b b' vo L Hn Hx Hx' Hy Hy' Ht H1 H2 H3 Pa Pa' Pb Pb' Pm.
  split; [|split].
  - eapply (distr_l_ok so L p n Hn x x' y a a' b t); try eassumption.
    apply (pow_mono_fits n Hn _ (N.min t (N.max a a' + N.max b b'))); [lia|exact Pm].
  - eapply (distr_r_ok so L p n Hn x y y' a b b' t); try eassumption.
    apply (pow_mono_fits n Hn _ (N.min t (N.max a a' + N.max b b'))); [lia|exact Pm].
  - eapply (scal_ok so L p n Hn x y s a b t); try eassumption.
    apply (pow_mono_fits n Hn _ (N.min t (N.max a a' + N.max b b'))); [lia|exact Pm].
Qed.
(** multiplying by the unit truncates, and does nothing else *)
Lemma c32_unit : forall (S R : Type) (so : scalar_ops S R) (p : profile) (n t : N) (x : dvec S) (a : N),
  ring_laws so -> 2 <= n < 2 ^ 32 -> filled n x a -> 1 <= t -> 1 <= a -> n ^ (a + 1) < 2 ^ 64 ->
  exists u v, vr_from_key (dense_ops so (tensor_basis p n)) tk_new = Ret u
    /\ alg_multiply so p n u x (Some t) = Ret v /\ alg_multiply so p n x u (Some t) = Ret v
    /\ dv_kind v = Owned
    /\ dv_elems v = firstn (N.to_nat (count_below n (Datatypes.S (N.to_nat t)))) (dv_elems x)
    /\ (a <= t -> dv_elems v = dv_elems x).
Proof.
  intros S R so p n t x a L Hn Hx Ht Ha Pa. assert (Hn2 : 2 <= n) by lia.
  destruct (unit_ok so L p n Hn2 x a t Hx Ht Ha Pa) as [E1 E2].
  eexists. eexists. split; [apply from_key_new; exact Hn|]. split; [exact E1|]. split; [exact E2|].
  split; [reflexivity|]. split; [reflexivity|]. intros Hat. cbn [dv_from dv_elems]. apply firstn_all2.
  unfold filled, dv_size, len in Hx.
  pose proof (count_below_mono n (Datatypes.S (N.to_nat a)) (Datatypes.S (N.to_nat t)) ltac:(lia)). lia.
Qed.
Example c32_example :
  let x := dv_from [q 1; q 2; q 3] in let y := dv_from [q 5; q 7; q 11] in let z := dv_from [q 0; q 1; q 1] in
  (xy <- alg_multiply qc_ops dev 2 x y (Some 2) ;; v <- alg_multiply qc_ops dev 2 xy z (Some 2) ;; Ret (vals v))
  = Ret (qz [0; 5; 5; 17; 17; 26; 26]%Z)
  /\ (yz <- alg_multiply qc_ops dev 2 y z (Some 2) ;; v <- alg_multiply qc_ops dev 2 x yz (Some 2) ;; Ret (vals v))
  = Ret (qz [0; 5; 5; 17; 17; 26; 26]%Z)
  /\ filled 2 x 1 /\ ring_laws qc_ops.
Proof. split; [vm_compute; reflexivity|]. split; [vm_compute; reflexivity|]. split; [reflexivity|exact qc_ring]. Qed.

(** * C33 *)
Lemma c33_commutator : forall (S R : Type) (so : scalar_ops S R) (p : profile) (n t : N) (x y : dvec S) (a b : N),
  ring_laws so -> 2 <= n -> filled n x a -> filled n y b -> 1 <= t -> 1 <= a + b ->
  n ^ (a + 1) < 2 ^ 64 -> n ^ (b + 1) < 2 ^ 64 -> n ^ (N.min t (a + b) + 1) < 2 ^ 64 ->
  exists z, alg_commutator so p n x y (Some t) = Ret z /\ filled n z (N.min t (a + b))
    /\ (exists xy yx, alg_multiply so p n x y (Some t) = Ret xy /\ alg_multiply so p n y x (Some t) = Ret yx
          /\ vd_sub (dense_ops so (tensor_basis p n)) xy yx = Ret z)
    /\ forall w, word_ok n w -> wcoef so n z w
         = s_sub so (tconv so t (wcoef so n x) (wcoef so n y) w) (tconv so t (wcoef so n y) (wcoef so n x) w).
Proof.
  intros S R so p n t x y a b L Hn Hx Hy Ht Hab Pa Pb Pm.
  destruct (commutator_conv so L p n Hn x y a b t Hx Hy ltac:(lia) Pa Pb Pm) as (e & -> & Le & We).
  exists (dv_from e). split; [reflexivity|]. split; [exact Le|]. split; [|exact We].
  destruct (multiply_conv so L p n Hn x y a b t Hx Hy ltac:(lia) Pa Pb Pm) as (e1 & -> & L1 & W1).
  destruct (multiply_conv so L p n Hn y x b a t Hy Hx ltac:(lia) Pb Pa) as (e2 & -> & L2 & W2).
  { rewrite (N.add_comm b a). exact Pm. }
  rewrite (N.add_comm b a) in L2.
  do 2 eexists. split; [reflexivity|]. split; [reflexivity|].
  cbn [dense_ops with_defaults v_def vd_sub]. unfold dflt_sub. cbn [dense_required vr_to_owned vr_sub_inplace].
  unfold dv_to_owned. cbn [bind]. rewrite sub_inplace_eq. unfold dv_as_slice. cbn [dv_from dv_elems].
  change (after ?v ?g ?l) with (dv_from l). f_equal. apply (owned_ext so n Hn); [rewrite comb_len; lia|].
  intros w Hw. rewrite (We w Hw). unfold bracket. rewrite <- (W1 w Hw), <- (W2 w Hw).
  unfold wcoef, coef, dv_as_slice. cbn [dv_from dv_elems]. rewrite comb_get.
  destruct (slice_get e1 (windex n w)), (slice_get e2 (windex n w)); cbn [combine]; try reflexivity.
  - symmetry. apply r_sub_0_r. exact L.
  - symmetry. apply r_sub_0_r. exact L.
Qed.
Lemma c33_antisymmetric : forall (S R : Type) (so : scalar_ops S R) (p : profile) (n t : N) (x y : dvec S) (a b : N),
  ring_laws so -> 2 <= n -> filled n x a -> filled n y b -> 1 <= t -> 1 <= a + b ->
  n ^ (a + 1) < 2 ^ 64 -> n ^ (b + 1) < 2 ^ 64 -> n ^ (N.min t (a + b) + 1) < 2 ^ 64 ->
  exists z, alg_commutator so p n y x (Some t) = Ret z
    /\ (v <- alg_commutator so p n x y (Some t) ;; vd_uminus (dense_ops so (tensor_basis p n)) v) = Ret z.
Proof.
  intros S R so p n t x y a b L Hn Hx Hy Ht Hab Pa Pb Pm.
  destruct (commutator_conv so L p n Hn x y a b t Hx Hy ltac:(lia) Pa Pb Pm) as (e & -> & Le & We).
  destruct (commutator_conv so L p n Hn y x b a t Hy Hx ltac:(lia) Pb Pa) as (e' & -> & Le' & We').
  { rewrite (N.add_comm b a). exact Pm. }
  cbn [bind]. rewrite uminus_elems. eexists. split; [reflexivity|]. f_equal. cbn [dv_from dv_elems].
  apply (owned_ext so n Hn); [rewrite len_map, Le, Le', (N.add_comm b a); reflexivity|].
  intros w Hw. rewrite (wc_uminus so L n), (We w Hw), (We' w Hw). unfold bracket.
  rewrite !(l_sub_def so L), (r_opp_add so L), (r_opp_opp so L). apply (l_add_comm so L).
Qed.
Lemma c33_self : forall (S R : Type) (so : scalar_ops S R) (p : profile) (n t : N) (x : dvec S) (a : N),
  ring_laws so -> 2 <= n -> filled n x a -> 1 <= t -> 1 <= a ->
  n ^ (a + 1) < 2 ^ 64 -> n ^ (N.min t (a + a) + 1) < 2 ^ 64 ->
  exists z, alg_commutator so p n x x (Some t) = Ret z /\ forall w, word_ok n w -> wcoef so n z w = s_zero so.
Proof.
  intros S R so p n t x a L Hn Hx Ht Ha Pa Pm.
  destruct (commutator_conv so L p n Hn x x a a t Hx Hx ltac:(lia) Pa Pa Pm) as (e & -> & Le & We).
  eexists. split; [reflexivity|]. intros w Hw. rewrite (We w Hw). apply (r_sub_diag so L).
Qed.
Lemma c33_jacobi : forall (S R : Type) (so : scalar_ops S R) (p : profile) (n t : N) (x y z : dvec S) (a b c : N),
  let vo := dense_ops so (tensor_basis p n) in
  let br u v := alg_commutator so p n u v (Some t) in
  ring_laws so -> 2 <= n -> filled n x a -> filled n y b -> filled n z c ->
  1 <= t -> 1 <= a + b -> 1 <= b + c -> 1 <= c + a ->
  n ^ (a + 1) < 2 ^ 64 -> n ^ (b + 1) < 2 ^ 64 -> n ^ (c + 1) < 2 ^ 64 -> n ^ (N.min t (a + b + c) + 1) < 2 ^ 64 ->
  exists s, (yz <- br y z ;; x_yz <- br x yz ;; zx <- br z x ;; y_zx <- br y zx ;;
             xy <- br x y ;; z_xy <- br z xy ;; s1 <- vd_add vo x_yz y_zx ;; vd_add vo s1 z_xy) = Ret s
    /\ forall w, word_ok n w -> wcoef so n s w = s_zero so.
Proof.
  intros S R so p n t x y z a b c vo br L Hn Hx Hy Hz Ht Hab Hbc Hca Pa Pb Pc Pm. unfold br, vo. clear br vo.
  assert (G : forall d, d <= N.min t (a + b + c) -> n ^ (d + 1) < 2 ^ 64).
  { intros d Hd. apply (pow_mono_fits n Hn _ (N.min t (a + b + c))); assumption. }
  assert (N1 : forall (u v w : dvec S) i j k, filled n u i -> filled n v j -> filled n w k -> i + j + k = a + b + c ->
    1 <= j + k -> n ^ (i + 1) < 2 ^ 64 -> n ^ (j + 1) < 2 ^ 64 -> n ^ (k + 1) < 2 ^ 64 ->
    exists e1 e2, alg_commutator so p n v w (Some t) = Ret (dv_from e1)
      /\ alg_commutator so p n u (dv_from e1) (Some t) = Ret (dv_from e2)
      /\ forall x, word_ok n x -> wcoef so n (dv_from e2) x
           = bracket so t (wcoef so n u) (bracket so t (wcoef so n v) (wcoef so n w)) x).
  { intros u v w i j k Hu Hv Hw Eijk Hjk Pi Pj Pk.
    destruct (commutator_conv so L p n Hn v w j k t Hv Hw ltac:(lia) Pj Pk ltac:(apply G; lia)) as (e1 & E1 & L1 & W1).
    destruct (commutator_conv so L p n Hn u (dv_from e1) i (N.min t (j + k)) t Hu L1 ltac:(lia) Pi
                ltac:(apply G; lia) ltac:(apply G; lia)) as (e2 & E2 & L2 & W2).
    exists e1, e2. split; [exact E1|]. split; [exact E2|]. intros o Ho. rewrite (W2 o Ho). unfold bracket at 1 2.
    f_equal; apply tconv_ext; try reflexivity; intros p1 p2 E; apply W1; rewrite E in Ho; apply word_ok_app in Ho; apply Ho. }
  destruct (N1 x y z a b c) as (e1 & f1 & -> & E1 & W1); try assumption; try lia. cbn [bind]. rewrite E1. cbn [bind].
  destruct (N1 y z x b c a) as (e2 & f2 & -> & E2 & W2); try assumption; try lia. cbn [bind]. rewrite E2. cbn [bind].
  destruct (N1 z x y c a b) as (e3 & f3 & -> & E3 & W3); try assumption; try lia. cbn [bind]. rewrite E3. cbn [bind].
  rewrite !(add_elems so p n). cbn [bind]. rewrite (add_elems so p n). eexists. split; [reflexivity|].
  cbn [dv_from dv_elems]. intros w Hw. rewrite !(wc_add so L n), (W1 w Hw), (W2 w Hw), (W3 w Hw).
  apply jacobi. exact L.
Qed.
Example c33_example :
  let x := dv_from [q 0; q 1; q 0] in let y := dv_from [q 0; q 0; q 1] in
  (z <- alg_commutator qc_ops dev 2 x y (Some 2) ;; Ret (vals z)) = Ret (qz [0; 0; 0; 0; 1; -1; 0]%Z)
  /\ (z <- alg_commutator qc_ops release 2 y x (Some 2) ;; Ret (vals z)) = Ret (qz [0; 0; 0; 0; -1; 1; 0]%Z).
Proof. split; vm_compute; reflexivity. Qed.

(** * C34 *)
Lemma never_impl {S R} (so : scalar_ops S R) p n self lhs rhs func z :
  multiply_and_add_into_impl so p n self lhs rhs func None <> Ret z.
Proof.
  unfold multiply_and_add_into_impl. destruct (dv_degree _ lhs); cbn [bind]; try discriminate.
  destruct (dv_degree _ rhs); cbn [bind product_degree]; discriminate.
Qed.
Lemma never_into {S R} (so : scalar_ops S R) p n self rhs func z :
  multiply_into_impl so p n self rhs func None <> Ret z.
Proof.
  unfold multiply_into_impl. destruct (dv_degree _ self); cbn [bind]; try discriminate.
  destruct (dv_degree _ rhs); cbn [bind product_degree]; discriminate.
Qed.
(** no operands at all make a product without a truncation degree return *)
Lemma c34_none_never_returns : forall (S R : Type) (so : scalar_ops S R) (p : profile) (n : N)
    (self x y : dvec S) (s : S) (r : R),
  ~ returns (alg_multiply so p n x y None) /\ ~ returns (alg_multiply_inplace so p n x y None)
  /\ ~ returns (alg_add_mul so p n self x y None) /\ ~ returns (alg_sub_mul so p n self x y None)
  /\ ~ returns (alg_commutator so p n x y None)
  /\ ~ returns (alg_mul_scal_lprod so p n x y s None) /\ ~ returns (alg_mul_scal_rprod so p n x y s None)
  /\ ~ returns (alg_mul_rat_ldiv so p n x y r None) /\ ~ returns (alg_mul_rat_rdiv so p n x y s None).
Proof.
  intros S R so p n self x y s r. repeat split; intros [z E].
  all: try exact (never_impl so p n _ _ _ _ _ E); try exact (never_into so p n _ _ _ _ E).
  unfold alg_commutator, alg_add_mul in E.
  destruct (multiply_and_add_into_impl so p n dv_new x y (fun v => v) None) eqn:E1; cbn [bind] in E; try discriminate.
  exact (never_impl so p n _ _ _ _ _ E1).
Qed.
(** it is a panic whenever the degrees of the operands are computed without overflow *)
Lemma c34_none_panics : forall (S R : Type) (so : scalar_ops S R) (p : profile) (n : N)
    (self x y : dvec S) (s : S) (r : R) (a b : N),
  2 <= n -> has_degree n x a -> has_degree n y b -> n ^ (a + 1) < 2 ^ 64 -> n ^ (b + 1) < 2 ^ 64 ->
  alg_multiply so p n x y None = Panic /\ alg_multiply_inplace so p n x y None = Panic
  /\ alg_add_mul so p n self x y None = Panic /\ alg_sub_mul so p n self x y None = Panic
  /\ alg_commutator so p n x y None = Panic
  /\ alg_mul_scal_lprod so p n x y s None = Panic /\ alg_mul_scal_rprod so p n x y s None = Panic
  /\ alg_mul_rat_ldiv so p n x y r None = Panic /\ alg_mul_rat_rdiv so p n x y s None = Panic.
Proof.
  intros S R so p n self x y s r a b Hn Hx Hy Pa Pb.
  assert (G : forall self f, multiply_and_add_into_impl so p n self x y f None = Panic).
  { intros. unfold multiply_and_add_into_impl.
    rewrite (degree_ok p n Hn x a Hx Pa), (degree_ok p n Hn y b Hy Pb). reflexivity. }
  assert (G' : forall f, multiply_into_impl so p n x y f None = Panic).
  { intros. unfold multiply_into_impl.
    rewrite (degree_ok p n Hn x a Hx Pa), (degree_ok p n Hn y b Hy Pb). reflexivity. }
  repeat split; try apply G; try apply G'. unfold alg_commutator, alg_add_mul. rewrite G. reflexivity.
Qed.
(** when an out-of-place product with Some(t) returns, the coefficients of words longer than t are those from before *)
Lemma c34_above_degree_partial : forall (S R : Type) (so : scalar_ops S R) (p : profile) (n : N)
    (self x y z : dvec S) (s l r t : N),
  let m := N.min t (l + r) in
  2 <= n -> has_degree n self s -> has_degree n x l -> has_degree n y r ->
  n ^ (s + 1) < 2 ^ 64 -> n ^ (l + 1) < 2 ^ 64 -> n ^ (r + 1) < 2 ^ 64 -> n ^ (m + 1) < 2 ^ 64 ->
  (alg_add_mul so p n self x y (Some t) = Ret z \/ alg_sub_mul so p n self x y (Some t) = Ret z ->
     forall w, word_ok n w -> t < len w -> wcoef so n z w = wcoef so n self w)
  /\ (alg_multiply so p n x y (Some t) = Ret z -> forall w, word_ok n w -> t < len w -> wcoef so n z w = s_zero so).
Proof.
  intros S R so p n self x y z s l r t m Hn Hs Hl Hr Ps Pl Pr Pm.
  assert (G : forall self s func, has_degree n self s -> n ^ (s + 1) < 2 ^ 64 ->
    multiply_and_add_into_impl so p n self x y func (Some t) = Ret z ->
    forall w, word_ok n w -> t < len w -> wcoef so n z w = wcoef so n self w).
  { clear self s Hs Ps. intros self s func Hs Ps E w Hw Ht.
    assert (D : forall a b, (a <= b)%N \/ ~ (a <= b)%N) by (intros a b; lia).
    assert (safe : (s < m \/ stored_to n self m) /\ stored_to n x (N.min m l) /\ stored_to n y (N.min m r)).
    { destruct (D (count_below n (Datatypes.S (N.to_nat (N.min m l)))) (dv_size x)) as [D1|D1];
      destruct (D (count_below n (Datatypes.S (N.to_nat (N.min m r)))) (dv_size y)) as [D2|D2];
      destruct (N.lt_ge_cases s m) as [D3|D3];
      destruct (D (count_below n (Datatypes.S (N.to_nat m))) (dv_size self)) as [D4|D4];
      try (split; [|split]; try assumption; (left; assumption) || (right; assumption));
      exfalso; rewrite (mul_add_UB so p n Hn func self x y s l r t) in E; try assumption; try discriminate E;
      unfold stored_to; fold m; lia. }
    destruct safe as (H1 & H2 & H3).
    destruct (mul_add_ok so p n Hn func self x y s l r t Hs Hl Hr Ps Pl Pr Pm H1 H2 H3) as (e & E' & _ & W).
    rewrite E' in E. injection E as <-. rewrite wc_after, (W w Hw). destruct (N.leb_spec (len w) (N.min t (l + r))); [lia|reflexivity]. }
  split.
  - intros [E|E]; [exact (G self s _ Hs Ps E)|exact (G self s _ Hs Ps E)].
  - intros E w Hw Ht. rewrite (G dv_new 0 _ (new_degree n) (pow_1_fits n l Hn Pl) E w Hw Ht). apply wc_new.
Qed.
(** in place, a word of length 2 is overwritten although the truncation degree is 1 *)
Lemma c34_inplace_refuted : exists (x y : dvec Qc) (w : word), filled 2 x 2 /\ filled 2 y 1 /\ word_ok 2 w /\ len w = 2
  /\ this (wcoef qc_ops 2 x w) = (1 # 1)%Q
  /\ forall p, (z <- alg_multiply_inplace qc_ops p 2 x y (Some 1) ;; Ret (this (wcoef qc_ops 2 z w))) = Ret (12 # 1)%Q.
Proof.
  exists (dv_from (map q [1; 2; 3; 1; 1; 1; 1]%Z)), (dv_from (map q [5; 7; 11]%Z)), [1; 1].
  split; [reflexivity|]. split; [reflexivity|]. split; [repeat constructor; lia|]. split; [reflexivity|].
  split; [vm_compute; reflexivity|]. intros [[] []]; vm_compute; reflexivity.
Qed.
Example c34_example :
  alg_multiply qc_ops dev 2 (dv_from [q 1; q 2; q 3]) (dv_from [q 5]) None = Panic
  /\ (z <- alg_multiply_inplace qc_ops dev 2 (dv_from (map q [1; 2; 3; 1; 1; 1; 1]%Z)) (dv_from (map q [5; 7; 11]%Z))
             (Some 1) ;; Ret (vals z)) = Ret (qz [1; 10; 22; 12; 1; 1; 1]%Z).
Proof. split; vm_compute; reflexivity. Qed.
