(** Proofs about invertible tensors, leading coefficients and the centre. *)
From Coq Require Import QArith Qcanon Ring_theory Ring.
From Verif Require Import Machine MachineLemmas S_Words L_Words M_TensorKey L_TensorKey M_TensorBasis L_TensorBasis M_Scalar M_Vector
  M_Dense S_Vector S_Tensor S_Series I_Scalars L_Dense L_Ring L_PropKey L_PropDense M_Algebra L_Algebra L_Conv
  L_PropAlgebra L_PropProducts L_Series L_ExpGroup L_PropAntipode L_Units.
Local Open Scope N_scope.

Section Dense.
  Context {S R : Type} (so : scalar_ops S R) (L : ring_laws so) (p : profile) (n : N).
  Let RT := ring_of so L.
  Add Ring scalars : RT.
  Notation wc := (wcoef so n).
  Notation zero := (s_zero so).

  (** the dense tensor with given coefficients *)
  Definition tabulate (k : N) (f : word -> S) : dvec S := dv_from (map f (words_below n (Datatypes.S (N.to_nat k)))).
  Lemma tabulate_filled k f : filled n (tabulate k f) k.
  Proof.
    unfold filled, tabulate, dv_size. cbn [dv_from dv_elems]. unfold dv_as_slice, len. cbn [dv_from dv_elems].
    rewrite map_length, words_below_length. apply N2Nat.id.
  Qed.
  Lemma tabulate_coef k f : feq n k (wc (tabulate k f)) f.
  Proof.
    intros w Hw Hl. unfold wcoef, coef, slice_get, tabulate, dv_as_slice. cbn [dv_from dv_elems].
    rewrite (map_nth_error f _ _ (words_below_nth n (Datatypes.S (N.to_nat k)) w Hw ltac:(unfold len in Hl; lia))). reflexivity.
  Qed.
  Lemma sub_eq c d : s_sub so c d = zero -> c = d.
  Proof. intros H. transitivity (s_add so (s_sub so c d) d); [ring|]. rewrite H. ring. Qed.
  Context (Hn : 2 <= n).
  Lemma product_at (x y : dvec S) a b t :
    filled n x a -> filled n y b -> 1 <= N.min t (a + b) -> n ^ (a + 1) < 2 ^ 64 -> n ^ (b + 1) < 2 ^ 64 ->
    n ^ (N.min t (a + b) + 1) < 2 ^ 64 ->
    exists z, alg_multiply so p n x y (Some t) = Ret z /\ feq n t (wc z) (conv so (wc x) (wc y)).
  Proof. intros Hx Hy Hm Pa Pb Pm. apply (product_feq so L p n Hn x y a b t t Hx Hy Hm Pa Pb Pm). apply N.le_refl. Qed.
  Lemma letter_vec b : n < 2 ^ 32 -> 1 <= b <= n ->
    exists e, (k <- tk_from_letter p b ;; vr_from_key (dense_ops so (tensor_basis p n)) k) = Ret e /\ filled n e 1
      /\ forall w, word_ok n w -> wc e w = delta so [b] w.
  Proof.
    intros Hn32 Hb. rewrite (from_letter_ok p n b Hb). cbn [bind].
    destruct (from_key_elems so p n Hn [b] Hn32) as (e & -> & Le & W).
    - split; [constructor; [exact Hb|constructor]|]. pose proof (max_depth_ge_2 n Hn32). cbn. lia.
    - change (len [b] + 1) with 2. change (2 ^ 64) with ((2 ^ 32) ^ 2). apply N.pow_lt_mono_l; lia.
    - exists (dv_from e). split; [reflexivity|]. split; [exact Le|exact W].
  Qed.
End Dense.

(** * C127: inverses, divisors of zero and the centre *)
Lemma c127_inverse : forall (S R : Type) (so : scalar_ops S R) (p : profile) (n a k : N) (x : dvec S),
  ring_laws so -> 2 <= n -> filled n x a -> 1 <= k -> n ^ (a + 1) < 2 ^ 64 -> n ^ (k + 1) < 2 ^ 64 ->
  (exists c, s_mul so c (wcoef so n x []) = s_one so)
  <-> exists y z z', filled n y k /\ alg_multiply so p n x y (Some k) = Ret z /\ alg_multiply so p n y x (Some k) = Ret z'
        /\ forall w, word_ok n w -> len w <= k -> wcoef so n z w = unit_fun so w /\ wcoef so n z' w = unit_fun so w.
Proof.
  intros S R so p n a k x L Hn Hx Hk Pa Pk.
  assert (M : forall y, filled n y k -> exists z z', alg_multiply so p n x y (Some k) = Ret z /\ alg_multiply so p n y x (Some k) = Ret z'
    /\ feq n k (wcoef so n z) (conv so (wcoef so n x) (wcoef so n y)) /\ feq n k (wcoef so n z') (conv so (wcoef so n y) (wcoef so n x))).
  { intros y Hy. destruct (product_at so L p n Hn x y a k k Hx Hy) as (z & E & G); try assumption; [lia|apply (pow_mono_fits n Hn _ k); [lia|exact Pk]|].
    destruct (product_at so L p n Hn y x k a k Hy Hx) as (z' & E' & G'); try assumption; [lia|apply (pow_mono_fits n Hn _ k); [lia|exact Pk]|].
    exists z, z'. auto. }
  split.
  - intros (c & C). destruct (two_inv so L n (wcoef so n x) c k C) as (g & G & G').
    pose proof (tabulate_coef so n k g) as T. destruct (M (tabulate n k g) (tabulate_filled n k g)) as (z & z' & E & E' & Z & Z').
    exists (tabulate n k g), z, z'. split; [apply tabulate_filled|]. split; [exact E|]. split; [exact E'|].
    intros w Hw Hl. rewrite (Z w Hw Hl), (Z' w Hw Hl), <- (G w Hw Hl) at 1. rewrite <- (G' w Hw Hl).
    split; (apply (conv_proper so n k); [first [exact T|reflexivity]|first [exact T|reflexivity]|exact Hw|exact Hl]).
  - intros (y & z & z' & Hy & E & _ & H). destruct (M y Hy) as (z0 & _ & E0 & _ & Z & _).
    assert (z0 = z) by congruence. subst z0. exists (wcoef so n y []).
    assert (H0 : word_ok n []) by constructor. assert (l0 : len (@nil N) <= k) by apply N.le_0_l.
    pose proof (proj1 (H [] H0 l0)) as H1. rewrite (Z [] H0 l0), (conv_nil so L) in H1. cbn [unit_fun] in H1. rewrite <- H1.
    apply (Rmul_comm (ring_of so L)).
Qed.
(** a factor with invertible constant term can be cancelled, so inverses are unique *)
Lemma c127_cancel : forall (S R : Type) (so : scalar_ops S R) (p : profile) (n a b b' t k : N) (c : S) (x y y' z z' : dvec S),
  ring_laws so -> 2 <= n -> filled n x a -> filled n y b -> filled n y' b' ->
  1 <= N.min t (a + b) -> 1 <= N.min t (a + b') -> n ^ (a + b + 1) < 2 ^ 64 -> n ^ (a + b' + 1) < 2 ^ 64 ->
  s_mul so c (wcoef so n x []) = s_one so -> k <= t ->
  (alg_multiply so p n x y (Some t) = Ret z /\ alg_multiply so p n x y' (Some t) = Ret z')
  \/ (alg_multiply so p n y x (Some t) = Ret z /\ alg_multiply so p n y' x (Some t) = Ret z') ->
  (forall w, word_ok n w -> len w <= k -> wcoef so n z w = wcoef so n z' w) ->
  forall w, word_ok n w -> len w <= k -> wcoef so n y w = wcoef so n y' w.
Proof.
  intros S R so p n a b b' t k c x y y' z z' L Hn Hx Hy Hy' Hm Hm' Pb Pb' C Hk E H.
  assert (P : forall u v m, u <= v -> n ^ (v + 1) < 2 ^ 64 -> m = u -> n ^ (m + 1) < 2 ^ 64).
  { intros u v m Huv Pv ->. exact (pow_mono_fits n Hn u v Huv Pv). }
  destruct E as [[E E']|[E E']].
  - destruct (product_feq so L p n Hn x y a b t k Hx Hy Hm) as (z0 & E0 & Z); try assumption;
      [apply (P a (a + b) _); [lia|exact Pb|reflexivity]|apply (P b (a + b) _); [lia|exact Pb|reflexivity]
      |apply (P (N.min t (a + b)) (a + b) _); [lia|exact Pb|reflexivity]|].
    destruct (product_feq so L p n Hn x y' a b' t k Hx Hy' Hm') as (z0' & E0' & Z'); try assumption;
      [apply (P a (a + b') _); [lia|exact Pb'|reflexivity]|apply (P b' (a + b') _); [lia|exact Pb'|reflexivity]
      |apply (P (N.min t (a + b')) (a + b') _); [lia|exact Pb'|reflexivity]|].
    assert (z0 = z) by congruence. assert (z0' = z') by congruence. subst z0 z0'.
    apply (cancel_l so L n _ c k _ _ C). intros w Hw Hl. rewrite <- (Z w Hw Hl), <- (Z' w Hw Hl). apply H; assumption.
  - rewrite (N.add_comm a b) in *. rewrite (N.add_comm a b') in *.
    destruct (product_feq so L p n Hn y x b a t k Hy Hx Hm) as (z0 & E0 & Z); try assumption;
      [apply (P b (b + a) _); [lia|exact Pb|reflexivity]|apply (P a (b + a) _); [lia|exact Pb|reflexivity]
      |apply (P (N.min t (b + a)) (b + a) _); [lia|exact Pb|reflexivity]|].
    destruct (product_feq so L p n Hn y' x b' a t k Hy' Hx Hm') as (z0' & E0' & Z'); try assumption;
      [apply (P b' (b' + a) _); [lia|exact Pb'|reflexivity]|apply (P a (b' + a) _); [lia|exact Pb'|reflexivity]
      |apply (P (N.min t (b' + a)) (b' + a) _); [lia|exact Pb'|reflexivity]|].
    assert (z0 = z) by congruence. assert (z0' = z') by congruence. subst z0 z0'.
    apply (cancel_r so L n _ c k _ _ C). intros w Hw Hl. rewrite <- (Z w Hw Hl), <- (Z' w Hw Hl). apply H; assumption.
Qed.
(** the lowest and the highest coefficients of a product *)
Lemma c127_leading : forall (S R : Type) (so : scalar_ops S R) (p : profile) (n a b t : N) (x y : dvec S) (u v : word),
  ring_laws so -> 2 <= n -> filled n x a -> filled n y b -> 1 <= N.min t (a + b) ->
  n ^ (a + 1) < 2 ^ 64 -> n ^ (b + 1) < 2 ^ 64 -> n ^ (N.min t (a + b) + 1) < 2 ^ 64 ->
  word_ok n u -> word_ok n v -> len u + len v <= t ->
  exists z, alg_multiply so p n x y (Some t) = Ret z
    /\ ((forall w, word_ok n w -> len w < len u -> wcoef so n x w = s_zero so) ->
        (forall w, word_ok n w -> len w < len v -> wcoef so n y w = s_zero so) ->
        wcoef so n z (u ++ v) = s_mul so (wcoef so n x u) (wcoef so n y v)
        /\ forall w, word_ok n w -> len w < len u + len v -> wcoef so n z w = s_zero so)
    /\ ((forall w, word_ok n w -> len u < len w -> wcoef so n x w = s_zero so) ->
        (forall w, word_ok n w -> len v < len w -> wcoef so n y w = s_zero so) ->
        wcoef so n z (u ++ v) = s_mul so (wcoef so n x u) (wcoef so n y v)).
Proof.
  intros S R so p n a b t x y u v L Hn Hx Hy Hm Pa Pb Pm Hu Hv Ht.
  destruct (product_at so L p n Hn x y a b t Hx Hy Hm Pa Pb Pm) as (z & E & Z). exists z. split; [exact E|].
  assert (Huv : word_ok n (u ++ v)) by (apply word_ok_app; split; assumption). assert (Hl : len (u ++ v) <= t) by (rewrite len_app; exact Ht).
  split; intros Zx Zy.
  - destruct (conv_lowest so L n _ _ u v Hu Hv Zx Zy) as [A B]. rewrite (Z _ Huv Hl). split; [exact A|].
    intros w Hw Hlw. rewrite (Z w Hw ltac:(lia)). apply B; assumption.
  - rewrite (Z _ Huv Hl). apply (conv_highest so L n); assumption.
Qed.
(** without divisors of zero among the scalars there are none among the tensors *)
Lemma c127_nonzero : forall (S R : Type) (so : scalar_ops S R) (p : profile) (n a b t : N) (x y : dvec S) (u v : word),
  ring_laws so -> (forall c d, s_mul so c d = s_zero so -> c = s_zero so \/ d = s_zero so) -> (forall c d : S, c = d \/ c <> d) ->
  2 <= n -> filled n x a -> filled n y b -> 1 <= N.min t (a + b) ->
  n ^ (a + 1) < 2 ^ 64 -> n ^ (b + 1) < 2 ^ 64 -> n ^ (N.min t (a + b) + 1) < 2 ^ 64 ->
  word_ok n u -> word_ok n v -> len u + len v <= t -> wcoef so n x u <> s_zero so -> wcoef so n y v <> s_zero so ->
  exists z w, alg_multiply so p n x y (Some t) = Ret z /\ word_ok n w /\ len w <= len u + len v /\ wcoef so n z w <> s_zero so.
Proof.
  intros S R so p n a b t x y u v L I D Hn Hx Hy Hm Pa Pb Pm Hu Hv Ht Xu Yv.
  destruct (shortest so n D (wcoef so n x) u Hu Xu) as (u' & Hu' & Lu & Xu' & Zx).
  destruct (shortest so n D (wcoef so n y) v Hv Yv) as (v' & Hv' & Lv & Yv' & Zy).
  destruct (c127_leading S R so p n a b t x y u' v' L Hn Hx Hy Hm Pa Pb Pm Hu' Hv' ltac:(lia)) as (z & E & A & _).
  exists z, (u' ++ v'). split; [exact E|]. split; [apply word_ok_app; split; assumption|]. split; [rewrite len_app; lia|].
  rewrite (proj1 (A Zx Zy)). intros H. destruct (I _ _ H); contradiction.
Qed.
(** what commutes with every letter has no coefficients between the constant term and the truncation degree *)
Lemma c127_centre : forall (S R : Type) (so : scalar_ops S R) (p : profile) (n a t : N) (x : dvec S),
  ring_laws so -> 2 <= n < 2 ^ 32 -> filled n x a -> 1 <= t -> n ^ (a + 2) < 2 ^ 64 ->
  (forall b, 1 <= b <= n -> exists e z,
     (k <- tk_from_letter p b ;; vr_from_key (dense_ops so (tensor_basis p n)) k) = Ret e
     /\ alg_commutator so p n x e (Some t) = Ret z /\ forall w, word_ok n w -> wcoef so n z w = s_zero so)
  <-> forall w, word_ok n w -> 1 <= len w < t -> wcoef so n x w = s_zero so.
Proof.
  intros S R so p n a t x L [Hn Hn32] Hx Ht Pa.
  assert (RT := ring_of so L).
  assert (M : forall b, 1 <= b <= n -> exists e z,
     (k <- tk_from_letter p b ;; vr_from_key (dense_ops so (tensor_basis p n)) k) = Ret e
     /\ alg_commutator so p n x e (Some t) = Ret z
     /\ forall w, word_ok n w -> wcoef so n z w = bracket so t (wcoef so n x) (delta so [b]) w).
  { intros b Hb. destruct (letter_vec so p n Hn b Hn32 Hb) as (e & Ee & Fe & We).
    destruct (commutator_conv so L p n Hn x e a 1 t Hx Fe) as (l & El & _ & W); [lia| | | |].
    - apply (pow_mono_fits n Hn a (a + 1)); [lia|]. replace (a + 1 + 1) with (a + 2) by lia. exact Pa.
    - apply (pow_mono_fits n Hn 1 (a + 1)); [lia|]. replace (a + 1 + 1) with (a + 2) by lia. exact Pa.
    - apply (pow_mono_fits n Hn _ (a + 1)); [lia|]. replace (a + 1 + 1) with (a + 2) by lia. exact Pa.
    - exists e, (dv_from l). split; [exact Ee|]. split; [exact El|]. intros w Hw. rewrite (W w Hw). unfold bracket, tconv.
      destruct (len w <=? t); [|reflexivity]. f_equal; apply conv_ext; try reflexivity; intros u v ->; apply word_ok_app in Hw; apply We; apply Hw. }
  rewrite <- (centre so L n (wcoef so n x) t Hn Ht). split.
  - intros H b w Hb Hw Hl. destruct (M b Hb) as (e & z & Ee & Ez & Wz). destruct (H b Hb) as (e' & z' & Ee' & Ez' & Z).
    assert (e' = e) by congruence. subst e'. assert (z' = z) by congruence. subst z'.
    specialize (Wz w Hw). rewrite (Z w Hw) in Wz. unfold bracket, tconv in Wz. destruct (N.leb_spec (len w) t); [|lia].
    apply (sub_eq so L). symmetry. exact Wz.
  - intros H b Hb. destruct (M b Hb) as (e & z & Ee & Ez & Wz). exists e, z. split; [exact Ee|]. split; [exact Ez|].
    intros w Hw. rewrite (Wz w Hw). unfold bracket, tconv. destruct (N.leb_spec (len w) t) as [Hl|Hl].
    + rewrite (H b w Hb Hw Hl). apply (r_sub_diag so L).
    + apply (r_sub_diag so L).
Qed.
(** x = 2 + e1 + 3 e2 and its inverse up to degree 2; (e1 + e2)(e1 - e2); e1 + 5 [degree 2] commutes with nothing up to degree 3 *)
Example c127_example : let x := dv_from [q 2; q 1; q 3] in
  let y := dv_from (map Q2Qc [1 # 2; -1 # 4; -3 # 4; 1 # 8; 3 # 8; 3 # 8; 9 # 8]%Q) in
  (z <- alg_multiply qc_ops dev 2 x y (Some 2) ;; Ret (vals z)) = Ret [1; 0; 0; 0; 0; 0; 0]%Q
  /\ (z <- alg_multiply qc_ops dev 2 y x (Some 2) ;; Ret (vals z)) = Ret [1; 0; 0; 0; 0; 0; 0]%Q
  /\ filled 2 x 1 /\ filled 2 y 2
  /\ (z <- alg_multiply qc_ops dev 2 (dv_from [q 0; q 1; q 1]) (dv_from [q 0; q 1; q (-1)]) (Some 3) ;; Ret (vals z))
     = Ret [0; 0; 0; 1; -1; 1; -1]%Q
  /\ (k <- tk_from_letter dev 1 ;; e <- vr_from_key (dense_ops qc_ops (tensor_basis dev 2)) k ;;
      z <- alg_commutator qc_ops dev 2 (dv_from (map q [7; 0; 0; 0; 1; 0; 0]%Z)) e (Some 2) ;; Ret (vals z)) = Ret [0; 0; 0; 0; 0; 0; 0]%Q
  /\ (k <- tk_from_letter dev 1 ;; e <- vr_from_key (dense_ops qc_ops (tensor_basis dev 2)) k ;;
      z <- alg_commutator qc_ops dev 2 (dv_from (map q [7; 0; 0; 0; 1; 0; 0]%Z)) e (Some 3) ;; Ret (vals z))
     = Ret [0; 0; 0; 0; 0; 0; 0; 0; -1; 1; 0; 0; 0; 0; 0]%Q.
Proof. vm_compute. repeat split; reflexivity. Qed.
