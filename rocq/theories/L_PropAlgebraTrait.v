(** Property lemmas C106 (restated as theorems in P_AlgebraTrait.v). *)
From Coq Require Import Ring_theory Ring QArith Qcanon.
From Verif Require Import Machine MachineLemmas M_Scalar M_Vector M_Dense M_TensorKey M_TensorBasis M_Algebra M_AlgebraTrait
  S_Vector S_AlgebraTrait I_Scalars L_Ring.
Local Open Scope N_scope.

Lemma sum_onto_split {S R} (so : scalar_ops S R) : ring_laws so -> forall f l s0,
  sum_onto so s0 f l = s_add so s0 (sum_onto so (s_zero so) f l).
Proof.
  intros L f l. unfold sum_onto. induction l as [|x l IH]; intros s0; cbn [fold_left].
  - rewrite r_add_0_r by exact L. reflexivity.
  - rewrite IH, (IH (s_add so (s_zero so) (f x))). rewrite (l_add_0_l so L). symmetry. apply (l_add_assoc so L).
Qed.
Lemma sum_onto_hom {S R} (so : scalar_ops S R) (f : S -> S) :
  f (s_zero so) = s_zero so -> (forall x y, f (s_add so x y) = s_add so (f x) (f y)) ->
  forall l, sum_onto so (s_zero so) f l = f (sum_onto so (s_zero so) (fun v => v) l).
Proof.
  intros H0 Ha l. unfold sum_onto.
  assert (G : forall s, fold_left (fun acc x => s_add so acc (f x)) l (f s) = f (fold_left (fun acc x => s_add so acc x) l s)).
  { induction l as [|x l IH]; intros s; cbn [fold_left]; [reflexivity|]. rewrite <- Ha. apply IH. }
  rewrite <- G, H0. reflexivity.
Qed.

Section Jacobi.
  Context {S R : Type} (so : scalar_ops S R) (L : ring_laws so).
  Let RT := ring_of so L.
  Add Ring scalars : RT.
  Lemma jacobi_sum a b c d e f :
    s_add so (s_add so (s_sub so (s_sub so a b) (s_sub so c d)) (s_sub so (s_sub so c e) (s_sub so f b)))
             (s_sub so (s_sub so f d) (s_sub so a e)) = s_zero so.
  Proof. ring. Qed.
End Jacobi.

(** * C106: the default methods of Algebra, for every implementing type *)
(** the dense tensors use the default methods unchanged *)
Lemma c106_dense : forall (S R : Type) (so : scalar_ops S R) (p : profile) (n : N) (x y z : dvec S) (s : S) (r : R) (t : option N),
  let ar := mk_alg_required (multiply_and_add_into_impl so p n) (multiply_into_impl so p n) in
  alg_multiply so p n x y t = at_multiply dv_new ar x y t
  /\ alg_multiply_inplace so p n x y t = at_multiply_inplace ar x y t
  /\ alg_add_mul so p n x y z t = at_add_mul ar x y z t
  /\ alg_sub_mul so p n x y z t = at_sub_mul so ar x y z t
  /\ alg_commutator so p n x y t = at_commutator so dv_new ar x y t
  /\ alg_mul_scal_lprod so p n x y s t = at_mul_scal_lprod so ar x y s t
  /\ alg_mul_scal_rprod so p n x y s t = at_mul_scal_rprod so ar x y s t
  /\ alg_mul_rat_ldiv so p n x y r t = at_mul_rat_ldiv so ar x y r t
  /\ alg_mul_rat_rdiv so p n x y s t = at_mul_rat_rdiv so ar x y s t.
Proof. intros. cbv zeta. repeat apply conj; reflexivity. Qed.
(** each default method other than commutator is one call of a required method and ends as that call ends *)
Lemma c106_products : forall (V K S R : Type) (so : scalar_ops S R) (vnew : V) (ar : alg_required V S)
  (val : V -> K -> S) (terms : option N -> V -> V -> K -> list S),
  ring_laws so -> exact_products so vnew ar val terms -> forall (x y l r : V) (s : S) (q : R) (t : option N),
  let product a b k := sum_onto so (s_zero so) (fun v => v) (terms t a b k) in
  (forall z, at_multiply vnew ar x y t = Ret z -> forall k, val z k = product x y k)
  /\ (forall z, at_multiply_inplace ar x y t = Ret z -> forall k, val z k = product x y k)
  /\ (forall z, at_add_mul ar x l r t = Ret z -> forall k, val z k = s_add so (val x k) (product l r k))
  /\ (forall z, at_sub_mul so ar x l r t = Ret z -> forall k, val z k = s_sub so (val x k) (product l r k))
  /\ (forall z, at_commutator so vnew ar x y t = Ret z -> forall k, val z k = s_sub so (product x y k) (product y x k))
  /\ (forall z, at_mul_scal_lprod so ar x y s t = Ret z -> forall k, val z k = s_mul so s (product x y k))
  /\ (forall z, at_mul_scal_rprod so ar x y s t = Ret z -> forall k, val z k = s_mul so (product x y k) s)
  /\ (field_laws so -> forall z, at_mul_rat_ldiv so ar x y q t = Ret z -> forall k, val z k = s_div so (product x y k) q).
Proof.
  intros V K S R so vnew ar val terms L [N0 A I] x y l r s q t product.
  assert (U : forall l, sum_onto so (s_zero so) (s_uminus so) l = s_uminus so (sum_onto so (s_zero so) (fun v => v) l)).
  { apply sum_onto_hom; [apply r_opp_0; exact L|intros; apply r_opp_add; exact L]. }
  repeat apply conj.
  - intros z E k. rewrite (A _ _ _ _ _ _ E), N0. reflexivity.
  - intros z E k. rewrite (I _ _ _ _ _ E). reflexivity.
  - intros z E k. rewrite (A _ _ _ _ _ _ E). apply sum_onto_split. exact L.
  - intros z E k. rewrite (A _ _ _ _ _ _ E), sum_onto_split by exact L. rewrite U. symmetry. apply (l_sub_def so L).
  - intros z E k. unfold at_commutator in E. destruct (at_add_mul ar vnew x y t) as [m| | |] eqn:E1; try discriminate.
    cbn [bind] in E. rewrite (A _ _ _ _ _ _ E), sum_onto_split by exact L. rewrite U, (A _ _ _ _ _ _ E1), N0.
    symmetry. apply (l_sub_def so L).
  - intros z E k. rewrite (I _ _ _ _ _ E). apply sum_onto_hom; [apply r_mul_0_r; exact L|intros; apply r_mul_add_r; exact L].
  - intros z E k. rewrite (I _ _ _ _ _ E).
    apply (sum_onto_hom so (fun v => s_mul so v s)); [apply r_mul_0_l; exact L|intros; apply (l_mul_add_l so L)].
  - intros F z E k. rewrite (I _ _ _ _ _ E).
    apply (sum_onto_hom so (fun v => s_div so v q)); intros; rewrite !(l_div so F);
      [apply r_mul_0_l; exact L|apply (l_mul_add_l so L)].
Qed.
(** when the default methods return *)
Lemma c106_returns : forall (V S R : Type) (so : scalar_ops S R) (vnew : V) (ar : alg_required V S) (x y l r : V) (s : S) (q : R) (t : option N),
  (returns (at_commutator so vnew ar x y t) <->
     exists m, at_add_mul ar vnew x y t = Ret m /\ returns (at_sub_mul so ar m y x t))
  /\ ((forall a b c f, returns (ar_add_into ar a b c f t)) ->
      returns (at_multiply vnew ar x y t) /\ returns (at_add_mul ar x l r t) /\ returns (at_sub_mul so ar x l r t)
      /\ returns (at_commutator so vnew ar x y t))
  /\ ((forall a b f, returns (ar_into ar a b f t)) ->
      returns (at_multiply_inplace ar x y t) /\ returns (at_mul_scal_lprod so ar x y s t) /\ returns (at_mul_scal_rprod so ar x y s t)
      /\ returns (at_mul_rat_ldiv so ar x y q t) /\ returns (at_mul_rat_rdiv so ar x y s t)).
Proof.
  intros V S R so vnew ar x y l r s q t. split; [|split].
  - unfold at_commutator. split.
    + intros [z E]. destruct (at_add_mul ar vnew x y t) as [m| | |] eqn:E1; try discriminate. exists m. split; [reflexivity|].
      exists z. exact E.
    + intros (m & E1 & z & E2). exists z. rewrite E1. exact E2.
  - intros H. repeat apply conj; try apply H. unfold at_commutator, at_add_mul.
    destruct (H vnew x y (fun v => v)) as [m E]. rewrite E. cbn [bind]. apply H.
  - intros H. repeat apply conj; apply H.
Qed.
(** commutator is a Lie bracket wherever the product is associative and additive *)
Lemma c106_lie : forall (V K S R : Type) (so : scalar_ops S R) (vnew : V) (ar : alg_required V S)
  (val : V -> K -> S) (terms : option N -> V -> V -> K -> list S) (t : option N) (prod : (K -> S) -> (K -> S) -> K -> S),
  ring_laws so -> exact_products so vnew ar val terms -> exact_ring so ar val terms t prod ->
  exists bracket : V -> V -> V,
  (forall x y, at_commutator so vnew ar x y t = Ret (bracket x y))
  /\ (forall x k, val (bracket x x) k = s_zero so)
  /\ (forall x y k, val (bracket x y) k = s_uminus so (val (bracket y x) k))
  /\ (forall x y z k, s_add so (s_add so (val (bracket x (bracket y z)) k) (val (bracket y (bracket z x)) k))
                        (val (bracket z (bracket x y)) k) = s_zero so).
Proof.
  intros V K S R so vnew ar val terms t prod L P [Hr Hp Hext Hal Har Has].
  pose (bracket := fun x y => match at_commutator so vnew ar x y t with Ret z => z | _ => vnew end).
  assert (B : forall x y, at_commutator so vnew ar x y t = Ret (bracket x y)).
  { intros x y. destruct (c106_returns V S R so vnew ar x y x y (s_zero so) (r_from_degree so 0) t) as (_ & H & _).
    destruct (H (fun a b c f => Hr a b c f)) as (_ & _ & _ & z & E). unfold bracket. rewrite E. reflexivity. }
  assert (C : forall x y k, val (bracket x y) k = s_sub so (prod (val x) (val y) k) (prod (val y) (val x) k)).
  { intros x y k. destruct (c106_products V K S R so vnew ar val terms L P x y x y (s_zero so) (r_from_degree so 0) t)
      as (_ & _ & _ & _ & H & _). rewrite (H _ (B x y)), !Hp. reflexivity. }
  assert (Sl : forall f f' g k, prod (fun j => s_sub so (f j) (f' j)) g k = s_sub so (prod f g k) (prod f' g k)).
  { intros f f' g k.
    assert (E : prod f g k = s_add so (prod (fun j => s_sub so (f j) (f' j)) g k) (prod f' g k)).
    { rewrite <- Hal. apply Hext; [|reflexivity]. intros j. rewrite (l_sub_def so L), <- (l_add_assoc so L).
      rewrite (l_add_comm so L (s_uminus so _)), (l_add_opp so L). symmetry. apply r_add_0_r. exact L. }
    rewrite E, (l_sub_def so L), <- (l_add_assoc so L), (l_add_opp so L). symmetry. apply r_add_0_r. exact L. }
  assert (Sr : forall f g g' k, prod f (fun j => s_sub so (g j) (g' j)) k = s_sub so (prod f g k) (prod f g' k)).
  { intros f g g' k.
    assert (E : prod f g k = s_add so (prod f (fun j => s_sub so (g j) (g' j)) k) (prod f g' k)).
    { rewrite <- Har. apply Hext; [reflexivity|]. intros j. rewrite (l_sub_def so L), <- (l_add_assoc so L).
      rewrite (l_add_comm so L (s_uminus so _)), (l_add_opp so L). symmetry. apply r_add_0_r. exact L. }
    rewrite E, (l_sub_def so L), <- (l_add_assoc so L), (l_add_opp so L). symmetry. apply r_add_0_r. exact L. }
  assert (D : forall x y z k, val (bracket x (bracket y z)) k =
     s_sub so (s_sub so (prod (val x) (prod (val y) (val z)) k) (prod (val x) (prod (val z) (val y)) k))
              (s_sub so (prod (val y) (prod (val z) (val x)) k) (prod (val z) (prod (val y) (val x)) k))).
  { intros x y z k. rewrite C.
    rewrite (Hext (val x) (val x) (val (bracket y z)) (fun j => s_sub so (prod (val y) (val z) j) (prod (val z) (val y) j)))
      by (intros; try reflexivity; apply C).
    rewrite (Hext (val (bracket y z)) (fun j => s_sub so (prod (val y) (val z) j) (prod (val z) (val y) j)) (val x) (val x))
      by (intros; try reflexivity; apply C).
    rewrite Sl, Sr, !Has. reflexivity. }
  exists bracket. repeat apply conj.
  - exact B.
  - intros x k. rewrite C. apply r_sub_diag. exact L.
  - intros x y k. rewrite !C, !(l_sub_def so L), r_opp_add, r_opp_opp by exact L. apply (l_add_comm so L).
  - intros x y z k. rewrite !D. clear - L. 
    generalize (prod (val x) (prod (val y) (val z)) k) (prod (val x) (prod (val z) (val y)) k)
      (prod (val y) (prod (val z) (val x)) k) (prod (val z) (prod (val y) (val x)) k)
      (prod (val y) (prod (val x) (val z)) k) (prod (val z) (prod (val x) (val y)) k).
    intros a b c d e f. apply jacobi_sum. exact L.
Qed.
(** mul_rat_rdiv multiplies by its argument instead of dividing, whatever the implementing type *)
Lemma c106_mul_rat_rdiv : forall (V K S R : Type) (so : scalar_ops S R) (vnew : V) (ar : alg_required V S)
  (val : V -> K -> S) (terms : option N -> V -> V -> K -> list S),
  ring_laws so -> exact_products so vnew ar val terms -> forall (x y : V) (s : S) (t : option N),
  at_mul_rat_rdiv so ar x y s t = at_mul_scal_rprod so ar x y s t
  /\ (forall z, at_mul_rat_rdiv so ar x y s t = Ret z ->
      forall k, val z k = s_mul so (sum_onto so (s_zero so) (fun v => v) (terms t x y k)) s).
Proof.
  intros V K S R so vnew ar val terms L P x y s t. split; [reflexivity|].
  destruct (c106_products V K S R so vnew ar val terms L P x y x y s (r_from_degree so 0) t) as (_ & _ & _ & _ & _ & _ & H & _).
  exact H.
Qed.

(** an implementing type outside the crate: 2x2 matrices of rationals, without truncation *)
Definition mat : Type := bool * bool -> Qc.
Definition mat_terms (_ : option N) (x y : mat) (ij : bool * bool) : list Qc :=
  map (fun h => Qcmult (x (fst ij, h)) (y (h, snd ij))) [false; true].
Definition mat_zero : mat := fun _ => 0%Qc.
Definition mat_alg : alg_required mat Qc := mk_alg_required
  (fun x l r f t => Ret (fun k => sum_onto qc_ops (x k) f (mat_terms t l r k)))
  (fun x r f t => Ret (fun k => sum_onto qc_ops 0%Qc f (mat_terms t x r k))).
Definition mat_of (a b c d : Z) : mat := fun ij => Q2Qc (inject_Z (match ij with
  | (false, false) => a | (false, true) => b | (true, false) => c | (true, true) => d end)).
Example c106_example :
  exact_products qc_ops mat_zero mat_alg (fun x => x) mat_terms
  /\ exact_ring qc_ops mat_alg (fun x => x) mat_terms None
       (fun f g k => Qcplus (Qcmult (f (fst k, false)) (g (false, snd k))) (Qcmult (f (fst k, true)) (g (true, snd k))))
  /\ (exists z, at_commutator qc_ops mat_zero mat_alg (mat_of 0 1 0 0) (mat_of 0 0 1 0) None = Ret z
      /\ map z [(false, false); (false, true); (true, false); (true, true)] = map (fun a => Q2Qc (inject_Z a)) [1; 0; 0; -1]%Z)
  /\ (exists z, at_mul_rat_rdiv qc_ops mat_alg (mat_of 1 2 3 4) (mat_of 1 0 0 1) (Q2Qc 2) None = Ret z
      /\ z (true, true) = Q2Qc 8).
Proof.
  repeat apply conj.
  - constructor; [reflexivity| |]; intros; cbn in H; injection H as <-; reflexivity.
  - constructor.
    + intros. eexists. reflexivity.
    + intros x y k. cbn. ring.
    + intros f f' g g' k Hf Hg. rewrite !Hf, !Hg. reflexivity.
    + intros f f' g k. cbn. ring.
    + intros f g g' k. cbn. ring.
    + intros f g h k. cbn. ring.
  - eexists. split; [reflexivity|]. vm_compute. reflexivity.
  - eexists. split; [reflexivity|]. vm_compute. reflexivity.
Qed.
