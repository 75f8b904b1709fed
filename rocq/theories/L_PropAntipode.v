(** Proofs about inverses: the antipode of a group-like tensor, of a Lie polynomial and of a path. *)
From Coq Require Import QArith Qcanon Ring_theory Ring.
From Verif Require Import Machine MachineLemmas S_Words L_Words M_TensorKey L_TensorKey M_TensorBasis L_TensorBasis M_Scalar M_Vector
  M_Dense S_Vector S_Tensor S_Series S_FreeTensor I_Scalars I_FunAlgebra L_Dense L_Ring L_PropKey L_PropDense M_Algebra L_Algebra L_Conv
  L_PropAlgebra L_PropProducts L_Series M_FreeTensor L_ExactAlgebra L_ExpGroup L_PropExp S_Shuffle L_Shuffle L_ShuffleExp S_Lie
  L_PropShuffle S_Antipode L_Antipode.
Local Open Scope N_scope.

Section Dense.
  Context {S R : Type} (so : scalar_ops S R) (L : ring_laws so) (p : profile) (n : N) (Hn : 2 <= n).
  Notation wc := (wcoef so n).
  Notation eps := (unit_fun so).

  Lemma product_feq (x y : dvec S) a b t k :
    filled n x a -> filled n y b -> 1 <= N.min t (a + b) -> n ^ (a + 1) < 2 ^ 64 -> n ^ (b + 1) < 2 ^ 64 ->
    n ^ (N.min t (a + b) + 1) < 2 ^ 64 -> k <= t ->
    exists z, alg_multiply so p n x y (Some t) = Ret z /\ feq n k (wc z) (conv so (wc x) (wc y)).
  Proof.
    intros Hx Hy Hm Pa Pb Pm Hk. destruct (multiply_conv so L p n Hn x y a b t Hx Hy Hm Pa Pb Pm) as (e & E & _ & W).
    exists (dv_from e). split; [exact E|]. intros w Hw Hl. rewrite (W w Hw). unfold tconv. destruct (N.leb_spec (len w) t); [reflexivity|lia].
  Qed.
End Dense.

Section Exact.
  Context {V S R : Type} (so : scalar_ops S R) (p : profile) (n : N) (vo : vec_ops V tkey S R)
    (mulr : V -> V -> S -> option N -> outcome V) (mul : V -> V -> option N -> outcome V) (val : V -> word -> S)
    (F : field_laws so) (X : exact_algebra so n vo mulr mul val).
  Let L := l_ring so F.
  Let RT := ring_of so L.
  Add Ring scalars : RT.
  Notation eps := (unit_fun so).
  Notation fm md := (trait_fmexp so p md vo mulr).

  Lemma group_unit t : group_like so n t eps.
  Proof.
    apply (group_ext so n t (efun so t (fzero so))).
    - intros w Hw Hl. apply (efun_zero so F n t); [reflexivity|exact Hw|exact Hl].
    - apply exp_group; [exact F|]. split; [reflexivity|]. intros u v _ _ _ _ _.
      rewrite (sh_ext so _ (fun w => s_mul so (s_zero so) (s_zero so))).
      + rewrite (sh_scal so L). ring.
      + intros w _. unfold fzero. ring.
  Qed.
  Lemma follow_feq md ys u : md < 2 ^ 32 -> feq n (md - 1) (val u) eps ->
    exists z, follow (fm md) u ys = Ret z /\ feq n (md - 1) (val z) (total so md (map val ys)).
  Proof.
    intros Hmd U. destruct (follow_conv so p n vo mulr mul val F X md ys u Hmd) as (z & E & G). exists z. split; [exact E|].
    transitivity (conv so (val u) (total so md (map val ys))).
    - intros w Hw Hl. rewrite (G w Hw). destruct (N.leb_spec (len w) md); [reflexivity|lia].
    - transitivity (conv so eps (total so md (map val ys))); [apply conv_proper; [exact U|reflexivity]|].
      intros w _ _. apply (conv_unit_l so L).
  Qed.
  Lemma path_back md ys zs : md < 2 ^ 32 -> Forall (fun y => primitive so n (md - 1) (no_unit so (val y))) ys ->
    Forall2 (fun y z => forall w, word_ok n w -> val z w = s_uminus so (val y w)) (rev ys) zs ->
    exists u a b, vr_from_key vo tk_new = Ret u /\ follow (fm md) u ys = Ret a /\ follow (fm md) u zs = Ret b
      /\ feq n (md - 1) (val b) (antipode so (val a)).
  Proof.
    intros Hmd Py Hz. destruct (ea_unit _ _ _ _ _ _ X) as (u & Eu & Gu).
    assert (U : feq n (md - 1) (val u) eps) by (intros w Hw _; apply Gu; exact Hw).
    destruct (follow_feq md ys u Hmd U) as (a & Ea & Ga). destruct (follow_feq md zs u Hmd U) as (b & Eb & Gb).
    exists u, a, b. repeat (split; [assumption|]). apply (right_inverse so L).
    - destruct (follow_prim so p n vo mulr mul val F X md ys u Hmd) as (a' & Ea' & G).
      + apply (group_ext so n (md - 1) eps); [intros w Hw Hl; symmetry; exact (U w Hw Hl)|apply group_unit].
      + exact Py.
      + assert (a' = a) by congruence. subst a'. exact G.
    - transitivity (conv so (total so md (map val ys)) (total so md (map val zs))); [apply conv_proper; assumption|].
      transitivity (total so md (map val (ys ++ zs))).
      + intros w _ _. rewrite map_app, (total_app so F). reflexivity.
      + apply (total_back so n val F). exact Hz.
  Qed.
End Exact.

(** * C126: inverses of group-like tensors, and paths run backwards *)
Lemma c126_inverse : forall (S R : Type) (so : scalar_ops S R) (p : profile) (n t k a b : N) (x y : dvec S),
  ring_laws so -> 2 <= n -> filled n x a -> filled n y b -> 1 <= N.min t (a + b) ->
  n ^ (a + 1) < 2 ^ 64 -> n ^ (b + 1) < 2 ^ 64 -> n ^ (N.min t (a + b) + 1) < 2 ^ 64 ->
  k <= t -> group_like so n k (wcoef so n x) ->
  exists z z', alg_multiply so p n x y (Some t) = Ret z /\ alg_multiply so p n y x (Some t) = Ret z'
    /\ let below (f g : word -> S) := forall w, word_ok n w -> len w <= k -> f w = g w in
       (below (wcoef so n z) (unit_fun so) <-> below (wcoef so n y) (antipode so (wcoef so n x)))
       /\ (below (wcoef so n z') (unit_fun so) <-> below (wcoef so n y) (antipode so (wcoef so n x))).
Proof.
  intros S R so p n t k a b x y L Hn Hx Hy Hm Pa Pb Pm Hk G.
  destruct (product_feq so L p n Hn x y a b t k Hx Hy Hm Pa Pb Pm Hk) as (z & Ez & Gz).
  rewrite (N.add_comm a b) in *.
  destruct (product_feq so L p n Hn y x b a t k Hy Hx Hm Pb Pa Pm Hk) as (z' & Ez' & Gz').
  exists z, z'. split; [exact Ez|]. split; [exact Ez'|]. cbn zeta. split; split; intros H.
  - apply (right_inverse so L n k _ _ G). intros w Hw Hl. rewrite <- (Gz w Hw Hl). apply H; assumption.
  - intros w Hw Hl. rewrite (Gz w Hw Hl), <- (antipode_right so L n k _ G w Hw Hl).
    apply (conv_proper so n k); [reflexivity|exact H|exact Hw|exact Hl].
  - apply (left_inverse so L n k _ _ G). intros w Hw Hl. rewrite <- (Gz' w Hw Hl). apply H; assumption.
  - intros w Hw Hl. rewrite (Gz' w Hw Hl), <- (antipode_left so L n k _ G w Hw Hl).
    apply (conv_proper so n k); [exact H|reflexivity|exact Hw|exact Hl].
Qed.
(** the inverse is group-like again, and inverting twice gives the tensor back *)
Lemma c126_group : forall (S R : Type) (so : scalar_ops S R) (n t : N) (f : word -> S),
  ring_laws so -> group_like so n t f ->
  group_like so n t (antipode so f) /\ forall w, antipode so (antipode so f) w = f w.
Proof.
  intros S R so n t f L G. split; [apply antipode_group; assumption|]. intros w. unfold antipode.
  rewrite rev_length, rev_involutive. apply (sgn_sgn so L).
Qed.
Lemma c126_lie : forall (S R : Type) (so : scalar_ops S R) (p : profile) (n t : N) (e : lie S),
  ring_laws so -> 2 <= n < 2 ^ 32 -> 1 <= t -> n ^ (t + 1) < 2 ^ 64 -> letters_ok n e ->
  exists z, lie_eval so p n t e = Ret z
    /\ forall w, word_ok n w -> antipode so (wcoef so n z) w = s_uminus so (wcoef so n z w).
Proof.
  intros S R so p n t e L Hn Ht Pt He.
  destruct (lie_prim so L p n (proj1 Hn) e t (proj2 Hn) Ht Pt He) as (z & d & E & _ & _ & G). exists z. split; [exact E|].
  intros w Hw. apply (antipode_prim so L n (len w)); [apply G|exact Hw|apply N.le_refl].
Qed.
Lemma c126_path : forall (V S R : Type) (so : scalar_ops S R) (p : profile) (n md : N) (vo : vec_ops V tkey S R)
    (mulr : V -> V -> S -> option N -> outcome V) (mul : V -> V -> option N -> outcome V) (val : V -> word -> S) (ys zs : list V),
  field_laws so -> exact_algebra so n vo mulr mul val -> 1 <= md < 2 ^ 32 ->
  Forall (fun y => primitive so n (md - 1) (no_unit so (val y))) ys ->
  Forall2 (fun y z => forall w, word_ok n w -> val z w = s_uminus so (val y w)) (rev ys) zs ->
  exists u a b, vr_from_key vo tk_new = Ret u
    /\ follow (trait_fmexp so p md vo mulr) u ys = Ret a /\ follow (trait_fmexp so p md vo mulr) u zs = Ret b
    /\ forall w, word_ok n w -> len w < md -> val b w = antipode so (val a) w.
Proof.
  intros V S R so p n md vo mulr mul val ys zs F X Hmd Py Hz.
  destruct (path_back so p n vo mulr mul val F X md ys zs (proj2 Hmd) Py Hz) as (u & a & b & Eu & Ea & Eb & G).
  exists u, a, b. repeat (split; [assumption|]). intros w Hw Hl. apply G; [exact Hw|lia].
Qed.
(** x is the product of the exponentials of e1 and e2 up to degree 2, y is its antipode; then a path and the path run backwards *)
Example c126_example : let x := dv_from [q 1; q 1; q 1; Q2Qc (1 # 2); q 1; q 0; Q2Qc (1 # 2)] in
  let y := dv_from [q 1; q (-1); q (-1); Q2Qc (1 # 2); q 0; q 1; Q2Qc (1 # 2)] in
  let words : list word := [[]; [1]; [2]; [1; 1]; [1; 2]; [2; 1]; [2; 2]] in
  (z <- alg_multiply qc_ops dev 2 x y (Some 2) ;; Ret (vals z)) = Ret [1; 0; 0; 0; 0; 0; 0]%Q
  /\ (z <- alg_multiply qc_ops dev 2 y x (Some 2) ;; Ret (vals z)) = Ret [1; 0; 0; 0; 0; 0; 0]%Q
  /\ filled 2 x 2 /\ filled 2 y 2
  /\ map (antipode qc_ops (wcoef qc_ops 2 x)) words = dv_elems y
  /\ (let y1 : word -> Qc := fun w => match w with [1] => q 1 | _ => q 0 end in
      let y2 : word -> Qc := fun w => match w with [2] => q 2 | _ => q 0 end in
      let neg (y : word -> Qc) : word -> Qc := fun w => Qcopp (y w) in
      let go ys := (z <- follow (trait_fmexp qc_ops dev 3 (fun_ops qc_ops) fun_mul_rat_rdiv) (unit_fun qc_ops) ys ;;
                    Ret (map this (map z words))) in
      go [y1; y2] = Ret [1; 1; 2; 1 # 2; 2; 0; 2]%Q /\ go [neg y2; neg y1] = Ret [1; -1; -2; 1 # 2; 0; 2; 2]%Q).
Proof. vm_compute. repeat split; reflexivity. Qed.
