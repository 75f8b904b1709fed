(** Property lemmas C120 (restated as theorems in P_Eval.v). *)
From Coq Require Import QArith Qcanon.
From Verif Require Import Machine MachineLemmas S_Words L_Words M_TensorKey M_TensorBasis M_Scalar M_Vector M_Dense S_Vector S_Tensor I_Scalars
  L_Ring L_PropDense M_Algebra L_Algebra L_Conv L_PropAlgebra L_PropProducts S_TensorProg L_PropTensorProg L_PropClosures L_TensorKey L_PropKey L_PropHistory S_Eval L_Eval I_Matrix.
Local Open Scope N_scope.

Section Evaluate.
  Context {S R A : Type} (so : scalar_ops S R) (RL : ring_laws so) (al : algebra S A) (L : algebra_laws so al) (phi : N -> A) (n D : N).
  Notation ev := (evaluate al phi n D). Notation ew := (eval_word al phi).
  Notation "s ** x" := (a_scale al s x) (at level 35, right associativity).
  Let RT := ring_of so RL.
  Add Ring evalscalars : RT.

  Lemma ev_ext f g : (forall w, word_ok n w -> len w <= D -> f w = g w) -> ev f = ev g.
  Proof.
    intros H. apply (sum_ext al). intros w Hw. apply in_words_below in Hw. rewrite H; [reflexivity|apply Hw|unfold len; lia].
  Qed.
  Lemma ev_add f g : ev (fun w => s_add so (f w) (g w)) = a_add al (ev f) (ev g).
  Proof.
    unfold evaluate. rewrite <- (sum_add so al L). apply (sum_ext al). intros w _. apply (al_scale_add so al L).
  Qed.
  Lemma ev_scale s f : ev (fun w => s_mul so s (f w)) = s ** ev f.
  Proof.
    unfold evaluate. rewrite (sum_scale so RL al L). apply (sum_ext al). intros w _. apply (al_scale_mul so al L).
  Qed.
  Lemma ev_zero : ev (fun _ => s_zero so) = a_zero al.
  Proof. apply (sum_0 so al L). intros w _. apply (al_scale_0 so al L). Qed.
  Lemma ev_neg f : ev (fun w => s_uminus so (f w)) = s_uminus so (s_one so) ** ev f.
  Proof. rewrite <- ev_scale. apply ev_ext. intros w _ _. ring. Qed.
  Lemma ev_sub f g : ev (fun w => s_sub so (f w) (g w)) = a_sub so al (ev f) (ev g).
  Proof.
    unfold a_sub. rewrite <- ev_neg, <- ev_add. apply ev_ext. intros w _ _. apply (l_sub_def so RL).
  Qed.
  Lemma ev_right f c : ev (fun w => s_mul so (f w) c) = c ** ev f.
  Proof. rewrite <- ev_scale. apply ev_ext. intros w _ _. apply (l_mul_comm so RL). Qed.
  Lemma ev_key w c : word_ok n w -> len w <= D -> ev (fun u => if word_eqb u w then c else s_zero so) = c ** ew w.
  Proof.
    intros Hw Hl. unfold evaluate.
    assert (Hin : List.In w (words_below n (Datatypes.S (N.to_nat D)))) by (apply in_words_below; split; [exact Hw|unfold len in Hl; lia]).
    pose proof (words_below_nodup n (Datatypes.S (N.to_nat D))) as ND. revert Hin ND.
    generalize (words_below n (Datatypes.S (N.to_nat D))). induction l as [|u l IH]; intros Hin ND; [contradiction|].
    inversion_clear ND. cbn [map]. change (a_sum al (?x :: ?l)) with (a_add al x (a_sum al l)).
    destruct (word_eqb_spec u w) as [->|Ne].
    - rewrite (sum_0 so al L); [apply (add_0_r so al L)|]. intros v Hv. destruct (word_eqb_spec v w) as [->|]; [contradiction|].
      apply (al_scale_0 so al L).
    - rewrite (al_scale_0 so al L), (al_add_0 so al L). apply IH; [|assumption]. destruct Hin as [E|Hin]; [congruence|exact Hin].
  Qed.
  Lemma sum_from_zero_cons x l : sum_from_zero so (x :: l) = s_add so x (sum_from_zero so l).
  Proof.
    unfold sum_from_zero. cbn [fold_left]. rewrite (l_add_0_l so RL).
    assert (G : forall l a, fold_left (s_add so) l a = s_add so a (fold_left (s_add so) l (s_zero so))).
    { clear x l. induction l as [|y l IH]; intros a; cbn [fold_left]; [ring|]. rewrite IH, (IH (s_add so (s_zero so) y)). ring. }
    apply G.
  Qed.
  Lemma ev_pairs (l : list (word * S)) : Forall (fun e => word_ok n (fst e) /\ len (fst e) <= D) l ->
    ev (fun u => sum_from_zero so (given (word_eqb u) l)) = a_sum al (map (fun e => snd e ** ew (fst e)) l).
  Proof.
    induction 1 as [|[w c] l [Hw Hl] _ IH]; [exact ev_zero|]. cbn [map].
    change (a_sum al (?x :: ?l)) with (a_add al x (a_sum al l)). rewrite <- IH. cbn [fst snd] in *. rewrite <- (ev_key w c Hw Hl), <- ev_add.
    apply ev_ext. intros u _ _. unfold given. cbn [filter fst snd map].
    destruct (word_eqb u w); cbn [map snd]; [apply sum_from_zero_cons|ring].
  Qed.

  Lemma eval_app u v : ew (u ++ v) = a_mul al (ew u) (ew v).
  Proof.
    induction u as [|a u IH]; cbn [app eval_word fold_right]; [symmetry; apply (al_one_l so al L)|].
    change (a_mul al (phi a) (ew (u ++ v)) = a_mul al (a_mul al (phi a) (ew u)) (ew v)). rewrite IH. apply (al_mul_assoc so al L).
  Qed.
  (** products, when the words above the degree vanish *)
  Lemma parts_vanish i j f g : (forall w, word_ok n w -> D < len w -> ew w = a_zero al) -> (N.to_nat D < i + j)%nat ->
    a_mul al (part al phi n i f) (part al phi n j g) = a_zero al.
  Proof.
    intros Nil Hij. unfold part. rewrite (sum_mul_l so al L). apply (sum_0 so al L). intros u Hu. rewrite (sum_mul_r so al L).
    apply (sum_0 so al L). intros v Hv. apply in_words_of_length in Hu, Hv.
    rewrite (al_scale_mul_l so al L), (al_scale_mul_r so al L), <- eval_app, Nil.
    - rewrite !(scale_zero so RL al L). reflexivity.
    - apply word_ok_app. split; [apply Hu|apply Hv].
    - unfold len. rewrite app_length. lia.
  Qed.
  Lemma ev_conv f g : (forall i j, (N.to_nat D < i + j)%nat -> a_mul al (part al phi n i f) (part al phi n j g) = a_zero al) ->
    ev (tconv so D f g) = a_mul al (ev f) (ev g).
  Proof.
    intros H. unfold evaluate. rewrite <- (below_conv so RL al L); [|intros i j Hij; apply H; lia].
    apply (sum_ext al). intros w Hw. apply in_words_below in Hw. unfold tconv.
    destruct (N.leb_spec (len w) D) as [|X]; [reflexivity|]. unfold len in X. lia.
  Qed.

  Context (FL : field_laws so) (Nil : forall w, word_ok n w -> D < len w -> ew w = a_zero al).
  Lemma ev_mul f g : ev (tconv so D f g) = a_mul al (ev f) (ev g).
  Proof. apply ev_conv. intros i j. apply parts_vanish. exact Nil. Qed.
  Lemma ev_div f r : ev (fun w => s_div so (f w) r) = s_inv so r ** ev f.
  Proof. rewrite <- ev_right. apply ev_ext. intros w _ _. apply (l_div so FL). Qed.
  Lemma ev_product x a b h t v : t = Some D -> t_product so x a b h t = Ret v ->
    ev (t_fun v) = ev (fun w => h (t_fun x w) (tconv so D (t_fun a) (t_fun b) w)).
  Proof.
    intros -> E. unfold t_product in E. destruct (t_deg a); [|discriminate]. destruct (t_deg b); [|discriminate].
    destruct (t_deg x).
    - injection E as <-. reflexivity.
    - destruct (_ =? 0); [discriminate|]. injection E as <-. reflexivity.
  Qed.
  Definition evals (a : nat -> atensor S) (x : nat -> A) : Prop := forall i, ev (t_fun (a i)) = x i.
  Lemma evals_set a x d u y : evals a x -> ev (t_fun u) = y -> evals (set_var a d u) (set_var x d y).
  Proof. intros H E i. unfold set_var. destruct (Nat.eqb i d); [exact E|apply H]. Qed.
  Lemma eval_cmd a x c a' : evals a x -> cmd_within n D c -> algebraic D c -> mean_cmd so a c = Ret a' ->
    evals a' (image_cmd so al phi x c).
  Proof.
    intros H W Al E.
    destruct c; cbn [mean_cmd image_cmd algebraic cmd_within] in *; try contradiction;
      try (injection E as <-; apply evals_set; [exact H|]; cbn [t_fun t_zero t_map t_zip]; rewrite <- ?H; cbn beta).
    - apply ev_zero.
    - apply ev_key; apply W.
    - reflexivity.
    - apply ev_zero.
    - apply ev_neg.
    - apply ev_right.
    - apply ev_div.
    - apply ev_add.
    - apply ev_sub.
    - rewrite <- ev_right. apply ev_add.
    - rewrite <- ev_div. apply ev_sub.
    - destruct (t_product _ _ _ _ _ _) as [v| | |] eqn:P; try discriminate. injection E as <-. apply evals_set; [exact H|].
      rewrite (ev_product _ _ _ _ _ _ Al P). rewrite ev_add, ev_mul, <- !H. cbn [t_zero t_fun]. rewrite ev_zero. apply (al_add_0 so al L).
    - destruct (t_product _ _ _ _ _ _) as [u| | |] eqn:P; try discriminate. cbn [bind] in E.
      destruct (t_product _ u _ _ _ _) as [v| | |] eqn:Q; try discriminate. injection E as <-. apply evals_set; [exact H|].
      rewrite (ev_product _ _ _ _ _ _ Al Q). rewrite ev_sub, ev_mul, (ev_product _ _ _ _ _ _ Al P), ev_add, ev_mul, <- !H.
      cbn [t_zero t_fun]. rewrite ev_zero, (al_add_0 so al L). reflexivity.
    - destruct (t_product _ _ _ _ _ _) as [v| | |] eqn:P; try discriminate. injection E as <-. apply evals_set; [exact H|].
      rewrite (ev_product _ _ _ _ _ _ Al P). rewrite ev_add, ev_mul, <- !H. reflexivity.
    - destruct (t_product _ _ _ _ _ _) as [v| | |] eqn:P; try discriminate. injection E as <-. apply evals_set; [exact H|].
      rewrite (ev_product _ _ _ _ _ _ Al P). rewrite ev_sub, ev_mul, <- !H. reflexivity.
    - rewrite <- ev_right. apply ev_sub.
    - rewrite <- ev_div. apply ev_add.
    - apply ev_zero.
    - apply ev_pairs. eapply Forall_impl; [|exact W]. intros e (W1 & _ & W2). exact (conj W1 W2).
  Qed.
  Lemma eval_prog cs : forall a x a', evals a x -> Forall (cmd_within n D) cs -> Forall (algebraic D) cs -> mean_prog so a cs = Ret a' ->
    evals a' (image_prog so al phi x cs).
  Proof.
    induction cs as [|c cs IH]; intros a x a' H W Al E; [injection E as <-; exact H|].
    inversion_clear W. inversion_clear Al. cbn [mean_prog] in E. destruct (mean_cmd so a c) as [b| | |] eqn:C; try discriminate.
    cbn [bind] in E. unfold image_prog. cbn [fold_left]. apply (IH b); try assumption. apply (eval_cmd a); assumption.
  Qed.
End Evaluate.

(** every owned tensor that is empty or has storage up to some degree stands for its coefficients *)
Lemma stands_self {S R} (so : scalar_ops S R) (n D : N) (st : nat -> dvec S) :
  (forall i, dv_kind (st i) = Owned /\ (dv_size (st i) = 0 \/ exists d, d <= D /\ filled n (st i) d)) ->
  exists a, (forall i, stands_for so n D (st i) (a i)) /\ forall i, t_fun (a i) = wcoef so n (st i).
Proof.
  intros H.
  pose (deg := fun v : dvec S => if dv_size v =? 0 then None else
    option_map N.of_nat (find (fun d => dv_size v =? count_below n (Datatypes.S d)) (seq 0 (Datatypes.S (N.to_nat D))))).
  exists (fun i => mk_atensor (deg (st i)) (wcoef so n (st i))). split; [|reflexivity].
  intros i. destruct (H i) as [K F]. split; [exact K|]. split; [|reflexivity]. cbn [t_deg]. unfold deg.
  destruct (N.eqb_spec (dv_size (st i)) 0) as [Z|Z]; [exact Z|]. destruct F as [F|(d & Hd & F)]; [contradiction|].
  destruct (find _ _) as [e|] eqn:E; cbn [option_map].
  - apply find_some in E. destruct E as [E1 E2]. apply in_seq in E1. apply N.eqb_eq in E2. split; [lia|].
    unfold filled. rewrite Nnat.Nat2N.id. exact E2.
  - exfalso. pose proof (find_none _ _ E (N.to_nat d)) as X. cbn beta in X. unfold filled in F. rewrite F, N.eqb_refl in X.
    assert (true = false) by (apply X, in_seq; lia). discriminate.
Qed.
Lemma parts_beyond {S R A} (so : scalar_ops S R) (al : algebra S A) (L : algebra_laws so al) phi n (Hn : 2 <= n) (v : dvec S) d k :
  filled n v d -> (N.to_nat d < k)%nat -> part al phi n k (wcoef so n v) = a_zero al.
Proof.
  intros F Hk. apply (sum_0 so al L). intros w Hw. apply in_words_of_length in Hw. destruct Hw as [Hw Hl].
  rewrite (wcoef_beyond so n Hn v d w (filled_degree n Hn v d F) Hw); [apply (al_scale_0 so al L)|]. unfold len. lia.
Qed.

(** * C120 *)
(** Products and commutators of which nothing is cut off: whatever elements of an algebra are put in place of the letters. *)
Lemma c120_multiply : forall (S R A : Type) (so : scalar_ops S R) (al : algebra S A) (phi : N -> A) (p : profile) (n : N)
    (x y : dvec S) (l r t : N),
  ring_laws so -> algebra_laws so al -> 2 <= n -> filled n x l -> filled n y r -> 1 <= l + r <= t -> n ^ (l + r + 1) < 2 ^ 64 ->
  exists z, alg_multiply so p n x y (Some t) = Ret z
    /\ evaluate al phi n t (wcoef so n z) = a_mul al (evaluate al phi n t (wcoef so n x)) (evaluate al phi n t (wcoef so n y)).
Proof.
  intros S R A so al phi p n x y l r t RL L Hn Fx Fy Ht P.
  destruct (multiply_conv so RL p n Hn x y l r t Fx Fy) as (e & E & _ & W).
  { lia. } { apply (pow_mono_fits n Hn l (l + r)); [lia|exact P]. } { apply (pow_mono_fits n Hn r (l + r)); [lia|exact P]. }
  { apply (pow_mono_fits n Hn _ (l + r)); [lia|exact P]. }
  exists (dv_from e). split; [exact E|]. rewrite (ev_ext al phi n t _ _ (fun w Hw _ => W w Hw)).
  apply (ev_conv so RL al L). intros i j Hij. destruct (Nat.le_gt_cases i (N.to_nat l)).
  - rewrite (parts_beyond so al L phi n Hn y r j Fy) by lia. apply (mul_0_r so al L).
  - rewrite (parts_beyond so al L phi n Hn x l i Fx) by lia. apply (mul_0_l so al L).
Qed.
Lemma c120_commutator : forall (S R A : Type) (so : scalar_ops S R) (al : algebra S A) (phi : N -> A) (p : profile) (n : N)
    (x y : dvec S) (l r t : N),
  ring_laws so -> algebra_laws so al -> 2 <= n -> filled n x l -> filled n y r -> 1 <= l + r <= t -> n ^ (l + r + 1) < 2 ^ 64 ->
  exists z, alg_commutator so p n x y (Some t) = Ret z
    /\ let a := evaluate al phi n t (wcoef so n x) in let b := evaluate al phi n t (wcoef so n y) in
       evaluate al phi n t (wcoef so n z) = a_sub so al (a_mul al a b) (a_mul al b a).
Proof.
  intros S R A so al phi p n x y l r t RL L Hn Fx Fy Ht P.
  destruct (commutator_conv so RL p n Hn x y l r t Fx Fy) as (e & E & _ & W).
  { lia. } { apply (pow_mono_fits n Hn l (l + r)); [lia|exact P]. } { apply (pow_mono_fits n Hn r (l + r)); [lia|exact P]. }
  { apply (pow_mono_fits n Hn _ (l + r)); [lia|exact P]. }
  exists (dv_from e). split; [exact E|]. cbn zeta. rewrite (ev_ext al phi n t _ _ (fun w Hw _ => W w Hw)).
  unfold bracket. rewrite (ev_sub so RL al L).
  f_equal; apply (ev_conv so RL al L); intros i j Hij.
  - destruct (Nat.le_gt_cases i (N.to_nat l)).
    + rewrite (parts_beyond so al L phi n Hn y r j Fy) by lia. apply (mul_0_r so al L).
    + rewrite (parts_beyond so al L phi n Hn x l i Fx) by lia. apply (mul_0_l so al L).
  - destruct (Nat.le_gt_cases i (N.to_nat r)).
    + rewrite (parts_beyond so al L phi n Hn x l j Fx) by lia. apply (mul_0_r so al L).
    + rewrite (parts_beyond so al L phi n Hn y r i Fy) by lia. apply (mul_0_l so al L).
Qed.
(** Whole programs, products up to degree [D], for elements whose products of more than [D] factors vanish. *)
Lemma c120_programs : forall (S R A : Type) (so : scalar_ops S R) (al : algebra S A) (phi : N -> A) (p : profile) (n D : N)
    (cs : list (tcmd S R)) (st z : nat -> dvec S) (i : nat),
  field_laws so -> algebra_laws so al -> 2 <= n < 2 ^ 32 -> n ^ (D + 1) < 2 ^ 64 ->
  (forall w, word_ok n w -> D < len w -> eval_word al phi w = a_zero al) ->
  (forall i, dv_kind (st i) = Owned /\ (dv_size (st i) = 0 \/ exists d, d <= D /\ filled n (st i) d)) ->
  Forall (cmd_within n D) cs -> Forall (algebraic D) cs ->
  run_prog so p n st cs = Ret z ->
  evaluate al phi n D (wcoef so n (z i)) = image_prog so al phi (fun j => evaluate al phi n D (wcoef so n (st j))) cs i.
Proof.
  intros S R A so al phi p n D cs st z i FL L Hn P Nil Hst W Al E. destruct (stands_self so n D st Hst) as (a & Ha & Fa).
  pose proof (c111_refinement S R so p n D cs st a FL Hn P Ha W) as M. destruct (mean_prog so a cs) as [b| | |] eqn:B.
  - destruct M as (st' & E' & Hb). rewrite E in E'. injection E' as <-.
    rewrite <- (eval_prog so (l_ring so FL) al L phi n D FL Nil cs a (fun j => evaluate al phi n D (wcoef so n (st j))) b); try assumption.
    + apply ev_ext. intros w Hw _. apply (Hb i). exact Hw.
    + intros j. rewrite Fa. reflexivity.
  - rewrite E in M. discriminate.
  - rewrite E in M. discriminate.
  - contradiction.
Qed.
(** from_key_scalar: the tensor of a word is the product of the elements in place of its letters *)
Lemma c120_words : forall (S R A : Type) (so : scalar_ops S R) (al : algebra S A) (phi : N -> A) (p : profile) (n D : N) (w : word)
    (k : tkey) (c : S),
  field_laws so -> algebra_laws so al -> 2 <= n < 2 ^ 32 -> word_ok n w -> len w <= D -> n ^ (D + 1) < 2 ^ 64 ->
  tk_from_letters p n w = Ret k ->
  exists v, vr_from_key_scalar (dense_ops so (tensor_basis p n)) k c = Ret v
    /\ evaluate al phi n D (wcoef so n v) = a_scale al c (eval_word al phi w).
Proof.
  intros S R A so al phi p n D w k c FL L Hn Hw Hl P E.
  assert (F : fits n w) by (apply (from_letters_inv p n w k) in E; [apply E|lia|exact Hw]). destruct F as [_ Hm].
  pose proof (c111_refinement S R so p n D [CKey 0 w c] (fun _ => dv_new) (fun _ => t_zero so) FL Hn P
    (fun _ => std_new so n D Hn P)) as M.
  cbn [mean_prog mean_cmd bind run_prog run_cmd] in M. rewrite E in M. cbn [bind] in M.
  destruct M as (st & Er & Hs).
  { constructor; [|constructor]. exact (conj Hw (conj Hm Hl)). }
  destruct (vr_from_key_scalar _ k c) as [v| | |]; try discriminate. cbn [bind] in Er. injection Er as <-.
  exists v. split; [reflexivity|]. rewrite <- (ev_key so al L phi n D w c Hw Hl). apply ev_ext. intros u Hu _.
  exact (proj2 (proj2 (Hs O)) u Hu).
Qed.

Example c120_example :
  let phi := fun a => if a =? 1 then mk_tri (q 1) (q 2) (q 0) (q 3) (q 1) (q 1) else mk_tri (q 0) (q 1) (q 5) (q 1) (q 1) (q 2) in
  let x := dv_from [q 1; q 2; q 3] in let y := dv_from [q 5; q 7; q 11] in
  let ev := fun v => evaluate tri_algebra phi 2 3 (wcoef qc_ops 2 v) in
  (** the letters do not commute *)
  a_mul tri_algebra (phi 1) (phi 2) <> a_mul tri_algebra (phi 2) (phi 1)
  /\ (z <- alg_multiply qc_ops dev 2 x y (Some 3) ;; Ret (entries (ev z))) = Ret (entries (a_mul tri_algebra (ev x) (ev y)))
  /\ entries (a_mul tri_algebra (ev x) (ev y)) = qz [36; 334; 801; 370; 350; 306]%Z
  (** strictly upper triangular matrices: three factors vanish *)
  /\ (let phi := fun a => if a =? 1 then mk_tri (q 0) (q 2) (q 0) (q 0) (q 1) (q 0) else mk_tri (q 0) (q 1) (q 5) (q 0) (q 3) (q 0) in
      let start := fun _ : nat => @dv_new Qc in
      let cs := [CKey 0 [1] (q 1); CPairs 1 [([], q 4); ([2], q 2); ([1; 2], q 3); ([2], q 5)]; CComm 2 0 1 (Some 2);
                 CSubMul 1 0 1 (Some 2); CDivide 1 (q 2); CAddScaled 1 2 (q 5); CNeg 1] in
      (forall w, word_ok 2 w -> 2 < len w -> eval_word tri_algebra phi w = a_zero tri_algebra)
      /\ Forall (cmd_within 2 2) cs /\ Forall (algebraic 2) cs
      /\ (z <- run_prog qc_ops dev 2 start cs ;; Ret (entries (evaluate tri_algebra phi 2 2 (wcoef qc_ops 2 (z 1%nat)))))
         = Ret (entries (image_prog qc_ops tri_algebra phi (fun _ => a_zero tri_algebra) cs 1%nat))
      /\ entries (image_prog qc_ops tri_algebra phi (fun _ => a_zero tri_algebra) cs 1%nat) = [- 2 # 1; 1 # 2; - 361 # 2; - 2 # 1; - 17 # 2; - 2 # 1]%Q).
Proof.
  cbn zeta. split; [vm_compute; discriminate|]. split; [vm_compute; reflexivity|]. split; [vm_compute; reflexivity|].
  split; [|split; [|split; [|split]]].
  - intros w Hw Hl. destruct w as [|a [|b [|c w]]]; try (unfold len in Hl; cbn in Hl; lia).
    cbn [eval_word fold_right]. destruct (fold_right _ _ w).
    destruct (a =? 1), (b =? 1), (c =? 1); cbn; f_equal; ring.
  - repeat (apply Forall_cons; [cbn; repeat (first [exact I | split | apply Forall_cons | apply Forall_nil]); try (vm_compute; split; discriminate); try (vm_compute; discriminate)|]).
    apply Forall_nil.
  - repeat (apply Forall_cons; [first [exact I | reflexivity]|]). apply Forall_nil.
  - vm_compute. reflexivity.
  - vm_compute. reflexivity.
Qed.
