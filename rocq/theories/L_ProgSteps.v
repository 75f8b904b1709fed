(** The scalar operations of programs on dense tensors, for any scalars: running a program gives [step_prog]. *)
From Verif Require Import Machine MachineLemmas S_Words L_Words M_TensorKey L_TensorKey M_TensorBasis
  L_TensorBasis M_Scalar M_Vector M_Dense S_Vector S_Tensor L_Dense L_PropKey L_PropDense
  M_Algebra L_Algebra L_PropAlgebra L_PropProducts L_PropHistory L_PropFloat S_TensorProg L_PropTensorProg S_ProgSteps.
Local Open Scope N_scope.

Section Steps.
  Context {S R : Type} (so : scalar_ops S R) (p : profile) (n D : N)
    (Hn : 2 <= n < 2 ^ 32) (PD : n ^ (D + 1) < 2 ^ 64).
  Notation wc := (wcoef so n).
  Notation zero := (s_zero so).
  Notation ob := (tensor_basis p n).
  Notation std := (stands_for so n D).
  Notation cbS d := (count_below n (Datatypes.S (N.to_nat d))).
  Let Hn2 : 2 <= n := proj1 Hn.

  Lemma std_shaped v a : std v a -> shaped n D v (t_deg a).
  Proof. intros (K & Hd & _). split; [exact K|exact Hd]. Qed.
  Lemma std_unstored v a w : std v a -> word_ok n w -> stores a w = false -> t_fun a w = zero.
  Proof.
    intros H Hw E. rewrite <- (std_stored so n D Hn PD v a w H Hw) in E. apply N.ltb_ge in E. exact (std_outside so n D v a w H Hw E).
  Qed.
  Lemma terms_ext l r f g f' g' w : word_ok n w -> (forall u, word_ok n u -> f u = f' u) ->
    (forall u, word_ok n u -> g u = g' u) -> terms so l r f g w = terms so l r f' g' w.
  Proof.
    intros Hw Hf Hg. unfold terms. apply map_ext_in. intros [u v] H. apply filter_In in H. destruct H as [H _].
    apply in_rev in H. apply splits_in in H. subst w. apply word_ok_app in Hw. destruct Hw as [Hu Hv]. cbn [fst snd].
    rewrite (Hf u Hu), (Hg v Hv). reflexivity.
  Qed.

  Lemma step_product func self x y s a b t : std self s -> std x a -> std y b ->
    match t with Some t => t <= D | None => True end ->
    means so n D (multiply_and_add_into_impl so p n self x y func t) (r_product so s a b func t).
  Proof.
    intros Hs Ha Hb Ht.
    pose proof (shp_product so p n D Hn PD func self x y _ _ _ t (std_shaped _ _ Hs) (std_shaped _ _ Ha) (std_shaped _ _ Hb) Ht) as Sh.
    destruct (std_degree so n D Hn PD _ _ Hs) as [Ds Ls], (std_degree so n D Hn PD _ _ Ha) as [Da La],
      (std_degree so n D Hn PD _ _ Hb) as [Db Lb].
    pose proof (fitsD n D Hn PD _ Ls) as Ps. pose proof (fitsD n D Hn PD _ La) as Pa. pose proof (fitsD n D Hn PD _ Lb) as Pb.
    unfold r_product. destruct t as [t|]; [|exact Sh].
    destruct (t_deg a) as [l|] eqn:Ea; [|cbn [d_product] in Sh; destruct (t_deg b); exact Sh].
    destruct (t_deg b) as [r|] eqn:Eb; [|exact Sh]. cbn zeta. cbn [odeg] in *. set (m := N.min t (l + r)) in *.
    destruct (d_product (t_deg s) (Some l) (Some r) (Some t)) as [d| | |] eqn:Ed; cbn [shapes bind means] in *; try exact Sh.
    destruct Sh as (v & E & K & Sv). exists v. split; [exact E|]. split; [exact K|]. cbn [t_deg t_fun]. split; [exact Sv|].
    assert (Lm : m <= D) by (unfold m; lia). pose proof (fitsD n D Hn PD _ Lm) as Pm.
    destruct Ha as (_ & Sa & Fa), Hb as (_ & Sb & Fb). rewrite Ea in Sa. rewrite Eb in Sb.
    assert (A2 : stored_to n x (N.min m l)) by (apply (filled_stored n Hn2 x l); [exact (proj2 Sa)|lia]).
    assert (A3 : stored_to n y (N.min m r)) by (apply (filled_stored n Hn2 y r); [exact (proj2 Sb)|lia]).
    assert (A1 : odeg (t_deg s) < m \/ stored_to n self m).
    { destruct Hs as (_ & Ss & _). cbn [d_product] in Ed. fold m in Ed. destruct (t_deg s) as [ls|]; cbn [odeg] in *.
      - destruct (N.lt_ge_cases ls m) as [H|H]; [left; exact H|right].
        apply (filled_stored n Hn2 self ls); [exact (proj2 Ss)|exact H].
      - left. destruct (N.eqb_spec m 0); [discriminate|lia]. }
    destruct (mul_add_ok so p n Hn2 func self x y _ l r t Ds Da Db Ps Pa Pb Pm A1 A2 A3) as (e & E' & _ & Hw).
    fold m in E', Hw. rewrite E in E'. injection E' as ->.
    intros w Hwo. change (wc (dv_from e) w = if len w <=? m then
      fold_left (fun s c => s_add so s (func c)) (terms so l r (t_fun a) (t_fun b) w) (t_fun s w) else t_fun s w).
    rewrite (Hw w Hwo). destruct Hs as (_ & _ & Fs). rewrite (Fs w Hwo).
    rewrite (terms_ext l r (wc x) (wc y) (t_fun a) (t_fun b) w Hwo Fa Fb). reflexivity.
  Qed.
  Lemma step_commutator x y a b t : std x a -> std y b -> match t with Some t => t <= D | None => True end ->
    means so n D (alg_commutator so p n x y t)
      (u <- r_product so (t_zero so) a b (fun c => c) t ;; r_product so u b a (s_uminus so) t).
  Proof.
    intros Ha Hb Ht. unfold alg_commutator.
    pose proof (step_product (fun c => c) dv_new x y _ a b t (std_new so n D Hn PD) Ha Hb Ht) as H.
    unfold alg_add_mul. destruct (r_product so (t_zero so) a b (fun c => c) t) as [u| | |]; cbn [means bind] in *.
    - destruct H as (v & -> & Hv). cbn [bind]. unfold alg_sub_mul. apply step_product; assumption.
    - rewrite H. reflexivity.
    - rewrite H. reflexivity.
    - contradiction.
  Qed.

  Lemma step_map x a o h : std x a ->
    elems_after so (tidx p n) (dv_elems x) false o = map h (dv_elems x) -> op_key_ok ob (tidx p n) o ->
    match o with OSwap _ | OInsertSingle _ _ => False | _ => True end ->
    exists v, call so ob x o = Ret v /\ std v (r_map so a h).
  Proof.
    intros Hx He Hk Ho. apply (vec_ok so p n D x a o _ Hx Hk Ho); rewrite He.
    - cbn [r_map t_deg]. rewrite len_map. exact (proj1 (proj2 Hx)).
    - intros w Hw. rewrite lcoef_map. cbn [r_map t_fun]. rewrite (std_stored so n D Hn PD x a w Hx Hw), (std_lcoef so n D x a w Hx Hw).
      destruct (stores a w) eqn:E; [reflexivity|]. exact (std_unstored x a w Hx Hw E).
  Qed.
  Lemma step_zip x y a b o op g : std x a -> std y b ->
    elems_after so (tidx p n) (dv_elems x) false o = comb so op (dv_elems x) (map g (dv_elems y)) ->
    op_key_ok ob (tidx p n) o ->
    match o with OSwap _ | OInsertSingle _ _ => False | _ => True end ->
    exists v, call so ob x o = Ret v /\ std v (r_zip a b (fun u v => op u (g v))).
  Proof.
    intros Hx Hy He Hk Ho. apply (vec_ok so p n D x a o _ Hx Hk Ho); rewrite He.
    - cbn [r_zip t_deg]. rewrite comb_len, len_map. pose proof (proj1 (proj2 Hx)) as Ax. pose proof (proj1 (proj2 Hy)) as Ay.
      destruct (t_deg a) as [d|], (t_deg b) as [e|]; cbn [join]; unfold filled, dv_size in Ax, Ay.
      + destruct Ax as [A1 ->], Ay as [A2 ->]. split; [lia|]. destruct (N.le_ge_cases d e) as [H|H].
        * pose proof (count_below_mono n (Datatypes.S (N.to_nat d)) (Datatypes.S (N.to_nat e))) as M.
          rewrite (N.max_r d e) by exact H. rewrite N.max_r; [reflexivity|]. apply M; lia.
        * pose proof (count_below_mono n (Datatypes.S (N.to_nat e)) (Datatypes.S (N.to_nat d))) as M.
          rewrite (N.max_l d e) by exact H. rewrite N.max_l; [reflexivity|]. apply M; lia.
      + rewrite Ay. split; [exact (proj1 Ax)|]. rewrite (proj2 Ax). apply N.max_0_r.
      + rewrite Ax. split; [exact (proj1 Ay)|]. rewrite (proj2 Ay). apply N.max_0_l.
      + rewrite Ax, Ay. reflexivity.
    - intros w Hw. rewrite combine_mapped. cbn [r_zip t_fun].
      rewrite (std_lcoef so n D x a w Hx Hw), (std_lcoef so n D y b w Hy Hw), (std_stored so n D Hn PD y b w Hy Hw). reflexivity.
  Qed.

  Lemma step_cmd_ok st a c : all_stand so n D st a -> cmd_within n D c ->
    means_all so n D (run_cmd so p n st c) (step_cmd so a c).
  Proof.
    intros H W. destruct c; cbn [run_cmd step_cmd cmd_within] in *.
    - eexists. split; [reflexivity|]. apply set_stand; [exact H|]. exact (std_new so n D Hn PD).
    - destruct W as (W1 & W2 & W3). assert (F : fits n w) by (split; assumption).
      rewrite (from_letters_ok p n w (proj2 Hn) F). cbn [bind]. apply set_ret; [exact H|]. apply key_scalar_ok; assumption.
    - apply set_ret; [exact H|]. eexists. split; [reflexivity|].
      destruct (H a0) as (_ & Hd & Hw). split; [reflexivity|]. split; [exact Hd|exact Hw].
    - apply set_ret; [exact H|]. apply (vec_ok so p n D (st d) (a d) OClear (t_zero so) (H d)); try exact I; [reflexivity|].
      intros w _. exact (coef_empty so n D Hn PD dv_new _ eq_refl).
    - destruct W as (W1 & W2). assert (F : fits n w) by (split; assumption).
      rewrite (from_letters_ok p n w (proj2 Hn) F). cbn [bind]. apply set_ret; [exact H|].
      apply (vec_ok so p n D (st d) (a d) (OErase (key_of n w)) _ (H d)); try exact I.
      + cbn [op_key_ok]. rewrite (tidx_word p n Hn w F). exact (key_to_index_ok p n w (proj2 Hn) F).
      + cbn [elems_after t_deg]. rewrite len_upd. exact (proj1 (proj2 (H d))).
      + intros u Hu. cbn [elems_after t_fun]. rewrite lcoef_upd, (tidx_word p n Hn w F), (std_lcoef so n D _ _ u (H d) Hu).
        destruct (word_eqb_spec u w) as [->|Hne].
        * rewrite N.eqb_refl. cbn [andb]. destruct (N.ltb_spec (windex n w) (len (dv_elems (st d)))) as [Hl|Hl]; [reflexivity|].
          exact (std_outside so n D _ _ w (H d) Hu Hl).
        * destruct (N.eqb_spec (windex n u) (windex n w)) as [E|_]; [|reflexivity].
          exfalso. apply Hne. apply (windex_inj n); assumption.
    - apply set_ret; [exact H|]. apply (step_map (st d) (a d) OUminus); try reflexivity; try exact I; apply H.
    - apply set_ret; [exact H|]. apply (step_map (st d) (a d) (OLmul c)); try reflexivity; try exact I; apply H.
    - apply set_ret; [exact H|]. apply (step_map (st d) (a d) (ORdiv r)); try reflexivity; try exact I; apply H.
    - apply set_ret; [exact H|]. apply (step_zip (st d) (st a0) (a d) (a a0) (OAdd (st a0)) (s_add so) (fun x => x));
        try exact I; try apply H. cbn [elems_after]. rewrite map_id. reflexivity.
    - apply set_ret; [exact H|]. apply (step_zip (st d) (st a0) (a d) (a a0) (OSub (st a0)) (s_sub so) (fun x => x));
        try exact I; try apply H. cbn [elems_after]. rewrite map_id. reflexivity.
    - apply set_ret; [exact H|]. apply (step_zip (st d) (st a0) (a d) (a a0) (OAddLmul (st a0) c) (s_add so) (fun x => s_mul so x c));
        try exact I; try apply H. reflexivity.
    - apply set_ret; [exact H|]. apply (step_zip (st d) (st a0) (a d) (a a0) (OSubRdiv (st a0) r) (s_sub so) (fun x => s_div so x r));
        try exact I; try apply H. reflexivity.
    - apply (set_means so n D st a d _ _ H).
      change (alg_multiply so p n (st a0) (st b) t) with (alg_add_mul so p n dv_new (st a0) (st b) t).
      apply step_product; try apply H; [exact (std_new so n D Hn PD)|]. destruct t; [exact W|exact I].
    - assert (Wt : match t with Some t => t <= D | None => True end) by (destruct t; [exact W|exact I]).
      pose proof (step_commutator (st a0) (st b) (a a0) (a b) t (H a0) (H b) Wt) as M.
      pose proof (set_means so n D st a d _ _ H M) as M'.
      destruct (r_product so (t_zero so) (a a0) (a b) (fun c => c) t); exact M'.
    - apply (set_means so n D st a d _ _ H). apply step_product; try apply H. destruct t; [exact W|exact I].
    - apply (set_means so n D st a d _ _ H). apply step_product; try apply H. destruct t; [exact W|exact I].
    - apply set_ret; [exact H|]. apply (step_zip (st d) (st a0) (a d) (a a0) (OSubLmul (st a0) c) (s_sub so) (fun x => s_mul so x c));
        try exact I; try apply H. reflexivity.
    - apply set_ret; [exact H|]. apply (step_zip (st d) (st a0) (a d) (a a0) (OAddRdiv (st a0) r) (s_add so) (fun x => s_div so x r));
        try exact I; try apply H. reflexivity.
    - apply set_ret; [exact H|]. exact (from_degree_ok so p n D Hn PD e W).
    - rewrite (keys_ok p n D Hn l W). cbn [bind]. apply set_ret; [exact H|]. exact (pairs_ok so p n D Hn PD l W).
    - assert (F : fits n w) by exact W. rewrite (from_letters_ok p n w (proj2 Hn) F). cbn [bind]. apply set_written; [exact H|].
      apply (at_ok so p n D Hn PD (st d) (a d) (OSet (key_of n w) c)); try exact I; try reflexivity;
        [apply H|exact F|exact (key_index p n Hn w F)].
    - assert (F : fits n w) by exact W. rewrite (from_letters_ok p n w (proj2 Hn) F). cbn [bind]. apply set_ret; [exact H|].
      apply (at_ok so p n D Hn PD (st d) (a d) (OKeyAddMul (key_of n w) c) w (fun x => s_add so x c));
        try exact I; try reflexivity; [apply H|exact F|exact (key_index p n Hn w F)].
    - assert (F : fits n w) by exact W. rewrite (from_letters_ok p n w (proj2 Hn) F). cbn [bind]. apply set_ret; [exact H|].
      apply (at_ok so p n D Hn PD (st d) (a d) (OKeySubMul (key_of n w) c) w (fun x => s_sub so x c));
        try exact I; try reflexivity; [apply H|exact F|exact (key_index p n Hn w F)].
  Qed.
  Lemma step_prog_ok cs : forall st a, all_stand so n D st a -> Forall (cmd_within n D) cs ->
    means_all so n D (run_prog so p n st cs) (step_prog so a cs).
  Proof.
    induction cs as [|c cs IH]; intros st a H F.
    - eexists. split; [reflexivity|exact H].
    - inversion_clear F. cbn [run_prog step_prog]. pose proof (step_cmd_ok st a c H H0) as M.
      destruct (step_cmd so a c) as [a'| | |]; cbn [means_all bind] in *; try (rewrite M; reflexivity); [|contradiction].
      destruct M as (st' & -> & H'). apply IH; assumption.
  Qed.
End Steps.
