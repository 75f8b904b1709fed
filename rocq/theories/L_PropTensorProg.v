(** Property lemmas C111 (restated as theorems in P_TensorProg.v). *)
From Coq Require Import QArith Qcanon Ring_theory Ring.
From Verif Require Import Machine MachineLemmas S_Words L_Words M_TensorKey L_TensorKey M_TensorBasis
  L_TensorBasis M_Scalar M_Vector M_Dense S_Vector S_Tensor I_Scalars L_Dense L_Ring L_PropKey L_PropDense
  M_Algebra L_Algebra L_Conv L_PropAlgebra L_PropProducts L_PropHistory M_Float S_TensorProg.
Local Open Scope N_scope.

Section Programs.
  Context {S R : Type} (so : scalar_ops S R) (FL : field_laws so) (p : profile) (n D : N)
    (Hn : 2 <= n < 2 ^ 32) (PD : n ^ (D + 1) < 2 ^ 64).
  Let L := l_ring so FL.
  Let RT := ring_of so L.
  Add Ring scalars : RT.
  Notation wc := (wcoef so n).
  Notation zero := (s_zero so).
  Notation ob := (tensor_basis p n).
  Notation std := (stands_for so n D).
  Notation cbS d := (count_below n (Datatypes.S (N.to_nat d))).
  Let Hn2 : 2 <= n := proj1 Hn.

  Lemma fitsD d : d <= D -> n ^ (d + 1) < 2 ^ 64.
  Proof. intros H. exact (pow_mono_fits n Hn2 d D H PD). Qed.

  (** degree and storage of a variable *)
  Definition odeg (d : option N) : N := match d with Some d => d | None => 0 end.
  Lemma std_degree v a : std v a -> has_degree n v (odeg (t_deg a)) /\ odeg (t_deg a) <= D.
  Proof.
    intros (_ & Hd & _). destruct (t_deg a) as [d|]; cbn [odeg].
    - destruct Hd as [Hd Hf]. split; [exact (filled_degree n Hn2 v d Hf)|exact Hd].
    - split; [left; split; [exact Hd|reflexivity]|lia].
  Qed.
  Lemma empty_not_stored (v : dvec S) e : dv_size v = 0 -> ~ stored_to n v e.
  Proof.
    intros H Hs. unfold stored_to in Hs. rewrite H in Hs. cbn [count_below] in Hs.
    pose proof (pow_pos n (N.of_nat (N.to_nat e))). lia.
  Qed.
  Lemma std_beyond v a w : std v a -> word_ok n w -> odeg (t_deg a) < len w -> t_fun a w = zero.
  Proof.
    intros H Hw Hl. destruct (std_degree v a H) as [Hd _]. destruct H as (_ & _ & Hf). rewrite <- (Hf w Hw).
    exact (wcoef_beyond so n Hn2 v _ w Hd Hw Hl).
  Qed.
  Lemma coef_empty (v : dvec S) i : dv_size v = 0 -> coef so v i = zero.
  Proof.
    intros H. unfold coef, dv_as_slice. unfold dv_size in H. destruct (dv_elems v) as [|e l].
    - unfold slice_get. destruct (N.to_nat i); reflexivity.
    - rewrite len_cons in H. lia.
  Qed.
  Lemma std_new : std dv_new (t_zero so).
  Proof. split; [reflexivity|]. split; [reflexivity|]. intros w _. apply coef_empty. reflexivity. Qed.

  (** products *)
  Lemma tconv_ext_ok t (f f' g g' : word -> S) w : word_ok n w ->
    (forall u, word_ok n u -> f u = f' u) -> (forall u, word_ok n u -> g u = g' u) ->
    tconv so t f g w = tconv so t f' g' w.
  Proof.
    intros Hw Hf Hg. unfold tconv. destruct (len w <=? t); [|reflexivity].
    apply conv_ext; intros u v E; rewrite E in Hw; apply word_ok_app in Hw; destruct Hw; auto.
  Qed.
  Lemma std_after self g e a : dv_kind self = Owned ->
    match t_deg a with None => len e = 0 | Some d => d <= D /\ len e = cbS d end ->
    (forall w, word_ok n w -> wc (dv_from e) w = t_fun a w) -> std (after self g e) a.
  Proof.
    intros K Hd Hw. split; [|split].
    - unfold after. cbn [dv_kind]. rewrite K. reflexivity.
    - destruct (t_deg a); exact Hd.
    - intros w Hwo. rewrite <- (Hw w Hwo). reflexivity.
  Qed.
  Definition means (o : outcome (dvec S)) (m : outcome (atensor S)) : Prop :=
    match m with Ret a => exists v, o = Ret v /\ std v a | Panic => o = Panic | UB => o = UB | Diverge => False end.

  Section Product.
    Context (func : S -> S) (h : S -> S -> S)
      (H0 : forall a, h a zero = a)
      (Hh : forall l r f g w a,
        (forall u v, w = u ++ v -> l < len u -> f u = zero) -> (forall u v, w = u ++ v -> r < len v -> g v = zero) ->
        fold_left (fun a c => s_add so a (func c)) (terms so l r f g w) a = h a (conv so f g w)).
    Lemma product_ok self x y s a b t : std self s -> std x a -> std y b ->
      match t with Some t => t <= D | None => True end ->
      means (multiply_and_add_into_impl so p n self x y func t) (t_product so s a b h t).
    Proof.
      intros Hs Ha Hb Ht. destruct (std_degree _ _ Hs) as [Ds Ls], (std_degree _ _ Ha) as [Da La], (std_degree _ _ Hb) as [Db Lb].
      pose proof (fitsD _ Ls) as Ps. pose proof (fitsD _ La) as Pa. pose proof (fitsD _ Lb) as Pb.
      destruct t as [t|].
      2:{ cbn [t_product means]. unfold multiply_and_add_into_impl.
          rewrite (degree_ok p n Hn2 x _ Da Pa), (degree_ok p n Hn2 y _ Db Pb). reflexivity. }
      set (l := odeg (t_deg a)) in *. set (r := odeg (t_deg b)) in *. set (sd := odeg (t_deg s)) in *.
      set (m := N.min t (l + r)).
      assert (Lm : m <= D) by (unfold m; lia). pose proof (fitsD _ Lm) as Pm.
      assert (UBc : ~ ((sd < m \/ stored_to n self m) /\ stored_to n x (N.min m l) /\ stored_to n y (N.min m r)) ->
        multiply_and_add_into_impl so p n self x y func (Some t) = UB).
      { intros H. apply (mul_add_UB so p n Hn2 func self x y sd l r t); assumption. }
      assert (OKc : (sd < m \/ stored_to n self m) -> stored_to n x (N.min m l) -> stored_to n y (N.min m r) ->
        forall d, (if sd <? m then cbS m else dv_size self) = cbS d -> d <= D ->
        exists v, multiply_and_add_into_impl so p n self x y func (Some t) = Ret v
          /\ std v (mk_atensor (Some d) (fun w => h (t_fun s w) (tconv so t (t_fun a) (t_fun b) w)))).
      { intros A1 A2 A3 d Hd Ld.
        destruct (mul_add_ok so p n Hn2 func self x y sd l r t Ds Da Db Ps Pa Pb Pm A1 A2 A3) as (e & E & He & Hw).
        fold m in E, He, Hw. eexists. split; [exact E|]. apply std_after.
        - exact (proj1 Hs).
        - cbn [t_deg]. split; [exact Ld|]. rewrite He. exact Hd.
        - intros w Hwo. rewrite (Hw w Hwo). cbn [t_fun].
          destruct Hs as (_ & _ & Fs). rewrite (Fs w Hwo).
          rewrite <- (tconv_ext_ok t (wc x) (t_fun a) (wc y) (t_fun b) w Hwo (proj2 (proj2 Ha)) (proj2 (proj2 Hb))).
          assert (B1 : forall u v, w = u ++ v -> l < len u -> wc x u = zero).
          { intros u v E' Hlt. rewrite E' in Hwo. apply word_ok_app in Hwo. destruct Hwo as [Hu _].
            exact (wcoef_beyond so n Hn2 x l u Da Hu Hlt). }
          assert (B2 : forall u v, w = u ++ v -> r < len v -> wc y v = zero).
          { intros u v E' Hlt. rewrite E' in Hwo. apply word_ok_app in Hwo. destruct Hwo as [_ Hv].
            exact (wcoef_beyond so n Hn2 y r v Db Hv Hlt). }
          destruct (N.leb_spec (len w) m) as [H1|H1].
          + rewrite (Hh l r (wc x) (wc y) w _ B1 B2). unfold tconv. destruct (N.leb_spec (len w) t); [reflexivity|lia].
          + assert (tconv so t (wc x) (wc y) w = zero) as ->; [|symmetry; apply H0].
            unfold tconv. destruct (N.leb_spec (len w) t) as [H2|H2]; [|reflexivity].
            apply conv_zero; [exact L|]. intros u v E'. pose proof (len_prefix w u v E') as El.
            destruct (N.lt_ge_cases l (len u)) as [H3|H3].
            * rewrite (B1 u v E' H3). ring.
            * rewrite (B2 u v E' ltac:(lia)). ring. }
      cbn [t_product]. destruct Ha as (_ & Sa & _), Hb as (_ & Sb & _), Hs as (_ & Ss & _).
      destruct (t_deg a) as [la|].
      2:{ cbn [means]. apply UBc. intros (_ & H & _). exact (empty_not_stored x _ Sa H). }
      destruct (t_deg b) as [lb|].
      2:{ cbn [means]. apply UBc. intros (_ & _ & H). exact (empty_not_stored y _ Sb H). }
      cbn [odeg] in l, r. fold l r in Sa, Sb |- *. fold m.
      assert (A2 : stored_to n x (N.min m l)) by (apply (filled_stored n Hn2 x l); [exact (proj2 Sa)|lia]).
      assert (A3 : stored_to n y (N.min m r)) by (apply (filled_stored n Hn2 y r); [exact (proj2 Sb)|lia]).
      destruct (t_deg s) as [ls|]; cbn [odeg] in sd.
      - cbn [means]. apply OKc; try assumption.
        + destruct (N.lt_ge_cases sd m) as [H|H]; [left; exact H|right].
          apply (filled_stored n Hn2 self ls); [exact (proj2 Ss)|exact H].
        + destruct (N.ltb_spec sd m) as [H|H].
          * unfold sd in H. rewrite (N.max_r ls m) by lia. reflexivity.
          * unfold sd in H. rewrite (N.max_l ls m) by lia. exact (proj2 Ss).
        + unfold sd in Ls. lia.
      - destruct (N.eqb_spec m 0) as [H|H]; cbn [means].
        + apply UBc. intros ([Hlt|Hst] & _); [unfold sd in Hlt; lia|exact (empty_not_stored self _ Ss Hst)].
        + apply OKc; try assumption; [left; unfold sd; lia|]. destruct (N.ltb_spec sd m); [reflexivity|unfold sd in *; lia].
    Qed.
  End Product.
  Lemma add_mul_ok self x y s a b t : std self s -> std x a -> std y b ->
    match t with Some t => t <= D | None => True end ->
    means (alg_add_mul so p n self x y t) (t_product so s a b (s_add so) t).
  Proof.
    intros. apply product_ok; try assumption; [intros; ring|]. intros l r f g w z H3 H4. apply terms_conv; assumption.
  Qed.
  Lemma sub_mul_ok self x y s a b t : std self s -> std x a -> std y b ->
    match t with Some t => t <= D | None => True end ->
    means (alg_sub_mul so p n self x y t) (t_product so s a b (s_sub so) t).
  Proof.
    intros. apply product_ok; try assumption; [intros; ring|]. intros l r f g w z H3 H4. apply terms_conv_opp; assumption.
  Qed.
  Lemma commutator_ok x y a b t : std x a -> std y b -> match t with Some t => t <= D | None => True end ->
    means (alg_commutator so p n x y t)
      (u <- t_product so (t_zero so) a b (s_add so) t ;; t_product so u b a (s_sub so) t).
  Proof.
    intros Ha Hb Ht. unfold alg_commutator. pose proof (add_mul_ok dv_new x y _ a b t std_new Ha Hb Ht) as H.
    destruct (t_product so (t_zero so) a b (s_add so) t) as [u| | |]; cbn [means bind] in *.
    - destruct H as (v & -> & Hv). cbn [bind]. apply sub_mul_ok; assumption.
    - rewrite H. reflexivity.
    - rewrite H. reflexivity.
    - contradiction.
  Qed.

  (** the vector operations *)
  Definition tidx (k : tkey) : N := match tb_key_to_index p n k with Ret i => i | _ => 0 end.
  Lemma tidx_word w : fits n w -> tidx (key_of n w) = windex n w.
  Proof. intros F. unfold tidx. rewrite (key_to_index_ok p n w (proj2 Hn) F). reflexivity. Qed.
  Lemma vec_ok x a o c : std x a -> op_key_ok ob tidx o ->
    match o with OSwap _ | OInsertSingle _ _ => False | _ => True end ->
    match t_deg c with None => len (elems_after so tidx (dv_elems x) false o) = 0
                     | Some d => d <= D /\ len (elems_after so tidx (dv_elems x) false o) = cbS d end ->
    (forall w, word_ok n w -> lcoef so (elems_after so tidx (dv_elems x) false o) (windex n w) = t_fun c w) ->
    exists v, call so ob x o = Ret v /\ std v c.
  Proof.
    intros Hx Hk Ho Hl Hw. pose proof (proj1 Hx) as K.
    assert (W : dv_wf x) by (unfold dv_wf; rewrite K; exact I).
    assert (Fx : is_fixed x = false) by (unfold is_fixed; rewrite K; reflexivity).
    eexists. split; [exact (call_ok so ob tidx x o W Hk)|]. rewrite Fx.
    destruct o; try contradiction; (apply std_after; [exact K|exact Hl|exact Hw]).
  Qed.
  Lemma std_lcoef x a w : std x a -> word_ok n w -> lcoef so (dv_elems x) (windex n w) = t_fun a w.
  Proof. intros (_ & _ & H) Hw. exact (H w Hw). Qed.
  Lemma std_outside x a w : std x a -> word_ok n w -> len (dv_elems x) <= windex n w -> t_fun a w = zero.
  Proof.
    intros H Hw Hl. rewrite <- (std_lcoef x a w H Hw). unfold lcoef. rewrite slice_get_none by exact Hl. reflexivity.
  Qed.
  Lemma map_ok x a o h : std x a -> h zero = zero ->
    elems_after so tidx (dv_elems x) false o = map h (dv_elems x) -> op_key_ok ob tidx o ->
    match o with OSwap _ | OInsertSingle _ _ => False | _ => True end ->
    exists v, call so ob x o = Ret v /\ std v (t_map a h).
  Proof.
    intros Hx H0 He Hk Ho. apply (vec_ok x a o _ Hx Hk Ho); rewrite He.
    - cbn [t_map t_deg]. rewrite len_map. exact (proj1 (proj2 Hx)).
    - intros w Hw. rewrite lcoef_map. cbn [t_map t_fun]. rewrite (std_lcoef x a w Hx Hw).
      destruct (N.ltb_spec (windex n w) (len (dv_elems x))) as [H|H]; [reflexivity|].
      rewrite (std_outside x a w Hx Hw H). symmetry. exact H0.
  Qed.
  Lemma zip_ok x y a b o op g : std x a -> std y b -> (forall z, op z (g zero) = z) ->
    elems_after so tidx (dv_elems x) false o = comb so op (dv_elems x) (map g (dv_elems y)) ->
    op_key_ok ob tidx o ->
    match o with OSwap _ | OInsertSingle _ _ => False | _ => True end ->
    exists v, call so ob x o = Ret v /\ std v (t_zip a b (fun u v => op u (g v))).
  Proof.
    intros Hx Hy H0 He Hk Ho. apply (vec_ok x a o _ Hx Hk Ho); rewrite He.
    - cbn [t_zip t_deg]. rewrite comb_len, len_map. pose proof (proj1 (proj2 Hx)) as Ax. pose proof (proj1 (proj2 Hy)) as Ay.
      destruct (t_deg a) as [d|], (t_deg b) as [e|]; cbn [join]; unfold filled, dv_size in Ax, Ay.
      + destruct Ax as [A1 ->], Ay as [A2 ->]. split; [lia|]. destruct (N.le_ge_cases d e) as [H|H].
        * pose proof (count_below_mono n (Datatypes.S (N.to_nat d)) (Datatypes.S (N.to_nat e))) as M.
          rewrite (N.max_r d e) by exact H. rewrite N.max_r; [reflexivity|]. apply M; lia.
        * pose proof (count_below_mono n (Datatypes.S (N.to_nat e)) (Datatypes.S (N.to_nat d))) as M.
          rewrite (N.max_l d e) by exact H. rewrite N.max_l; [reflexivity|]. apply M; lia.
      + rewrite Ay. split; [exact (proj1 Ax)|]. rewrite (proj2 Ax). apply N.max_0_r.
      + rewrite Ax. split; [exact (proj1 Ay)|]. rewrite (proj2 Ay). apply N.max_0_l.
      + rewrite Ax, Ay. reflexivity.
    - intros w Hw. rewrite combine_mapped. cbn [t_zip t_fun].
      rewrite (std_lcoef x a w Hx Hw), (std_lcoef y b w Hy Hw).
      destruct (N.ltb_spec (windex n w) (len (dv_elems y))) as [H|H]; [reflexivity|].
      rewrite (std_outside y b w Hy Hw H). symmetry. apply H0.
  Qed.

  (** from_key_scalar *)
  Lemma key_scalar_ok w c : fits n w -> len w <= D ->
    exists v, vr_from_key_scalar (dense_ops so ob) (key_of n w) c = Ret v
      /\ std v (mk_atensor (Some (len w)) (fun u => if word_eqb u w then c else zero)).
  Proof.
    intros F Hl. pose proof (fitsD _ Hl) as P. pose proof (proj2 Hn) as Hn32.
    cbn [dense_ops with_defaults v_req dense_required vr_from_key_scalar].
    unfold dv_from_key_scalar. cbn [tensor_basis ob_dim_for_key ob_key_to_index].
    rewrite dim_for_key_ok by assumption. cbn [bind]. rewrite key_to_index_ok by assumption. cbn [bind].
    cbn [dv_from_dimension dv_from dv_as_mut dv_kind dv_elems]. unfold set_unchecked. rewrite len_repeat, N2Nat.id.
    destruct F as [Fw Fl]. pose proof (windex_upper n w Fw) as U.
    destruct (N.ltb_spec (windex n w) (count_below n (Datatypes.S (length w)))); [|lia]. cbn [bind].
    unfold dv_write. cbn [dv_kind dv_lender]. eexists. split; [reflexivity|]. split; [reflexivity|]. split.
    - cbn [t_deg]. split; [exact Hl|]. unfold filled, dv_size. cbn [dv_elems].
      rewrite len_list_set, len_repeat, N2Nat.id, len_to_nat. reflexivity.
    - intros u Hu. unfold wcoef, coef, dv_as_slice. cbn [dv_from dv_elems t_fun].
      rewrite slice_get_list_set by (rewrite len_repeat; lia). rewrite slice_get_repeat.
      destruct (word_eqb_spec u w) as [->|Hne]; [rewrite N.eqb_refl; reflexivity|].
      destruct (N.eqb_spec (windex n u) (windex n w)) as [E|_].
      + exfalso. apply Hne. apply (windex_inj n); assumption.
      + match goal with |- context [if ?b then _ else _] => destruct b end; reflexivity.
  Qed.

  Lemma std_stored v a w : std v a -> word_ok n w -> (windex n w <? len (dv_elems v)) = stores a w.
  Proof.
    intros (_ & Hd & _) Hw. pose proof (windex_upper n w Hw) as U. pose proof (windex_lower n w Hw) as Lo.
    unfold stores. destruct (t_deg a) as [d|].
    - destruct Hd as [_ Hd]. unfold filled, dv_size in Hd. rewrite Hd.
      pose proof (count_below_mono n (Datatypes.S (length w)) (Datatypes.S (N.to_nat d))) as M1.
      pose proof (count_below_mono n (Datatypes.S (N.to_nat d)) (length w)) as M2.
      unfold len. destruct (N.leb_spec (N.of_nat (length w)) d) as [Hl|Hl].
      + apply N.ltb_lt. assert (count_below n (Datatypes.S (length w)) <= cbS d) by (apply M1; lia). lia.
      + apply N.ltb_ge. assert (cbS d <= count_below n (length w)) by (apply M2; lia). lia.
    - unfold dv_size in Hd. rewrite Hd. apply N.ltb_ge. lia.
  Qed.
  Lemma at_ok x a o w h : std x a -> fits n w ->
    elems_after so tidx (dv_elems x) false o
    = match slice_get (dv_elems x) (tidx (key_of n w)) with
      | Some c => list_set (dv_elems x) (N.to_nat (tidx (key_of n w))) (h c) | None => dv_elems x end ->
    op_key_ok ob tidx o -> match o with OSwap _ | OInsertSingle _ _ => False | _ => True end ->
    exists v, call so ob x o = Ret v /\ std v (t_at a w h).
  Proof.
    intros Hx F He Hk Ho. apply (vec_ok x a o _ Hx Hk Ho); rewrite He, (tidx_word w F).
    - cbn [t_at t_deg]. rewrite len_upd. exact (proj1 (proj2 Hx)).
    - intros u Hu. rewrite lcoef_upd, (std_stored x a w Hx (proj1 F)). cbn [t_at t_fun].
      rewrite (std_lcoef x a w Hx (proj1 F)), (std_lcoef x a u Hx Hu).
      destruct (word_eqb_spec u w) as [->|Hne]; [rewrite N.eqb_refl; reflexivity|].
      destruct (N.eqb_spec (windex n u) (windex n w)) as [E|_]; [|reflexivity].
      exfalso. apply Hne. apply (windex_inj n); try assumption; exact (proj1 F).
  Qed.
  Lemma key_index w : fits n w -> tb_key_to_index p n (key_of n w) = Ret (tidx (key_of n w)).
  Proof. intros F. rewrite (tidx_word w F). exact (key_to_index_ok p n w (proj2 Hn) F). Qed.

  (** from_degree *)
  Lemma from_degree_ok e : e <= D + 1 ->
    exists v, dv_from_degree so ob e = Ret v /\ std v (mk_atensor (deg_below e) (fun _ => zero)).
  Proof.
    intros He. unfold dv_from_degree. cbn [tensor_basis ob_start_of_degree].
    assert (P : n ^ e < 2 ^ 64).
    { destruct (N.eq_dec e 0) as [->|Hz]; [reflexivity|]. replace e with (e - 1 + 1) by lia. apply fitsD. lia. }
    rewrite start_of_degree_ok by (assumption || lia). cbn [bind]. eexists. split; [reflexivity|]. split; [reflexivity|].
    split.
    - cbn [t_deg]. unfold deg_below, filled, dv_size. cbn [dv_from_dimension dv_from dv_elems]. rewrite len_repeat, N2Nat.id.
      destruct (N.eqb_spec e 0) as [->|Hz]; [reflexivity|]. split; [lia|].
      replace (Datatypes.S (N.to_nat (e - 1))) with (N.to_nat e) by lia. reflexivity.
    - intros w Hw. unfold wcoef, coef, dv_as_slice. cbn [dv_from_dimension dv_from dv_elems t_fun]. rewrite slice_get_repeat.
      match goal with |- context [if ?b then _ else _] => destruct b end; reflexivity.
  Qed.

  (** from_iterator *)
  Lemma deg_pairs_le {A} (l : list (word * A)) d : deg_pairs l = Some d -> forall e, In e l -> len (fst e) <= d.
  Proof.
    revert d. induction l as [|a l IH]; intros d H e He; [contradiction|]. cbn [deg_pairs fold_right] in H. fold (deg_pairs l) in H.
    destruct (deg_pairs l) as [d'|] eqn:E; cbn [join] in H; injection H as <-; destruct He as [<-|He].
    - apply N.le_max_l.
    - apply N.le_trans with d'; [exact (IH d' eq_refl e He)|apply N.le_max_r].
    - apply N.le_refl.
    - destruct l; [contradiction|]. cbn [deg_pairs fold_right] in E. destruct (fold_right _ _ _); discriminate.
  Qed.
  Lemma deg_pairs_in {A} (l : list (word * A)) : l <> [] -> exists e, In e l /\ deg_pairs l = Some (len (fst e)).
  Proof.
    induction l as [|a l IH]; intros H; [congruence|]. cbn [deg_pairs fold_right]. fold (deg_pairs l).
    destruct l as [|b l]; [exists a; split; [left; reflexivity|reflexivity]|].
    destruct IH as (e & He & E); [discriminate|]. rewrite E. cbn [join].
    destruct (N.le_ge_cases (len (fst a)) (len (fst e))) as [Hl|Hl].
    - exists e. split; [right; exact He|]. rewrite N.max_r by exact Hl. reflexivity.
    - exists a. split; [left; reflexivity|]. rewrite N.max_l by exact Hl. reflexivity.
  Qed.
  Notation pairs_within := (Forall (fun e : word * S => word_ok n (fst e) /\ len (fst e) <= max_depth n /\ len (fst e) <= D)).
  Lemma keys_ok (l : list (word * S)) : pairs_within l ->
    mapM (fun e => k <- tk_from_letters p n (fst e) ;; Ret (k, snd e)) l = Ret (map (fun e => (key_of n (fst e), snd e)) l).
  Proof.
    intros H. apply mapM_pure. intros [w c] Hin. rewrite Forall_forall in H. destruct (H _ Hin) as (W1 & W2 & _).
    cbn [fst snd] in *. rewrite (from_letters_ok p n w (proj2 Hn) (conj W1 W2)). reflexivity.
  Qed.
  Lemma pairs_ok (l : list (word * S)) : pairs_within l ->
    exists v, vr_from_iterator (dense_ops so ob) (map (fun e => (key_of n (fst e), snd e)) l) = Ret v
      /\ std v (mk_atensor (deg_pairs l) (fun u => sum_from_zero so (given (word_eqb u) l))).
  Proof.
    intros H. set (kl := map (fun e => (key_of n (fst e), snd e)) l).
    assert (Fit : forall e, In e l -> fits n (fst e)).
    { intros e He. rewrite Forall_forall in H. destruct (H e He) as (W1 & W2 & _). split; assumption. }
    assert (HF : Forall (fun e => ob_key_to_index ob (fst e) = Ret (tidx (fst e))) kl).
    { apply Forall_forall. intros e He. apply in_map_iff in He. destruct He as (e' & <- & He). cbn [fst].
      apply key_index, Fit, He. }
    cbn [dense_ops with_defaults v_req dense_required vr_from_iterator].
    destruct (from_iterator_ok so ob kl tidx HF) as [[E0 E]|(k & s & Hin & Hmax & Hd)].
    - apply map_eq_nil in E0. subst l. rewrite E. eexists. split; [reflexivity|]. split; [reflexivity|]. split; [reflexivity|].
      intros w _. apply coef_empty. reflexivity.
    - apply in_map_iff in Hin. destruct Hin as ([u s'] & Eu & Hin). cbn [fst snd] in Eu. injection Eu as <- <-.
      pose proof (Fit _ Hin) as Fu. cbn [fst] in Fu. rewrite (tidx_word u Fu) in Hd, Hmax.
      assert (Lu : len u <= D) by (rewrite Forall_forall in H; exact (proj2 (proj2 (H _ Hin)))).
      assert (Mx : forall e, In e l -> windex n (fst e) <= windex n u).
      { intros e He. rewrite <- (tidx_word _ (Fit e He)). apply (Hmax (key_of n (fst e), snd e)).
        apply in_map_iff. exists e. split; [reflexivity|exact He]. }
      pose proof (windex_upper n u (proj1 Fu)) as U.
      destruct (Hd (count_below n (Datatypes.S (length u)))) as (r & E & Hl & Hg); [|exact U|].
      { cbn [tensor_basis ob_dim_for_index]. apply dim_for_index_ok; [lia|exact (proj1 Fu)|apply fitsD; exact Lu]. }
      exists (dv_from r). split; [exact E|]. split; [reflexivity|].
      assert (Ed : deg_pairs l = Some (len u)).
      { destruct (deg_pairs_in l) as (e & He & Ed); [intros ->; contradiction|]. rewrite Ed. f_equal.
        apply N.le_antisymm; [|exact (deg_pairs_le l _ Ed (u, s') Hin)].
        pose proof (Mx e He) as M. apply (below_len n (fst e) (length u)); [lia|exact (proj1 (Fit e He))|lia]. }
      cbn [t_deg t_fun]. rewrite Ed. split.
      + split; [exact Lu|]. unfold filled, dv_size. cbn [dv_from dv_elems]. rewrite Hl, len_to_nat. reflexivity.
      + intros w Hw. unfold wcoef, coef, dv_as_slice. cbn [dv_from dv_elems].
        destruct (N.lt_ge_cases (windex n w) (count_below n (Datatypes.S (length u)))) as [Hlt|Hge].
        * rewrite (Hg _ Hlt). f_equal. apply (given_words n w l kl (proj2 Hn) Hw); [|exact tidx_word].
          clear -Fit. subst kl. induction l as [|e l IH]; constructor.
          -- split; [exact (Fit e (or_introl eq_refl))|]. split; reflexivity.
          -- apply IH. intros e' He. apply Fit. right. exact He.
        * rewrite slice_get_none by (rewrite Hl; exact Hge).
          assert (given (word_eqb w) l = []) as ->; [|reflexivity].
          assert (N0 : forall e, In e l -> word_eqb w (fst e) = false).
          { intros e He. destruct (word_eqb_spec w (fst e)) as [->|]; [|reflexivity]. pose proof (Mx e He). lia. }
          clear -N0. unfold given. induction l as [|e l IH]; [reflexivity|]. cbn [filter].
          rewrite (N0 e (or_introl eq_refl)). apply IH. intros e' He. apply N0. right. exact He.
  Qed.

  Definition all_stand (st : nat -> dvec S) (a : nat -> atensor S) : Prop := forall i, std (st i) (a i).
  Lemma set_stand st a d v c : all_stand st a -> std v c -> all_stand (set_var st d v) (set_var a d c).
  Proof. intros H Hv i. unfold set_var. destruct (Nat.eqb i d); [exact Hv|apply H]. Qed.
  Definition means_all (o : outcome (nat -> dvec S)) (m : outcome (nat -> atensor S)) : Prop :=
    match m with
    | Ret a => exists st, o = Ret st /\ all_stand st a
    | Panic => o = Panic | UB => o = UB | Diverge => False
    end.
  Lemma set_means st a d o m : all_stand st a -> means o m ->
    means_all (v <- o ;; Ret (set_var st d v)) (c <- m ;; Ret (set_var a d c)).
  Proof.
    intros H Hm. destruct m as [c| | |]; cbn [means means_all bind] in *; try (rewrite Hm; reflexivity); [|contradiction].
    destruct Hm as (v & -> & Hv). eexists. split; [reflexivity|]. apply set_stand; assumption.
  Qed.
  Lemma set_ret st a d o c : all_stand st a -> (exists v, o = Ret v /\ std v c) ->
    means_all (v <- o ;; Ret (set_var st d v)) (Ret (set_var a d c)).
  Proof. intros H Hm. exact (set_means st a d o (Ret c) H Hm). Qed.
  Lemma set_written st a d k c x : all_stand st a -> (exists v, call so ob (st d) (OSet k c) = Ret v /\ std v x) ->
    means_all ('(v, ref) <- vr_get_mut (dense_ops so ob) (st d) k ;;
               Ret (set_var st d (match ref with Some (_, write) => write c | None => v end))) (Ret (set_var a d x)).
  Proof.
    intros H (v & E & Hv). unfold call in E. destruct (vr_get_mut (dense_ops so ob) (st d) k) as [[v1 ref]| | |]; try discriminate.
    cbn [bind] in *. injection E as ->. eexists. split; [reflexivity|]. apply set_stand; assumption.
  Qed.
  Lemma div_zero r : s_div so zero r = zero.
  Proof. rewrite (l_div so FL). ring. Qed.

  Lemma cmd_ok st a c : all_stand st a -> cmd_within n D c ->
    means_all (run_cmd so p n st c) (mean_cmd so a c).
  Proof.
    intros H W. destruct c; cbn [run_cmd mean_cmd cmd_within] in *.
    - eexists. split; [reflexivity|]. apply set_stand; [exact H|]. exact std_new.
    - destruct W as (W1 & W2 & W3). assert (F : fits n w) by (split; assumption).
      rewrite (from_letters_ok p n w (proj2 Hn) F). cbn [bind]. apply set_ret; [exact H|]. apply key_scalar_ok; assumption.
    - apply set_ret; [exact H|]. eexists. split; [reflexivity|].
      destruct (H a0) as (_ & Hd & Hw). split; [reflexivity|]. split; [exact Hd|exact Hw].
    - apply set_ret; [exact H|]. apply (vec_ok (st d) (a d) OClear (t_zero so) (H d)); try exact I; [reflexivity|].
      intros w _. exact (coef_empty dv_new _ eq_refl).
    - destruct W as (W1 & W2). assert (F : fits n w) by (split; assumption).
      rewrite (from_letters_ok p n w (proj2 Hn) F). cbn [bind]. apply set_ret; [exact H|].
      apply (vec_ok (st d) (a d) (OErase (key_of n w)) _ (H d)); try exact I.
      + cbn [op_key_ok]. rewrite (tidx_word w F). exact (key_to_index_ok p n w (proj2 Hn) F).
      + cbn [elems_after t_deg]. rewrite len_upd. exact (proj1 (proj2 (H d))).
      + intros u Hu. cbn [elems_after t_fun]. rewrite lcoef_upd, (tidx_word w F), (std_lcoef _ _ u (H d) Hu).
        destruct (word_eqb_spec u w) as [->|Hne].
        * rewrite N.eqb_refl. cbn [andb]. destruct (N.ltb_spec (windex n w) (len (dv_elems (st d)))) as [Hl|Hl]; [reflexivity|].
          exact (std_outside _ _ w (H d) Hu Hl).
        * destruct (N.eqb_spec (windex n u) (windex n w)) as [E|_]; [|reflexivity].
          exfalso. apply Hne. apply (windex_inj n); assumption.
    - apply set_ret; [exact H|]. apply (map_ok (st d) (a d) OUminus); try reflexivity; try exact I; [apply H|ring].
    - apply set_ret; [exact H|]. apply (map_ok (st d) (a d) (OLmul c)); try reflexivity; try exact I; [apply H|ring].
    - apply set_ret; [exact H|]. apply (map_ok (st d) (a d) (ORdiv r)); try reflexivity; try exact I; [apply H|apply div_zero].
    - apply set_ret; [exact H|]. apply (zip_ok (st d) (st a0) (a d) (a a0) (OAdd (st a0)) (s_add so) (fun x => x));
        try exact I; try apply H; [intros; ring|]. cbn [elems_after]. rewrite map_id. reflexivity.
    - apply set_ret; [exact H|]. apply (zip_ok (st d) (st a0) (a d) (a a0) (OSub (st a0)) (s_sub so) (fun x => x));
        try exact I; try apply H; [intros; ring|]. cbn [elems_after]. rewrite map_id. reflexivity.
    - apply set_ret; [exact H|]. apply (zip_ok (st d) (st a0) (a d) (a a0) (OAddLmul (st a0) c) (s_add so) (fun x => s_mul so x c));
        try exact I; try apply H; [intros; ring|]. reflexivity.
    - apply set_ret; [exact H|]. apply (zip_ok (st d) (st a0) (a d) (a a0) (OSubRdiv (st a0) r) (s_sub so) (fun x => s_div so x r));
        try exact I; try apply H; [intros; rewrite div_zero; ring|]. reflexivity.
    - apply (set_means st a d _ _ H).
      change (alg_multiply so p n (st a0) (st b) t) with (alg_add_mul so p n dv_new (st a0) (st b) t).
      apply add_mul_ok; try apply H; [exact std_new|]. destruct t; [exact W|exact I].
    - assert (Wt : match t with Some t => t <= D | None => True end) by (destruct t; [exact W|exact I]).
      pose proof (commutator_ok (st a0) (st b) (a a0) (a b) t (H a0) (H b) Wt) as M.
      pose proof (set_means st a d _ _ H M) as M'.
      destruct (t_product so (t_zero so) (a a0) (a b) (s_add so) t); exact M'.
    - apply (set_means st a d _ _ H). apply add_mul_ok; try apply H. destruct t; [exact W|exact I].
    - apply (set_means st a d _ _ H). apply sub_mul_ok; try apply H. destruct t; [exact W|exact I].
    - apply set_ret; [exact H|]. apply (zip_ok (st d) (st a0) (a d) (a a0) (OSubLmul (st a0) c) (s_sub so) (fun x => s_mul so x c));
        try exact I; try apply H; [intros; ring|]. reflexivity.
    - apply set_ret; [exact H|]. apply (zip_ok (st d) (st a0) (a d) (a a0) (OAddRdiv (st a0) r) (s_add so) (fun x => s_div so x r));
        try exact I; try apply H; [intros; rewrite div_zero; ring|]. reflexivity.
    - apply set_ret; [exact H|]. apply from_degree_ok. exact W.
    - rewrite (keys_ok l W). cbn [bind]. apply set_ret; [exact H|]. apply pairs_ok. exact W.
    - assert (F : fits n w) by exact W. rewrite (from_letters_ok p n w (proj2 Hn) F). cbn [bind]. apply set_written; [exact H|].
      apply (at_ok (st d) (a d) (OSet (key_of n w) c)); try exact I; try reflexivity; [apply H|exact F|exact (key_index w F)].
    - assert (F : fits n w) by exact W. rewrite (from_letters_ok p n w (proj2 Hn) F). cbn [bind]. apply set_ret; [exact H|].
      apply (at_ok (st d) (a d) (OKeyAddMul (key_of n w) c) w (fun x => s_add so x c));
        try exact I; try reflexivity; [apply H|exact F|exact (key_index w F)].
    - assert (F : fits n w) by exact W. rewrite (from_letters_ok p n w (proj2 Hn) F). cbn [bind]. apply set_ret; [exact H|].
      apply (at_ok (st d) (a d) (OKeySubMul (key_of n w) c) w (fun x => s_sub so x c));
        try exact I; try reflexivity; [apply H|exact F|exact (key_index w F)].
  Qed.
  Lemma prog_ok cs : forall st a, all_stand st a -> Forall (cmd_within n D) cs ->
    means_all (run_prog so p n st cs) (mean_prog so a cs).
  Proof.
    induction cs as [|c cs IH]; intros st a H F.
    - eexists. split; [reflexivity|exact H].
    - inversion_clear F. cbn [run_prog mean_prog]. pose proof (cmd_ok st a c H H0) as M.
      destruct (mean_cmd so a c) as [a'| | |]; cbn [means_all bind] in *; try (rewrite M; reflexivity); [|contradiction].
      destruct M as (st' & -> & H'). apply IH; assumption.
  Qed.
End Programs.

(** * C111 *)
Lemma c111_refinement : forall (S R : Type) (so : scalar_ops S R) (p : profile) (n D : N) (cs : list (tcmd S R))
    (st : nat -> dvec S) (a : nat -> atensor S),
  field_laws so -> 2 <= n < 2 ^ 32 -> n ^ (D + 1) < 2 ^ 64 ->
  (forall i, stands_for so n D (st i) (a i)) -> Forall (cmd_within n D) cs ->
  match mean_prog so a cs with
  | Ret a' => exists st', run_prog so p n st cs = Ret st' /\ forall i, stands_for so n D (st' i) (a' i)
  | Panic => run_prog so p n st cs = Panic
  | UB => run_prog so p n st cs = UB
  | Diverge => False
  end.
Proof.
  intros S R so p n D cs st a FL Hn PD H F. exact (prog_ok so FL p n D Hn PD cs st a H F).
Qed.

(** reading a variable afterwards: get gives the coefficient of the meaning *)
Lemma c111_read : forall (S R : Type) (so : scalar_ops S R) (p : profile) (n D : N) (v : dvec S) (a : atensor S)
    (w : word) (k : tkey),
  2 <= n < 2 ^ 32 -> stands_for so n D v a -> word_ok n w -> tk_from_letters p n w = Ret k ->
  vr_get (dense_ops so (tensor_basis p n)) v k
  = Ret (match t_deg a with
         | Some d => if len w <=? d then Some (t_fun a w) else None
         | None => None
         end).
Proof.
  intros S R so p n D v a w k Hn H Hw E. rewrite (c29_read S R so p n v w k Hn Hw E).
  destruct H as (_ & Hd & Hf). rewrite (Hf w Hw). f_equal. pose proof (windex_upper n w Hw) as U.
  destruct (t_deg a) as [d|].
  - destruct Hd as [_ Hd]. unfold filled in Hd. rewrite Hd. destruct (N.leb_spec (len w) d) as [Hl|Hl].
    + destruct (N.ltb_spec (windex n w) (count_below n (Datatypes.S (N.to_nat d)))) as [|Hge]; [reflexivity|].
      pose proof (count_below_mono n (Datatypes.S (length w)) (Datatypes.S (N.to_nat d))) as M.
      unfold len in Hl. exfalso. assert (count_below n (Datatypes.S (length w)) <= count_below n (Datatypes.S (N.to_nat d))) by (apply M; lia). lia.
    + destruct (N.ltb_spec (windex n w) (count_below n (Datatypes.S (N.to_nat d)))) as [Hlt|]; [|reflexivity].
      pose proof (windex_lower n w Hw) as Lo. pose proof (count_below_mono n (Datatypes.S (N.to_nat d)) (length w)) as M.
      unfold len in Hl. exfalso. assert (count_below n (Datatypes.S (N.to_nat d)) <= count_below n (length w)) by (apply M; lia). lia.
  - rewrite Hd. destruct (N.ltb_spec (windex n w) 0); [lia|reflexivity].
Qed.

(** ** Storage, for any scalars *)
Section Shapes.
  Context {S R : Type} (so : scalar_ops S R) (p : profile) (n D : N) (Hn : 2 <= n < 2 ^ 32) (PD : n ^ (D + 1) < 2 ^ 64).
  Notation ob := (tensor_basis p n).
  Notation shp := (@shaped S n D).
  Notation cbS d := (count_below n (Datatypes.S (N.to_nat d))).
  Let Hn2 : 2 <= n := proj1 Hn.
  Definition shapes (o : outcome (dvec S)) (m : outcome (option N)) : Prop :=
    match m with Ret d => exists v, o = Ret v /\ shp v d | Panic => o = Panic | UB => o = UB | Diverge => False end.

  Lemma shp_degree v d : shp v d -> has_degree n v (odeg d) /\ odeg d <= D.
  Proof.
    intros (_ & Hd). destruct d as [d|]; cbn [odeg].
    - destruct Hd as [Hd Hf]. split; [exact (filled_degree n Hn2 v d Hf)|exact Hd].
    - split; [left; split; [exact Hd|reflexivity]|lia].
  Qed.
  Lemma shp_after self g e d : dv_kind self = Owned ->
    match d with None => len e = 0 | Some d => d <= D /\ len e = cbS d end -> shp (after self g e) d.
  Proof.
    intros K Hd. split; [unfold after; cbn [dv_kind]; rewrite K; reflexivity|]. destruct d; exact Hd.
  Qed.
  Lemma shp_product func self x y s a b t : shp self s -> shp x a -> shp y b ->
    match t with Some t => t <= D | None => True end ->
    shapes (multiply_and_add_into_impl so p n self x y func t) (d_product s a b t).
  Proof.
    intros Hs Ha Hb Ht. destruct (shp_degree _ _ Hs) as [Ds Ls], (shp_degree _ _ Ha) as [Da La], (shp_degree _ _ Hb) as [Db Lb].
    pose proof (fitsD n D Hn PD _ Ls) as Ps. pose proof (fitsD n D Hn PD _ La) as Pa. pose proof (fitsD n D Hn PD _ Lb) as Pb.
    destruct t as [t|].
    2:{ cbn [d_product shapes]. unfold multiply_and_add_into_impl.
        rewrite (degree_ok p n Hn2 x _ Da Pa), (degree_ok p n Hn2 y _ Db Pb). reflexivity. }
    set (l := odeg a) in *. set (r := odeg b) in *. set (sd := odeg s) in *.
    set (m := N.min t (l + r)).
    assert (Lm : m <= D) by (unfold m; lia). pose proof (fitsD n D Hn PD _ Lm) as Pm.
    assert (UBc : ~ ((sd < m \/ stored_to n self m) /\ stored_to n x (N.min m l) /\ stored_to n y (N.min m r)) ->
      multiply_and_add_into_impl so p n self x y func (Some t) = UB).
    { intros H. apply (mul_add_UB so p n Hn2 func self x y sd l r t); assumption. }
    assert (OKc : (sd < m \/ stored_to n self m) -> stored_to n x (N.min m l) -> stored_to n y (N.min m r) ->
      forall d, (if sd <? m then cbS m else dv_size self) = cbS d -> d <= D ->
      exists v, multiply_and_add_into_impl so p n self x y func (Some t) = Ret v /\ shp v (Some d)).
    { intros A1 A2 A3 d Hd Ld.
      destruct (mul_add_ok so p n Hn2 func self x y sd l r t Ds Da Db Ps Pa Pb Pm A1 A2 A3) as (e & E & He & _).
      fold m in E, He. eexists. split; [exact E|]. apply shp_after; [exact (proj1 Hs)|]. split; [exact Ld|].
      rewrite He. exact Hd. }
    destruct Ha as (_ & Sa), Hb as (_ & Sb), Hs as (_ & Ss).
    destruct a as [la|].
    2:{ assert (E : multiply_and_add_into_impl so p n self x y func (Some t) = UB).
        { apply UBc. intros (_ & H & _). exact (empty_not_stored n D Hn PD x _ Sa H). }
        cbn [d_product]. destruct b; exact E. }
    destruct b as [lb|].
    2:{ cbn [d_product shapes]. apply UBc. intros (_ & _ & H). exact (empty_not_stored n D Hn PD y _ Sb H). }
    cbn [d_product]. cbn [odeg] in l, r. fold l r in Sa, Sb |- *. fold m.
    assert (A2 : stored_to n x (N.min m l)) by (apply (filled_stored n Hn2 x l); [exact (proj2 Sa)|lia]).
    assert (A3 : stored_to n y (N.min m r)) by (apply (filled_stored n Hn2 y r); [exact (proj2 Sb)|lia]).
    destruct s as [ls|]; cbn [odeg] in sd.
    - cbn [shapes]. apply OKc; try assumption.
      + destruct (N.lt_ge_cases sd m) as [H|H]; [left; exact H|right].
        apply (filled_stored n Hn2 self ls); [exact (proj2 Ss)|exact H].
      + destruct (N.ltb_spec sd m) as [H|H].
        * unfold sd in H. rewrite (N.max_r ls m) by lia. reflexivity.
        * unfold sd in H. rewrite (N.max_l ls m) by lia. exact (proj2 Ss).
      + unfold sd in Ls. lia.
    - destruct (N.eqb_spec m 0) as [H|H]; cbn [shapes].
      + apply UBc. intros ([Hlt|Hst] & _); [unfold sd in Hlt; lia|exact (empty_not_stored n D Hn PD self _ Ss Hst)].
      + apply OKc; try assumption; [left; unfold sd; lia|]. destruct (N.ltb_spec sd m); [reflexivity|unfold sd in *; lia].
  Qed.
  Lemma shp_new : shp dv_new None.
  Proof. split; reflexivity. Qed.
  Lemma shp_commutator x y a b t : shp x a -> shp y b -> match t with Some t => t <= D | None => True end ->
    shapes (alg_commutator so p n x y t) (u <- d_product None a b t ;; d_product u b a t).
  Proof.
    intros Ha Hb Ht. unfold alg_commutator. pose proof (shp_product (fun v => v) dv_new x y None a b t shp_new Ha Hb Ht) as H.
    unfold alg_add_mul. destruct (d_product None a b t) as [u| | |]; cbn [shapes bind] in *.
    - destruct H as (v & -> & Hv). cbn [bind]. unfold alg_sub_mul. apply shp_product; assumption.
    - rewrite H. reflexivity.
    - rewrite H. reflexivity.
    - contradiction.
  Qed.
  Lemma shp_vec x a o c : shp x a -> op_key_ok ob (tidx p n) o ->
    match o with OSwap _ | OInsertSingle _ _ => False | _ => True end ->
    match c with None => len (elems_after so (tidx p n) (dv_elems x) false o) = 0
               | Some d => d <= D /\ len (elems_after so (tidx p n) (dv_elems x) false o) = cbS d end ->
    exists v, call so ob x o = Ret v /\ shp v c.
  Proof.
    intros Hx Hk Ho Hl. pose proof (proj1 Hx) as K.
    assert (W : dv_wf x) by (unfold dv_wf; rewrite K; exact I).
    assert (Fx : is_fixed x = false) by (unfold is_fixed; rewrite K; reflexivity).
    eexists. split; [exact (call_ok so ob (tidx p n) x o W Hk)|]. rewrite Fx.
    destruct o; try contradiction; (apply shp_after; [exact K|exact Hl]).
  Qed.
  Lemma shp_map x a o : shp x a -> len (elems_after so (tidx p n) (dv_elems x) false o) = len (dv_elems x) ->
    op_key_ok ob (tidx p n) o -> match o with OSwap _ | OInsertSingle _ _ => False | _ => True end ->
    exists v, call so ob x o = Ret v /\ shp v a.
  Proof. intros Hx He Hk Ho. apply (shp_vec x a o a Hx Hk Ho). rewrite He. exact (proj2 Hx). Qed.
  Lemma shp_zip x y a b o : shp x a -> shp y b ->
    len (elems_after so (tidx p n) (dv_elems x) false o) = N.max (len (dv_elems x)) (len (dv_elems y)) ->
    op_key_ok ob (tidx p n) o -> match o with OSwap _ | OInsertSingle _ _ => False | _ => True end ->
    exists v, call so ob x o = Ret v /\ shp v (join a b).
  Proof.
    intros Hx Hy He Hk Ho. apply (shp_vec x a o _ Hx Hk Ho). rewrite He.
    destruct Hx as [_ Ax], Hy as [_ Ay]. destruct a as [d|], b as [e|]; cbn [join]; unfold filled, dv_size in Ax, Ay.
    - destruct Ax as [A1 ->], Ay as [A2 ->]. split; [lia|]. destruct (N.le_ge_cases d e) as [H|H].
      + pose proof (count_below_mono n (Datatypes.S (N.to_nat d)) (Datatypes.S (N.to_nat e))) as M.
        rewrite (N.max_r d e) by exact H. rewrite N.max_r; [reflexivity|]. apply M; lia.
      + pose proof (count_below_mono n (Datatypes.S (N.to_nat e)) (Datatypes.S (N.to_nat d))) as M.
        rewrite (N.max_l d e) by exact H. rewrite N.max_l; [reflexivity|]. apply M; lia.
    - rewrite Ay. split; [exact (proj1 Ax)|]. rewrite (proj2 Ax). apply N.max_0_r.
    - rewrite Ax. split; [exact (proj1 Ay)|]. rewrite (proj2 Ay). apply N.max_0_l.
    - rewrite Ax, Ay. reflexivity.
  Qed.
  Definition all_shaped (st : nat -> dvec S) (a : nat -> option N) : Prop := forall i, shp (st i) (a i).
  Lemma set_shaped st a d v c : all_shaped st a -> shp v c -> all_shaped (set_var st d v) (set_var a d c).
  Proof. intros H Hv i. unfold set_var. destruct (Nat.eqb i d); [exact Hv|apply H]. Qed.
  Lemma set_same st a d v : all_shaped st a -> shp v (a d) -> all_shaped (set_var st d v) a.
  Proof. intros H Hv i. unfold set_var. destruct (Nat.eqb_spec i d) as [->|]; [exact Hv|apply H]. Qed.
  Definition shapes_all (o : outcome (nat -> dvec S)) (m : outcome (nat -> option N)) : Prop :=
    match m with
    | Ret a => exists st, o = Ret st /\ all_shaped st a
    | Panic => o = Panic | UB => o = UB | Diverge => False
    end.
  Lemma set_shapes st a d o m : all_shaped st a -> shapes o m ->
    shapes_all (v <- o ;; Ret (set_var st d v)) (c <- m ;; Ret (set_var a d c)).
  Proof.
    intros H Hm. destruct m as [c| | |]; cbn [shapes shapes_all bind] in *; try (rewrite Hm; reflexivity); [|contradiction].
    destruct Hm as (v & -> & Hv). eexists. split; [reflexivity|]. apply set_shaped; assumption.
  Qed.
  Lemma set_shape st a d o c : all_shaped st a -> (exists v, o = Ret v /\ shp v c) ->
    shapes_all (v <- o ;; Ret (set_var st d v)) (Ret (set_var a d c)).
  Proof. intros H Hm. exact (set_shapes st a d o (Ret c) H Hm). Qed.
  Lemma keep_shape st a d o : all_shaped st a -> (exists v, o = Ret v /\ shp v (a d)) ->
    shapes_all (v <- o ;; Ret (set_var st d v)) (Ret a).
  Proof. intros H (v & -> & Hv). eexists. split; [reflexivity|]. apply set_same; assumption. Qed.

  Lemma deg_cmd_ok st a (c : tcmd S R) : all_shaped st a -> cmd_within n D c ->
    shapes_all (run_cmd so p n st c) (deg_cmd a c).
  Proof.
    intros H W. destruct c as [d|d w c|d x|d|d w|d|d c|d r|d x|d x|d x c|d x r|d x y t|d x y t|d x y t|d x y t|d x c|d x r|d e|d l|d w c|d w c|d w c];
      cbn [run_cmd deg_cmd cmd_within] in *.
    - eexists. split; [reflexivity|]. apply set_shaped; [exact H|]. exact shp_new.
    - destruct W as (W1 & W2 & W3). assert (F : fits n w) by (split; assumption).
      rewrite (from_letters_ok p n w (proj2 Hn) F). cbn [bind]. apply set_shape; [exact H|].
      pose proof (fitsD n D Hn PD _ W3) as P.
      cbn [dense_ops with_defaults v_req dense_required vr_from_key_scalar].
      unfold dv_from_key_scalar. cbn [tensor_basis ob_dim_for_key ob_key_to_index].
      rewrite dim_for_key_ok by (assumption || lia). cbn [bind]. rewrite key_to_index_ok by (assumption || lia). cbn [bind].
      cbn [dv_from_dimension dv_from dv_as_mut dv_kind dv_elems]. unfold set_unchecked. rewrite len_repeat, N2Nat.id.
      pose proof (windex_upper n w W1) as U.
      destruct (N.ltb_spec (windex n w) (count_below n (Datatypes.S (length w)))); [|lia]. cbn [bind].
      unfold dv_write. cbn [dv_kind dv_lender]. eexists. split; [reflexivity|]. split; [reflexivity|].
      split; [exact W3|]. unfold filled, dv_size. cbn [dv_elems]. rewrite len_list_set, len_repeat, N2Nat.id, len_to_nat. reflexivity.
    - apply set_shape; [exact H|]. eexists. split; [reflexivity|]. split; [reflexivity|]. exact (proj2 (H x)).
    - apply set_shape; [exact H|]. apply (shp_vec (st d) (a d) OClear None (H d)); try exact I; reflexivity.
    - destruct W as (W1 & W2). assert (F : fits n w) by (split; assumption).
      rewrite (from_letters_ok p n w (proj2 Hn) F). cbn [bind]. apply keep_shape; [exact H|].
      apply (shp_map (st d) (a d) (OErase (key_of n w)) (H d)); try exact I.
      + cbn [elems_after]. apply len_upd.
      + cbn [op_key_ok]. unfold tidx. cbn [tensor_basis ob_key_to_index]. rewrite (key_to_index_ok p n w (proj2 Hn) F). reflexivity.
    - apply keep_shape; [exact H|]. apply (shp_map (st d) (a d) OUminus (H d)); try exact I; apply len_map.
    - apply keep_shape; [exact H|]. apply (shp_map (st d) (a d) (OLmul c) (H d)); try exact I; apply len_map.
    - apply keep_shape; [exact H|]. apply (shp_map (st d) (a d) (ORdiv r) (H d)); try exact I; apply len_map.
    - apply set_shape; [exact H|]. apply (shp_zip (st d) (st x) (a d) (a x) (OAdd (st x)) (H d) (H x)); try exact I; apply comb_len.
    - apply set_shape; [exact H|]. apply (shp_zip (st d) (st x) (a d) (a x) (OSub (st x)) (H d) (H x)); try exact I; apply comb_len.
    - apply set_shape; [exact H|]. apply (shp_zip (st d) (st x) (a d) (a x) (OAddLmul (st x) c) (H d) (H x)); try exact I.
      cbn [elems_after]. rewrite comb_len, len_map. reflexivity.
    - apply set_shape; [exact H|]. apply (shp_zip (st d) (st x) (a d) (a x) (OSubRdiv (st x) r) (H d) (H x)); try exact I.
      cbn [elems_after]. rewrite comb_len, len_map. reflexivity.
    - apply (set_shapes st a d _ _ H). apply shp_product; try apply H; [exact shp_new|]. destruct t; [exact W|exact I].
    - assert (Wt : match t with Some t => t <= D | None => True end) by (destruct t; [exact W|exact I]).
      pose proof (set_shapes st a d _ _ H (shp_commutator (st x) (st y) (a x) (a y) t (H x) (H y) Wt)) as M.
      destruct (d_product None (a x) (a y) t); exact M.
    - apply (set_shapes st a d _ _ H). apply shp_product; try apply H. destruct t; [exact W|exact I].
    - apply (set_shapes st a d _ _ H). apply shp_product; try apply H. destruct t; [exact W|exact I].
    - apply set_shape; [exact H|]. apply (shp_zip (st d) (st x) (a d) (a x) (OSubLmul (st x) c) (H d) (H x)); try exact I.
      cbn [elems_after]. rewrite comb_len, len_map. reflexivity.
    - apply set_shape; [exact H|]. apply (shp_zip (st d) (st x) (a d) (a x) (OAddRdiv (st x) r) (H d) (H x)); try exact I.
      cbn [elems_after]. rewrite comb_len, len_map. reflexivity.
    - destruct (from_degree_ok so p n D Hn PD e W) as (v & E & K & Hd & _). apply set_shape; [exact H|].
      exists v. split; [exact E|]. split; [exact K|exact Hd].
    - rewrite (keys_ok p n D Hn l W). cbn [bind]. destruct (pairs_ok so p n D Hn PD l W) as (v & E & K & Hd & _).
      apply set_shape; [exact H|]. exists v. split; [exact E|]. split; [exact K|exact Hd].
    - assert (F : fits n w) by exact W. rewrite (from_letters_ok p n w (proj2 Hn) F). cbn [bind].
      destruct (shp_map (st d) (a d) (OSet (key_of n w) c) (H d)) as (v & E & Hv); try exact I;
        [cbn [elems_after]; apply len_upd|exact (key_index p n Hn w F)|].
      unfold call in E. destruct (vr_get_mut (dense_ops so ob) (st d) (key_of n w)) as [[v1 ref]| | |]; try discriminate.
      cbn [bind] in *. injection E as ->. eexists. split; [reflexivity|]. apply set_same; assumption.
    - assert (F : fits n w) by exact W. rewrite (from_letters_ok p n w (proj2 Hn) F). cbn [bind]. apply keep_shape; [exact H|].
      apply (shp_map (st d) (a d) (OKeyAddMul (key_of n w) c) (H d)); try exact I;
        [cbn [elems_after]; apply len_upd|exact (key_index p n Hn w F)].
    - assert (F : fits n w) by exact W. rewrite (from_letters_ok p n w (proj2 Hn) F). cbn [bind]. apply keep_shape; [exact H|].
      apply (shp_map (st d) (a d) (OKeySubMul (key_of n w) c) (H d)); try exact I;
        [cbn [elems_after]; apply len_upd|exact (key_index p n Hn w F)].
  Qed.
  Lemma deg_prog_ok (cs : list (tcmd S R)) : forall st a, all_shaped st a -> Forall (cmd_within n D) cs ->
    shapes_all (run_prog so p n st cs) (deg_prog a cs).
  Proof.
    induction cs as [|c cs IH]; intros st a H F.
    - eexists. split; [reflexivity|exact H].
    - inversion_clear F. cbn [run_prog deg_prog]. pose proof (deg_cmd_ok st a c H H0) as M.
      destruct (deg_cmd a c) as [a'| | |]; cbn [shapes_all bind] in *; try (rewrite M; reflexivity); [|contradiction].
      destruct M as (st' & -> & H'). apply IH; assumption.
  Qed.
End Shapes.
(** what becomes of the storage, and whether memory out of bounds is accessed, does not depend on the scalars: it
    holds for floating point numbers as well *)
Lemma c111_storage : forall (S R : Type) (so : scalar_ops S R) (p : profile) (n D : N) (cs : list (tcmd S R))
    (st : nat -> dvec S) (a : nat -> option N),
  2 <= n < 2 ^ 32 -> n ^ (D + 1) < 2 ^ 64 ->
  (forall i, shaped n D (st i) (a i)) -> Forall (cmd_within n D) cs ->
  match deg_prog a cs with
  | Ret a' => exists st', run_prog so p n st cs = Ret st' /\ forall i, shaped n D (st' i) (a' i)
  | Panic => run_prog so p n st cs = Panic
  | UB => run_prog so p n st cs = UB
  | Diverge => False
  end.
Proof. intros S R so p n D cs st a Hn PD H F. exact (deg_prog_ok so p n D Hn PD cs st a H F). Qed.

(** careful programs return, and every variable keeps storage of a degree of at least 1 *)
Definition has_room (a : nat -> option N) : Prop := forall i, exists d, a i = Some d /\ 1 <= d.
Lemma set_room a i v d : has_room a -> v = Some d -> 1 <= d -> has_room (set_var a i v).
Proof. intros H E Hd j. unfold set_var. destruct (Nat.eqb j i); [exists d; split; assumption|apply H]. Qed.
Lemma product_room x t l r : 1 <= l -> 1 <= r -> 1 <= t ->
  exists m, d_product x (Some l) (Some r) (Some t) = Ret (Some m) /\ 1 <= m.
Proof.
  intros Hl Hr Ht. unfold d_product. destruct x as [s|].
  - eexists. split; [reflexivity|]. lia.
  - destruct (N.eqb_spec (N.min t (l + r)) 0) as [H|H]; [lia|]. eexists. split; [reflexivity|]. lia.
Qed.
Lemma careful_cmd {S R} a (c : tcmd S R) : has_room a -> cmd_careful c ->
  exists a', deg_cmd a c = Ret a' /\ has_room a'.
Proof.
  intros H W. destruct c as [d|d w c|d b|d|d w|d|d c|d r|d b|d b|d b c|d b r|d x y t|d x y t|d x y t|d x y t|d b c|d b r|d e|d l|d w c|d w c|d w c];
    cbn [cmd_careful deg_cmd] in *; try contradiction; try (eexists; split; [reflexivity|exact H]).
  - eexists. split; [reflexivity|]. apply (set_room a d _ (len w) H); [reflexivity|]. destruct w; [congruence|rewrite len_cons; lia].
  - destruct (H b) as (e & E & He). eexists. split; [reflexivity|]. exact (set_room a d _ e H E He).
  - destruct (H d) as (e & E & He), (H b) as (f & F & Hf). eexists. split; [reflexivity|].
    apply (set_room a d _ (N.max e f) H); [rewrite E, F; reflexivity|lia].
  - destruct (H d) as (e & E & He), (H b) as (f & F & Hf). eexists. split; [reflexivity|].
    apply (set_room a d _ (N.max e f) H); [rewrite E, F; reflexivity|lia].
  - destruct (H d) as (e & E & He), (H b) as (f & F & Hf). eexists. split; [reflexivity|].
    apply (set_room a d _ (N.max e f) H); [rewrite E, F; reflexivity|lia].
  - destruct (H d) as (e & E & He), (H b) as (f & F & Hf). eexists. split; [reflexivity|].
    apply (set_room a d _ (N.max e f) H); [rewrite E, F; reflexivity|lia].
  - destruct W as (t' & -> & Ht). destruct (H x) as (e & E & He), (H y) as (f & F & Hf). rewrite E, F.
    destruct (product_room None t' e f He Hf Ht) as (m & -> & Hm).
    eexists. split; [reflexivity|]. exact (set_room a d _ m H eq_refl Hm).
  - destruct W as (t' & -> & Ht). destruct (H x) as (e & E & He), (H y) as (f & F & Hf). rewrite E, F.
    destruct (product_room None t' e f He Hf Ht) as (m & -> & Hm). cbn [bind].
    destruct (product_room (Some m) t' f e Hf He Ht) as (m' & -> & Hm').
    eexists. split; [reflexivity|]. exact (set_room a d _ m' H eq_refl Hm').
  - destruct W as (t' & -> & Ht). destruct (H x) as (e & E & He), (H y) as (f & F & Hf). rewrite E, F.
    destruct (product_room (a d) t' e f He Hf Ht) as (m & -> & Hm).
    eexists. split; [reflexivity|]. exact (set_room a d _ m H eq_refl Hm).
  - destruct W as (t' & -> & Ht). destruct (H x) as (e & E & He), (H y) as (f & F & Hf). rewrite E, F.
    destruct (product_room (a d) t' e f He Hf Ht) as (m & -> & Hm).
    eexists. split; [reflexivity|]. exact (set_room a d _ m H eq_refl Hm).
  - destruct (H d) as (e & E & He), (H b) as (f & F & Hf). eexists. split; [reflexivity|].
    apply (set_room a d _ (N.max e f) H); [rewrite E, F; reflexivity|lia].
  - destruct (H d) as (e & E & He), (H b) as (f & F & Hf). eexists. split; [reflexivity|].
    apply (set_room a d _ (N.max e f) H); [rewrite E, F; reflexivity|lia].
  - eexists. split; [reflexivity|]. apply (set_room a d _ (e - 1) H); [|lia]. unfold deg_below.
    destruct (N.eqb_spec e 0); [lia|reflexivity].
  - destruct W as (e & He & Hne). destruct (deg_pairs_in l) as (e' & _ & Ed); [intros ->; contradiction|].
    pose proof (deg_pairs_le l _ Ed e He) as Le. eexists. split; [reflexivity|].
    apply (set_room a d _ _ H Ed). destruct (fst e) as [|x w]; [congruence|]. rewrite len_cons in Le. lia.
Qed.
Lemma careful_prog {S R} (cs : list (tcmd S R)) : forall a, has_room a -> Forall cmd_careful cs ->
  exists a', deg_prog a cs = Ret a' /\ has_room a'.
Proof.
  induction cs as [|c cs IH]; intros a H F.
  - exists a. split; [reflexivity|exact H].
  - inversion_clear F. destruct (careful_cmd a c H H0) as (a' & E & H'). cbn [deg_prog]. rewrite E. cbn [bind].
    apply IH; assumption.
Qed.
Lemma c111_careful : forall (S R : Type) (so : scalar_ops S R) (p : profile) (n D : N) (cs : list (tcmd S R))
    (st : nat -> dvec S),
  2 <= n < 2 ^ 32 -> n ^ (D + 1) < 2 ^ 64 ->
  (forall i, exists d, 1 <= d <= D /\ filled n (st i) d /\ dv_kind (st i) = Owned) ->
  Forall (cmd_within n D) cs -> Forall cmd_careful cs ->
  exists st', run_prog so p n st cs = Ret st'
    /\ forall i, exists d, 1 <= d <= D /\ filled n (st' i) d.
Proof.
  intros S R so p n D cs st Hn PD H F C.
  set (a := fun i => Some (match dv_degree (tensor_basis p n) (st i) with Ret d => d | _ => 0 end)).
  assert (Da : forall i d, d <= D -> filled n (st i) d -> a i = Some d).
  { intros i d Hd Hf. unfold a. destruct Hn as [Hn2 _].
    rewrite (degree_ok p n Hn2 (st i) d (filled_degree n Hn2 _ _ Hf) (pow_mono_fits n Hn2 d D Hd PD)). reflexivity. }
  assert (A : forall i, shaped n D (st i) (a i)).
  { intros i. destruct (H i) as (d & Hd & Hf & K). split; [exact K|].
    rewrite (Da i d (proj2 Hd) Hf). split; [apply Hd|exact Hf]. }
  assert (Rm : has_room a).
  { intros i. destruct (H i) as (d & Hd & Hf & K). exists d. split; [apply Da; [apply Hd|exact Hf]|apply Hd]. }
  destruct (careful_prog cs a Rm C) as (a' & E & Rm').
  pose proof (c111_storage S R so p n D cs st a Hn PD A F) as M. rewrite E in M.
  destruct M as (st' & -> & A'). exists st'. split; [reflexivity|]. intros i. destruct (Rm' i) as (d & Ed & Hd).
  destruct (A' i) as (_ & Hf). rewrite Ed in Hf. exists d. split; [lia|apply Hf].
Qed.

(** two programs with the same meaning leave the same tensor, in any two builds *)
Lemma stands_same {S R} (so : scalar_ops S R) n D v v' a a' : 2 <= n -> stands_for so n D v a -> stands_for so n D v' a' ->
  t_deg a = t_deg a' -> (forall w, word_ok n w -> t_fun a w = t_fun a' w) -> dv_as_slice v = dv_as_slice v'.
Proof.
  intros Hn (_ & Hd & Hf) (_ & Hd' & Hf') Ed Ef. unfold dv_as_slice.
  apply (wcoef_ext so n Hn).
  - rewrite <- Ed in Hd'. unfold filled, dv_size in *. destruct (t_deg a); [destruct Hd, Hd'; congruence|congruence].
  - intros w Hw _. change (wcoef so n v w = wcoef so n v' w). rewrite (Hf w Hw), (Hf' w Hw). apply Ef. exact Hw.
Qed.
Lemma c111_same_meaning : forall (S R : Type) (so : scalar_ops S R) (p p' : profile) (n D : N)
    (cs cs' : list (tcmd S R)) (st : nat -> dvec S) (a b b' : nat -> atensor S) (i i' : nat),
  field_laws so -> 2 <= n < 2 ^ 32 -> n ^ (D + 1) < 2 ^ 64 ->
  (forall i, stands_for so n D (st i) (a i)) -> Forall (cmd_within n D) cs -> Forall (cmd_within n D) cs' ->
  mean_prog so a cs = Ret b -> mean_prog so a cs' = Ret b' ->
  t_deg (b i) = t_deg (b' i') -> (forall w, word_ok n w -> t_fun (b i) w = t_fun (b' i') w) ->
  exists z z', run_prog so p n st cs = Ret z /\ run_prog so p' n st cs' = Ret z'
    /\ dv_as_slice (z i) = dv_as_slice (z' i').
Proof.
  intros S R so p p' n D cs cs' st a b b' i i' FL Hn PD H F F' E E' Ed Ef.
  pose proof (c111_refinement S R so p n D cs st a FL Hn PD H F) as M. rewrite E in M.
  pose proof (c111_refinement S R so p' n D cs' st a FL Hn PD H F') as M'. rewrite E' in M'.
  destruct M as (z & -> & A), M' as (z' & -> & A'). exists z, z'. split; [reflexivity|]. split; [reflexivity|].
  exact (stands_same so n D _ _ _ _ (proj1 Hn) (A i) (A' i') Ed Ef).
Qed.
Example c111_example :
  let start := fun _ : nat => @dv_new Qc in
  let cs := [CKey 0 [1] (q 1); CKey 1 [2] (q 2); CComm 2 0 1 (Some 3); CCopy 3 2; CAddMul 3 2 0 (Some 3);
             CSubDivided 3 1 (q 2); CErase 3 [2; 1]] in
  (forall i, stands_for qc_ops 2 5 (start i) (t_zero qc_ops)) /\ 2 ^ (5 + 1) < 2 ^ 64
  /\ Forall (cmd_within 2 5) cs
  /\ (z <- run_prog qc_ops dev 2 start cs ;; Ret (vals (z 3%nat)))
     = Ret (qz [0; 0; -1; 0; 2; 0; 0; 0; 0; 2; 0; -2; 0; 0; 0]%Z)
  /\ (b <- mean_prog qc_ops (fun _ => t_zero qc_ops) cs ;;
      Ret (t_deg (b 3%nat), map (fun w => this (t_fun (b 3%nat) w)) (words_below 2 4)))
     = Ret (Some 3, qz [0; 0; -1; 0; 2; 0; 0; 0; 0; 2; 0; -2; 0; 0; 0]%Z)
  /\ (let cs := [CDegree 0 3; CPairs 1 [([1; 2], q 4); ([2], q 2); ([1; 2], q 6)]; CSet 0 [2] (q 8); CSet 0 [2; 2; 2] (q 8);
                 CSubScaled 0 1 (q 2); CKeyAdd 0 [1] (q 5); CKeySub 0 [1; 2] (q 3); CAddDivided 0 1 (q 2)] in
      Forall (cmd_within 2 5) cs
      /\ (z <- run_prog qc_ops dev 2 start cs ;; Ret (vals (z 0%nat))) = Ret (qz [0; 5; 5; 0; -18; 0; 0]%Z)
      /\ (b <- mean_prog qc_ops (fun _ => t_zero qc_ops) cs ;;
          Ret (t_deg (b 0%nat), map (fun w => this (t_fun (b 0%nat) w)) (words_below 2 3))) = Ret (Some 2, qz [0; 5; 5; 0; -18; 0; 0]%Z))
  /\ run_prog qc_ops release 2 start [CKey 0 [] (q 1); CMul 1 0 0 (Some 3)] = UB
  /\ mean_prog qc_ops (fun _ => t_zero qc_ops) [CKey 0 [] (q 1); CMul 1 0 0 (Some 3)] = UB
  /\ returns (run_prog qc_ops release 2 start [CKey 0 [] (q 1); CCopy 1 0; CAddMul 1 0 0 (Some 3)])
  /\ run_prog qc_ops release 2 start [CKey 0 [1] (q 1); CMul 1 0 0 None] = Panic
  /\ (let so := fl_ops f64 in let one := s_one so in let u := fun _ : nat => dv_from (repeat one 3) in
      let cs := [CKey 0 [1] one; CComm 2 0 1 (Some 3); CCopy 3 2; CAddMul 3 2 0 (Some 3); CDegree 4 3; CPairs 5 [([], one); ([2; 1; 1], one)]] in
      (forall i, shaped 2 5 (u i) (Some 1)) /\ Forall (cmd_within 2 5) cs /\ Forall cmd_careful cs
      /\ (a <- deg_prog (fun _ => Some 1) cs ;; Ret (a 2%nat, a 3%nat)) = Ret (Some 2, Some 3)
      /\ (z <- run_prog so release 2 u cs ;; Ret (dv_size (z 2%nat), dv_size (z 3%nat))) = Ret (7, 15)).
Proof.
  cbv zeta. split; [intros i; apply std_new; [split; [lia|reflexivity]|reflexivity]|]. split; [reflexivity|].
  split; [repeat constructor; cbn; try lia; vm_compute; congruence|].
  split; [vm_compute; reflexivity|]. split; [vm_compute; reflexivity|].
  split; [split; [repeat constructor; cbn; try lia; vm_compute; congruence|split; vm_compute; reflexivity]|].
  split; [vm_compute; reflexivity|].
  split; [vm_compute; reflexivity|]. split; [eexists; vm_compute; reflexivity|].
  split; [vm_compute; reflexivity|]. split; [intros i; split; [reflexivity|split; [lia|reflexivity]]|].
  split; [repeat constructor; cbn; try lia; vm_compute; congruence|].
  split; [repeat constructor; cbn; try lia; try congruence; first [eexists; (split; [reflexivity|lia])
    |eexists; (split; [right; left; reflexivity|discriminate])]|].
  split; vm_compute; reflexivity.
Qed.
