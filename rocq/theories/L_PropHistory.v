(** Property lemmas C25-C28 (restated as theorems in P_History.v). *)
From Coq Require Import QArith Qcanon.
From Verif Require Import Machine MachineLemmas M_TensorKey M_TensorBasis
  M_Scalar M_Vector M_Dense M_Deref S_Vector I_Scalars L_Dense L_Ring.
Local Open Scope N_scope.

Section Calls.
  Context {K S R : Type} (so : scalar_ops S R) (ob : obasis K) (idx : K -> N).
  Notation zero := (s_zero so).
  Notation call := (call so ob). Notation calls := (calls so ob).

  (** what each call leaves: a new list of elements and whether it had to reallocate *)
  Definition elems_after (l : list S) (fixed : bool) (o : vop K S R) : list S :=
    let upd k f := match slice_get l (idx k) with
                   | Some x => list_set l (N.to_nat (idx k)) (f x) | None => l end in
    match o with
    | OClear => if fixed then map (fun _ => zero) l else []
    | OErase k => upd k (fun _ => zero)
    | OSet k s => upd k (fun _ => s)
    | OInsertSingle k s => l
    | OUminus => map (s_uminus so) l
    | OAdd y => comb so (s_add so) l (dv_elems y)
    | OSub y => comb so (s_sub so) l (dv_elems y)
    | OLmul s | ORmul s => map (fun x => s_mul so x s) l
    | ORdiv r | OLdiv r => map (fun x => s_div so x r) l
    | OAddRmul y s | OAddLmul y s => comb so (s_add so) l (map (fun c => s_mul so c s) (dv_elems y))
    | OSubRmul y s | OSubLmul y s => comb so (s_sub so) l (map (fun c => s_mul so c s) (dv_elems y))
    | OAddRdiv y r | OAddLdiv y r => comb so (s_add so) l (map (fun c => s_div so c r) (dv_elems y))
    | OSubRdiv y r | OSubLdiv y r => comb so (s_sub so) l (map (fun c => s_div so c r) (dv_elems y))
    | OResize n => vec_resize l n zero
    | OSwap w => dv_elems w
    | OKeyAddMul k s => upd k (fun x => s_add so x s)
    | OKeySubMul k s => upd k (fun x => s_sub so x s)
    | OKeyAddDiv k r => upd k (fun x => s_add so x (s_div so (s_one so) r))
    | OKeySubDiv k r => upd k (fun x => s_sub so x (s_div so (s_mone so) r))
    end.
  Definition is_fixed (x : dvec S) : bool := match dv_kind x with BorrowedMut => true | _ => false end.
  Definition realloc (x : dvec S) (o : vop K S R) : bool :=
    match o with
    | OAdd y | OSub y | OAddRmul y _ | OAddLmul y _ | OSubRmul y _ | OSubLmul y _
    | OAddRdiv y _ | OAddLdiv y _ | OSubRdiv y _ | OSubLdiv y _ => dv_size x <? dv_size y
    | OResize _ => true
    | _ => false
    end.
  (** insert_single does not touch the vector, not even its storage *)
  Definition untouched (o : vop K S R) : bool := match o with OInsertSingle _ _ => true | _ => false end.

  Lemma upd_eq (x : dvec S) k (f : S -> S) ins : ob_key_to_index ob k = Ret (idx k) ->
    '(x1, ref) <- dv_get_mut ob x k ;;
      match ref with Some (c, write) => Ret (write (f c)) | None => dv_insert_single ob x1 k ins end
    = Ret (match slice_get (dv_elems x) (idx k) with
           | Some c => after x false (list_set (dv_elems x) (N.to_nat (idx k)) (f c))
           | None => dv_as_mut x end).
  Proof.
    intros H. rewrite (get_mut_eq ob x k (idx k) H). cbn [bind].
    destruct (slice_get (dv_elems x) (idx k)); [reflexivity|]. unfold dv_insert_single. rewrite H. reflexivity.
  Qed.

  Lemma call_ok x o : dv_wf x -> op_key_ok ob idx o ->
    call x o = Ret (match o with
                    | OSwap w => w
                    | OInsertSingle _ _ => x
                    | _ => after x (realloc x o) (elems_after (dv_elems x) (is_fixed x) o) end).
  Proof.
    intros Hwf Hk. destruct o; cbn [op_key_ok] in Hk; unfold S_Vector.call;
      cbn [dense_ops with_defaults v_req v_def
        vr_clear vr_erase vr_get_mut vr_insert_single vr_uminus_inplace vr_add_inplace vr_sub_inplace
        vr_scalar_lmultiply_inplace vr_scalar_rdivide_inplace vr_swap dense_required
        vd_scalar_rmultiply_inplace vd_scalar_ldivide_inplace
        vd_add_scalar_rmultiply vd_add_scalar_lmultiply vd_sub_scalar_rmultiply vd_sub_scalar_lmultiply
        vd_add_scalar_rdivide vd_add_scalar_ldivide vd_sub_scalar_rdivide vd_sub_scalar_ldivide
        elems_after realloc].
    - (* clear *) destruct x as [[] l b]; reflexivity.
    - rewrite (erase_eq so ob x k _ Hk). rewrite (as_mut_wf x Hwf). destruct (slice_get _ _); reflexivity.
    - rewrite (get_mut_eq ob x k _ Hk). cbn [bind]. rewrite (as_mut_wf x Hwf). destruct (slice_get _ _); reflexivity.
    - unfold dv_insert_single. rewrite Hk. reflexivity.
    - apply uminus_inplace_eq.
    - apply add_inplace_eq.
    - apply sub_inplace_eq.
    - apply lmultiply_inplace_eq.
    - unfold dflt_scalar_rmultiply_inplace. apply lmultiply_inplace_eq.
    - apply rdivide_inplace_eq.
    - unfold dflt_scalar_ldivide_inplace. apply rdivide_inplace_eq.
    - apply fused_add_mul_eq.
    - apply fused_add_mul_l_eq.
    - apply fused_sub_mul_eq.
    - apply fused_sub_mul_l_eq.
    - apply fused_add_div_eq.
    - apply fused_add_div_l_eq.
    - apply fused_sub_div_eq.
    - apply fused_sub_div_l_eq.
    - apply resize_eq.
    - reflexivity.
    - unfold ke_add_scalar_multiply. cbn [v_req vr_get_mut vr_insert_single].
      etransitivity; [exact (upd_eq x k (fun c => s_add so c s) s Hk)|].
      rewrite (as_mut_wf x Hwf). destruct (slice_get _ _); reflexivity.
    - unfold ke_sub_scalar_multiply. cbn [v_req vr_get_mut vr_insert_single].
      etransitivity; [exact (upd_eq x k (fun c => s_sub so c s) (s_uminus so s) Hk)|].
      rewrite (as_mut_wf x Hwf). destruct (slice_get _ _); reflexivity.
    - unfold ke_add_scalar_divide. cbn [v_req vr_get_mut vr_insert_single].
      etransitivity; [exact (upd_eq x k (fun c => s_add so c (s_div so (s_one so) r)) _ Hk)|].
      rewrite (as_mut_wf x Hwf). destruct (slice_get _ _); reflexivity.
    - unfold ke_sub_scalar_divide. cbn [v_req vr_get_mut vr_insert_single].
      etransitivity; [exact (upd_eq x k (fun c => s_sub so c (s_div so (s_mone so) r)) _ Hk)|].
      rewrite (as_mut_wf x Hwf). destruct (slice_get _ _); reflexivity.
  Qed.

  (** all vectors mentioned by an operation are well-formed (only swap lets one in) *)
  Definition op_wf (o : vop K S R) : Prop := match o with OSwap w => dv_wf w | _ => True end.

  Lemma call_wf x o z : dv_wf x -> op_wf o -> op_key_ok ob idx o -> call x o = Ret z -> dv_wf z.
  Proof.
    intros Hx Ho Hk E. rewrite (call_ok x o Hx Hk) in E. injection E as <-.
    destruct o; try apply after_wf; assumption.
  Qed.
  Lemma call_elems x o z : dv_wf x -> op_key_ok ob idx o -> call x o = Ret z ->
    dv_elems z = elems_after (dv_elems x) (is_fixed x) o.
  Proof.
    intros Hx Hk E. rewrite (call_ok x o Hx Hk) in E. injection E as <-. destruct o; reflexivity.
  Qed.

  (** ** Refinement *)
  Lemma coef_list v i : coef so v i = match slice_get (dv_elems v) i with Some x => x | None => zero end.
  Proof. reflexivity. Qed.
  Definition lcoef (l : list S) (i : N) : S := match slice_get l i with Some x => x | None => zero end.
  Lemma lcoef_comb op l r i : lcoef (comb so op l r) i
    = if i <? len r then op (lcoef l i) (lcoef r i) else lcoef l i.
  Proof.
    unfold lcoef. rewrite comb_get. destruct (N.ltb_spec i (len r)) as [H|H].
    - destruct (slice_get_some r i H) as [y ->]. destruct (slice_get l i); reflexivity.
    - rewrite (slice_get_none r i H). destruct (slice_get l i); reflexivity.
  Qed.
  Lemma lcoef_map f l i : lcoef (map f l) i = if i <? len l then f (lcoef l i) else lcoef l i.
  Proof.
    unfold lcoef. rewrite slice_get_map. destruct (N.ltb_spec i (len l)) as [H|H].
    - destruct (slice_get_some l i H) as [y ->]. reflexivity.
    - rewrite (slice_get_none l i H). reflexivity.
  Qed.
  Lemma lcoef_upd (l : list S) k f j :
    lcoef (match slice_get l k with Some x => list_set l (N.to_nat k) (f x) | None => l end) j
    = if (j =? k) && (k <? len l) then f (lcoef l k) else lcoef l j.
  Proof.
    destruct (slice_get l k) as [x|] eqn:E.
    - pose proof (slice_get_lt _ _ _ E) as H. unfold lcoef. rewrite slice_get_list_set by exact H.
      destruct (N.ltb_spec k (len l)); [|lia]. rewrite andb_true_r, E.
      destruct (j =? k); reflexivity.
    - destruct (N.ltb_spec k (len l)) as [H|H]; [destruct (slice_get_some l k H); congruence|].
      rewrite andb_false_r. reflexivity.
  Qed.
  Lemma len_upd (l : list S) k f :
    len (match slice_get l k with Some x => list_set l (N.to_nat k) (f x) | None => l end) = len l.
  Proof. destruct (slice_get l k); [apply len_list_set|reflexivity]. Qed.

  Lemma combine_mapped op f (l r : list S) j :
    lcoef (comb so op l (map f r)) j = if j <? len r then op (lcoef l j) (f (lcoef r j)) else lcoef l j.
  Proof.
    rewrite lcoef_comb, lcoef_map, len_map. destruct (j <? len r); reflexivity.
  Qed.

  Lemma call_refines x o : dv_wf x -> op_key_ok ob idx o ->
    exists z, call x o = Ret z /\ avec_eq (avec_of so z) (a_call so idx (avec_of so x) o).
  Proof.
    intros Hx Hk. rewrite (call_ok x o Hx Hk). eexists. split; [reflexivity|].
    assert (HM : forall l f, avec_eq
              (avec_of so (after x false (map f l))) (a_map (mk_avec (is_fixed x) (len l) (lcoef l)) f)).
    { intros l f. unfold avec_eq, avec_of, a_map. cbn. split; [unfold is_fixed; destruct (dv_kind x); reflexivity|].
      split; [apply len_map|]. intros i. apply lcoef_map. }
    assert (HC : forall op y, avec_eq
              (avec_of so (after x (dv_size x <? dv_size y) (comb so op (dv_elems x) (dv_elems y))))
              (a_combine op (avec_of so x) (avec_of so y))).
    { intros op y. unfold avec_eq, avec_of, a_combine, dv_size. cbn. split.
      - destruct (dv_kind x); try reflexivity. cbn.
        destruct (N.ltb_spec (len (dv_elems x)) (len (dv_elems y))), (N.leb_spec (len (dv_elems y)) (len (dv_elems x)));
          cbn; reflexivity || lia.
      - split; [apply comb_len|]. intros i. apply lcoef_comb. }
    assert (HF : forall op f y, avec_eq
              (avec_of so (after x (dv_size x <? dv_size y) (comb so op (dv_elems x) (map f (dv_elems y)))))
              (a_combine (fun u v => op u (f v)) (avec_of so x) (avec_of so y))).
    { intros op f y. unfold avec_eq, avec_of, a_combine, dv_size. cbn. split.
      - destruct (dv_kind x); try reflexivity. cbn.
        destruct (N.ltb_spec (len (dv_elems x)) (len (dv_elems y))), (N.leb_spec (len (dv_elems y)) (len (dv_elems x)));
          cbn; reflexivity || lia.
      - split; [rewrite comb_len, len_map; reflexivity|]. intros i. apply combine_mapped. }
    assert (HU : forall k f, avec_eq
              (avec_of so (after x false (match slice_get (dv_elems x) (idx k) with
                 | Some c => list_set (dv_elems x) (N.to_nat (idx k)) (f c) | None => dv_elems x end)))
              (a_update (avec_of so x) (idx k) f)).
    { intros k f. unfold avec_eq, avec_of, a_update, dv_size. cbn.
      split; [destruct (dv_kind x); reflexivity|]. split; [apply len_upd|]. intros i. apply lcoef_upd. }
    destruct o; cbn [a_call elems_after realloc].
    - (* clear *) clear. destruct x as [kd l b]. unfold avec_eq, avec_of, a_clear, dv_size, is_fixed. destruct kd; cbn;
        (split; [reflexivity|]); (split; [first [reflexivity|apply len_map]|]); intros i; unfold coef, dv_as_slice; cbn.
      1,2: rewrite slice_get_none by apply N.le_0_l; reflexivity.
      rewrite slice_get_map. destruct (slice_get l i); reflexivity.
    - apply (HU k (fun _ => zero)).
    - apply (HU k (fun _ => s)).
    - repeat split.
    - apply HM.
    - apply (HC (s_add so) y).
    - apply (HC (s_sub so) y).
    - apply HM.
    - apply HM.
    - apply HM.
    - apply HM.
    - apply (HF (s_add so) (fun v => s_mul so v s) y).
    - apply (HF (s_add so) (fun v => s_mul so v s) y).
    - apply (HF (s_sub so) (fun v => s_mul so v s) y).
    - apply (HF (s_sub so) (fun v => s_mul so v s) y).
    - apply (HF (s_add so) (fun v => s_div so v r) y).
    - apply (HF (s_add so) (fun v => s_div so v r) y).
    - apply (HF (s_sub so) (fun v => s_div so v r) y).
    - apply (HF (s_sub so) (fun v => s_div so v r) y).
    - (* resize *) unfold avec_eq, avec_of, a_resize, dv_size. cbn. split; [destruct (dv_kind x); reflexivity|].
      split; [apply len_vec_resize|]. intros i. unfold coef, dv_as_slice. cbn.
      rewrite slice_get_vec_resize. destruct (i <? n); reflexivity.
    - repeat split.
    - apply (HU k (fun c => s_add so c s)).
    - apply (HU k (fun c => s_sub so c s)).
    - apply (HU k (fun c => s_add so c (s_div so (s_one so) r))).
    - apply (HU k (fun c => s_sub so c (s_div so (s_mone so) r))).
  Qed.

  Lemma a_call_ext a b o : avec_eq a b -> avec_eq (a_call so idx a o) (a_call so idx b o).
  Proof.
    intros (H1 & H2 & H3).
    assert (HM : forall f, avec_eq (a_map a f) (a_map b f)).
    { intros f. unfold avec_eq, a_map; cbn. rewrite H1, H2. repeat split. intros i. rewrite H3. reflexivity. }
    assert (HC : forall op y, avec_eq (a_combine op a y) (a_combine op b y)).
    { intros op y. unfold avec_eq, a_combine; cbn. rewrite H1, H2. repeat split. intros i. rewrite H3. reflexivity. }
    assert (HU : forall i f, avec_eq (a_update a i f) (a_update b i f)).
    { intros i f. unfold avec_eq, a_update; cbn. rewrite H1, H2. repeat split. intros j. rewrite !H3. reflexivity. }
    destruct o; cbn [a_call]; auto.
    - unfold avec_eq, a_clear; cbn. rewrite H1, H2. repeat split.
    - repeat split; assumption.
    - unfold avec_eq, a_resize; cbn. repeat split. intros i. rewrite H3. reflexivity.
    - repeat split.
  Qed.
  Lemma avec_eq_trans (a b c : avec S) : avec_eq a b -> avec_eq b c -> avec_eq a c.
  Proof. intros (?&?&?) (?&?&?). repeat split; try congruence. Qed.
  Lemma a_calls_ext os a b : avec_eq a b ->
    avec_eq (fold_left (a_call so idx) os a) (fold_left (a_call so idx) os b).
  Proof. revert a b; induction os as [|o os IH]; intros a b H; [exact H|]. cbn. apply IH, a_call_ext, H. Qed.

  Lemma calls_refines x os : dv_wf x -> Forall op_wf os -> Forall (op_key_ok ob idx) os ->
    exists z, calls x os = Ret z /\ dv_wf z
      /\ avec_eq (avec_of so z) (fold_left (a_call so idx) os (avec_of so x)).
  Proof.
    revert x; induction os as [|o os IH]; intros x Hx Hw Hk.
    - exists x. repeat split; assumption.
    - apply Forall_cons_iff in Hw. apply Forall_cons_iff in Hk. destruct Hw as [Ho Hw], Hk as [Hk Hks].
      destruct (call_refines x o Hx Hk) as (y & E & Hy). pose proof (call_wf x o y Hx Ho Hk E) as Wy.
      destruct (IH y Wy Hw Hks) as (z & Ez & Wz & Hz). exists z. split.
      { unfold S_Vector.calls. cbn. rewrite E. exact Ez. }
      split; [exact Wz|]. cbn. eapply avec_eq_trans; [exact Hz|]. apply a_calls_ext, Hy.
  Qed.
End Calls.

(** * C26 *)
Lemma c26_refinement : forall (K S R : Type) (so : scalar_ops S R) (ob : obasis K) (idx : K -> N)
    (x : dvec S) (os : list (vop K S R)),
  dv_wf x -> Forall (fun o => match o with OSwap w => dv_wf w | _ => True end) os ->
  Forall (op_key_ok ob idx) os ->
  exists z, calls so ob x os = Ret z /\ dv_wf z
    /\ avec_eq (avec_of so z) (fold_left (a_call so idx) os (avec_of so x)).
Proof. intros. apply calls_refines; assumption. Qed.

Lemma f_call_ok {K S R} (so : scalar_ops S R) (ob : obasis K) (idx : K -> N) x o c :
  field_laws so -> dv_wf x -> op_key_ok ob idx o -> f_call so idx (coef so x) o = Some c ->
  exists z, call so ob x o = Ret z /\ forall i, coef so z i = c i.
Proof.
  intros L Hx Hk Hc. pose proof (l_ring so L) as LR.
  destruct (call_refines so ob idx x o Hx Hk) as (z & E & _ & _ & Hf). exists z. split; [exact E|].
  intros i. change (coef so z i) with (a_fun (avec_of so z) i). rewrite Hf. clear Hf E z.
  assert (Hout : forall v j, (j <? dv_size v) = false -> coef so v j = s_zero so).
  { intros v j H. apply coef_out. lia. }
  assert (DZ : forall r, s_div so (s_zero so) r = s_zero so).
  { intros r. rewrite (l_div so L). apply r_mul_0_l. exact LR. }
  destruct o; cbn [f_call] in Hc; try discriminate; injection Hc as <-;
    cbn [a_call avec_of a_clear a_update a_map a_combine a_fun a_dim a_fixed].
  all: try reflexivity.
  - destruct (N.eqb_spec i (idx k)) as [->|]; [|reflexivity]. cbn.
    destruct (idx k <? dv_size x) eqn:Ex; [reflexivity|]. apply Hout, Ex.
  - destruct (i <? dv_size x) eqn:Ex; [reflexivity|]. rewrite (Hout x i Ex). symmetry. apply r_opp_0, LR.
  - destruct (i <? dv_size y) eqn:Ex; [reflexivity|]. rewrite (Hout y i Ex). symmetry. apply r_add_0_r, LR.
  - destruct (i <? dv_size y) eqn:Ex; [reflexivity|]. rewrite (Hout y i Ex). symmetry. apply r_sub_0_r, LR.
  - destruct (i <? dv_size x) eqn:Ex; [reflexivity|]. rewrite (Hout x i Ex). symmetry. apply r_mul_0_l, LR.
  - destruct (i <? dv_size x) eqn:Ex; [reflexivity|]. rewrite (Hout x i Ex). symmetry. apply r_mul_0_l, LR.
  - destruct (i <? dv_size x) eqn:Ex; [reflexivity|]. rewrite (Hout x i Ex). symmetry. apply DZ.
  - destruct (i <? dv_size x) eqn:Ex; [reflexivity|]. rewrite (Hout x i Ex). symmetry. apply DZ.
  - destruct (i <? dv_size y) eqn:Ex; [reflexivity|]. rewrite (Hout y i Ex), r_mul_0_l by exact LR. symmetry. apply r_add_0_r, LR.
  - destruct (i <? dv_size y) eqn:Ex; [reflexivity|]. rewrite (Hout y i Ex), r_mul_0_l by exact LR. symmetry. apply r_add_0_r, LR.
  - destruct (i <? dv_size y) eqn:Ex; [reflexivity|]. rewrite (Hout y i Ex), r_mul_0_l by exact LR. symmetry. apply r_sub_0_r, LR.
  - destruct (i <? dv_size y) eqn:Ex; [reflexivity|]. rewrite (Hout y i Ex), r_mul_0_l by exact LR. symmetry. apply r_sub_0_r, LR.
  - destruct (i <? dv_size y) eqn:Ex; [reflexivity|]. rewrite (Hout y i Ex), DZ. symmetry. apply r_add_0_r, LR.
  - destruct (i <? dv_size y) eqn:Ex; [reflexivity|]. rewrite (Hout y i Ex), DZ. symmetry. apply r_add_0_r, LR.
  - destruct (i <? dv_size y) eqn:Ex; [reflexivity|]. rewrite (Hout y i Ex), DZ. symmetry. apply r_sub_0_r, LR.
  - destruct (i <? dv_size y) eqn:Ex; [reflexivity|]. rewrite (Hout y i Ex), DZ. symmetry. apply r_sub_0_r, LR.
Qed.
Lemma f_call_ext {K S R} (so : scalar_ops S R) (idx : K -> N) (c d : N -> S) (o : vop K S R) :
  (forall i, c i = d i) ->
  match f_call so idx c o, f_call so idx d o with
  | Some c', Some d' => forall i, c' i = d' i | None, None => True | _, _ => False end.
Proof. intros H. destruct o; cbn; auto; intros i; rewrite H; reflexivity. Qed.
Lemma f_calls_ext {K S R} (so : scalar_ops S R) (idx : K -> N) (os : list (vop K S R)) (c d c' : N -> S) :
  (forall i, c i = d i) -> f_calls so idx c os = Some c' ->
  exists d', f_calls so idx d os = Some d' /\ forall i, c' i = d' i.
Proof.
  revert c d; induction os as [|o os IH]; intros c d H E; cbn in *.
  - injection E as <-. exists d. auto.
  - pose proof (f_call_ext so idx c d o H) as HE.
    destruct (f_call so idx c o) as [c1|], (f_call so idx d o) as [d1|]; try discriminate; try contradiction.
    apply (IH c1 d1); assumption.
Qed.
(** over a field: the coefficients are those of the same operations on coefficient functions, wherever
    the vector is stored *)
Lemma c26_coefficients : forall (K S R : Type) (so : scalar_ops S R) (ob : obasis K) (idx : K -> N)
    (x : dvec S) (os : list (vop K S R)) (c : N -> S),
  field_laws so -> dv_wf x -> Forall (fun o => match o with OSwap w => dv_wf w | _ => True end) os ->
  Forall (op_key_ok ob idx) os -> f_calls so idx (coef so x) os = Some c ->
  exists z, calls so ob x os = Ret z /\ forall i, coef so z i = c i.
Proof.
  intros K S R so ob idx x os c L. revert x c; induction os as [|o os IH]; intros x c Hx Hw Hk E.
  - cbn in E. injection E as <-. exists x. split; reflexivity.
  - apply Forall_cons_iff in Hw. apply Forall_cons_iff in Hk. destruct Hw as [Ho Hw], Hk as [Hk Hks].
    cbn in E. destruct (f_call so idx (coef so x) o) as [c1|] eqn:E1; [|discriminate].
    destruct (f_call_ok so ob idx x o c1 L Hx Hk E1) as (y & Ey & Hy).
    pose proof (call_wf so ob idx x o y Hx Ho Hk Ey) as Wy.
    destruct (f_calls_ext so idx os c1 (coef so y) c ltac:(intros; symmetry; apply Hy) E) as (c2 & E2 & H2).
    destruct (IH y c2 Wy Hw Hks E2) as (z & Ez & Hz). exists z. split.
    + unfold calls. cbn. rewrite Ey. exact Ez.
    + intros i. rewrite Hz, H2. reflexivity.
Qed.
(** the one call that is not among them *)
Lemma c26_insert : forall (K S R : Type) (so : scalar_ops S R) (ob : obasis K) (idx : K -> N)
    (x : dvec S) (os os' : list (vop K S R)) (items : list (K * S)),
  dv_wf x -> Forall (fun o => match o with OSwap w => dv_wf w | _ => True end) os -> Forall (op_key_ok ob idx) os ->
  (z <- calls so ob x os ;; y <- vr_insert (dense_ops so ob) z items ;; calls so ob y os') = Panic.
Proof.
  intros K S R so ob idx x os os' items Hx Hw Ho. destruct (c26_refinement K S R so ob idx x os Hx Hw Ho) as (z & -> & _). reflexivity.
Qed.
Example c26_example :
  let idx k := match ob_key_to_index (tensor_basis dev 2) k with Ret i => i | _ => 0 end in
  let os := [OAdd (dv_from [q 1; q 2; q 3]); OErase (mk_tkey 1 0); OLmul (q 5); OClear;
             OSubRdiv (dv_borrow [q 4; q 6]) (q 2)] in
  Forall (op_key_ok (tensor_basis dev 2) idx) os
  /\ (z <- calls qc_ops (tensor_basis dev 2) (dv_borrow_mut [q 7; q 0; q 0]) os ;; Ret (vals z)) = Ret (qz [-2; -3; 0]%Z).
Proof. split; [repeat (apply Forall_cons; [first [exact I|vm_compute; reflexivity]|]); apply Forall_nil|vm_compute; reflexivity]. Qed.

(** * C25 *)
Lemma c25_same_coefficients : forall (K S R : Type) (so : scalar_ops S R) (ob : obasis K) (idx : K -> N)
    (x y : dvec S) (o : vop K S R),
  dv_wf x -> dv_wf y -> op_key_ok ob idx o -> dv_as_slice x = dv_as_slice y ->
  exists z t, call so ob x o = Ret z /\ call so ob y o = Ret t /\ forall i, coef so z i = coef so t i.
Proof.
  intros K S R so ob idx x y o Hx Hy Hk E.
  destruct (call_refines so ob idx x o Hx Hk) as (z & Ez & _ & _ & Hz).
  destruct (call_refines so ob idx y o Hy Hk) as (t & Et & _ & _ & Ht).
  exists z, t. split; [exact Ez|]. split; [exact Et|]. intros i.
  change (coef so z i) with (a_fun (avec_of so z) i). change (coef so t i) with (a_fun (avec_of so t) i).
  rewrite Hz, Ht. unfold avec_of, coef, dv_size. unfold dv_as_slice in *. rewrite E. destruct o; reflexivity.
Qed.
Lemma c25_same_vectors : forall (K S R : Type) (so : scalar_ops S R) (ob : obasis K) (idx : K -> N)
    (x y : dvec S) (os : list (vop K S R)),
  dv_wf x -> dv_wf y -> Forall (fun o => match o with OSwap w => dv_wf w | _ => True end) os ->
  Forall (op_key_ok ob idx) os -> forallb (fun o => negb (is_clear o)) os = true ->
  dv_as_slice x = dv_as_slice y ->
  exists z t, calls so ob x os = Ret z /\ calls so ob y os = Ret t /\ dv_as_slice z = dv_as_slice t.
Proof.
  intros K S R so ob idx x y os. revert x y; induction os as [|o os IH]; intros x y Hx Hy Hw Hk Hc E.
  - exists x, y. repeat split; assumption.
  - apply Forall_cons_iff in Hw. apply Forall_cons_iff in Hk. destruct Hw as [Ho Hw], Hk as [Hk Hks].
    cbn in Hc. apply andb_true_iff in Hc. destruct Hc as [Hc Hcs].
    destruct (call_refines so ob idx x o Hx Hk) as (z & Ez & _).
    destruct (call_refines so ob idx y o Hy Hk) as (t & Et & _).
    pose proof (call_wf so ob idx x o z Hx Ho Hk Ez). pose proof (call_wf so ob idx y o t Hy Ho Hk Et).
    destruct (IH z t) as (z' & t' & E1 & E2 & E3); try assumption.
    + unfold dv_as_slice in *. rewrite (call_elems so ob idx x o z Hx Hk Ez), (call_elems so ob idx y o t Hy Hk Et), E.
      destruct o; reflexivity || discriminate.
    + exists z', t'. unfold calls. cbn. rewrite Ez, Et. auto.
Qed.
(** clear keeps the size of BorrowedMut storage only, and a later write through get_mut shows it *)
Lemma c25_clear_refuted : exists (x y z t : dvec Qc) (os : list (vop tkey Qc Qc)) (i : N),
  dv_wf x /\ dv_wf y /\ dv_as_slice x = dv_as_slice y
  /\ calls qc_ops (tensor_basis dev 2) x os = Ret z /\ calls qc_ops (tensor_basis dev 2) y os = Ret t
  /\ coef qc_ops z i <> coef qc_ops t i.
Proof.
  exists (dv_from [q 1]), (dv_borrow_mut [q 1]), (dv_from []), (dv_borrow_mut [q 3]), [OClear; OSet tk_new (q 3)], 0.
  split; [exact I|]. split; [reflexivity|]. split; [reflexivity|].
  split; [vm_compute; reflexivity|]. split; [vm_compute; reflexivity|]. vm_compute. discriminate.
Qed.

Lemma lender_kept {K S R} (so : scalar_ops S R) (ob : obasis K) (idx : K -> N) (z : dvec S) (os : list (vop K S R)) :
  forall v : dvec S, dv_wf v -> dv_kind v <> BorrowedMut -> Forall (op_key_ok ob idx) os ->
    forallb (fun o => negb (is_swap o)) os = true -> calls so ob v os = Ret z -> dv_lender z = dv_lender v.
Proof.
  induction os as [|o os IH]; intros v Hv Hb Hk Hs E.
  - cbn in E. injection E as ->. reflexivity.
  - apply Forall_cons_iff in Hk. destruct Hk as [Hk Hks]. cbn in Hs. apply andb_true_iff in Hs. destruct Hs as [Hs Hss].
    unfold calls in E. cbn in E. rewrite (call_ok so ob idx v o Hv Hk) in E. cbn [bind] in E.
    set (v1 := match o with OSwap w => w | _ => _ end) in E.
    assert (dv_wf v1 /\ dv_kind v1 <> BorrowedMut /\ dv_lender v1 = dv_lender v) as (W & B & Le).
    { unfold v1. destruct o; try discriminate; try (split; [exact Hv|split; [exact Hb|reflexivity]]);
        (split; [apply after_wf|]); cbn; unfold lender_after; destruct (dv_kind v); try congruence;
        split; (discriminate || reflexivity). }
    rewrite (IH v1 W B Hks Hss E). exact Le.
Qed.
(** the lender's buffer *)
Lemma c25_borrowed_protected : forall (K S R : Type) (so : scalar_ops S R) (ob : obasis K) (idx : K -> N)
    (x z : dvec S) (os : list (vop K S R)),
  dv_wf x -> dv_kind x = Borrowed -> Forall (op_key_ok ob idx) os ->
  forallb (fun o => negb (is_swap o)) os = true -> calls so ob x os = Ret z ->
  dv_lender z = dv_as_slice x.
Proof.
  intros K S R so ob idx x z os Hx Hb Hk Hs E.
  rewrite (lender_kept so ob idx z os x); try assumption; [|congruence]. unfold dv_wf in Hx. rewrite Hb in Hx. exact Hx.
Qed.
Lemma c25_borrowed_mut_sees_updates : forall (K S R : Type) (so : scalar_ops S R) (ob : obasis K) (idx : K -> N)
    (x z : dvec S) (os : list (vop K S R)),
  dv_wf x -> dv_kind x = BorrowedMut -> Forall (op_key_ok ob idx) os ->
  forallb (fun o => negb (is_swap o)) os = true -> calls so ob x os = Ret z ->
  len (dv_lender z) = dv_size x
  /\ exists done rest m, os = done ++ rest /\ calls so ob x done = Ret m
       /\ dv_kind m = BorrowedMut /\ dv_size m = dv_size x /\ dv_lender z = dv_as_slice m
       /\ match rest with [] => z = m | o :: _ => needs_resize m o end.
Proof.
  intros K S R so ob idx x z os. revert x; induction os as [|o os IH]; intros x Hx Hb Hk Hs E.
  - cbn in E. injection E as <-. unfold dv_wf in Hx. rewrite Hb in Hx. split; [unfold dv_size; congruence|].
    exists [], [], x. repeat split; assumption.
  - apply Forall_cons_iff in Hk. destruct Hk as [Hk Hks]. cbn in Hs. apply andb_true_iff in Hs. destruct Hs as [Hs Hss].
    pose proof E as E0. unfold calls in E. cbn in E. rewrite (call_ok so ob idx x o Hx Hk) in E. cbn [bind] in E.
    set (v1 := match o with OSwap w => w | _ => _ end) in E.
    destruct (realloc x o) eqn:Er.
    + (* the vector stops using the buffer *)
      assert (dv_lender z = dv_lender x) as Le.
      { assert (W : dv_wf v1 /\ dv_kind v1 = Owned /\ dv_lender v1 = dv_lender x).
        { unfold v1. destruct o; try discriminate; (split; [apply after_wf|]); cbn; unfold lender_after;
            rewrite Hb; cbn in Er; rewrite ?Er; split; reflexivity. }
        destruct W as (W & B & Le). rewrite <- Le.
        apply (lender_kept so ob idx z os v1 W ltac:(congruence) Hks Hss E). }
      unfold dv_wf in Hx. rewrite Hb in Hx. split; [rewrite Le; unfold dv_size; congruence|].
      exists [], (o :: os), x. split; [reflexivity|]. split; [reflexivity|]. split; [exact Hb|].
      split; [reflexivity|]. split; [unfold dv_as_slice; congruence|].
      destruct o; cbn in Er |- *; try discriminate; try exact I; lia.
    + assert (W : dv_wf v1 /\ dv_kind v1 = BorrowedMut /\ dv_size v1 = dv_size x).
      { assert (HS : forall op (y : list S), (len (dv_elems x) <? len y) = false ->
           len (comb so op (dv_elems x) y) = len (dv_elems x)).
        { intros op y Hy. rewrite comb_len. lia. }
        unfold v1. destruct o; try discriminate; try (split; [exact Hx|split; [exact Hb|reflexivity]]);
          (split; [apply after_wf|]); cbn in Er |- *; rewrite ?Er, Hb; (split; [reflexivity|]); unfold dv_size in *; cbn [after dv_elems elems_after];
          unfold is_fixed; rewrite ?Hb; rewrite ?len_map, ?len_upd; try reflexivity;
          apply HS; rewrite ?len_map; exact Er. }
      destruct W as (W & B & Sz). destruct (IH v1 W B Hks Hss E) as (Hl & dn & rs & m & Eo & Em & Km & Sm & Lm & Hr).
      split; [congruence|]. exists (o :: dn), rs, m. split; [cbn; congruence|]. split.
      { unfold calls. cbn. rewrite (call_ok so ob idx x o Hx Hk), ?Er. exact Em. }
      split; [exact Km|]. split; [congruence|]. split; [exact Lm|exact Hr].
Qed.
Example c25_example :
  let os := [OUminus; OAdd (dv_from [q 1]); OAdd (dv_from [q 1; q 1; q 1]); OLmul (q 9)] in
  (z <- calls qc_ops (tensor_basis dev 2) (dv_borrow_mut [q 2; q 3]) os ;; Ret (dv_kind z, vals z, map this (dv_lender z)))
    = Ret (Owned, qz [0; -18; 9]%Z, qz [-1; -3]%Z)
  /\ (z <- calls qc_ops (tensor_basis dev 2) (dv_borrow [q 2; q 3]) os ;; Ret (vals z, map this (dv_lender z)))
    = Ret (qz [0; -18; 9]%Z, qz [2; 3]%Z).
Proof. split; vm_compute; reflexivity. Qed.

(** * C27 *)
Definition same {S} (a b : outcome (dvec S)) : Prop :=
  exists u v, a = Ret u /\ b = Ret v /\ dv_as_slice u = dv_as_slice v.
Lemma c27_vector_space : forall (K S R : Type) (so : scalar_ops S R) (ob : obasis K) (x y z : dvec S) (s t : S),
  ring_laws so ->
  let vo := dense_ops so ob in
  let add := vd_add vo in let mul := vd_scalar_lmultiply vo in
  same (a <- add x y ;; add a z) (b <- add y z ;; add x b)
  /\ same (add x y) (add y x)
  /\ same (add x (vr_new vo)) (Ret x)
  /\ same (add (vr_new vo) x) (Ret x)
  /\ (exists d, vd_sub vo x x = Ret d /\ dv_size d = dv_size x /\ forall i, coef so d i = s_zero so)
  /\ same (vd_sub vo x y) (m <- vd_uminus vo y ;; add x m)
  /\ same (a <- add x y ;; mul a s) (u <- mul x s ;; v <- mul y s ;; add u v)
  /\ same (mul x (s_add so s t)) (u <- mul x s ;; v <- mul x t ;; add u v)
  /\ same (mul x (s_mul so s t)) (u <- mul x s ;; mul u t)
  /\ same (mul x (s_one so)) (Ret x)
  /\ same (mul x (s_mone so)) (vd_uminus vo x).
Proof.
  intros K S R so ob x y z s t L vo add mul.
  assert (A : forall u v, add u v = Ret (dv_from (comb so (s_add so) (dv_elems u) (dv_elems v)))).
  { intros u v. subst add vo. cbn [dense_ops with_defaults v_def vd_add]. unfold dflt_add.
    cbn [dense_required vr_to_owned vr_add_inplace dv_to_owned bind]. rewrite add_inplace_eq. reflexivity. }
  assert (B : forall u v, vd_sub vo u v = Ret (dv_from (comb so (s_sub so) (dv_elems u) (dv_elems v)))).
  { intros u v. subst add vo. cbn [dense_ops with_defaults v_def vd_sub]. unfold dflt_sub.
    cbn [dense_required vr_to_owned vr_sub_inplace dv_to_owned bind]. rewrite sub_inplace_eq. reflexivity. }
  assert (M : forall u c, mul u c = Ret (dv_from (map (fun a => s_mul so a c) (dv_elems u)))) by reflexivity.
  assert (U : forall u, vd_uminus vo u = Ret (dv_from (map (s_uminus so) (dv_elems u)))) by reflexivity.
  set (RT := ring_of so L).
  repeat split; unfold same; rewrite ?A, ?B, ?M, ?U; cbn [bind]; rewrite ?A, ?B, ?M, ?U; cbn [bind]; rewrite ?A, ?B, ?M, ?U; cbn [bind].
  all: try (do 2 eexists; split; [reflexivity|]; split; [reflexivity|]; unfold dv_as_slice; cbn [dv_from dv_elems vr_new]).
  - apply slice_get_ext. intros i. rewrite !comb_get. unfold combine.
    destruct (slice_get (dv_elems x) i), (slice_get (dv_elems y) i), (slice_get (dv_elems z) i); cbn; try reflexivity;
      rewrite <- ?(l_add_assoc so L), ?(l_add_0_l so L); reflexivity.
  - apply slice_get_ext. intros i. rewrite !comb_get. unfold combine.
    destruct (slice_get (dv_elems x) i), (slice_get (dv_elems y) i); try reflexivity;
      rewrite ?(l_add_0_l so L); try reflexivity. f_equal. apply (l_add_comm so L).
  - apply slice_get_ext. intros i. rewrite comb_get. cbn. rewrite (slice_get_none [] i) by apply N.le_0_l.
    destruct (slice_get (dv_elems x) i); reflexivity.
  - apply slice_get_ext. intros i. rewrite comb_get. cbn. rewrite (slice_get_none [] i) by apply N.le_0_l.
    destruct (slice_get (dv_elems x) i); cbn; rewrite ?(l_add_0_l so L); reflexivity.
  - eexists. split; [reflexivity|]. unfold dv_size. cbn. rewrite comb_len. split; [lia|]. intros i.
    unfold coef, dv_as_slice. cbn. rewrite comb_get. destruct (slice_get (dv_elems x) i); cbn; [|reflexivity].
    apply r_sub_diag, L.
  - apply slice_get_ext. intros i. rewrite !comb_get, slice_get_map.
    destruct (slice_get (dv_elems x) i), (slice_get (dv_elems y) i); cbn; try reflexivity; rewrite (l_sub_def so L); reflexivity.
  - apply slice_get_ext. intros i. rewrite !comb_get, !slice_get_map, comb_get.
    destruct (slice_get (dv_elems x) i), (slice_get (dv_elems y) i); cbn; try reflexivity;
      rewrite ?(l_add_0_l so L), ?(l_mul_add_l so L); reflexivity.
  - apply slice_get_ext. intros i. rewrite !comb_get, !slice_get_map.
    destruct (slice_get (dv_elems x) i); cbn; try reflexivity. rewrite r_mul_add_r by exact L. reflexivity.
  - apply slice_get_ext. intros i. rewrite !slice_get_map.
    destruct (slice_get (dv_elems x) i); cbn; try reflexivity. rewrite (l_mul_assoc so L). reflexivity.
  - apply slice_get_ext. intros i. rewrite !slice_get_map.
    destruct (slice_get (dv_elems x) i); cbn; try reflexivity. rewrite r_mul_1_r by exact L. reflexivity.
  - apply slice_get_ext. intros i. rewrite !slice_get_map.
    destruct (slice_get (dv_elems x) i); cbn; try reflexivity.
    rewrite (l_mone so L), r_mul_opp_r, r_mul_1_r by exact L. reflexivity.
Qed.
Example c27_example : ring_laws qc_ops
  /\ (a <- vd_add (dense_ops qc_ops (tensor_basis dev 2)) (dv_from [q 1]) (dv_from [q 2; q 3]) ;;
      b <- vd_add (dense_ops qc_ops (tensor_basis dev 2)) (dv_from [q 2; q 3]) (dv_from [q 1]) ;; Ret (vals a, vals b))
     = Ret (qz [3; 3]%Z, qz [3; 3]%Z).
Proof. split; [exact qc_ring|vm_compute; reflexivity]. Qed.

(** * C28 *)
Lemma calls_itself_diverges {A B} (a : A) : @calls_itself A B a = Diverge.
Proof.
  unfold calls_itself, run_loop. assert (H : forall k, loop k (fun a : A => @inl A (outcome B) a) a = inl a).
  { induction k as [|k IH]; [reflexivity|]. cbn. rewrite IH. exact IH. }
  rewrite H. reflexivity.
Qed.
(** get and get_mut, and with them everything in VectorKeyExt, never return *)
Lemma c28_get_refuted : forall (S R : Type) (so : scalar_ops S R) (p : profile) (n : N)
    (x : wrapped (dvec S)) (k : tkey) (s : S) (r : R),
  let vo := dense_tensor_ops so p n in
  vr_get vo x k = Diverge /\ vr_get_mut vo x k = Diverge
  /\ ke_add_scalar_multiply so vo x k s = Diverge /\ ke_sub_scalar_multiply so vo x k s = Diverge
  /\ ke_add_scalar_divide so vo x k r = Diverge /\ ke_sub_scalar_divide so vo x k r = Diverge.
Proof.
  intros S R so p n x k s r vo.
  assert (G : vr_get_mut vo x k = Diverge)
    by (subst vo; unfold dense_tensor_ops, deref_ops, deref_required; cbn [v_req vr_get_mut]; apply calls_itself_diverges).
  split; [subst vo; unfold dense_tensor_ops, deref_ops, deref_required; cbn [v_req vr_get]; apply calls_itself_diverges|].
  split; [exact G|].
  unfold ke_add_scalar_multiply, ke_sub_scalar_multiply, ke_add_scalar_divide, ke_sub_scalar_divide.
  rewrite G. repeat split.
Qed.
(** no number of nested calls of get is enough *)
Lemma c28_get_never_returns : forall (S R : Type) (so : scalar_ops S R) (p : profile) (n : N)
    (x : wrapped (dvec S)) (k : tkey) (m : nat),
  let round := fun a : wrapped (dvec S) * tkey => @inl _ (outcome (option S)) a in
  vr_get (dense_tensor_ops so p n) x k = run_loop round (x, k) /\ loop m round (x, k) = inl (x, k).
Proof.
  intros S R so p n x k m round. split; [reflexivity|]. induction m as [|m IH]; [reflexivity|]. cbn. rewrite IH. exact IH.
Qed.

Definition lift {U} (m : outcome U) : outcome (wrapped U) := u <- m ;; Ret (wrap u).
(** all other operations give the wrapped result of the same operation *)
Lemma c28_delegation_partial : forall (S R : Type) (so : scalar_ops S R) (p : profile) (n : N)
    (x y : dvec S) (k : tkey) (s : S) (r : R) (items : list (tkey * S)),
  let W := dense_tensor_ops so p n in let U := dense_ops so (tensor_basis p n) in
  vr_new W = wrap (vr_new U)
  /\ vr_from_key W k = lift (vr_from_key U k)
  /\ vr_from_key_scalar W k s = lift (vr_from_key_scalar U k s)
  /\ vr_from_iterator W items = lift (vr_from_iterator U items)
  /\ vr_swap W (wrap x) (wrap y) = ('(a, b) <- vr_swap U x y ;; Ret (wrap a, wrap b))
  /\ vr_to_owned W (wrap x) = lift (vr_to_owned U x)
  /\ vr_clear W (wrap x) = lift (vr_clear U x)
  /\ vr_insert_single W (wrap x) k s = lift (vr_insert_single U x k s)
  /\ vr_insert W (wrap x) items = lift (vr_insert U x items)
  /\ vr_erase W (wrap x) k = lift (vr_erase U x k)
  /\ vr_uminus_inplace W (wrap x) = lift (vr_uminus_inplace U x)
  /\ vr_add_inplace W (wrap x) (wrap y) = lift (vr_add_inplace U x y)
  /\ vr_sub_inplace W (wrap x) (wrap y) = lift (vr_sub_inplace U x y)
  /\ vr_scalar_lmultiply_inplace W (wrap x) s = lift (vr_scalar_lmultiply_inplace U x s)
  /\ vr_scalar_rdivide_inplace W (wrap x) r = lift (vr_scalar_rdivide_inplace U x r)
  /\ vd_uminus W (wrap x) = lift (vd_uminus U x)
  /\ vd_add W (wrap x) (wrap y) = lift (vd_add U x y)
  /\ vd_sub W (wrap x) (wrap y) = lift (vd_sub U x y)
  /\ vd_scalar_lmultiply W (wrap x) s = lift (vd_scalar_lmultiply U x s)
  /\ vd_scalar_rmultiply W (wrap x) s = lift (vd_scalar_rmultiply U x s)
  /\ vd_scalar_rdivide W (wrap x) r = lift (vd_scalar_rdivide U x r)
  /\ vd_scalar_ldivide W (wrap x) r = lift (vd_scalar_ldivide U x r)
  /\ vd_scalar_rmultiply_inplace W (wrap x) s = lift (vd_scalar_rmultiply_inplace U x s)
  /\ vd_scalar_ldivide_inplace W (wrap x) r = lift (vd_scalar_ldivide_inplace U x r)
  /\ vd_add_scalar_rmultiply W (wrap x) (wrap y) s = lift (vd_add_scalar_rmultiply U x y s)
  /\ vd_add_scalar_lmultiply W (wrap x) (wrap y) s = lift (vd_add_scalar_lmultiply U x y s)
  /\ vd_sub_scalar_rmultiply W (wrap x) (wrap y) s = lift (vd_sub_scalar_rmultiply U x y s)
  /\ vd_sub_scalar_lmultiply W (wrap x) (wrap y) s = lift (vd_sub_scalar_lmultiply U x y s)
  /\ vd_add_scalar_rdivide W (wrap x) (wrap y) r = lift (vd_add_scalar_rdivide U x y r)
  /\ vd_add_scalar_ldivide W (wrap x) (wrap y) r = lift (vd_add_scalar_ldivide U x y r)
  /\ vd_sub_scalar_rdivide W (wrap x) (wrap y) r = lift (vd_sub_scalar_rdivide U x y r)
  /\ vd_sub_scalar_ldivide W (wrap x) (wrap y) r = lift (vd_sub_scalar_ldivide U x y r)
  /\ dense_tensor_eq so (wrap x) (wrap y) = dv_eq so x y.
Proof. intros. repeat split. Qed.
Example c28_example :
  (x <- vr_from_key (dense_tensor_ops qc_ops dev 2) (mk_tkey 1 1) ;;
   z <- vd_add (dense_tensor_ops qc_ops dev 2) x x ;; Ret (vals (unwrap z))) = Ret (qz [0; 0; 2]%Z).
Proof. vm_compute. reflexivity. Qed.
