(** Property lemmas C16-C28 (restated as theorems in P_Dense.v). *)
From Coq Require Import QArith Qcanon.
From Verif Require Import Machine MachineLemmas S_Words L_Words M_TensorKey L_TensorKey M_TensorBasis
  L_TensorBasis M_Scalar M_Vector M_Dense M_Deref S_Vector I_Scalars L_Dense L_PropKey.
Local Open Scope N_scope.

Lemma word_eqb_spec u v : reflect (u = v) (word_eqb u v).
Proof. unfold word_eqb. destruct (list_eq_dec N.eq_dec u v); constructor; assumption. Qed.
Lemma tensor_get {S R} (so : scalar_ops S R) p n (x : dvec S) w k : n < 2 ^ 32 -> word_ok n w ->
  tk_from_letters p n w = Ret k ->
  vr_get (dense_ops so (tensor_basis p n)) x k = Ret (slice_get (dv_elems x) (windex n w)).
Proof.
  intros Hn Hw E. apply from_letters_inv in E; try assumption. destruct E as [F ->]. cbn. unfold dv_get. cbn.
  rewrite key_to_index_ok by assumption. reflexivity.
Qed.
Lemma below_len n w D : 0 < n -> word_ok n w ->
  windex n w < count_below n (Datatypes.S D) <-> len w <= N.of_nat D.
Proof.
  intros Hn Hw. pose proof (windex_lower n w Hw). pose proof (windex_upper n w Hw). unfold len. split; intros H1.
  - destruct (Nat.le_gt_cases (length w) D); [lia|].
    pose proof (count_below_mono n (Datatypes.S D) (length w) ltac:(lia)). lia.
  - pose proof (count_below_mono n (Datatypes.S (length w)) (Datatypes.S D) ltac:(lia)). lia.
Qed.

(** * C16 *)
Lemma c16_from_key_scalar : forall (S R : Type) (so : scalar_ops S R) (p : profile) (n : N) (w : word)
    (k : tkey) (s : S),
  2 <= n < 2 ^ 32 -> word_ok n w -> tk_from_letters p n w = Ret k -> n ^ (len w + 1) < 2 ^ 64 ->
  exists v, vr_from_key_scalar (dense_ops so (tensor_basis p n)) k s = Ret v
    /\ ob_dim_for_key (tensor_basis p n) k = Ret (dv_size v)
    /\ forall w' k', word_ok n w' -> tk_from_letters p n w' = Ret k' ->
         vr_get (dense_ops so (tensor_basis p n)) v k'
         = Ret (if word_eqb w' w then Some s
                else if len w' <=? len w then Some (s_zero so) else None).
Proof.
  intros S R so p n w k s Hn Hw E Hp. apply from_letters_inv in E; try assumption; try lia.
  destruct E as [F ->]. cbn [dense_ops with_defaults v_req dense_required vr_from_key_scalar].
  unfold dv_from_key_scalar. cbn [tensor_basis ob_dim_for_key ob_key_to_index].
  rewrite dim_for_key_ok by (assumption || lia). cbn [bind].
  rewrite key_to_index_ok by (assumption || lia). cbn [bind].
  set (d := count_below n (Datatypes.S (length w))).
  assert (Hd : windex n w < d) by (apply windex_upper; exact Hw).
  cbn [dv_from_dimension dv_from dv_as_mut dv_kind dv_elems].
  unfold set_unchecked. rewrite len_repeat. destruct (N.ltb_spec (windex n w) (N.of_nat (N.to_nat d))); [|lia].
  cbn [bind]. eexists. split; [reflexivity|]. split.
  - unfold dv_size, dv_write. cbn. rewrite len_list_set, len_repeat. f_equal. lia.
  - intros w' k' Hw' E'. rewrite (tensor_get so p n _ w' k') by (assumption || lia). cbn [dv_elems dv_write].
    rewrite slice_get_list_set by (rewrite len_repeat; lia). rewrite slice_get_repeat.
    destruct (word_eqb_spec w' w) as [->|Hne]; [rewrite N.eqb_refl; reflexivity|].
    destruct (N.eqb_spec (windex n w') (windex n w)) as [He|He].
    { exfalso. apply Hne. apply (windex_inj n); assumption. }
    pose proof (below_len n w' (length w) ltac:(lia) Hw') as Hb. fold d in Hb. change (N.of_nat (length w)) with (len w) in Hb.
    destruct (N.ltb_spec (windex n w') (N.of_nat (N.to_nat d))), (N.leb_spec (len w') (len w)); try reflexivity;
      exfalso; rewrite ?N2Nat.id in *; lia.
Qed.
Lemma c16_from_key : forall (S R : Type) (so : scalar_ops S R) (p : profile) (n : N) (k : tkey),
  vr_from_key (dense_ops so (tensor_basis p n)) k
  = vr_from_key_scalar (dense_ops so (tensor_basis p n)) k (s_one so).
Proof. reflexivity. Qed.
Lemma c16_overflow_panics : forall (S R : Type) (so : scalar_ops S R) (p : profile) (n : N) (w : word)
    (k : tkey) (s : S),
  overflow_checks p = true -> 2 <= n < 2 ^ 32 -> word_ok n w -> tk_from_letters p n w = Ret k ->
  2 ^ 64 <= n ^ (len w + 1) ->
  vr_from_key_scalar (dense_ops so (tensor_basis p n)) k s = Panic.
Proof.
  intros S R so p n w k s Hp Hn Hw E Ho. apply from_letters_inv in E; try assumption; try lia.
  destruct E as [F ->]. pose proof (max_depth_le_59 n ltac:(lia)). destruct F as [_ Fl].
  cbn. unfold dv_from_key_scalar. cbn. unfold tb_vector_dimension_for_key, tb_degree. cbn [tk_size key_of].
  rewrite uadd_ok by (change (2 ^ 32) with 4294967296; lia). cbn [bind]. rewrite start_of_degree_overflow by assumption. reflexivity.
Qed.
Example c16_example :
  (v <- (k <- tk_from_letters dev 2 [2] ;; vr_from_key_scalar (dense_ops qc_ops (tensor_basis dev 2)) k (q 7)) ;;
   Ret (vals v)) = Ret (qz [0; 0; 7]%Z).
Proof. vm_compute. reflexivity. Qed.

(** * C17 *)
Lemma given_words {S} n w (items : list (word * S)) kitems :
  n < 2 ^ 32 -> word_ok n w ->
  Forall2 (fun a b => fits n (fst a) /\ fst b = key_of n (fst a) /\ snd a = snd b) items kitems ->
  forall f, (forall u, fits n u -> f (key_of n u) = windex n u) ->
  given (fun k' => windex n w =? f k') kitems = given (word_eqb w) items.
Proof.
  intros Hn Hw HF f Hf. induction HF as [|[u s] [k s'] l l' (F & Ek & Es) HF IH]; [reflexivity|].
  cbn [fst snd] in *. subst k s'. unfold given in *. cbn [filter fst]. rewrite (Hf u F).
  destruct (word_eqb_spec w u) as [->|Hne].
  - rewrite N.eqb_refl. cbn. f_equal. exact IH.
  - destruct (N.eqb_spec (windex n w) (windex n u)) as [He|He]; [|exact IH].
    exfalso. apply Hne. apply (windex_inj n); [exact Hw|apply F|exact He].
Qed.

Definition index_of (n : N) (k : tkey) : N :=
  match tb_key_to_index release n k with Ret i => i | _ => 0 end.
Lemma index_of_key n w : n < 2 ^ 32 -> fits n w -> index_of n (key_of n w) = windex n w.
Proof. intros Hn F. unfold index_of. rewrite key_to_index_ok by assumption. reflexivity. Qed.

Lemma c17_from_iterator : forall (S R : Type) (so : scalar_ops S R) (p : profile) (n : N)
    (items : list (word * S)) (kitems : list (tkey * S)),
  2 <= n < 2 ^ 32 ->
  Forall2 (fun a b => word_ok n (fst a) /\ n ^ (len (fst a) + 1) < 2 ^ 64
                      /\ tk_from_letters p n (fst a) = Ret (fst b) /\ snd a = snd b) items kitems ->
  exists v, vr_from_iterator (dense_ops so (tensor_basis p n)) kitems = Ret v
    /\ (items = [] -> v = vr_new (dense_ops so (tensor_basis p n)))
    /\ forall w k, word_ok n w -> tk_from_letters p n w = Ret k ->
         vr_get (dense_ops so (tensor_basis p n)) v k
         = Ret (if existsb (fun e => len w <=? len (fst e)) items
                then Some (sum_from_zero so (given (word_eqb w) items)) else None).
Proof.
  intros S R so p n items kitems Hn HF.
  assert (HF2 : Forall2 (fun a b => fits n (fst a) /\ fst b = key_of n (fst a) /\ snd a = snd b) items kitems
                /\ Forall2 (fun a b => fst b = key_of n (fst a) /\ fits n (fst a) /\ n ^ (len (fst a) + 1) < 2 ^ 64) items kitems).
  { clear - HF Hn. induction HF as [|a b l l' (Hw & Hp & E & Es) HF IH]; [split; constructor|].
    apply from_letters_inv in E; try assumption; try lia. destruct E as [F Ek]. destruct IH as [I1 I2].
    split; constructor; auto. }
  destruct HF2 as [HF1 HF2].
  destruct (from_iterator_ok so (tensor_basis p n) kitems (index_of n)) as [[-> E]|(k & s & Hin & Hmax & Hd)].
  - clear - HF2 Hn. induction HF2 as [|a b l l' (Ek & F & _) HF IH]; constructor; [|exact IH].
    rewrite Ek. cbn. rewrite index_of_key by (assumption || lia). apply key_to_index_ok; (assumption || lia).
  - inversion HF; subst. eexists. split; [exact E|]. split; [reflexivity|].
    intros w k Hw Ek. rewrite (tensor_get so p n _ w k) by (assumption || lia). cbn.
    rewrite slice_get_none; [reflexivity|]. rewrite len_nil. lia.
  - assert (Hk : exists u s', In (u, s') items /\ k = key_of n u /\ fits n u /\ n ^ (len u + 1) < 2 ^ 64).
    { clear - HF2 Hin. induction HF2 as [|[u t] b l l' (Ek & F & Hp) HF IH]; [destruct Hin|].
      destruct Hin as [->|Hin]; [exists u, t; cbn in *; auto|].
      destruct (IH Hin) as (u' & t' & ? & ?). exists u', t'. cbn. auto. }
    destruct Hk as (u & s' & Hu & -> & Fu & Hp). rewrite index_of_key in Hd, Hmax by (assumption || lia).
    destruct (Hd (count_below n (Datatypes.S (length u)))) as (l & E & Hl & Hg).
    + cbn. apply dim_for_index_ok; [lia|apply Fu|exact Hp].
    + apply windex_upper. apply Fu.
    + exists (dv_from l). split; [exact E|]. split.
      { intros ->. inversion HF; subst. destruct Hin. }
      intros w k' Hw Ek. rewrite (tensor_get so p n _ w k') by (assumption || lia). cbn [dv_from dv_elems].
      assert (Hb : windex n w < count_below n (Datatypes.S (length u)) <-> len w <= len u)
        by (apply below_len; (assumption || lia)).
      destruct (existsb (fun e => len w <=? len (fst e)) items) eqn:Ex.
      * apply existsb_exists in Ex. destruct Ex as ([u2 s2] & Hin2 & Hle). cbn [fst] in Hle.
        assert (Hu2 : len u2 <= len u).
        { assert (exists b, In b kitems /\ fst b = key_of n u2 /\ fits n u2) as ([kk ss] & Hb1 & Hb2 & Hb3).
          { clear - HF2 Hin2. induction HF2 as [|a b l l' (Ek & F & Hp) HF IH]; [destruct Hin2|].
            destruct Hin2 as [->|Hin]; [exists b; cbn in *; auto|].
            destruct (IH Hin) as (b' & ? & ?). exists b'. cbn. auto. }
          specialize (Hmax _ Hb1). rewrite Hb2, index_of_key in Hmax by (assumption || lia).
          pose proof (windex_upper n u (proj1 Fu)). apply (below_len n u2 (length u)); [lia|apply Hb3|lia]. }
        rewrite Hg by (apply Hb; lia). f_equal. f_equal. f_equal.
        apply given_words; [lia|exact Hw|exact HF1|]. intros; apply index_of_key; (assumption || lia).
      * rewrite slice_get_none; [reflexivity|]. rewrite Hl.
        destruct (N.lt_ge_cases (windex n w) (count_below n (Datatypes.S (length u)))) as [H1|H1]; [|exact H1].
        exfalso. apply Hb in H1. assert (existsb (fun e => len w <=? len (fst e)) items = true); [|congruence].
        apply existsb_exists. exists (u, s'). split; [exact Hu|]. cbn. lia.
Qed.
Example c17_example :
  let key l := match tk_from_letters dev 2 l with Ret k => k | _ => tk_new end in
  (v <- vr_from_iterator (dense_ops qc_ops (tensor_basis dev 2))
          [(key [2], q 5); (key [], q 1); (key [2], q 2); (key [1], q 3)] ;; Ret (vals v))
  = Ret (qz [1; 3; 7]%Z).
Proof. vm_compute. reflexivity. Qed.

(** * C18 *)
Lemma c18_add_inplace : forall (S R K : Type) (so : scalar_ops S R) (ob : obasis K) (x y : dvec S),
  exists z, vr_add_inplace (dense_ops so ob) x y = Ret z
    /\ dv_size z = N.max (dv_size x) (dv_size y)
    /\ forall i, slice_get (dv_as_slice z) i
         = combine so (s_add so) (slice_get (dv_as_slice x) i) (slice_get (dv_as_slice y) i).
Proof.
  intros. cbn. rewrite add_inplace_eq. eexists. split; [reflexivity|].
  split; [apply comb_len|]. intros i. cbn. apply comb_get.
Qed.
Lemma c18_sub_inplace : forall (S R K : Type) (so : scalar_ops S R) (ob : obasis K) (x y : dvec S),
  exists z, vr_sub_inplace (dense_ops so ob) x y = Ret z
    /\ dv_size z = N.max (dv_size x) (dv_size y)
    /\ forall i, slice_get (dv_as_slice z) i
         = combine so (s_sub so) (slice_get (dv_as_slice x) i) (slice_get (dv_as_slice y) i).
Proof.
  intros. cbn. rewrite sub_inplace_eq. eexists. split; [reflexivity|].
  split; [apply comb_len|]. intros i. cbn. apply comb_get.
Qed.
Lemma c18_add_sub : forall (S R K : Type) (so : scalar_ops S R) (ob : obasis K) (x y : dvec S),
  exists a b, vd_add (dense_ops so ob) x y = Ret a /\ vd_sub (dense_ops so ob) x y = Ret b
    /\ dv_kind a = Owned /\ dv_kind b = Owned
    /\ dv_size a = N.max (dv_size x) (dv_size y) /\ dv_size b = N.max (dv_size x) (dv_size y)
    /\ (forall i, slice_get (dv_as_slice a) i
         = combine so (s_add so) (slice_get (dv_as_slice x) i) (slice_get (dv_as_slice y) i))
    /\ (forall i, slice_get (dv_as_slice b) i
         = combine so (s_sub so) (slice_get (dv_as_slice x) i) (slice_get (dv_as_slice y) i)).
Proof.
  intros. cbn. unfold dflt_add, dflt_sub. cbn. rewrite add_inplace_eq, sub_inplace_eq.
  do 2 eexists. do 2 (split; [reflexivity|]). do 2 (split; [reflexivity|]).
  split; [apply comb_len|]. split; [apply comb_len|]. split; intros i; cbn; apply comb_get.
Qed.
Example c18_example :
  let ob := tensor_basis dev 2 in
  (z <- vr_sub_inplace (dense_ops qc_ops ob) (dv_from [q 1]) (dv_borrow [q 3; q 4; q 5]) ;; Ret (vals z))
    = Ret (qz [(-2); (-4); (-5)]%Z)
  /\ (z <- vd_add (dense_ops qc_ops ob) (dv_borrow_mut [q 3; q 4; q 5]) (dv_from [q 1]) ;; Ret (vals z))
    = Ret (qz [4; 4; 5]%Z).
Proof. split; vm_compute; reflexivity. Qed.

(** * C19 *)
Lemma c19_inplace : forall (S R K : Type) (so : scalar_ops S R) (ob : obasis K) (x : dvec S) (s : S) (r : R),
  exists a b c, vr_uminus_inplace (dense_ops so ob) x = Ret a
    /\ vr_scalar_lmultiply_inplace (dense_ops so ob) x s = Ret b
    /\ vd_scalar_rmultiply_inplace (dense_ops so ob) x s = Ret b
    /\ vr_scalar_rdivide_inplace (dense_ops so ob) x r = Ret c
    /\ vd_scalar_ldivide_inplace (dense_ops so ob) x r = Ret c
    /\ dv_size a = dv_size x /\ dv_size b = dv_size x /\ dv_size c = dv_size x
    /\ forall i, i < dv_size x ->
         coef so a i = s_uminus so (coef so x i)
         /\ coef so b i = s_mul so (coef so x i) s
         /\ coef so c i = s_div so (coef so x i) r.
Proof.
  intros. cbn. unfold dflt_scalar_rmultiply_inplace, dflt_scalar_ldivide_inplace. cbn.
  rewrite uminus_inplace_eq, lmultiply_inplace_eq, rdivide_inplace_eq.
  do 3 eexists. do 5 (split; [reflexivity|]). unfold dv_size. cbn. rewrite !len_map.
  do 3 (split; [reflexivity|]). intros i Hi. unfold coef, dv_as_slice. cbn. rewrite !slice_get_map.
  destruct (slice_get_some _ _ Hi) as [y ->]. cbn. auto.
Qed.
Lemma c19_owned : forall (S R K : Type) (so : scalar_ops S R) (ob : obasis K) (x : dvec S) (s : S) (r : R),
  exists a b c, vd_uminus (dense_ops so ob) x = Ret a
    /\ vd_scalar_lmultiply (dense_ops so ob) x s = Ret b
    /\ vd_scalar_rmultiply (dense_ops so ob) x s = Ret b
    /\ vd_scalar_rdivide (dense_ops so ob) x r = Ret c
    /\ vd_scalar_ldivide (dense_ops so ob) x r = Ret c
    /\ dv_kind a = Owned /\ dv_kind b = Owned /\ dv_kind c = Owned
    /\ dv_size a = dv_size x /\ dv_size b = dv_size x /\ dv_size c = dv_size x
    /\ forall i, i < dv_size x ->
         coef so a i = s_uminus so (coef so x i)
         /\ coef so b i = s_mul so (coef so x i) s
         /\ coef so c i = s_div so (coef so x i) r.
Proof.
  intros. cbn. unfold dflt_scalar_rmultiply, dflt_scalar_ldivide, dflt_scalar_lmultiply, dflt_scalar_rdivide, dflt_uminus. cbn.
  rewrite uminus_inplace_eq, lmultiply_inplace_eq, rdivide_inplace_eq.
  do 3 eexists. do 8 (split; [reflexivity|]). unfold dv_size. cbn. rewrite !len_map.
  do 3 (split; [reflexivity|]). intros i Hi. unfold coef, dv_as_slice. cbn. rewrite !slice_get_map.
  destruct (slice_get_some _ _ Hi) as [y ->]. cbn. auto.
Qed.
Example c19_example :
  let vo := dense_ops qc_ops (tensor_basis dev 2) in
  (a <- vd_uminus vo (dv_borrow [q 1; q 2]) ;; b <- vd_scalar_rmultiply vo a (q 6) ;;
   c <- vd_scalar_ldivide vo b (q 3) ;; Ret (vals a, vals b, vals c))
  = Ret (qz [(-1); (-2)]%Z, qz [(-6); (-12)]%Z, qz [(-2); (-4)]%Z).
Proof. vm_compute. reflexivity. Qed.

(** * C20 *)
Lemma c20_fused : forall (S R K : Type) (so : scalar_ops S R) (ob : obasis K) (x y : dvec S) (s : S) (r : R),
  let vo := dense_ops so ob in
  let is_sum op f z := dv_size z = N.max (dv_size x) (dv_size y) /\
    forall i, slice_get (dv_as_slice z) i
      = combine so op (slice_get (dv_as_slice x) i) (option_map f (slice_get (dv_as_slice y) i)) in
  exists am sm ad sd,
    vd_add_scalar_rmultiply vo x y s = Ret am /\ vd_add_scalar_lmultiply vo x y s = Ret am
    /\ vd_sub_scalar_rmultiply vo x y s = Ret sm /\ vd_sub_scalar_lmultiply vo x y s = Ret sm
    /\ vd_add_scalar_rdivide vo x y r = Ret ad /\ vd_add_scalar_ldivide vo x y r = Ret ad
    /\ vd_sub_scalar_rdivide vo x y r = Ret sd /\ vd_sub_scalar_ldivide vo x y r = Ret sd
    /\ is_sum (s_add so) (fun c => s_mul so c s) am
    /\ is_sum (s_sub so) (fun c => s_mul so c s) sm
    /\ is_sum (s_add so) (fun c => s_div so c r) ad
    /\ is_sum (s_sub so) (fun c => s_div so c r) sd.
Proof.
  intros S R K so ob x y s r vo is_sum. subst vo.
  cbn [dense_ops with_defaults v_req v_def vd_add_scalar_rmultiply vd_add_scalar_lmultiply
    vd_sub_scalar_rmultiply vd_sub_scalar_lmultiply vd_add_scalar_rdivide vd_add_scalar_ldivide
    vd_sub_scalar_rdivide vd_sub_scalar_ldivide].
  rewrite ?fused_add_mul_eq, ?fused_add_mul_l_eq, ?fused_sub_mul_eq, ?fused_sub_mul_l_eq,
    ?fused_add_div_eq, ?fused_add_div_l_eq, ?fused_sub_div_eq, ?fused_sub_div_l_eq.
  do 4 eexists. do 8 (split; [reflexivity|]). unfold is_sum, dv_size. cbn. rewrite !comb_len, !len_map.
  repeat split; intros; unfold dv_as_slice; cbn; rewrite comb_get, slice_get_map; reflexivity.
Qed.
Example c20_example :
  let vo := dense_ops qc_ops (tensor_basis dev 2) in
  (z <- vd_sub_scalar_ldivide vo (dv_from [q 1]) (dv_from [q 4; q 6]) (q 2) ;; Ret (vals z))
  = Ret (qz [(-1); (-3)]%Z).
Proof. vm_compute. reflexivity. Qed.

(** * C21 *)
Lemma c21_erase : forall (S R K : Type) (so : scalar_ops S R) (ob : obasis K) (x : dvec S) (k : K) (i : N),
  ob_key_to_index ob k = Ret i ->
  exists z, vr_erase (dense_ops so ob) x k = Ret z /\ dv_size z = dv_size x
    /\ forall j, slice_get (dv_as_slice z) j
         = (if (j =? i) && (i <? dv_size x) then Some (s_zero so) else slice_get (dv_as_slice x) j).
Proof.
  intros S R K so ob x k i Hi. cbn. rewrite (erase_eq so ob x k i Hi). eexists. split; [reflexivity|].
  unfold dv_size, dv_as_slice. destruct (slice_get (dv_elems x) i) as [y|] eqn:E.
  - cbn. rewrite len_list_set. split; [reflexivity|]. intros j. apply slice_get_lt in E.
    rewrite slice_get_list_set by exact E. destruct (N.ltb_spec i (len (dv_elems x))); [|lia].
    rewrite andb_true_r. reflexivity.
  - rewrite as_mut_elems. split; [reflexivity|]. intros j.
    destruct (N.ltb_spec i (len (dv_elems x))) as [H|H]; [|rewrite andb_false_r; reflexivity].
    destruct (slice_get_some _ _ H). congruence.
Qed.
Lemma c21_clear : forall (S R K : Type) (so : scalar_ops S R) (ob : obasis K) (x : dvec S),
  exists z, vr_clear (dense_ops so ob) x = Ret z /\ dv_size z <= dv_size x
    /\ (dv_kind x <> BorrowedMut -> dv_size z = 0) /\ forall j, coef so z j = s_zero so.
Proof.
  intros S R K so ob [[] l b]; cbn; (eexists; split; [reflexivity|]); unfold dv_size, coef, dv_as_slice; cbn.
  1,2: split; [apply N.le_0_l|]; split; [intros _; reflexivity|];
    intros j; rewrite slice_get_none by apply N.le_0_l; reflexivity.
  rewrite len_map. split; [lia|]. split; [congruence|]. intros j. rewrite slice_get_map.
  destruct (slice_get l j); reflexivity.
Qed.
Lemma c21_swap_owned : forall (S R K : Type) (so : scalar_ops S R) (ob : obasis K) (x y : dvec S),
  vr_swap (dense_ops so ob) x y = Ret (y, x)
  /\ exists z, vr_to_owned (dense_ops so ob) x = Ret z /\ dv_clone x = z
       /\ dv_kind z = Owned /\ dv_as_slice z = dv_as_slice x.
Proof. intros. cbn. split; [reflexivity|]. eexists. repeat split. Qed.
(** the same as seen by the caller: what [get] answers for any key after each call *)
Lemma c21_as_read : forall (S R K : Type) (so : scalar_ops S R) (ob : obasis K) (x : dvec S) (k k' : K) (i i' : N) (s : S),
  ob_key_to_index ob k = Ret i -> ob_key_to_index ob k' = Ret i' ->
  let vo := dense_ops so ob in
  vr_get vo x k' = Ret (if i' <? dv_size x then Some (coef so x i') else None)
  /\ (exists z, vr_erase vo x k = Ret z
       /\ vr_get vo z k' = if (i' =? i) && (i <? dv_size x) then Ret (Some (s_zero so)) else vr_get vo x k')
  /\ (exists z, vr_clear vo x = Ret z /\ (vr_get vo z k' = Ret None \/ vr_get vo z k' = Ret (Some (s_zero so))))
  /\ (exists z, vr_to_owned vo x = Ret z /\ vr_get vo z k' = vr_get vo x k')
  /\ (exists z ref, vr_get_mut vo x k = Ret (z, ref) /\ vr_get vo z k' = vr_get vo x k'
       /\ match ref with
          | Some (a, write) => vr_get vo x k = Ret (Some a)
              /\ vr_get vo (write s) k' = if i' =? i then Ret (Some s) else vr_get vo x k'
          | None => vr_get vo x k = Ret None
          end).
Proof.
  intros S R K so ob x k k' i i' s Hi Hi' vo.
  assert (G : forall v, vr_get vo v k' = Ret (slice_get (dv_as_slice v) i')) by (intros v; cbn; unfold dv_get; rewrite Hi'; reflexivity).
  assert (G0 : forall v, vr_get vo v k = Ret (slice_get (dv_as_slice v) i)) by (intros v; cbn; unfold dv_get; rewrite Hi; reflexivity).
  repeat match goal with |- _ /\ _ => split end.
  - rewrite G. unfold dv_size, coef, dv_as_slice. destruct (N.ltb_spec i' (len (dv_elems x))) as [H|H].
    + destruct (slice_get_some _ _ H) as [a ->]. reflexivity.
    + rewrite slice_get_none by exact H. reflexivity.
  - destruct (c21_erase S R K so ob x k i Hi) as (z & Ez & _ & Gz). exists z. split; [exact Ez|]. rewrite !G, Gz.
    destruct ((i' =? i) && (i <? dv_size x)); reflexivity.
  - destruct (c21_clear S R K so ob x) as (z & Ez & _ & _ & Gz). exists z. split; [exact Ez|]. rewrite G. specialize (Gz i').
    unfold coef in Gz. destruct (slice_get (dv_as_slice z) i'); [right; rewrite Gz; reflexivity|left; reflexivity].
  - destruct (c21_swap_owned S R K so ob x x) as (_ & z & Ez & _ & _ & Gz). exists z. split; [exact Ez|]. rewrite !G, Gz. reflexivity.
  - cbn. unfold dv_get_mut. rewrite Hi. cbn [bind]. eexists. eexists. split; [reflexivity|]. fold vo.
    rewrite as_mut_elems. split.
    + change (vr_get vo (dv_as_mut x) k' = vr_get vo x k'). rewrite !G. unfold dv_as_slice. rewrite as_mut_elems. reflexivity.
    + destruct (slice_get (dv_elems x) i) as [a|] eqn:Ea.
      * split; [refine (eq_trans (G0 x) _); unfold dv_as_slice; rewrite Ea; reflexivity|].
        refine (eq_trans (G _) _). unfold dv_as_slice. cbn [dv_write dv_elems]. rewrite slice_get_list_set by (apply slice_get_lt in Ea; exact Ea).
        destruct (i' =? i); [reflexivity|]. symmetry. exact (G x).
      * refine (eq_trans (G0 x) _). unfold dv_as_slice. rewrite Ea. reflexivity.
Qed.
Example c21_example :
  let vo := dense_ops qc_ops (tensor_basis dev 2) in
  (k <- tk_from_letter dev 2 ;; z <- vr_erase vo (dv_borrow [q 1; q 2; q 3]) k ;; c <- vr_clear vo z ;;
   d <- vr_clear vo (dv_borrow_mut [q 1; q 2]) ;; Ret (dv_kind z, vals z, map this (dv_lender z), vals c, vals d))
  = Ret (Owned, qz [1; 2; 0]%Z, qz [1; 2; 3]%Z, [], qz [0; 0]%Z).
Proof. vm_compute. reflexivity. Qed.

(** * C22 *)
Lemma c22_insert_single_refuted : exists (p : profile) (n : N) (x : dvec Qc) (k : tkey) (v : Qc) (z : dvec Qc),
  vr_insert_single (dense_ops qc_ops (tensor_basis p n)) x k v = Ret z
  /\ vr_get (dense_ops qc_ops (tensor_basis p n)) z k <> Ret (Some v).
Proof.
  exists dev, 2, (dv_from [q 1]), tk_new, (q 5), (dv_from [q 1]). split; [reflexivity|].
  vm_compute. discriminate.
Qed.
(** it never changes anything, and bulk insertion always panics *)
Lemma c22_insert_exact : forall (S R K : Type) (so : scalar_ops S R) (ob : obasis K) (x : dvec S) (k : K) (i : N)
    (v : S) (items : list (K * S)),
  ob_key_to_index ob k = Ret i ->
  vr_insert_single (dense_ops so ob) x k v = Ret x /\ vr_insert (dense_ops so ob) x items = Panic.
Proof. intros S R K so ob x k i v items H. cbn. unfold dv_insert_single. rewrite H. split; reflexivity. Qed.
Example c22_example : ob_key_to_index (tensor_basis dev 2) (mk_tkey 2 3) = Ret 6.
Proof. reflexivity. Qed.

(** * C23 *)
Lemma c23_key_ext_refuted : exists (p : profile) (n : N) (x z1 z2 : dvec Qc) (k : tkey) (v : Qc) (i : N),
  ob_key_to_index (tensor_basis p n) k = Ret i
  /\ ke_add_scalar_multiply qc_ops (dense_ops qc_ops (tensor_basis p n)) dv_new k v = Ret z1
  /\ coef qc_ops z1 i <> Qcplus (coef qc_ops (@dv_new Qc) i) v
  /\ ke_sub_scalar_divide qc_ops (dense_ops qc_ops (tensor_basis p n)) x k v = Ret z2
  /\ coef qc_ops z2 i <> Qcminus (coef qc_ops x i) (Qcdiv 1 v).
Proof.
  exists dev, 2, (dv_from [q 0]), dv_new, (dv_from [q 1]), tk_new, (q 1), 0.
  split; [reflexivity|]. split; [reflexivity|]. split; [vm_compute; discriminate|].
  split; [vm_compute; reflexivity|]. vm_compute. discriminate.
Qed.
(** what the four functions do: nothing at all if the key is not stored; otherwise the coefficient becomes
    c+v, c-v, c+1/r and c-(-1/r) *)
Lemma c23_key_ext_exact : forall (S R K : Type) (so : scalar_ops S R) (ob : obasis K) (x : dvec S) (k : K)
    (i : N) (v : S) (r : R),
  ob_key_to_index ob k = Ret i ->
  let vo := dense_ops so ob in
  let becomes m f := exists z, m = Ret z /\ dv_size z = dv_size x /\
    forall j, slice_get (dv_as_slice z) j
      = (if j =? i then option_map f (slice_get (dv_as_slice x) i) else slice_get (dv_as_slice x) j) in
  becomes (ke_add_scalar_multiply so vo x k v) (fun c => s_add so c v)
  /\ becomes (ke_sub_scalar_multiply so vo x k v) (fun c => s_sub so c v)
  /\ becomes (ke_add_scalar_divide so vo x k r) (fun c => s_add so c (s_div so (s_one so) r))
  /\ becomes (ke_sub_scalar_divide so vo x k r) (fun c => s_sub so c (s_div so (s_mone so) r)).
Proof.
  intros S R K so ob x k i v r Hi vo becomes.
  assert (G : forall f ins, (slice_get (dv_elems x) i = None -> vr_insert_single vo (dv_as_mut x) k ins = Ret (dv_as_mut x)) ->
     becomes ('(x1, ref) <- vr_get_mut vo x k ;;
              match ref with Some (c, write) => Ret (write (f c)) | None => vr_insert_single vo x1 k ins end) f).
  { intros f ins Hins. unfold becomes. change (vr_get_mut vo x k) with (dv_get_mut ob x k).
    rewrite (get_mut_eq ob x k i Hi). cbn [bind]. unfold dv_size, dv_as_slice.
    destruct (slice_get (dv_elems x) i) as [c|] eqn:E.
    - eexists. split; [reflexivity|]. cbn [after dv_elems]. split; [apply len_list_set|]. intros j.
      apply slice_get_lt in E. rewrite slice_get_list_set by exact E. cbn. reflexivity.
    - rewrite Hins by reflexivity. eexists. split; [reflexivity|]. rewrite as_mut_elems.
      split; [reflexivity|]. intros j. destruct (N.eqb_spec j i) as [->|]; [rewrite E|]; reflexivity. }
  assert (I : forall ins, slice_get (dv_elems x) i = None -> vr_insert_single vo (dv_as_mut x) k ins = Ret (dv_as_mut x)).
  { intros ins _. cbn. unfold dv_insert_single. rewrite Hi. reflexivity. }
  split; [apply G, I|]. split; [apply (G (fun c => s_sub so c v)), I|].
  split; [apply (G (fun c => s_add so c (s_div so (s_one so) r))), I|
          apply (G (fun c => s_sub so c (s_div so (s_mone so) r))), I].
Qed.
(** with the ring laws the first three are what their names say on stored keys, and the last one adds what it
    should subtract *)
Lemma c23_key_ext_partial : forall (S R K : Type) (so : scalar_ops S R) (ob : obasis K) (x : dvec S) (k : K)
    (i : N) (v : S) (r : R),
  field_laws so -> ob_key_to_index ob k = Ret i -> i < dv_size x ->
  let vo := dense_ops so ob in
  let changes m d := exists z, m = Ret z /\ dv_size z = dv_size x /\
    (forall j, coef so z j = if j =? i then s_add so (coef so x i) d else coef so x j) in
  changes (ke_add_scalar_multiply so vo x k v) v
  /\ changes (ke_sub_scalar_multiply so vo x k v) (s_uminus so v)
  /\ changes (ke_add_scalar_divide so vo x k r) (s_inv so r)
  /\ changes (ke_sub_scalar_divide so vo x k r) (s_inv so r).
Proof.
  intros S R K so ob x k i v r L Hi Hlt vo changes.
  destruct (c23_key_ext_exact S R K so ob x k i v r Hi) as (A & B & C & D).
  assert (G : forall m f d, (exists z, m = Ret z /\ dv_size z = dv_size x /\
    forall j, slice_get (dv_as_slice z) j
      = (if j =? i then option_map f (slice_get (dv_as_slice x) i) else slice_get (dv_as_slice x) j)) ->
    (forall c, f c = s_add so c d) -> changes m d).
  { intros m f d (z & Em & Hz & Hj) Hf. exists z. split; [exact Em|]. split; [exact Hz|]. intros j.
    unfold coef. rewrite Hj. destruct (N.eqb_spec j i) as [->|]; [|reflexivity].
    destruct (slice_get_some _ _ Hlt) as [c Hc]. unfold dv_as_slice. rewrite Hc. cbn. apply Hf. }
  pose proof (l_ring so L) as LR.
  assert (N1 : forall y, s_mul so (s_uminus so (s_one so)) y = s_uminus so y).
  { intros y.
    assert (Hs : s_add so (s_mul so (s_uminus so (s_one so)) y) y = s_zero so).
    { rewrite <- (l_mul_1_l so LR y) at 2. rewrite <- (l_mul_add_l so LR), (l_add_comm so LR), (l_add_opp so LR).
      assert (Z : s_add so (s_mul so (s_zero so) y) (s_mul so (s_zero so) y) = s_mul so (s_zero so) y).
      { rewrite <- (l_mul_add_l so LR), (l_add_0_l so LR). reflexivity. }
      rewrite <- (l_add_0_l so LR (s_mul so (s_zero so) y)).
      rewrite <- (l_add_opp so LR (s_mul so (s_zero so) y)) at 1.
      rewrite (l_add_comm so LR (s_mul so (s_zero so) y)), <- (l_add_assoc so LR), Z.
      rewrite (l_add_comm so LR), (l_add_opp so LR). reflexivity. }
    rewrite <- (l_add_0_l so LR (s_uminus so y)), <- Hs, <- (l_add_assoc so LR), (l_add_opp so LR).
    rewrite (l_add_comm so LR), (l_add_0_l so LR). reflexivity. }
  assert (N2 : forall y, s_uminus so (s_uminus so y) = y).
  { intros y. rewrite <- (l_add_0_l so LR (s_uminus so (s_uminus so y))), <- (l_add_opp so LR y).
    rewrite <- (l_add_assoc so LR), (l_add_opp so LR), (l_add_comm so LR), (l_add_0_l so LR). reflexivity. }
  split; [apply (G _ _ _ A); reflexivity|].
  split; [apply (G _ _ _ B); intros; apply (l_sub_def so LR)|].
  split; [apply (G _ _ _ C); intros; rewrite (l_div so L), (l_mul_1_l so LR); reflexivity|].
  apply (G _ _ _ D). intros c. rewrite (l_div so L), (l_sub_def so LR), (l_mone so LR), N1, N2. reflexivity.
Qed.
Example c23_example : field_laws qc_ops /\ ob_key_to_index (tensor_basis dev 2) (mk_tkey 1 1) = Ret 2
  /\ (z <- ke_sub_scalar_divide qc_ops (dense_ops qc_ops (tensor_basis dev 2))
             (dv_from [q 1; q 2; q 3]) (mk_tkey 1 1) (Qcinv (q 4)) ;; Ret (vals z)) = Ret (qz [1; 2; 7]%Z).
Proof. split; [exact qc_field|]. split; vm_compute; reflexivity. Qed.

(** * C24 *)
Lemma c24_equality_refuted : exists x y : dvec Qc,
  (forall i, coef qc_ops x i = coef qc_ops y i) /\ dv_eq qc_ops x y = false.
Proof.
  exists (dv_from []), (dv_from [q 0]). split; [|reflexivity]. intros i. unfold coef, slice_get. cbn.
  destruct (N.to_nat i) as [|j]; [reflexivity|]. cbn. destruct j; reflexivity.
Qed.
(** equality holds exactly when the sizes agree and all stored coefficients are == *)
Lemma c24_equality_exact : forall (S R : Type) (so : scalar_ops S R) (x y : dvec S),
  dv_eq so x y = true <->
  dv_size x = dv_size y /\ forall i, i < dv_size x -> s_eqb so (coef so x i) (coef so y i) = true.
Proof.
  intros S R so x y. unfold dv_eq. rewrite slice_eqb_spec. unfold dv_size. split; intros [Hl Hi]; (split; [exact Hl|]).
  - intros i H. destruct (slice_get_some _ _ H) as [a Ha]. rewrite Hl in H. destruct (slice_get_some _ _ H) as [b Hb].
    rewrite (coef_in so x i a Ha), (coef_in so y i b Hb). apply (Hi i); assumption.
  - intros i a b Ha Hb. rewrite <- (coef_in so x i a Ha), <- (coef_in so y i b Hb). apply Hi.
    apply slice_get_lt in Ha. exact Ha.
Qed.
Lemma c24_same_size_partial : forall (S R : Type) (so : scalar_ops S R) (x y : dvec S),
  ring_laws so -> dv_size x = dv_size y ->
  (dv_eq so x y = true <-> forall i, coef so x i = coef so y i).
Proof.
  intros S R so x y L Hs. rewrite c24_equality_exact. split.
  - intros [_ H] i. destruct (N.lt_ge_cases i (dv_size x)) as [Hi|Hi]; [apply (l_eqb so L), H, Hi|].
    rewrite !coef_out by congruence. reflexivity.
  - intros H. split; [exact Hs|]. intros i _. apply (l_eqb so L), H.
Qed.
Example c24_example : ring_laws qc_ops /\ dv_size (dv_from [q 1; q 2]) = dv_size (dv_borrow [q 1; q 2])
  /\ dv_eq qc_ops (dv_from [q 1; q 2]) (dv_borrow [q 1; q 2]) = true
  /\ (z <- vd_sub (dense_ops qc_ops (tensor_basis dev 2)) (dv_from [q 1]) (dv_from [q 1]) ;; Ret (dv_eq qc_ops z dv_new))
     = Ret false.
Proof. split; [exact qc_ring|]. repeat split; vm_compute; reflexivity. Qed.
