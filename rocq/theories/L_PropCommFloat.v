(** Property lemmas C110 (restated as theorems in P_CommFloat.v). *)
From Coq Require Import ZArith QArith Qabs Qpower Lqa SpecFloat.
From Verif Require Import Machine MachineLemmas M_Scalar M_Vector M_Dense M_TensorBasis S_Vector L_Dense L_PropDense
  M_Float S_Float L_Float L_FloatDegree L_FloatInt L_FloatRound L_FloatOps L_FloatUnique L_FloatSum S_Words L_Words L_TensorBasis S_Tensor
  M_Algebra L_Algebra L_PropAlgebra L_PropFloat L_PropRound.
Local Open Scope N_scope.

Lemma fold_uminus {S R} (so : scalar_ops S R) l : forall a,
  fold_left (fun a c => s_add so a (s_uminus so c)) l a = fold_left (s_add so) (map (s_uminus so) l) a.
Proof. induction l as [|x l IH]; intros a; [reflexivity|apply IH]. Qed.

(** * C110 *)
(** the additions of a commutator and their order, for scalars without any laws *)
Lemma c110_terms : forall (S R : Type) (so : scalar_ops S R) (p : profile) (n : N) (x y : dvec S) (l r t : N),
  let m := N.min t (l + r) in
  2 <= n -> 1 <= m -> has_degree n x l -> has_degree n y r ->
  n ^ (l + 1) < 2 ^ 64 -> n ^ (r + 1) < 2 ^ 64 -> n ^ (m + 1) < 2 ^ 64 ->
  stored_to n x (N.min m l) -> stored_to n y (N.min m r) ->
  exists z, alg_commutator so p n x y (Some t) = Ret z /\ filled n z m
    /\ forall w, word_ok n w -> wcoef so n z w =
         if len w <=? m
         then fold_left (s_add so)
                (terms so l r (wcoef so n x) (wcoef so n y) w
                 ++ map (s_uminus so) (terms so r l (wcoef so n y) (wcoef so n x) w)) (s_zero so)
         else s_zero so.
Proof.
  intros S R so p n x y l r t m Hn Hm Hl Hr Pl Pr Pm Sx Sy.
  assert (N0 : has_degree n (@dv_new S) 0) by (left; split; reflexivity).
  destruct (c29_add_mul _ _ so p n dv_new x y 0 l r t Hn N0 Hl Hr) as (z & E & Z & W); try assumption.
  { rewrite N.add_0_l, N.pow_1_r. eapply N.le_lt_trans; [|exact Pm]. fold m. rewrite <- (N.pow_1_r n) at 1.
    apply N.pow_le_mono_r; lia. }
  { left. lia. }
  fold m in Z, W. replace (0 <? m) with true in Z by (symmetry; apply N.ltb_lt; lia).
  assert (Fz : filled n z m) by exact Z.
  assert (Dz : has_degree n z m) by (apply filled_degree; assumption).
  destruct (c29_sub_mul _ _ so p n z y x m r l t Hn Dz Hr Hl) as (d & E' & D & W'); try assumption.
  { rewrite (N.add_comm r l). exact Pm. }
  { right. rewrite (N.add_comm r l). fold m. unfold stored_to. unfold filled in Fz. rewrite Fz. apply N.le_refl. }
  { rewrite (N.add_comm r l). exact Sy. }
  { rewrite (N.add_comm r l). exact Sx. }
  rewrite (N.add_comm r l) in D, W'. fold m in D, W'. rewrite N.ltb_irrefl in D.
  exists d. split; [unfold alg_commutator; rewrite E; exact E'|]. split; [unfold filled in *; rewrite D; exact Fz|].
  intros w Hw. rewrite (W' w Hw), (W w Hw).
  replace (wcoef so n dv_new w) with (s_zero so).
  2:{ unfold wcoef, coef, dv_as_slice. cbn [dv_new dv_elems]. unfold slice_get. destruct (N.to_nat (windex n w)); reflexivity. }
  destruct (len w <=? m); [|reflexivity]. rewrite fold_left_app. apply fold_uminus.
Qed.

Lemma qsum_opp qs : (qsum (map Qopp qs) == - qsum qs)%Q.
Proof. induction qs as [|a qs IH]; [reflexivity|]. cbn [map]. rewrite !qsum_cons, IH. ring. Qed.
Lemma qsum_abs_opp qs : (qsum (map Qabs (map Qopp qs)) == qsum (map Qabs qs))%Q.
Proof. rewrite map_map. apply qsum_ext. intros a. apply Qabs_opp. Qed.
Lemma opp_finite x : finite (SFopp x) <-> finite x.
Proof.
  split; intros (v & w & E & _); destruct x; cbn in E |- *; try discriminate; eexists _, _; split; reflexivity.
Qed.
(** accuracy: 2(|w| + 1) roundings *)
Lemma c110_accuracy : forall (f : fmt) (p : profile) (n : N) (x y : dvec spec_float) (l r t : N),
  let m := N.min t (l + r) in let so := fl_ops f in
  let A w := fl_val (wcoef so n x w) in let B w := fl_val (wcoef so n y w) in
  f = f32 \/ f = f64 ->
  2 <= n -> 1 <= m -> has_degree n x l -> has_degree n y r ->
  n ^ (l + 1) < 2 ^ 64 -> n ^ (r + 1) < 2 ^ 64 -> n ^ (m + 1) < 2 ^ 64 ->
  stored_to n x (N.min m l) -> stored_to n y (N.min m r) ->
  (forall w, word_ok n w -> is_float f (wcoef so n x w) /\ is_float f (wcoef so n y w)) ->
  exists z, alg_commutator so p n x y (Some t) = Ret z /\ filled n z m
    /\ forall w, word_ok n w -> len w <= m ->
       let k := (2 * (Z.of_N (len w) + 1))%Z in let g := ((1 + unit_roundoff f) ^ k)%Q in
       let size := (qsize A B w + qsize B A w)%Q in
       (forall c, has_value (wcoef so n z w) c ->
          (Qabs (c - (qconv A B w - qconv B A w)) <= (g - 1) * size + inject_Z k * g * half_smallest f)%Q)
       /\ ((forall u, word_ok n u -> finite (wcoef so n x u) /\ finite (wcoef so n y u)) ->
           ((1 + unit_roundoff f) * g * size + inject_Z k * g * half_smallest f < fl_limit f)%Q ->
           finite (wcoef so n z w)).
Proof.
  intros f p n x y l r t m so A B Hf Hn Hm Hl Hr Pl Pr Pm Sx Sy V.
  destruct (c110_terms _ _ so p n x y l r t Hn Hm Hl Hr Pl Pr Pm Sx Sy) as (z & E & F & W).
  exists z. split; [exact E|]. split; [exact F|]. intros w Hw Hlen k g size. fold m in W. rewrite (W w Hw).
  replace (len w <=? m) with true by (symmetry; apply N.leb_le; exact Hlen).
  pose proof (good f Hf) as G.
  assert (V' : forall w, word_ok n w -> is_float f (wcoef so n y w) /\ is_float f (wcoef so n x w)) by (intros; split; apply V; assumption).
  pose proof (terms_float f Hf n Hn x y l r V w Hw) as TF. pose proof (terms_float f Hf n Hn y x r l V' w Hw) as TF2. fold so in TF, TF2.
  pose proof (terms_sum f n Hn x y l r Hl Hr w Hw) as TS. pose proof (terms_sum f n Hn y x r l Hr Hl w Hw) as TS2. fold so A B in TS, TS2.
  pose proof (terms_size f n Hn x y l r Hl Hr w Hw) as TZ. pose proof (terms_size f n Hn y x r l Hr Hl w Hw) as TZ2. fold so A B in TZ, TZ2.
  pose proof (terms_len f n x y l r w) as TL. pose proof (terms_len f n y x r l w) as TL2. fold so in TL, TL2.
  pose proof (terms_close f Hf n x y l r V w Hw) as TC. pose proof (terms_close f Hf n y x r l V' w Hw) as TC2. fold so A B in TC, TC2.
  set (ts := terms so l r (wcoef so n x) (wcoef so n y) w) in *.
  set (ts2 := terms so r l (wcoef so n y) (wcoef so n x) w) in *.
  match type of TS with (qsum ?q == _)%Q => set (qs := q) in * end.
  match type of TS2 with (qsum ?q == _)%Q => set (qs2 := q) in * end.
  change (s_uminus so) with SFopp. set (us := ts ++ map SFopp ts2) in *.
  set (K := (2 * Datatypes.S (length w))%nat).
  assert (Lu : (length us <= K)%nat) by (unfold us, K; rewrite app_length, map_length; lia).
  assert (Ek : k = Z.of_nat K) by (subst k K; rewrite Nat2Z.inj_mul, len_Z; reflexivity).
  assert (Eg : g = grow f K) by (subst g; rewrite Ek; reflexivity).
  pose proof (qsize_nonneg f n x y w) as Z1. pose proof (qsize_nonneg f n y x w) as Z2. fold so A B in Z1, Z2.
  pose proof (grow_le f _ _ Lu) as GL. pose proof (grow_count f _ _ Lu) as GC. rewrite <- Eg in GL, GC. rewrite <- Ek in GC.
  assert (UF : Forall (is_float f) us).
  { apply Forall_app. split; [exact TF|]. apply Forall_map. eapply Forall_impl; [|exact TF2]. intros a Ha. apply opp_valid. exact Ha. }
  assert (UC : Forall finite ts -> Forall finite ts2 -> Forall2 (close f) us (qs ++ map Qopp qs2)).
  { intros F1 F2. apply Forall2_app; [apply TC, F1|]. apply close_opp; [apply TC2, F2|exact F2]. }
  assert (QS : (qsum (qs ++ map Qopp qs2) == qconv A B w - qconv B A w)%Q) by (rewrite qsum_app, qsum_opp, TS, TS2; ring).
  assert (QZ : (qsum (map Qabs (qs ++ map Qopp qs2)) == size)%Q).
  { unfold size. rewrite map_app, qsum_app, qsum_abs_opp, TZ, TZ2. reflexivity. }
  assert (S0 : (0 <= size)%Q) by (unfold size; lra).
  split.
  - intros c Hc. destruct (sum_error f G us (s_zero so) c eq_refl UF Hc) as (_ & FT & _).
    apply Forall_app in FT. destruct FT as [F1 F2].
    assert (F2' : Forall finite ts2).
    { apply (proj1 (Forall_map _ _ _)) in F2. eapply Forall_impl; [|exact F2]. intros a. apply opp_finite. }
    pose proof (fold_close_zero f G us _ c false UF (UC F1 F2') Hc) as B0. cbn zeta in B0. rewrite QS, QZ in B0.
    eapply Qle_trans; [exact B0|]. apply Qplus_le_compat; [|exact GC]. apply Qmult_le_compat_r; [lra|exact S0].
  - intros FX L.
    pose proof (u_pos f) as U. pose proof (grow_ge f K) as G1. rewrite <- Eg in G1.
    assert (K0 : (0 <= inject_Z k * g * half_smallest f)%Q).
    { apply Qmult_le_0_compat; [|apply Qlt_le_weak, eta_pos]. apply Qmult_le_0_compat; [|lra]. rewrite Ek. apply (count_le _ _ (le_n _)). }
    assert (L0 : (size < fl_limit f)%Q).
    { eapply Qle_lt_trans; [|exact L]. assert ((1 * size <= (1 + unit_roundoff f) * g * size)%Q); [|lra].
      apply Qmult_le_compat_r; [nra|exact S0]. }
    assert (F1 : Forall finite ts) by (apply (terms_finite f Hf n Hn x y l r Hl Hr V w Hw); [fold so A B; unfold size in L0; lra|exact FX]).
    assert (F2 : Forall finite ts2).
    { apply (terms_finite f Hf n Hn y x r l Hr Hl V' w Hw); [fold so A B; unfold size in L0; lra|intros; split; apply FX; assumption]. }
    assert (FU : Forall finite us).
    { apply Forall_app. split; [exact F1|]. apply Forall_map. eapply Forall_impl; [|exact F2]. intros a. apply opp_finite. }
    assert (F0 : finite (s_zero so)) by (exists 0%Q, 0%Q; split; reflexivity).
    refine (fold_close_finite f G us _ (s_zero so) eq_refl UF F0 FU (UC F1 F2) _).
    rewrite QZ. eapply Qle_lt_trans; [|exact L]. rewrite grow_S. change (fl_val (s_zero so)) with 0%Q. change (Qabs 0) with 0%Q.
    assert (((1 + unit_roundoff f) * grow f (length us) * size <= (1 + unit_roundoff f) * g * size)%Q).
    { apply Qmult_le_compat_r; [|exact S0]. apply mul_le_left; lra. }
    lra.
Qed.
(** integer tensors: exact while the terms together stay below the precision *)
Lemma zsum_cons a l : zsum (a :: l) = (a + zsum l)%Z.
Proof. reflexivity. Qed.
Lemma fl_int_fold f ts zs : good_fmt f -> Forall2 (fl_int f) ts zs -> forall a0 z0, fl_int f a0 z0 ->
  (Z.abs z0 + zsum (map Z.abs zs) < 2 ^ f_prec f)%Z ->
  fl_int f (fold_left (s_add (fl_ops f)) ts a0) (z0 + zsum zs).
Proof.
  intros G H. induction H as [|x a ts zs Hx _ IH]; intros a0 z0 H0 L.
  - cbn [fold_left]. unfold zsum. cbn [fold_right]. rewrite Z.add_0_r. exact H0.
  - cbn [map] in L. rewrite zsum_cons in *. cbn [fold_left]. rewrite Z.add_assoc.
    assert (0 <= zsum (map Z.abs zs))%Z by (clear; induction zs as [|b zs IH]; [cbn; lia|cbn [map]; rewrite zsum_cons; lia]).
    apply IH; [|lia]. apply fl_int_add; [exact G|exact H0|exact Hx|lia].
Qed.
Lemma fl_int_opp f x a : fl_int f x a -> fl_int f (SFopp x) (- a).
Proof.
  intros [V H]. split; [apply opp_valid; exact V|]. destruct (opp_value x _ H) as (v & E & Hv).
  exists v. split; [exact E|]. rewrite Hv. rewrite inject_Z_opp. reflexivity.
Qed.
Lemma zsum_app l1 l2 : zsum (l1 ++ l2) = (zsum l1 + zsum l2)%Z.
Proof. induction l1 as [|a l1 IH]; [reflexivity|]. cbn [app]. rewrite !zsum_cons, IH. lia. Qed.
Lemma zsum_opp l : zsum (map Z.opp l) = (- zsum l)%Z.
Proof. induction l as [|a l IH]; [reflexivity|]. cbn [map]. rewrite !zsum_cons, IH. lia. Qed.
Lemma terms_int f n x y A B l r w : f = f32 \/ f = f64 -> 2 <= n -> has_degree n x l -> has_degree n y r -> word_ok n w ->
  (forall w, word_ok n w -> fl_int f (wcoef (fl_ops f) n x w) (A w) /\ fl_int f (wcoef (fl_ops f) n y w) (B w)) ->
  (zsize A B w < 2 ^ f_prec f)%Z ->
  exists zs, Forall2 (fl_int f) (terms (fl_ops f) l r (wcoef (fl_ops f) n x) (wcoef (fl_ops f) n y) w) zs
    /\ zsum zs = zconv A B w /\ zsum (map Z.abs zs) = zsize A B w.
Proof.
  intros Hf Hn Hl Hr Hw Hv L.
  assert (Sp : forall u v, List.In (u, v) (splits w) -> word_ok n u /\ word_ok n v).
  { intros u v H. apply splits_in in H. subst w. apply word_ok_app in Hw. exact Hw. }
  assert (Z0 : forall uv, List.In uv (rev (splits w)) ->
    ((len (fst uv) <=? l) && (len (snd uv) <=? r))%bool = false -> (A (fst uv) * B (snd uv) = 0)%Z).
  { intros [u v] Hin Hb. apply in_rev in Hin. destruct (Sp u v Hin) as [Hu Hvv]. cbn [fst snd] in *.
    apply andb_false_iff in Hb. destruct Hb as [Hb|Hb]; apply N.leb_gt in Hb.
    - destruct (Hv u Hu) as [Hx _]. rewrite (wcoef_beyond (fl_ops f) n Hn x l u Hl Hu Hb) in Hx.
      apply fl_int_zero in Hx. rewrite Hx. reflexivity.
    - destruct (Hv v Hvv) as [_ Hy]. rewrite (wcoef_beyond (fl_ops f) n Hn y r v Hr Hvv Hb) in Hy.
      apply fl_int_zero in Hy. rewrite Hy. lia. }
  exists (map (fun uv => A (fst uv) * B (snd uv))%Z
    (filter (fun uv => (len (fst uv) <=? l) && (len (snd uv) <=? r))%bool (rev (splits w)))).
  assert (X1 : zsum (map (fun uv => A (fst uv) * B (snd uv))%Z
    (filter (fun uv => (len (fst uv) <=? l) && (len (snd uv) <=? r))%bool (rev (splits w)))) = zconv A B w).
  { rewrite zsum_filter; [|exact Z0]. rewrite map_rev, zsum_rev. reflexivity. }
  assert (X2 : zsum (map Z.abs (map (fun uv => A (fst uv) * B (snd uv))%Z
    (filter (fun uv => (len (fst uv) <=? l) && (len (snd uv) <=? r))%bool (rev (splits w))))) = zsize A B w).
  { rewrite map_map. rewrite (zsum_filter (fun uv => Z.abs (A (fst uv) * B (snd uv)))); [rewrite map_rev, zsum_rev; reflexivity|].
    intros uv H1 H2. rewrite (Z0 uv H1 H2). reflexivity. }
  split; [|split; assumption]. rewrite <- X2 in L. clear X1 X2 Z0. unfold terms.
  set (ps := filter _ _) in *.
  assert (P : forall uv, List.In uv ps -> word_ok n (fst uv) /\ word_ok n (snd uv)).
  { intros [u v] H. apply filter_In in H. destruct H as [H _]. apply in_rev in H. apply (Sp u v H). }
  clearbody ps. clear Sp Hw. revert L P. induction ps as [|uv ps IH]; intros L P; [constructor|].
  cbn [map] in *. rewrite zsum_cons in L.
  assert (0 <= zsum (map Z.abs (map (fun uv => A (fst uv) * B (snd uv)) ps)))%Z.
  { clear. induction ps as [|b ps IH]; [cbn; lia|cbn [map]; rewrite zsum_cons; lia]. }
  constructor.
  - destruct (P uv (or_introl eq_refl)) as [Hu Hvv].
    apply fl_int_mul; [apply two_good, Hf|apply Hv, Hu|apply Hv, Hvv|lia].
  - apply IH; [lia|]. intros; apply P; right; assumption.
Qed.
Lemma c110_integers : forall (f : fmt) (p : profile) (n : N) (x y : dvec spec_float) (A B : word -> Z) (l r t : N),
  let m := N.min t (l + r) in
  f = f32 \/ f = f64 ->
  2 <= n -> 1 <= m -> has_degree n x l -> has_degree n y r ->
  n ^ (l + 1) < 2 ^ 64 -> n ^ (r + 1) < 2 ^ 64 -> n ^ (m + 1) < 2 ^ 64 ->
  stored_to n x (N.min m l) -> stored_to n y (N.min m r) ->
  (forall w, word_ok n w -> fl_int f (wcoef (fl_ops f) n x w) (A w) /\ fl_int f (wcoef (fl_ops f) n y w) (B w)) ->
  exists z, alg_commutator (fl_ops f) p n x y (Some t) = Ret z /\ filled n z m
    /\ forall w, word_ok n w -> len w <= m -> (zsize A B w + zsize B A w < 2 ^ f_prec f)%Z ->
         fl_int f (wcoef (fl_ops f) n z w) (zconv A B w - zconv B A w).
Proof.
  intros f p n x y A B l r t m Hf Hn Hm Hl Hr Pl Pr Pm Sx Sy Hv.
  destruct (c110_terms _ _ (fl_ops f) p n x y l r t Hn Hm Hl Hr Pl Pr Pm Sx Sy) as (z & E & F & W).
  exists z. split; [exact E|]. split; [exact F|]. intros w Hw Hlen Hs. fold m in W. rewrite (W w Hw).
  replace (len w <=? m) with true by (symmetry; apply N.leb_le; exact Hlen).
  assert (NN : forall A B, (0 <= zsize A B w)%Z).
  { intros A0 B0. unfold zsize. induction (splits w) as [|b ps IH]; [cbn; lia|cbn [map]; rewrite zsum_cons; lia]. }
  pose proof (NN A B) as N1. pose proof (NN B A) as N2.
  assert (Hv' : forall w, word_ok n w -> fl_int f (wcoef (fl_ops f) n y w) (B w) /\ fl_int f (wcoef (fl_ops f) n x w) (A w))
    by (intros; split; apply Hv; assumption).
  destruct (terms_int f n x y A B l r w Hf Hn Hl Hr Hw Hv ltac:(lia)) as (zs & T1 & S1 & Z1).
  destruct (terms_int f n y x B A r l w Hf Hn Hr Hl Hw Hv' ltac:(lia)) as (zs2 & T2 & S2 & Z2).
  pose proof (fl_int_fold f (terms (fl_ops f) l r (wcoef (fl_ops f) n x) (wcoef (fl_ops f) n y) w
     ++ map SFopp (terms (fl_ops f) r l (wcoef (fl_ops f) n y) (wcoef (fl_ops f) n x) w)) (zs ++ map Z.opp zs2) (two_good f Hf)) as K.
  specialize (K ltac:(apply Forall2_app; [exact T1|]; clear - T2; induction T2; cbn [map]; constructor; [apply fl_int_opp|]; assumption)).
  specialize (K (s_zero (fl_ops f)) 0%Z (proj2 (fl_int_zero f 0) eq_refl)).
  rewrite Z.add_0_l, zsum_app, zsum_opp, S1, S2, Z.add_opp_r in K. apply K.
  rewrite map_app, zsum_app, map_map, (map_ext (fun a => Z.abs (- a)) Z.abs Z.abs_opp), Z1, Z2. cbn [Z.abs]. lia.
Qed.
(** over floats the commutator of a tensor with itself need not vanish: in 1 + [1] + 2^24·[1,1] the terms of the
    coefficient of [1,1] are 2^24, 1, 2^24 and 2^24 + 1 is not a float *)
Lemma c110_not_alternating : forall (p : profile), exists (x z : dvec spec_float),
  x = dv_from (map (fl_of_Z f32) [1; 1; 0; 2 ^ 24; 0; 0; 0]%Z) /\ filled 2 x 2
  /\ alg_commutator (fl_ops f32) p 2 x x (Some 2) = Ret z /\ has_value (wcoef (fl_ops f32) 2 z [1; 1]) (-1).
Proof.
  intros p. do 2 eexists. split; [reflexivity|]. split; [vm_compute; reflexivity|].
  split; [destruct p as [[] []]; vm_compute; reflexivity|]. eexists; split; vm_compute; reflexivity.
Qed.
(** [x, y] for x = [1]/3 and y = [2]/3 + [1]: inexact, inside the bound; and of integers: exact *)
Example c110_example :
  let so := fl_ops f32 in let third := s_div so (fl_of_Z f32 1) (fl_of_Z f32 3) in
  let x := dv_from [s_zero so; third; s_zero so] in let y := dv_from [s_zero so; s_one so; third] in
  let v l := dv_from (map (fl_of_Z f32) l) in
  filled 2 x 1 /\ filled 2 y 1 /\ (forall w, is_float f32 (wcoef so 2 x w) /\ is_float f32 (wcoef so 2 y w))
  /\ (exists z c, alg_commutator so dev 2 x y (Some 2) = Ret z /\ has_value (wcoef so 2 z [1; 2]) c
        /\ (0 < Qabs (c - qconv (fun w => fl_val (wcoef so 2 x w)) (fun w => fl_val (wcoef so 2 y w)) [1%N; 2%N]) < 1 # 100000000)%Q)
  /\ alg_commutator so release 2 (v [0; 2; 3]%Z) (v [0; 5; 7]%Z) (Some 2) = Ret (v [0; 0; 0; 0; -1; 1; 0]%Z).
Proof.
  cbn zeta. split; [vm_compute; reflexivity|]. split; [vm_compute; reflexivity|]. split.
  - intros w. unfold wcoef, coef. cbn [dv_as_slice dv_from dv_elems]. unfold slice_get.
    destruct (N.to_nat (windex 2 w)) as [|[|[|k]]]; cbn [nth_error]; try (split; vm_compute; reflexivity).
    destruct k; split; reflexivity.
  - split; [|vm_compute; reflexivity].
    eexists _, _. split; [vm_compute; reflexivity|]. split; [eexists; split; [vm_compute; reflexivity|apply Qeq_refl]|].
    repeat split; vm_compute; reflexivity.
Qed.
