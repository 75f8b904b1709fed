(** Property lemmas C84-C86 (restated as theorems in P_Round.v). *)
From Coq Require Import ZArith QArith Qabs Qpower Lqa SpecFloat.
From Verif Require Import Machine MachineLemmas M_Scalar M_Vector M_Dense M_TensorBasis S_Vector L_Dense L_PropDense
  M_Float S_Float L_Float L_FloatDegree L_FloatInt L_FloatRound L_FloatOps L_FloatUnique L_FloatSum S_Words L_Words L_TensorBasis S_Tensor
  M_Algebra L_Algebra L_PropAlgebra L_PropFloat.
Local Open Scope N_scope.

(** * C84 *)
Lemma one_value f : f = f32 \/ f = f64 -> has_value (fl_one f) 1.
Proof. intros [-> | ->]; (eexists; split; [vm_compute; reflexivity|vm_compute; reflexivity]). Qed.
Lemma c84_operations : forall (f : fmt) (x y : spec_float) (a b : Q), f = f32 \/ f = f64 ->
  let so := fl_ops f in
  is_float f x -> is_float f y -> has_value x a -> has_value y b ->
  rounds_to f (a + b) (s_add so x y)
  /\ rounds_to f (a - b) (s_sub so x y)
  /\ rounds_to f (a * b) (s_mul so x y)
  /\ (~ (b == 0)%Q -> rounds_to f (a / b) (s_div so x y) /\ rounds_to f (1 / b) (s_inv so y))
  /\ has_value (s_uminus so x) (- a).
Proof.
  intros f x y a b Hf so Vx Vy Hx Hy. destruct (two_good f Hf) as [G _]. subst so. cbn -[SFadd SFsub SFmul SFdiv SFopp].
  assert (V1 : is_float f (fl_one f)) by (destruct Hf as [-> | ->]; reflexivity).
  split; [apply add_rounded; assumption|]. split; [apply sub_rounded; assumption|]. split; [apply mul_rounded; assumption|].
  split; [|apply opp_value; exact Hx].
  intros Hb. split; apply div_rounded; try assumption. apply one_value, Hf.
Qed.
(** [rounds_to] leaves no choice: the number is determined (only the sign of a zero is not) *)
Lemma c84_rounding_unique : forall (f : fmt) (q : Q) (r r' : spec_float), f = f32 \/ f = f64 ->
  rounds_to f q r -> rounds_to f q r' -> r = r' \/ exists v, has_value r v /\ has_value r' v.
Proof. intros f q r r' Hf. apply rounds_unique. destruct (two_good f Hf) as [G _]. exact G. Qed.
(** the results of dividing by zero *)
Lemma c84_division_by_zero : forall (f : fmt) (x : spec_float) (s : bool) (a : Q), f = f32 \/ f = f64 ->
  has_value x a ->
  s_div (fl_ops f) x (S754_zero s) =
    match (a ?= 0)%Q with Eq => S754_nan | Gt => S754_infinity s | Lt => S754_infinity (negb s) end.
Proof.
  intros f x s a Hf (w & E & H). destruct x as [sx|sx| |sx m e]; cbn in E; try discriminate; injection E as <-.
  - assert (C : (a ?= 0)%Q = Eq) by (apply Qeq_alt; symmetry; exact H). rewrite C. reflexivity.
  - cbn [fl_ops s_div SFdiv].
    assert (P : (0 < 2 ^ e)%Q) by apply pw_pos.
    destruct sx.
    + assert (L : (a < 0)%Q) by (rewrite <- H; change (Zneg m) with (- Zpos m)%Z; rewrite inject_Z_opp;
        assert (0 < inject_Z (Zpos m))%Q by reflexivity; nra).
      rewrite (proj1 (Qlt_alt a 0) L). destruct s; reflexivity.
    + assert (L : (0 < a)%Q) by (rewrite <- H; assert (0 < inject_Z (Zpos m))%Q by reflexivity; nra).
      rewrite (proj1 (Qgt_alt a 0) L). destruct s; reflexivity.
Qed.
(** coefficient by coefficient for dense vectors *)
Lemma rounds_self f x : good_fmt f -> is_float f x -> finite x -> rounds_to f (fl_val x) x.
Proof. intros [G _] Vx Fx. apply (rounded_exact f G x _ Vx (finite_val x Fx)). Qed.
Lemma rounds_compat f q q' r : (q == q')%Q -> rounds_to f q r -> rounds_to f q' r.
Proof.
  intros E (V & N & I1 & I2). split; [exact V|]. split; [|split].
  - intros H. rewrite <- E in H. destruct (N H) as (v & Hv & X). exists v. split; [exact Hv|].
    intros x w Hx Hw. rewrite <- E. exact (X x w Hx Hw).
  - intros H. rewrite <- E in H. auto.
  - intros H. rewrite <- E in H. auto.
Qed.
Lemma c84_dense : forall (f : fmt) (K : Type) (ob : obasis K) (x y : dvec spec_float) (s : spec_float),
  f = f32 \/ f = f64 ->
  let so := fl_ops f in let vo := dense_ops so ob in
  let value v i := fl_val (coef so v i) in
  (forall i, is_float f (coef so x i) /\ is_float f (coef so y i)) -> is_float f s ->
  exists a d m q, vd_add vo x y = Ret a /\ vd_sub vo x y = Ret d
    /\ vd_scalar_lmultiply vo x s = Ret m /\ vd_scalar_rdivide vo x s = Ret q
    /\ (forall i, finite (coef so x i) -> finite (coef so y i) ->
          rounds_to f (value x i + value y i) (coef so a i) /\ rounds_to f (value x i - value y i) (coef so d i))
    /\ (forall i, i < dv_size x -> finite (coef so x i) -> finite s ->
          rounds_to f (value x i * fl_val s) (coef so m i)
          /\ (~ (fl_val s == 0)%Q -> rounds_to f (value x i / fl_val s) (coef so q i))).
Proof.
  intros f K ob x y s Hf so vo value V Vs.
  destruct (c18_add_sub _ _ _ so ob x y) as (a & d & Ea & Ed & _ & _ & _ & _ & Ga & Gd).
  destruct (c19_owned _ _ _ so ob x s s) as (m0 & m & q & _ & Em & _ & Eq & _ & _ & _ & _ & _ & _ & _ & C).
  exists a, d, m, q. do 4 (split; [assumption|]). pose proof (two_good f Hf) as G.
  split.
  - intros i Fx Fy. destruct (V i) as [Vx Vy].
    destruct (c84_operations f _ _ _ _ Hf Vx Vy (finite_val _ Fx) (finite_val _ Fy)) as (R1 & R2 & _).
    fold so in R1, R2. unfold value. 
    assert (Ca : coef so a i = match combine so (s_add so) (slice_get (dv_as_slice x) i) (slice_get (dv_as_slice y) i) with Some c => c | None => s_zero so end)
      by (unfold coef; rewrite Ga; reflexivity).
    assert (Cd : coef so d i = match combine so (s_sub so) (slice_get (dv_as_slice x) i) (slice_get (dv_as_slice y) i) with Some c => c | None => s_zero so end)
      by (unfold coef; rewrite Gd; reflexivity).
    assert (Cx : coef so x i = match slice_get (dv_as_slice x) i with Some c => c | None => s_zero so end) by reflexivity.
    assert (Cy : coef so y i = match slice_get (dv_as_slice y) i with Some c => c | None => s_zero so end) by reflexivity.
    destruct (slice_get (dv_as_slice x) i) as [u|], (slice_get (dv_as_slice y) i) as [v|]; cbn [combine] in Ca, Cd; rewrite Ca, Cd.
    + rewrite Cx, Cy in *. split; assumption.
    + assert (Z0 : (fl_val (coef so y i) == 0)%Q) by (rewrite Cy; reflexivity).
      rewrite <- Cx. split; (eapply rounds_compat; [|apply (rounds_self f (coef so x i)); assumption]); rewrite Z0; ring.
    + rewrite Cx, Cy in *. split; assumption.
    + rewrite Cx, Cy in *. split; assumption.
  - intros i Hi Fx Fs. destruct (V i) as [Vx _]. destruct (C i Hi) as (_ & Cm & Cq).
    destruct (c84_operations f _ _ _ _ Hf Vx Vs (finite_val _ Fx) (finite_val _ Fs)) as (_ & _ & R3 & R4 & _).
    fold so in R3, R4. unfold value. rewrite Cm, Cq. split; [exact R3|]. intros Hs. apply R4, Hs.
Qed.
(** 1/3 in f32 lies strictly between two floats and is rounded to the nearer one; 2^24 + 1 is half-way and goes
    to the even significand; the largest float added to itself is infinite *)
Example c84_example :
  let so := fl_ops f32 in let i := fl_of_Z f32 in
  s_div so (i 1)%Z (i 3)%Z = S754_finite false 11184811 (-25)
  /\ rounds_to f32 (1 / 3) (S754_finite false 11184811 (-25))
  /\ s_add so (i 16777216)%Z (i 1)%Z = S754_finite false 8388608 1
  /\ rounds_to f32 16777217 (S754_finite false 8388608 1)
  /\ is_float f32 (S754_finite false 16777215 104)
  /\ s_add so (S754_finite false 16777215 104) (S754_finite false 16777215 104) = S754_infinity false
  /\ s_sub so (s_uminus so (S754_finite false 16777215 104)) (S754_finite false 16777215 104) = S754_infinity true.
Proof.
  assert (V : forall z, is_float f32 (fl_of_Z f32 z)) by (intros; apply normalize_valid; cbn; lia).
  assert (I : forall z, (Z.abs z < 2 ^ 24)%Z -> has_value (fl_of_Z f32 z) (inject_Z z)).
  { intros z Hz. apply (normalize_int 24 128 ltac:(lia) ltac:(lia) z 0 z Hz). change (2 ^ 0)%Q with 1%Q. ring. }
  cbn zeta. split; [vm_compute; reflexivity|]. split.
  - destruct (c84_operations f32 (fl_of_Z f32 1) (fl_of_Z f32 3) 1 3 (or_introl eq_refl) (V _) (V _)) as (_ & _ & _ & D & _);
      [apply (I 1%Z); reflexivity|apply (I 3%Z); reflexivity|]. apply D. intros X. discriminate X.
  - split; [vm_compute; reflexivity|]. split.
    + destruct (c84_operations f32 (fl_of_Z f32 16777216) (fl_of_Z f32 1) 16777216 1 (or_introl eq_refl) (V _) (V _)) as (D & _);
        [eexists; split; vm_compute; reflexivity|apply (I 1%Z); reflexivity|]. exact D.
    + repeat split; vm_compute; reflexivity.
Qed.

(** * C85 *)
Lemma grow_eq f k : grow f k = ((1 + unit_roundoff f) ^ Z.of_nat k)%Q.
Proof. reflexivity. Qed.
Lemma splits_len w : length (splits w) = Datatypes.S (length w).
Proof. induction w as [|a w IH]; [reflexivity|].
  change (splits (a :: w)) with (([], a :: w) :: map (fun uv => (a :: fst uv, snd uv)) (splits w)).
  cbn [length]. rewrite map_length. f_equal. exact IH. Qed.
Lemma filter_len {A} (b : A -> bool) l : (length (filter b l) <= length l)%nat.
Proof. induction l as [|a l IH]; cbn [filter length]; [lia|]. destruct (b a); cbn [length]; lia. Qed.
Lemma qsum_app l1 l2 : (qsum (l1 ++ l2) == qsum l1 + qsum l2)%Q.
Proof. unfold qsum. induction l1 as [|a l1 IH]; cbn [app fold_right]; [ring|]. rewrite IH. ring. Qed.
Lemma qsum_rev l : (qsum (rev l) == qsum l)%Q.
Proof. induction l as [|a l IH]; [reflexivity|]. cbn [rev]. rewrite qsum_app, IH. unfold qsum. cbn [fold_right]. ring. Qed.
Lemma qsum_filter {A} (g : A -> Q) (b : A -> bool) l : (forall a, List.In a l -> b a = false -> (g a == 0)%Q) ->
  (qsum (map g (filter b l)) == qsum (map g l))%Q.
Proof.
  induction l as [|a l IH]; intros H; [reflexivity|]. cbn [filter map].
  specialize (IH (fun a' Ha' => H a' (or_intror Ha'))).
  destruct (b a) eqn:Eb; cbn [map]; rewrite !qsum_cons.
  - rewrite IH. reflexivity.
  - rewrite IH, (H a (or_introl eq_refl) Eb). ring.
Qed.
Lemma qsum_ext {A} (g h : A -> Q) l : (forall a, (g a == h a)%Q) -> (qsum (map g l) == qsum (map h l))%Q.
Proof. intros H. induction l as [|a l IH]; [reflexivity|]. cbn [map]. rewrite !qsum_cons, IH, H. reflexivity. Qed.

(** the terms of one coefficient, with what they approximate *)
Section Terms.
Context (f : fmt) (Hf : f = f32 \/ f = f64) (n : N) (Hn : 2 <= n) (x y : dvec spec_float) (l r : N)
  (Hl : has_degree n x l) (Hr : has_degree n y r)
  (V : forall w, word_ok n w -> is_float f (wcoef (fl_ops f) n x w) /\ is_float f (wcoef (fl_ops f) n y w))
  (w : word) (Hw : word_ok n w).
Notation so := (fl_ops f).
Notation A := (fun u => fl_val (wcoef (fl_ops f) n x u)).
Notation B := (fun v => fl_val (wcoef (fl_ops f) n y v)).
Notation inside := (fun uv : word * word => ((len (fst uv) <=? l) && (len (snd uv) <=? r))%bool).
Notation prod := (fun uv : word * word => (A (fst uv) * B (snd uv))%Q).
Notation pairs := (filter inside (rev (splits w))).
Notation ts := (terms so l r (wcoef so n x) (wcoef so n y) w).

Lemma good : (1 < f_prec f < f_emax f)%Z.
Proof. apply two_good, Hf. Qed.
Lemma pairs_ok uv : List.In uv pairs -> word_ok n (fst uv) /\ word_ok n (snd uv).
Proof.
  intros H. apply filter_In in H. destruct H as [H _]. apply in_rev in H. destruct uv as [u v]. apply splits_in in H.
  cbn [fst snd]. subst w. apply word_ok_app in Hw. exact Hw.
Qed.
Lemma outside uv : List.In uv (rev (splits w)) -> inside uv = false -> (prod uv == 0)%Q.
Proof.
  intros Hin Hb. apply in_rev in Hin. destruct uv as [u v]. pose proof (splits_in w u v Hin) as E. subst w.
  destruct (proj1 (word_ok_app _ _ _) Hw) as [Hu Hv]. cbn [fst snd] in *.
  apply andb_false_iff in Hb. destruct Hb as [Hb|Hb]; apply N.leb_gt in Hb.
  - rewrite (wcoef_beyond so n Hn x l u Hl Hu Hb). cbn. ring.
  - rewrite (wcoef_beyond so n Hn y r v Hr Hv Hb). change (fl_val (s_zero so)) with 0%Q. ring.
Qed.
Lemma terms_sum : (qsum (map prod pairs) == qconv A B w)%Q.
Proof. rewrite (qsum_filter prod _ _ outside), map_rev, qsum_rev. reflexivity. Qed.
Lemma terms_size : (qsum (map Qabs (map prod pairs)) == qsize A B w)%Q.
Proof.
  rewrite map_map, qsum_filter, map_rev, qsum_rev; [reflexivity|].
  intros uv H1 H2. rewrite (outside uv H1 H2). reflexivity.
Qed.
Lemma terms_len : (length ts <= Datatypes.S (length w))%nat.
Proof. unfold terms. rewrite map_length. eapply Nat.le_trans; [apply filter_len|]. rewrite rev_length, splits_len. apply le_n. Qed.
Lemma terms_float : Forall (is_float f) ts.
Proof.
  unfold terms. apply Forall_map, Forall_forall. intros uv H. destruct (pairs_ok uv H) as [Hu Hv].
  apply mul_valid; [pose proof good; lia|apply V, Hu|apply V, Hv].
Qed.
Lemma terms_close_aux (ps : list (word * word)) : (forall uv, List.In uv ps -> word_ok n (fst uv) /\ word_ok n (snd uv)) ->
  Forall finite (map (fun uv => s_mul so (wcoef so n x (fst uv)) (wcoef so n y (snd uv))) ps) ->
  Forall2 (close f) (map (fun uv => s_mul so (wcoef so n x (fst uv)) (wcoef so n y (snd uv))) ps) (map prod ps).
Proof.
  induction ps as [|uv ps IH]; intros P F; [constructor|].
  cbn [map] in *. apply Forall_cons_iff in F. destruct F as [F1 F]. constructor.
  - destruct (P uv (or_introl eq_refl)) as [Hu Hv]. unfold close.
    destruct (mul_step f good _ _ _ (proj1 (V _ Hu)) (proj2 (V _ Hv)) (finite_val _ F1)) as (_ & _ & E). exact E.
  - apply IH; [intros; apply P; right; assumption|exact F].
Qed.
Lemma terms_close : Forall finite ts -> Forall2 (close f) ts (map prod pairs).
Proof. apply terms_close_aux. exact pairs_ok. Qed.
Lemma size_term_aux (ps : list (word * word)) uv : List.In uv ps -> (Qabs (prod uv) <= qsum (map (fun uv => Qabs (prod uv)) ps))%Q.
Proof.
  induction ps as [|a ps IH]; intros H; [destruct H|].
  cbn [map]. rewrite qsum_cons.
  assert (0 <= qsum (map (fun uv => Qabs (prod uv)) ps))%Q by (apply qsum_nonneg; intros; apply Qabs_nonneg).
  cbn beta in *. destruct H as [->|H]; [lra|]. specialize (IH H). cbn beta in *. pose proof (Qabs_nonneg (prod a)). cbn beta in *. lra.
Qed.
Lemma size_term uv : List.In uv pairs -> (Qabs (prod uv) <= qsize A B w)%Q.
Proof. intros H. rewrite <- terms_size, map_map. apply size_term_aux. exact H. Qed.
Lemma terms_finite : (qsize A B w < fl_limit f)%Q ->
  (forall u, word_ok n u -> finite (wcoef so n x u) /\ finite (wcoef so n y u)) -> Forall finite ts.
Proof.
  intros L F. unfold terms. apply Forall_map, Forall_forall. intros uv H. destruct (pairs_ok uv H) as [Hu Hv].
  apply (mul_total f good); try apply V; try apply F; try assumption.
  eapply Qle_lt_trans; [apply (size_term uv H)|exact L].
Qed.
Lemma qsize_nonneg : (0 <= qsize A B w)%Q.
Proof. apply qsum_nonneg. intros. apply Qabs_nonneg. Qed.
End Terms.

Lemma len_Z (w : word) : Z.of_nat (Datatypes.S (length w)) = (Z.of_N (len w) + 1)%Z.
Proof. unfold len. lia. Qed.
Lemma count_le j k : (j <= k)%nat -> (0 <= inject_Z (Z.of_nat j) <= inject_Z (Z.of_nat k))%Q.
Proof. intros H. split; [change 0%Q with (inject_Z 0)|]; rewrite <- Zle_Qle; lia. Qed.
Lemma grow_count f j k : (j <= k)%nat ->
  (inject_Z (Z.of_nat j) * grow f j * half_smallest f <= inject_Z (Z.of_nat k) * grow f k * half_smallest f)%Q.
Proof.
  intros H. pose proof (count_le j k H) as [C1 C2]. pose proof (grow_le f j k H) as G. pose proof (grow_ge f j) as G1.
  apply Qmult_le_compat_r; [|apply Qlt_le_weak, eta_pos].
  apply Qle_trans with (inject_Z (Z.of_nat k) * grow f j)%Q; [apply Qmult_le_compat_r; lra|].
  apply mul_le_left; lra.
Qed.

Lemma c85_multiply : forall (f : fmt) (p : profile) (n : N) (x y : dvec spec_float) (l r t : N),
  let m := N.min t (l + r) in let so := fl_ops f in
  let A w := fl_val (wcoef so n x w) in let B w := fl_val (wcoef so n y w) in
  f = f32 \/ f = f64 ->
  2 <= n -> 1 <= m -> has_degree n x l -> has_degree n y r ->
  n ^ (l + 1) < 2 ^ 64 -> n ^ (r + 1) < 2 ^ 64 -> n ^ (m + 1) < 2 ^ 64 ->
  stored_to n x (N.min m l) -> stored_to n y (N.min m r) ->
  (forall w, word_ok n w -> is_float f (wcoef so n x w) /\ is_float f (wcoef so n y w)) ->
  exists z, alg_multiply so p n x y (Some t) = Ret z /\ filled n z m
    /\ forall w, word_ok n w -> len w <= m ->
       let k := (Z.of_N (len w) + 1)%Z in let g := ((1 + unit_roundoff f) ^ k)%Q in
       (forall c, has_value (wcoef so n z w) c ->
          (Qabs (c - qconv A B w) <= (g - 1) * qsize A B w + inject_Z k * g * half_smallest f)%Q)
       /\ ((forall u, word_ok n u -> finite (wcoef so n x u) /\ finite (wcoef so n y u)) ->
           ((1 + unit_roundoff f) * g * qsize A B w + inject_Z k * g * half_smallest f < fl_limit f)%Q ->
           finite (wcoef so n z w)).
Proof.
  intros f p n x y l r t m so A B Hf Hn Hm Hl Hr Pl Pr Pm Sx Sy V.
  destruct (c29_multiply _ _ so p n x y l r t Hn Hm Hl Hr Pl Pr Pm Sx Sy) as (z & E & _ & F & W).
  exists z. split; [exact E|]. split; [exact F|]. intros w Hw Hlen k g. fold m in W. rewrite (W w Hw).
  replace (len w <=? m) with true by (symmetry; apply N.leb_le; exact Hlen).
  pose proof (good f Hf) as G.
  pose proof (terms_float f Hf n Hn x y l r V w Hw) as TF. fold so in TF.
  pose proof (terms_sum f n Hn x y l r Hl Hr w Hw) as TS. fold so A B in TS.
  pose proof (terms_size f n Hn x y l r Hl Hr w Hw) as TZ. fold so A B in TZ.
  pose proof (terms_len f n x y l r w) as TL. fold so in TL.
  pose proof (terms_close f Hf n x y l r V w Hw) as TC. fold so A B in TC.
  set (ts := terms so l r (wcoef so n x) (wcoef so n y) w) in *.
  assert (Eg : g = grow f (Datatypes.S (length w))) by (subst g k; unfold grow; rewrite len_Z; reflexivity).
  assert (Ek : k = Z.of_nat (Datatypes.S (length w))) by (subst k; symmetry; apply len_Z).
  pose proof (qsize_nonneg f n x y w) as Z0. fold so A B in Z0.
  pose proof (grow_le f _ _ TL) as GL. pose proof (grow_count f _ _ TL) as GC. rewrite <- Eg in GL, GC. rewrite <- Ek in GC.
  split.
  - intros c Hc. destruct (sum_error f G ts (s_zero so) c eq_refl TF Hc) as (_ & FT & _).
    pose proof (fold_close_zero f G ts _ c false TF (TC FT) Hc) as B0. cbn zeta in B0. rewrite TS, TZ in B0.
    eapply Qle_trans; [exact B0|]. apply Qplus_le_compat; [|exact GC]. apply Qmult_le_compat_r; [lra|exact Z0].
  - intros FX L.
    pose proof (u_pos f) as U. pose proof (grow_ge f (Datatypes.S (length w))) as G1. rewrite <- Eg in G1.
    assert (K0 : (0 <= inject_Z k * g * half_smallest f)%Q).
    { apply Qmult_le_0_compat; [|apply Qlt_le_weak, eta_pos]. apply Qmult_le_0_compat; [|lra]. rewrite Ek. apply (count_le _ _ (le_n _)). }
    assert (L0 : (qsize A B w < fl_limit f)%Q).
    { eapply Qle_lt_trans; [|exact L]. assert ((1 * qsize A B w <= (1 + unit_roundoff f) * g * qsize A B w)%Q); [|lra].
      apply Qmult_le_compat_r; [nra|exact Z0]. }
    pose proof (terms_finite f Hf n Hn x y l r Hl Hr V w Hw L0 FX) as FT. fold so in FT. fold ts in FT.
    assert (F0 : finite (s_zero so)) by (exists 0%Q, 0%Q; split; reflexivity).
    refine (fold_close_finite f G ts _ (s_zero so) eq_refl TF F0 FT (TC FT) _).
    rewrite TZ. eapply Qle_lt_trans; [|exact L]. rewrite grow_S. change (fl_val (s_zero so)) with 0%Q. change (Qabs 0) with 0%Q.
    assert (((1 + unit_roundoff f) * grow f (length ts) * qsize A B w <= (1 + unit_roundoff f) * g * qsize A B w)%Q).
    { apply Qmult_le_compat_r; [|exact Z0]. apply mul_le_left; lra. }
    lra.
Qed.
Lemma close_opp f ts qs : Forall2 (close f) ts qs -> Forall finite ts -> Forall2 (close f) (map SFopp ts) (map Qopp qs).
Proof.
  induction 1 as [|a q0 ts qs H _ IH]; intros FT; [constructor|].
  apply Forall_cons_iff in FT. destruct FT as [Fa FT]. cbn [map]. constructor; [|apply IH, FT].
  unfold close in *. rewrite Qabs_opp. rewrite (val_of _ _ (opp_value _ _ (finite_val a Fa))).
  assert (X : (Qabs (- fl_val a - - q0) == Qabs (fl_val a - q0))%Q) by (rewrite <- Qabs_opp; apply Qabs_wd; ring).
  rewrite X. exact H.
Qed.
(** adding or subtracting a product: the coefficient there counts as well *)
Lemma c85_add_sub_mul : forall (f : fmt) (p : profile) (n : N) (self x y : dvec spec_float) (s l r t : N),
  let m := N.min t (l + r) in let so := fl_ops f in
  let A w := fl_val (wcoef so n x w) in let B w := fl_val (wcoef so n y w) in let C w := fl_val (wcoef so n self w) in
  f = f32 \/ f = f64 ->
  2 <= n -> has_degree n self s -> has_degree n x l -> has_degree n y r ->
  n ^ (s + 1) < 2 ^ 64 -> n ^ (l + 1) < 2 ^ 64 -> n ^ (r + 1) < 2 ^ 64 -> n ^ (m + 1) < 2 ^ 64 ->
  s < m \/ stored_to n self m -> stored_to n x (N.min m l) -> stored_to n y (N.min m r) ->
  (forall w, word_ok n w -> is_float f (wcoef so n x w) /\ is_float f (wcoef so n y w)) ->
  (forall w, word_ok n w -> is_float f (wcoef so n self w)) ->
  exists z d, alg_add_mul so p n self x y (Some t) = Ret z /\ alg_sub_mul so p n self x y (Some t) = Ret d
    /\ forall w, word_ok n w ->
       let k := (Z.of_N (len w) + 1)%Z in let u := unit_roundoff f in let g := ((1 + u) ^ k)%Q in
       let bound := ((g - 1) * Qabs (C w) + ((1 + u) * g - 1) * qsize A B w + inject_Z k * g * half_smallest f)%Q in
       if len w <=? m then
         (forall c, has_value (wcoef so n z w) c -> (Qabs (c - (C w + qconv A B w)) <= bound)%Q)
         /\ (forall c, has_value (wcoef so n d w) c -> (Qabs (c - (C w - qconv A B w)) <= bound)%Q)
       else wcoef so n z w = wcoef so n self w /\ wcoef so n d w = wcoef so n self w.
Proof.
  intros f p n self x y s l r t m so A B C Hf Hn Hs Hl Hr Ps Pl Pr Pm Ss Sx Sy V Vs.
  destruct (c29_add_mul _ _ so p n self x y s l r t Hn Hs Hl Hr Ps Pl Pr Pm Ss Sx Sy) as (z & E & _ & W).
  destruct (c29_sub_mul _ _ so p n self x y s l r t Hn Hs Hl Hr Ps Pl Pr Pm Ss Sx Sy) as (d & E' & _ & W').
  exists z, d. split; [exact E|]. split; [exact E'|]. intros w Hw k u g bound. fold m in W, W'. rewrite (W w Hw), (W' w Hw).
  destruct (len w <=? m) eqn:Em; [|split; reflexivity].
  pose proof (good f Hf) as G.
  pose proof (terms_float f Hf n Hn x y l r V w Hw) as TF. fold so in TF.
  pose proof (terms_sum f n Hn x y l r Hl Hr w Hw) as TS. fold so A B in TS.
  pose proof (terms_size f n Hn x y l r Hl Hr w Hw) as TZ. fold so A B in TZ.
  pose proof (terms_len f n x y l r w) as TL. fold so in TL.
  pose proof (terms_close f Hf n x y l r V w Hw) as TC. fold so A B in TC.
  set (ts := terms so l r (wcoef so n x) (wcoef so n y) w) in *.
  assert (Eg : g = grow f (Datatypes.S (length w))) by (subst g k; unfold grow; rewrite len_Z; reflexivity).
  assert (Ek : k = Z.of_nat (Datatypes.S (length w))) by (subst k; symmetry; apply len_Z).
  pose proof (qsize_nonneg f n x y w) as Z0. fold so A B in Z0.
  pose proof (grow_le f _ _ TL) as GL. pose proof (grow_count f _ _ TL) as GC. rewrite <- Eg in GL, GC. rewrite <- Ek in GC.
  pose proof (u_pos f) as U. fold u in U.
  assert (Bd : forall q, (q <= (grow f (length ts) - 1) * Qabs (C w) + (grow f (Datatypes.S (length ts)) - 1) * qsize A B w
    + inject_Z (Z.of_nat (length ts)) * grow f (length ts) * half_smallest f)%Q -> (q <= bound)%Q).
  { intros q0 H. eapply Qle_trans; [exact H|]. subst bound. rewrite grow_S. fold u.
    apply Qplus_le_compat; [|exact GC]. apply Qplus_le_compat; (apply Qmult_le_compat_r; [|first [exact Z0|apply Qabs_nonneg]]).
    - lra.
    - assert (((1 + u) * grow f (length ts) <= (1 + u) * g)%Q) by (apply mul_le_left; lra). lra. }
  split; intros c Hc; apply Bd.
  - destruct (sum_error f G ts _ c (Vs w Hw) TF Hc) as (_ & FT & _).
    pose proof (fold_close f G ts _ _ c (Vs w Hw) TF (TC FT) Hc) as B0. cbn zeta in B0. rewrite TS, TZ in B0. exact B0.
  - assert (Hc' : has_value (fold_left (SFadd (f_prec f) (f_emax f)) (map SFopp ts) (wcoef so n self w)) c).
    { clear - Hc. revert Hc. generalize (wcoef so n self w). induction ts as [|x0 ts IH]; intros a Hc; [exact Hc|].
      cbn [map fold_left] in *. apply IH. exact Hc. }
    clear Hc.
    assert (OF : forall x0, finite (SFopp x0) -> finite x0).
    { intros x0 (v & w0 & E0 & _). destruct x0; cbn in E0; try discriminate; eexists _, _; split; reflexivity. }
    assert (TF' : Forall (is_float f) (map SFopp ts)).
    { apply Forall_map. eapply Forall_impl; [|exact TF]. intros a Ha. apply opp_valid. exact Ha. }
    destruct (sum_error f G _ _ c (Vs w Hw) TF' Hc') as (_ & FT' & _).
    assert (FT : Forall finite ts) by (apply (proj1 (Forall_map _ _ _)) in FT'; eapply Forall_impl; [|exact FT']; exact OF).
    pose proof (close_opp f _ _ (TC FT) FT) as TC'.
    pose proof (fold_close f G _ _ _ c (Vs w Hw) TF' TC' Hc') as B0. cbn zeta in B0. rewrite !map_length in B0.
    assert (X1 : forall qs, (qsum (map Qopp qs) == - qsum qs)%Q).
    { intros qs. induction qs as [|a qs IH]; [reflexivity|]. cbn [map]. rewrite !qsum_cons, IH. ring. }
    assert (X2 : forall qs, (qsum (map Qabs (map Qopp qs)) == qsum (map Qabs qs))%Q).
    { intros qs. rewrite map_map. apply qsum_ext. intros a. apply Qabs_opp. }
    rewrite X1, X2, TS, TZ in B0. exact B0.
Qed.
(** the square of 1/3 + 1/3·[1] + 1/3·[2] in f32: the coefficient of [1] is inexact, the bound holds *)
Example c85_example :
  let so := fl_ops f32 in let third := s_div so (fl_of_Z f32 1) (fl_of_Z f32 3) in
  let x := dv_from [third; third; third] in
  has_degree 2 x 1 /\ stored_to 2 x 1 /\ (forall w, is_float f32 (wcoef so 2 x w))
  /\ exists z c, alg_multiply so dev 2 x x (Some 2) = Ret z /\ has_value (wcoef so 2 z [1%N]) c
     /\ (0 < Qabs (c - qconv (fun w => fl_val (wcoef so 2 x w)) (fun w => fl_val (wcoef so 2 x w)) [1%N]) < 1 # 100000000)%Q
     /\ (((1 + unit_roundoff f32) ^ 2 - 1) * qsize (fun w => fl_val (wcoef so 2 x w)) (fun w => fl_val (wcoef so 2 x w)) [1%N]
         < 1 # 10000000)%Q.
Proof.
  cbn zeta. split; [right; vm_compute; split; [reflexivity|discriminate]|]. split; [vm_compute; discriminate|]. split.
  - intros w. unfold wcoef, coef. cbn [dv_as_slice dv_from dv_elems]. unfold slice_get.
    destruct (N.to_nat (windex 2 w)) as [|[|[|k]]]; cbn [nth_error]; try (vm_compute; reflexivity).
    destruct k; reflexivity.
  - eexists _, _. split; [vm_compute; reflexivity|]. split; [eexists; split; [vm_compute; reflexivity|apply Qeq_refl]|].
    repeat split; vm_compute; reflexivity.
Qed.

(** * C86 *)
Lemma from_int_value f z : f = f32 \/ f = f64 -> (- 2 ^ 15 <= z < 2 ^ 15)%Z -> has_value (fl_from_int f z) (inject_Z z).
Proof.
  intros Hf Hz. destruct (two_good f Hf) as [G1 G2].
  apply (normalize_int _ _ G1 G2 z 0 z); [|change (2 ^ 0)%Q with 1%Q; ring].
  assert (2 ^ 15 < 2 ^ f_prec f)%Z by (destruct Hf as [-> | ->]; reflexivity). lia.
Qed.
Lemma c86_from_int : forall (f : fmt) (z : Z), f = f32 \/ f = f64 -> (- 2 ^ 15 <= z < 2 ^ 15)%Z ->
  is_float f (fl_from_int f z) /\ has_value (fl_from_int f z) (inject_Z z).
Proof.
  intros f z Hf Hz. split; [|apply from_int_value; assumption].
  destruct (two_good f Hf) as [G1 G2]. apply normalize_valid. lia.
Qed.
Lemma c86_from_rational : forall (f : fmt) (num denom : Z), f = f32 \/ f = f64 ->
  (- 2 ^ 15 <= num < 2 ^ 15)%Z -> (- 2 ^ 15 <= denom < 2 ^ 15)%Z ->
  let r := sc_from_rational (fl_ops f) (fl_from_int f num) (fl_from_int f denom) in
  (denom <> 0 -> rounds_to f (inject_Z num / inject_Z denom) r /\ finite r)%Z
  /\ (denom = 0%Z -> r = if (num =? 0)%Z then S754_nan else S754_infinity (num <? 0)%Z).
Proof.
  intros f num denom Hf Hn Hd r.
  destruct (c86_from_int f num Hf Hn) as [V1 H1]. destruct (c86_from_int f denom Hf Hd) as [V2 H2]. split.
  - intros D.
    assert (D0 : ~ (inject_Z denom == 0)%Q) by (intros X; apply D; apply inject_Z_injective; exact X).
    destruct (c84_operations f _ _ _ _ Hf V1 V2 H1 H2) as (_ & _ & _ & R & _). destruct (R D0) as [R1 _].
    split; [exact R1|]. destruct R1 as (_ & N & _). destruct N as (v & Hv & _); [|exists v; exact Hv].
    eapply Qle_lt_trans with (inject_Z (2 ^ 15)).
    + unfold Qdiv. rewrite Qabs_Qmult, Qabs_Qinv.
      change (Qabs (inject_Z num)) with (inject_Z (Z.abs num)). change (Qabs (inject_Z denom)) with (inject_Z (Z.abs denom)).
      assert (P : (0 < inject_Z (Z.abs denom))%Q) by (change 0%Q with (inject_Z 0); rewrite <- Zlt_Qlt; lia).
      apply Qle_shift_div_r; [exact P|]. rewrite <- inject_Z_mult, <- Zle_Qle. nia.
    + unfold fl_limit. destruct Hf as [-> | ->]; vm_compute; reflexivity.
  - intros ->. change (fl_from_int f 0) with (S754_zero false) in r. subst r. unfold sc_from_rational.
    rewrite (c84_division_by_zero f _ false _ Hf H1).
    destruct (Z.eqb_spec num 0) as [->|N0]; [reflexivity|].
    destruct (Z.ltb_spec num 0) as [L|L].
    + assert (X : (inject_Z num < 0)%Q) by (change 0%Q with (inject_Z 0); rewrite <- Zlt_Qlt; exact L).
      rewrite (proj1 (Qlt_alt _ _) X). reflexivity.
    + assert (X : (0 < inject_Z num)%Q) by (change 0%Q with (inject_Z 0); rewrite <- Zlt_Qlt; lia).
      rewrite (proj1 (Qgt_alt _ _) X). reflexivity.
Qed.
(** exactly when the quotient is a float, in particular for integer quotients *)
Lemma c86_exact : forall (f : fmt) (num denom : Z) (x : spec_float), f = f32 \/ f = f64 ->
  (- 2 ^ 15 <= num < 2 ^ 15)%Z -> (- 2 ^ 15 <= denom < 2 ^ 15)%Z -> denom <> 0%Z ->
  is_float f x -> has_value x (inject_Z num / inject_Z denom) ->
  has_value (sc_from_rational (fl_ops f) (fl_from_int f num) (fl_from_int f denom)) (inject_Z num / inject_Z denom).
Proof.
  intros f num denom x Hf Hn Hd D Vx Hx. destruct (c86_from_rational f num denom Hf Hn Hd) as [R _].
  destruct (R D) as [R1 _]. destruct (two_good f Hf) as [G _].
  destruct (rounded_exact f G x _ Vx Hx) as [R2 _].
  destruct (c84_rounding_unique f _ _ _ Hf R1 R2) as [E|(v & Y1 & Y2)].
  - rewrite E. exact Hx.
  - apply (has_value_compat _ v); [|exact Y1]. exact (has_value_fun _ _ _ Y2 Hx).
Qed.
Example c86_example :
  let r a b := sc_from_rational (fl_ops f32) (fl_from_int f32 a) (fl_from_int f32 b) in
  has_value (r (-3) 4)%Z (-3 # 4) /\ r 1%Z 3%Z = S754_finite false 11184811 (-25)
  /\ r 7%Z 0%Z = S754_infinity false /\ r (-7)%Z 0%Z = S754_infinity true /\ r 0%Z 0%Z = S754_nan
  /\ r 0%Z (-5)%Z = S754_zero true.
Proof. cbn zeta. split; [eexists; split; vm_compute; reflexivity|]. repeat split; vm_compute; reflexivity. Qed.
