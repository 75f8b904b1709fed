(** Property lemmas C82 and C83 (restated as theorems in P_Wrap.v). *)
From Coq Require Import QArith Qcanon.
From Verif Require Import Machine MachineLemmas S_Words L_Words M_TensorKey L_TensorKey M_TensorBasis
  L_TensorBasis M_Scalar M_Vector M_Dense S_Vector S_Tensor I_Scalars L_Dense L_Ring L_PropKey L_PropDense
  M_Algebra L_Algebra L_Conv L_PropAlgebra L_PropProducts L_Inplace L_PropInplace L_InplaceWrap
  M_FreeTensor L_FreeTensor.
Local Open Scope N_scope.

(** * C82: the in-place products by a tensor of degree r >= 1, in every build *)
(** the result is cut below the degree of the right operand *)
Lemma c82_cut_below : forall (S R : Type) (so : scalar_ops S R) (p : profile) (n t l r : N) (func : S -> S) (x y : dvec S),
  let m := N.min t (l + r) in let c := coef so y 0 in
  let run := multiply_into_impl so p n x y func (Some t) in
  2 <= n -> filled n x l -> filled n y r -> n ^ (l + 1) < 2 ^ 64 -> n ^ (r + 1) < 2 ^ 64 -> n ^ (m + 1) < 2 ^ 64 ->
  1 <= m -> m < r ->
  (overflow_checks p = true -> run = Panic)
  /\ (overflow_checks p = false -> s_eqb so c (s_zero so) = true -> run = UB)
  /\ (overflow_checks p = false -> s_eqb so c (s_zero so) = false -> s_eqb so c (s_one so) = true ->
      exists z, run = Ret z /\ filled n z (N.max l m) /\ forall i, coef so z i = coef so x i)
  /\ (overflow_checks p = false -> s_eqb so c (s_zero so) = false -> s_eqb so c (s_one so) = false ->
      (l = 0 -> n ^ (m + 2) < 2 ^ 64 -> run = UB)
      /\ (1 <= l -> exists z, run = Ret z /\ filled n z (N.max l m)
            /\ forall w, word_ok n w -> wcoef so n z w =
                 if (1 <=? len w) && (len w <=? m)
                 then fold_left (fun a b => func (s_mul so a b)) (degree_block n y (len w - l)) (wcoef so n x w)
                 else wcoef so n x w)).
Proof.
  intros S R so p n t l r func x y m c run Hn Hx Hy Pl Pr Pm Hm Hmr. split; [|split; [|split]].
  - intros Hp. apply (wrap_checked so p n Hn func x y l r t); assumption.
  - intros Hp H0. apply (wrap_zero so p n Hn func x y l r t); assumption || lia.
  - intros Hp H0 H1. apply (wrap_one so p n Hn func x y l r t); assumption || lia.
  - intros Hp H0 H1. split.
    + intros Hl P2. apply (low_wrap so p n Hn func x y l r t); assumption || lia.
    + intros Hl. apply (wrap_other so p n Hn func x y l r t); assumption || lia.
Qed.
(** the result reaches the degree of the right operand *)
Lemma c82_reaching : forall (S R : Type) (so : scalar_ops S R) (p : profile) (n t l r : N) (func : S -> S) (x y : dvec S),
  let m := N.min t (l + r) in let c := coef so y 0 in
  let run := multiply_into_impl so p n x y func (Some t) in
  let scanned v d := fold_left (fun a b => func (s_mul so a b)) (degree_block n y d) v in
  2 <= n -> filled n x l -> filled n y r -> n ^ (l + 1) < 2 ^ 64 -> n ^ (r + 1) < 2 ^ 64 -> n ^ (m + 1) < 2 ^ 64 ->
  1 <= r -> r <= m ->
  (s_eqb so c (s_zero so) = true \/ s_eqb so c (s_one so) = true -> run = UB)
  /\ (s_eqb so c (s_zero so) = false -> s_eqb so c (s_one so) = false ->
      (l = 0 -> overflow_checks p = true -> run = Panic)
      /\ (l = 0 -> overflow_checks p = false -> n ^ (m + 2) < 2 ^ 64 -> run = UB)
      /\ (1 <= l -> ~ (l = 1 /\ m = r + 1) -> ~ (r = 1 /\ 2 <= l /\ m = 1) -> run = UB)
      /\ (l = 1 -> m = r + 1 -> 2 <= r -> overflow_checks p = true -> run = Panic)
      /\ (l = 1 -> m = r + 1 -> overflow_checks p = false \/ r = 1 ->
          exists z, run = Ret z /\ filled n z (r + 1)
            /\ forall w, word_ok n w -> wcoef so n z w =
                 let v := if 1 <=? len w then scanned (wcoef so n x w) (len w - 1) else wcoef so n x w in
                 let i := windex n w in
                 if len w <=? r + 1 then
                   if (count_below n (N.to_nat r) <? i) && (i <=? count_below n (N.to_nat (r + 1)))
                   then s_add so v (func (s_mul so (wcoef so n x []) (coef so y (i - 1)))) else v
                 else s_zero so)
      /\ (r = 1 -> 2 <= l -> m = 1 -> exists z, run = Ret z /\ filled n z l
            /\ forall i, coef so z i =
                 let v := if (1 <=? i) && (i <=? n) then func (s_mul so (coef so x i) c) else coef so x i in
                 if (2 <=? i) && (i <=? n + 1)
                 then s_add so v (func (s_mul so (coef so x 0) (coef so y (i - 1)))) else v)).
Proof.
  intros S R so p n t l r func x y m c run scanned Hn Hx Hy Pl Pr Pm Hr Hmr. assert (Hm : 1 <= m) by lia. split.
  - intros [H|H].
    + apply (run_c0 so p n Hn func x y l r t); assumption.
    + destruct (s_eqb so c (s_zero so)) eqn:H0.
      * apply (run_c0 so p n Hn func x y l r t); assumption.
      * apply (run_c1 so p n Hn func x y l r t); assumption.
  - intros H0 H1. repeat apply conj.
    + intros Hl Hp. apply (low_panic so p n Hn func x y l r t); assumption.
    + intros Hl Hp P2. apply (low_wrap so p n Hn func x y l r t); assumption.
    + intros Hl N1 N2. apply (high_UB so p n Hn func x y l r t); assumption.
    + intros Hl Em Hr2 Hp. apply (grown_panic so p n Hn func x y l r t); assumption.
    + intros Hl Em Hp. destruct (grown_ok so p n Hn func x y l r t) as (z & E & Fz & G); try assumption.
      exists z. split; [exact E|]. split; [exact Fz|]. intros w Hw. rewrite (G w Hw), Hl, (cbS_as_cb n Hn). reflexivity.
    + intros Hr1 Hl Em. apply (run_1_kept so p n Hn func x y l r t); assumption.
Qed.
(** in every build: if the product returns, the coefficient of the empty word is that of x *)
Lemma c82_empty_word : forall (S R : Type) (so : scalar_ops S R) (p : profile) (n t l r : N) (func : S -> S) (x y z : dvec S),
  let m := N.min t (l + r) in
  2 <= n -> filled n x l -> filled n y r -> n ^ (l + 1) < 2 ^ 64 -> n ^ (r + 1) < 2 ^ 64 -> n ^ (m + 2) < 2 ^ 64 ->
  multiply_into_impl so p n x y func (Some t) = Ret z -> wcoef so n z [] = wcoef so n x [].
Proof.
  intros S R so p n t l r func x y z m Hn Hx Hy Pl Pr P2 E.
  assert (Pm : n ^ (m + 1) < 2 ^ 64) by (apply (pow_fits n Hn _ (m + 2)); [lia|exact P2]).
  change (coef so z 0 = coef so x 0).
  destruct (N.eq_dec m 0) as [Hm|Hm].
  { rewrite (c63_degree_zero S R so p n t l r) in E by assumption. congruence. }
  destruct (N.eq_dec r 0) as [->|Hr0].
  { unfold m in *. rewrite N.add_0_r in *.
    destruct (c63_scalar S R so p n t l func x y) as (H1 & H2 & H3); try assumption; [lia|].
    destruct (s_eqb so (coef so y 0) (s_zero so)) eqn:E0; [rewrite H1 in E by reflexivity; discriminate|].
    destruct (s_eqb so (coef so y 0) (s_one so)) eqn:E1; [rewrite H2 in E by reflexivity; congruence|].
    destruct (H3 eq_refl eq_refl) as (z' & Ez & _ & Gz). rewrite Ez in E. injection E as <-.
    apply (Gz []). constructor. }
  destruct (N.le_gt_cases r m) as [Hrm|Hrm].
  - destruct (c82_reaching S R so p n t l r func x y) as (H1 & H2); try assumption; [lia|]. fold m in H2.
    destruct (s_eqb so (coef so y 0) (s_zero so)) eqn:E0; [rewrite H1 in E by (left; reflexivity); discriminate|].
    destruct (s_eqb so (coef so y 0) (s_one so)) eqn:E1; [rewrite H1 in E by (right; reflexivity); discriminate|].
    destruct (H2 eq_refl eq_refl) as (G1 & G2 & G3 & G4 & G5 & G6).
    destruct (N.eq_dec l 0) as [Hl0|Hl0].
    { destruct (overflow_checks p) eqn:Hp; [rewrite G1 in E by (assumption || reflexivity)|rewrite G2 in E by (assumption || reflexivity)];
        discriminate. }
    assert (D : (l = 1 /\ m = r + 1) \/ (r = 1 /\ 2 <= l /\ m = 1) \/ (~ (l = 1 /\ m = r + 1) /\ ~ (r = 1 /\ 2 <= l /\ m = 1))) by lia.
    destruct D as [[D1 D2]|[(D0 & D1 & D2)|[D1 D2]]].
    + destruct (N.eq_dec r 1) as [Hr1|Hr1]; [|destruct (overflow_checks p) eqn:Hp].
      * destruct (G5 D1 D2 (or_intror Hr1)) as (z' & Ez & _ & Gz). rewrite Ez in E. injection E as <-.
        pose proof (Gz [] ltac:(constructor)) as Ge. unfold wcoef at 1 in Ge. change (windex n []) with 0 in Ge. rewrite Ge.
        change (len (@nil N)) with 0. destruct (N.ltb_spec (count_below n (N.to_nat r)) 0); [lia|].
        destruct (N.leb_spec 0 (r + 1)); [|lia]. reflexivity.
      * rewrite G4 in E by (assumption || lia). discriminate.
      * destruct (G5 D1 D2 (or_introl eq_refl)) as (z' & Ez & _ & Gz). rewrite Ez in E. injection E as <-.
        pose proof (Gz [] ltac:(constructor)) as Ge. unfold wcoef at 1 in Ge. change (windex n []) with 0 in Ge. rewrite Ge.
        change (len (@nil N)) with 0. destruct (N.ltb_spec (count_below n (N.to_nat r)) 0); [lia|].
        destruct (N.leb_spec 0 (r + 1)); [|lia]. reflexivity.
    + destruct (G6 D0 D1 D2) as (z' & Ez & _ & Gz). rewrite Ez in E. injection E as <-. apply (Gz 0).
    + rewrite (G3 ltac:(lia) D1 D2) in E. discriminate.
  - destruct (c82_cut_below S R so p n t l r func x y) as (H1 & H2 & H3 & H4); try assumption; [lia|]. fold m in H4.
    destruct (overflow_checks p) eqn:Hp; [rewrite H1 in E by reflexivity; discriminate|].
    destruct (s_eqb so (coef so y 0) (s_zero so)) eqn:E0; [rewrite H2 in E by reflexivity; discriminate|].
    destruct (s_eqb so (coef so y 0) (s_one so)) eqn:E1.
    + destruct (H3 eq_refl eq_refl eq_refl) as (z' & Ez & _ & Gz). rewrite Ez in E. injection E as <-. apply Gz.
    + destruct (H4 eq_refl eq_refl eq_refl) as (G1 & G2). destruct (N.eq_dec l 0) as [Hl0|Hl0].
      * rewrite G1 in E by assumption. discriminate.
      * destruct (G2 ltac:(lia)) as (z' & Ez & _ & Gz). rewrite Ez in E. injection E as <-. apply (Gz []). constructor.
Qed.
Example c82_example :
  let x := dv_from (map q [1; 2; 3]%Z) in let y a := dv_from (map q [a; 3; 1; 1; 1; 1; 2]%Z) in
  let run p x y t := z <- multiply_into_impl qc_ops p 2 x y (fun v => v) (Some t) ;; Ret (vals z) in
  run release x (y 5%Z) 1 = Ret (qz [1; 10; 15]%Z)     (* cut below: m = 1 < r = 2 *)
  /\ run dev x (y 5%Z) 1 = Panic
  /\ run release x (y 1%Z) 1 = Ret (qz [1; 2; 3]%Z)
  /\ run release x (y 0%Z) 1 = UB
  /\ multiply_into_impl qc_ops release 2 (dv_from [q 1]) (y 5%Z) (fun v => v) (Some 1) = UB  (* l = 0 *)
  /\ multiply_into_impl qc_ops release 2 (dv_from [q 1]) (y 5%Z) (fun v => v) (Some 2) = UB
  /\ run dev (dv_from [q 1]) (y 5%Z) 2 = Panic
  /\ run release x (y 5%Z) 3 = Ret (qz [1; 10; 15; 0; 1; 1; 1; 2; 0; 0; 0; 0; 0; 0; 0]%Z)  (* l = 1, m = r + 1 *)
  /\ run dev x (y 5%Z) 3 = Panic
  /\ run release x (y 5%Z) 2 = UB /\ run dev x (y 5%Z) 2 = UB.
Proof.
  intros x y run.
  assert (A : multiply_into_impl qc_ops release 2 (dv_from [q 1]) (y 5%Z) (fun v => v) (Some 1) = UB).
  { destruct (c82_cut_below _ _ qc_ops release 2 1 0 2 (fun v => v) (dv_from [q 1]) (y 5%Z)) as (_ & _ & _ & H);
      [first [reflexivity|discriminate]..|]. destruct H as [H _]; [reflexivity..|]. apply H; reflexivity. }
  assert (B : multiply_into_impl qc_ops release 2 (dv_from [q 1]) (y 5%Z) (fun v => v) (Some 2) = UB).
  { destruct (c82_reaching _ _ qc_ops release 2 2 0 2 (fun v => v) (dv_from [q 1]) (y 5%Z)) as (_ & H);
      [first [reflexivity|discriminate]..|]. destruct H as (_ & H & _); [reflexivity..|]. apply H; reflexivity. }
  repeat apply conj; [| | | |exact A|exact B|..]; clear A B; vm_compute; reflexivity.
Qed.

(** * C83: exp and fmexp of tensors of degree >= 1, in every build *)
Section Exp.
  Context {S R : Type} (so : scalar_ops S R) (p : profile) (n : N) (Hn : 2 <= n < 2 ^ 32).
  Notation vo := (dense_ops so (tensor_basis p n)).
  Notation step x md := (fun r i =>
    r1 <- alg_mul_rat_rdiv so p n r x (s_from_degree so i) (Some md) ;;
    vr_add_inplace vo r1 (dv_from [s_one so])).
  Lemma exp_first md x : 2 <= md -> ft_exp so p n md x =
    r <- step x md (dv_from [s_one so]) (md - 1) ;; for_each (countdown (md - 1)) (step x md) r.
  Proof.
    intros H. unfold ft_exp, trait_exp. rewrite !from_key_new by exact Hn. cbn [bind].
    replace md with (md - 1 + 1) at 1 by lia. rewrite countdown_cons by lia. reflexivity.
  Qed.
  (** one round with a longer right operand whose leading coefficient is 1 *)
  Lemma exp_round_one md d l x v i : overflow_checks p = false -> 1 <= md -> md < d -> l <= md -> filled n x d -> n ^ (d + 1) < 2 ^ 64 ->
    s_eqb so (coef so x 0) (s_zero so) = false -> s_eqb so (coef so x 0) (s_one so) = true -> filled n v l ->
    exists z, step x md v i = Ret z /\ filled n z md /\ coef so z 0 = s_add so (coef so v 0) (s_one so)
      /\ forall j, 1 <= j -> coef so z j = coef so v j.
  Proof.
    intros Hp Hmd Hd Hl Hx Pd H0 H1 Hv.
    destruct (c82_cut_below S R so p n md l d (fun w => s_mul so w (s_from_degree so i)) v x) as (_ & _ & G & _); try assumption; try lia.
    { apply (pow_fits n (proj1 Hn) _ (d + 1)); [lia|exact Pd]. }
    { apply (pow_fits n (proj1 Hn) _ (d + 1)); [lia|exact Pd]. }
    destruct (G Hp H0 H1) as (z & E & Fz & Cz). replace (N.max l (N.min md (l + d))) with md in Fz by lia.
    assert (Z0 : exists a e, dv_elems z = a :: e).
    { destruct (dv_elems z) as [|a e] eqn:Ez; [|eauto]. exfalso. unfold filled, dv_size in Fz. rewrite Ez in Fz.
      pose proof (count_below_mono n 1 (Datatypes.S (N.to_nat md)) ltac:(lia)) as M. cbn [count_below] in M.
      rewrite N.pow_0_r in M. change (len (@nil S)) with 0 in Fz. cbn [count_below] in Fz. lia. }
    destruct Z0 as (a & e & Ez).
    exists (after z false (s_add so a (s_one so) :: e)). split; [|split; [|split]].
    - unfold alg_mul_rat_rdiv. rewrite E. cbn [bind]. rewrite add_inplace_vo, Ez.
      assert (B : dv_size z <? dv_size (dv_from [s_one so]) = false).
      { apply N.ltb_ge. unfold dv_size. rewrite Ez, len_cons. cbn [dv_from dv_elems]. change (len [s_one so]) with 1. lia. }
      rewrite B. unfold comb. cbn [dv_from dv_elems]. destruct (N.ltb_spec (len (a :: e)) (len [s_one so])) as [H|_].
      { rewrite len_cons in H. change (len [s_one so]) with 1 in H. lia. }
      destruct e; reflexivity.
    - unfold filled, dv_size in *. cbn [after dv_elems]. rewrite <- Fz, Ez, !len_cons. reflexivity.
    - rewrite <- (Cz 0). unfold coef, dv_as_slice. rewrite Ez. reflexivity.
    - intros j Hj. rewrite <- (Cz j). unfold coef, dv_as_slice. cbn [after dv_elems]. rewrite Ez.
      unfold slice_get. destruct (N.to_nat j) eqn:Ej; [lia|]. reflexivity.
  Qed.
  Lemma exp_rounds_one md d x : overflow_checks p = false -> 1 <= md -> md < d -> filled n x d -> n ^ (d + 1) < 2 ^ 64 ->
    s_eqb so (coef so x 0) (s_zero so) = false -> s_eqb so (coef so x 0) (s_one so) = true ->
    forall is v, filled n v md -> exists z, for_each is (step x md) v = Ret z /\ filled n z md
      /\ coef so z 0 = Nat.iter (length is) (fun a => s_add so a (s_one so)) (coef so v 0)
      /\ forall j, 1 <= j -> coef so z j = coef so v j.
  Proof.
    intros Hp Hmd Hd Hx Pd H0 H1. induction is as [|i is IH]; intros v Hv.
    - exists v. repeat apply conj; try reflexivity; assumption.
    - cbn [for_each].
      destruct (exp_round_one md d md x v i) as (v1 & E1 & F1 & C1 & G1); try assumption; try lia.
      rewrite E1. cbn [bind]. destruct (IH v1 F1) as (z & E & Fz & Cz & Gz). exists z. split; [exact E|]. split; [exact Fz|]. split.
      + rewrite Cz, C1. cbn [length]. apply (iter_shift (fun a => s_add so a (s_one so))).
      + intros j Hj. rewrite (Gz j Hj). apply G1, Hj.
  Qed.
End Exp.
Lemma c83_exp : forall (S R : Type) (so : scalar_ops S R) (p : profile) (n md d : N) (x : dvec S),
  let c := coef so x 0 in
  2 <= n < 2 ^ 32 -> 2 <= md -> 1 <= d -> filled n x d -> n ^ (d + 2) < 2 ^ 64 ->
  (d <= md -> s_eqb so c (s_zero so) = true \/ s_eqb so c (s_one so) = true -> ft_exp so p n md x = UB)
  /\ (d <= md -> s_eqb so c (s_zero so) = false -> s_eqb so c (s_one so) = false ->
      ft_exp so p n md x = if overflow_checks p then Panic else UB)
  /\ (md < d -> overflow_checks p = true -> ft_exp so p n md x = Panic)
  /\ (md < d -> overflow_checks p = false -> s_eqb so c (s_zero so) = true \/ s_eqb so c (s_one so) = false ->
      ft_exp so p n md x = UB)
  /\ (md < d -> overflow_checks p = false -> s_eqb so c (s_zero so) = false -> s_eqb so c (s_one so) = true ->
      exists z, ft_exp so p n md x = Ret z /\ filled n z md
        /\ forall j, coef so z j =
             if j =? 0 then Nat.iter (N.to_nat (md - 1)) (fun a => s_add so a (s_one so)) (s_one so) else s_zero so).
Proof.
  intros S R so p n md d x c Hn Hmd Hd Hx P2. assert (Hn2 : 2 <= n) by lia.
  assert (Pd : n ^ (d + 1) < 2 ^ 64) by (apply (pow_fits n Hn2 _ (d + 2)); [lia|exact P2]).
  assert (U : filled n (dv_from [s_one so]) 0) by reflexivity.
  assert (P0 : n ^ (0 + 1) < 2 ^ 64) by (apply (pow_fits n Hn2 _ (d + 2)); [lia|exact P2]).
  assert (Pm : n ^ (N.min md (0 + d) + 1) < 2 ^ 64) by (apply (pow_fits n Hn2 _ (d + 2)); [lia|exact P2]).
  assert (Pm2 : n ^ (N.min md (0 + d) + 2) < 2 ^ 64) by (apply (pow_fits n Hn2 _ (d + 2)); [lia|exact P2]).
  rewrite (exp_first so p n Hn md x Hmd).
  pose proof (c82_reaching S R so p n md 0 d (fun v => s_mul so v (s_from_degree so (md - 1))) (dv_from [s_one so]) x Hn2 U Hx P0 Pd Pm Hd) as A.
  pose proof (c82_cut_below S R so p n md 0 d (fun v => s_mul so v (s_from_degree so (md - 1))) (dv_from [s_one so]) x Hn2 U Hx P0 Pd Pm) as B.
  fold c in A, B. unfold alg_mul_rat_rdiv at 1 3 5 7. repeat apply conj.
  - intros Hdm H. destruct (A ltac:(lia)) as (A1 & _). rewrite A1 by exact H. reflexivity.
  - intros Hdm H0 H1. destruct (A ltac:(lia)) as (_ & A2). destruct (A2 H0 H1) as (G1 & G2 & _).
    destruct (overflow_checks p) eqn:Hp; [rewrite G1 by reflexivity|rewrite G2 by (reflexivity || exact Pm2)]; reflexivity.
  - intros Hdm Hp. destruct B as (B1 & _); [lia|lia|]. rewrite B1 by exact Hp. reflexivity.
  - intros Hdm Hp H. destruct B as (_ & B2 & _ & B4); [lia|lia|].
    destruct (s_eqb so c (s_zero so)) eqn:H0; [rewrite B2 by (exact Hp || reflexivity); reflexivity|].
    destruct H as [H|H]; [discriminate|]. destruct (B4 Hp eq_refl H) as (G & _). rewrite G by (reflexivity || exact Pm2). reflexivity.
  - intros Hdm Hp H0 H1. clear A B.
    destruct (exp_round_one so p n Hn md d 0 x (dv_from [s_one so]) (md - 1)) as (v & E & Fv & Cv & Gv);
      try assumption; try lia.
    rewrite E. cbn [bind].
    destruct (exp_rounds_one so p n Hn md d x Hp ltac:(lia) Hdm Hx Pd H0 H1 (countdown (md - 1)) v Fv) as (z & Ez & Fz & Cz & Gz).
    exists z. split; [exact Ez|]. split; [exact Fz|]. intros j. destruct (N.eqb_spec j 0) as [->|Hj].
    + rewrite Cz, Cv, countdown_length. change (coef so (dv_from [s_one so]) 0) with (s_one so).
      rewrite (iter_shift (fun a => s_add so a (s_one so))). f_equal. lia.
    + rewrite (Gz j) by lia. rewrite (Gv j) by lia. unfold coef, dv_as_slice, slice_get. cbn [dv_from dv_elems].
      destruct (N.to_nat j) as [|[|k]] eqn:Ej; [lia|reflexivity|reflexivity].
Qed.
Lemma c83_fmexp : forall (S R : Type) (so : scalar_ops S R) (p : profile) (n md l d : N) (x y : dvec S),
  2 <= n < 2 ^ 32 -> s_eqb so (s_zero so) (s_zero so) = true ->
  2 <= md < 2 ^ 32 -> filled n x l -> filled n y d -> 1 <= l + d ->
  n ^ (l + 1) < 2 ^ 64 -> n ^ (d + 1) < 2 ^ 64 -> n ^ (N.min 2 (l + d) + 1) < 2 ^ 64 ->
  ft_fmexp so p n md x y = if overflow_checks p && (3 <=? d) then Panic else UB.
Proof.
  intros S R so p n md l d x y Hn H00 Hmd Hx Hy Hld Pl Pd Pm. assert (Hn2 : 2 <= n) by lia. rewrite fmexp_eq by exact Hn.
  replace md with (md - 1 + 1) at 1 by lia. rewrite countdown_cons by lia. cbn [for_each].
  rewrite usub_ok by lia. cbn [bind]. rewrite uadd_ok by lia. cbn [bind]. replace (md - (md - 1) + 1) with 2 by lia.
  set (y' := dv_from (match dv_elems y with [] => [] | _ :: e0 => s_zero so :: e0 end)).
  assert (F : filled n y' d).
  { unfold filled, dv_size, y' in *. cbn [dv_from dv_elems]. rewrite (cleared_len so). exact Hy. }
  assert (C : coef so y' 0 = s_zero so).
  { unfold coef, dv_as_slice, y'. cbn [dv_from dv_elems]. destruct (dv_elems y); reflexivity. }
  clearbody y'. unfold alg_mul_rat_rdiv at 1.
  destruct (N.leb_spec 3 d) as [Hd|Hd].
  - destruct (c82_cut_below S R so p n 2 l d (fun v => s_mul so v (s_from_degree so (md - 1))) x y' Hn2 Hx F Pl Pd Pm)
      as (B1 & B2 & _); [lia|lia|]. destruct (overflow_checks p) eqn:Hp; cbn [andb].
    + rewrite B1 by reflexivity. reflexivity.
    + rewrite B2 by (reflexivity || rewrite C; exact H00). reflexivity.
  - rewrite andb_false_r.
    rewrite (run_c0 so p n Hn2 _ x y' l d 2 F Hx Pl Pd Pm); [reflexivity|lia|lia|rewrite C; exact H00].
Qed.
Example c83_example :
  let x a := dv_from (map q [a; 3; 1; 1; 1; 1; 2; 0; 0; 0; 0; 0; 0; 0; 1]%Z) in
  let run p md x := z <- ft_exp qc_ops p 2 md x ;; Ret (vals z) in
  filled 2 (x 1%Z) 3
  /\ run release 2 (x 1%Z) = Ret (qz [2; 0; 0; 0; 0; 0; 0]%Z) /\ run dev 2 (x 1%Z) = Panic
  /\ run release 2 (x 0%Z) = UB /\ run release 3 (x 1%Z) = UB
  /\ run dev 3 (x 5%Z) = Panic /\ ft_exp qc_ops release 2 3 (x 5%Z) = UB
  /\ ft_fmexp qc_ops dev 2 4 (x 1%Z) (x 1%Z) = Panic /\ ft_fmexp qc_ops release 2 4 (x 1%Z) (x 1%Z) = UB.
Proof.
  intros x run.
  assert (A : ft_exp qc_ops release 2 3 (x 5%Z) = UB).
  { destruct (c83_exp _ _ qc_ops release 2 3 3 (x 5%Z)) as (_ & H & _);
      [first [reflexivity|discriminate|split; [discriminate|reflexivity]]..|].
    apply H; [discriminate|reflexivity|reflexivity]. }
  repeat apply conj; [| | | | | |exact A|..]; clear A; vm_compute; reflexivity.
Qed.
