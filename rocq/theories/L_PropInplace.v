(** Property lemmas C35, C36 and C63 (restated as theorems in P_Inplace.v). *)
From Coq Require Import QArith Qcanon.
From Verif Require Import Machine MachineLemmas S_Words L_Words M_TensorKey L_TensorKey M_TensorBasis
  L_TensorBasis M_Scalar M_Vector M_Dense S_Vector S_Tensor I_Scalars L_Dense L_Ring L_PropKey L_PropDense
  M_Algebra L_Algebra L_Conv L_PropAlgebra L_PropProducts L_Inplace.
Local Open Scope N_scope.

(** * C63: what the in-place products do, for any scalar type and any function applied to the terms *)
(** truncation degree 0, or two operands of degree 0: nothing happens *)
Lemma c63_degree_zero : forall (S R : Type) (so : scalar_ops S R) (p : profile) (n t l r : N) (func : S -> S)
    (x y : dvec S),
  let m := N.min t (l + r) in
  2 <= n -> filled n x l -> filled n y r ->
  n ^ (l + 1) < 2 ^ 64 -> n ^ (r + 1) < 2 ^ 64 -> n ^ (m + 1) < 2 ^ 64 ->
  m = 0 -> multiply_into_impl so p n x y func (Some t) = Ret x.
Proof. intros S R so p n t l r func x y m Hn Hx Hy Pl Pr Pm Hm. apply (run_zero_degree so p n Hn func x y l r t); assumption. Qed.
(** the right operand is a multiple [c] of the unit *)
Lemma c63_scalar : forall (S R : Type) (so : scalar_ops S R) (p : profile) (n t l : N) (func : S -> S)
    (x y : dvec S),
  let m := N.min t l in let c := coef so y 0 in
  let run := multiply_into_impl so p n x y func (Some t) in
  2 <= n -> filled n x l -> filled n y 0 -> n ^ (l + 1) < 2 ^ 64 -> 1 <= m ->
  (s_eqb so c (s_zero so) = true -> run = UB)
  /\ (s_eqb so c (s_zero so) = false -> s_eqb so c (s_one so) = true -> run = Ret x)
  /\ (s_eqb so c (s_zero so) = false -> s_eqb so c (s_one so) = false ->
      exists z, run = Ret z /\ filled n z l
        /\ forall w, word_ok n w -> wcoef so n z w =
             if (1 <=? len w) && (len w <=? m) then func (s_mul so (wcoef so n x w) c) else wcoef so n x w).
Proof.
  intros S R so p n t l func x y m c run Hn Hx Hy Pl Hm.
  assert (P0 : n ^ (0 + 1) < 2 ^ 64) by (apply (pow_1_fits n l); assumption).
  assert (Em : N.min t (l + 0) = m) by (unfold m; lia).
  assert (Pm : n ^ (N.min t (l + 0) + 1) < 2 ^ 64) by (apply (pow_fits n Hn _ (l + 1)); [lia|exact Pl]).
  split; [|split].
  - intros H0. apply (run_c0 so p n Hn func x y l 0 t); try assumption; lia.
  - intros H0 H1. apply (run_c1_unit so p n Hn func x y l 0 t); assumption || reflexivity.
  - intros H0 H1. destruct (run_scalar so p n Hn func x y l 0 t) as (z & E & Hz & Gz); try assumption; [reflexivity|].
    exists z. split; [exact E|]. split; [unfold filled; rewrite Hz; exact Hx|].
    intros w Hw. unfold wcoef. rewrite Gz, Em.
    pose proof (below_iff n w (Datatypes.S (N.to_nat m)) ltac:(lia) Hw) as B.
    pose proof (below_iff n w 1 ltac:(lia) Hw) as B1. cbn [count_below] in B1. rewrite N.pow_0_r in B1.
    destruct (N.leb_spec 1 (windex n w)), (N.ltb_spec (windex n w) (count_below n (Datatypes.S (N.to_nat m)))),
      (N.leb_spec 1 (len w)), (N.leb_spec (len w) m); unfold len in *; cbn [andb]; reflexivity || lia.
Qed.
(** the right operand has degree 1: with overflow checks the product returns only in two cases *)
Lemma c63_degree_one : forall (S R : Type) (so : scalar_ops S R) (p : profile) (n t l : N) (func : S -> S)
    (x y : dvec S),
  let m := N.min t (l + 1) in let c := coef so y 0 in
  let run := multiply_into_impl so p n x y func (Some t) in
  overflow_checks p = true ->
  2 <= n -> filled n x l -> filled n y 1 -> n ^ (l + 1) < 2 ^ 64 -> n ^ (m + 1) < 2 ^ 64 -> n ^ 2 < 2 ^ 64 -> 1 <= m ->
  (s_eqb so c (s_zero so) = true \/ s_eqb so c (s_one so) = true -> run = UB)
  /\ (s_eqb so c (s_zero so) = false -> s_eqb so c (s_one so) = false ->
      (l = 0 -> run = Panic)
      /\ (1 <= l -> ~ (l = 1 /\ m = 2) -> ~ (2 <= l /\ m = 1) -> run = UB)
      /\ (l = 1 -> m = 2 -> exists z, run = Ret z /\ filled n z 2
            /\ forall i, coef so z i =
                 let v := if i =? 0 then coef so x 0
                          else if i <=? n then func (s_mul so (coef so x i) c)
                          else if i <=? n + n * n
                          then fold_left (fun a b => func (s_mul so a b)) (degree_block n y 1) (s_zero so)
                          else s_zero so in
                 if (2 <=? i) && (i <=? n + 1)
                 then s_add so v (func (s_mul so (coef so x 0) (coef so y (i - 1)))) else v)
      /\ (2 <= l -> m = 1 -> exists z, run = Ret z /\ filled n z l
            /\ forall i, coef so z i =
                 let v := if (1 <=? i) && (i <=? n) then func (s_mul so (coef so x i) c) else coef so x i in
                 if (2 <=? i) && (i <=? n + 1)
                 then s_add so v (func (s_mul so (coef so x 0) (coef so y (i - 1)))) else v)).
Proof.
  intros S R so p n t l func x y m c run Hp Hn Hx Hy Pl Pm P2 Hm. split.
  - intros [H|H].
    + apply (run_c0 so p n Hn func x y l 1 t); try assumption; fold m; lia.
    + destruct (s_eqb so c (s_zero so)) eqn:H0.
      * apply (run_c0 so p n Hn func x y l 1 t); try assumption; fold m; lia.
      * apply (run_c1 so p n Hn func x y l 1 t); try assumption; fold m; lia.
  - intros H0 H1. split; [|split; [|split]].
    + intros Hl. apply (run_panic so p n Hn func x y l 1 t); try assumption; reflexivity.
    + intros Hl N1 N2. apply (run_1_UB so p n Hn func x y l 1 t); try assumption; reflexivity.
    + intros Hl Hm2. apply (run_1_grown so p n Hn func x y l 1 t); try assumption; reflexivity.
    + intros Hl Hm1. apply (run_1_kept so p n Hn func x y l 1 t); try assumption; reflexivity.
Qed.
Lemma c63_degree_two_and_more : forall (S R : Type) (so : scalar_ops S R) (p : profile) (n t l r : N) (func : S -> S)
    (x y : dvec S),
  let m := N.min t (l + r) in
  overflow_checks p = true ->
  2 <= n -> filled n x l -> filled n y r -> n ^ (l + 1) < 2 ^ 64 -> n ^ (r + 1) < 2 ^ 64 -> n ^ (m + 1) < 2 ^ 64 ->
  1 <= m -> 2 <= r -> ~ returns (multiply_into_impl so p n x y func (Some t)).
Proof.
  intros S R so p n t l r func x y m Hp Hn Hx Hy Pl Pr Pm Hm Hr.
  apply (run_high so p n Hn func x y l r t); assumption.
Qed.
Example c63_example :
  let x := dv_from (map q [1; 2; 3]%Z) in let y := dv_from (map q [5; 7; 11]%Z) in
  let run x y t := z <- multiply_into_impl qc_ops dev 2 x y (fun v => v) (Some t) ;; Ret (vals z) in
  run x y 2 = Ret (qz [1; 10; 22; 11; 0; 0; 0]%Z)          (* l = 1, r = 1, m = 2 *)
  /\ run x y 1 = UB                                         (* l = 1, r = 1, m = 1 *)
  /\ run (dv_from (map q [1; 2; 3; 1; 1; 1; 1]%Z)) y 1 = Ret (qz [1; 10; 22; 12; 1; 1; 1]%Z)
  /\ run (dv_from [q 2]) y 1 = Panic
  /\ run x (dv_from (map q [1; 7; 11]%Z)) 2 = UB
  /\ run x (dv_from [q 4]) 1 = Ret (qz [1; 8; 12]%Z)
  /\ run x (dv_from (map q [2; 3; 1; 1; 1; 1; 1]%Z)) 2 = UB
  /\ run x (dv_from (map q [2; 3; 1; 1; 1; 1; 1]%Z)) 1 = Panic.
Proof. repeat split; vm_compute; reflexivity. Qed.

(** * C35 *)
(** x = 1 + 2[1] + 3[2], y = 5: the product is 5 + 10[1] + 15[2], in every build *)
Lemma c35_inplace_refuted : exists (x y : dvec Qc), filled 2 x 1 /\ filled 2 y 0
  /\ forall p, (z <- alg_multiply qc_ops p 2 x y (Some 1) ;; Ret (vals z)) = Ret (qz [5; 10; 15]%Z)
     /\ (z <- alg_multiply_inplace qc_ops p 2 x y (Some 1) ;; Ret (vals z)) = Ret (qz [1; 10; 15]%Z).
Proof.
  exists (dv_from (map q [1; 2; 3]%Z)), (dv_from [q 5]). split; [reflexivity|]. split; [reflexivity|].
  intros [[] []]; split; vm_compute; reflexivity.
Qed.
(** with overflow checks, whenever it returns the empty word's coefficient has not been multiplied *)
Lemma c35_empty_word : forall (S R : Type) (so : scalar_ops S R) (p : profile) (n t l r : N) (x y z : dvec S),
  let m := N.min t (l + r) in
  overflow_checks p = true ->
  2 <= n -> filled n x l -> filled n y r -> n ^ (l + 1) < 2 ^ 64 -> n ^ (r + 1) < 2 ^ 64 -> n ^ (m + 1) < 2 ^ 64 ->
  alg_multiply_inplace so p n x y (Some t) = Ret z -> wcoef so n z [] = wcoef so n x [].
Proof.
  intros S R so p n t l r x y z m Hp Hn Hx Hy Pl Pr Pm E. unfold alg_multiply_inplace in E.
  change (coef so z 0 = coef so x 0).
  destruct (N.eq_dec m 0) as [Hm|Hm].
  { rewrite (c63_degree_zero S R so p n t l r) in E by assumption. congruence. }
  destruct (N.eq_dec r 0) as [->|Hr0].
  { unfold m in *. rewrite N.add_0_r in *.
    destruct (c63_scalar S R so p n t l (fun v => v) x y) as (H1 & H2 & H3); try assumption; [lia|].
    destruct (s_eqb so (coef so y 0) (s_zero so)) eqn:E0; [rewrite H1 in E by reflexivity; discriminate|].
    destruct (s_eqb so (coef so y 0) (s_one so)) eqn:E1; [rewrite H2 in E by reflexivity; congruence|].
    destruct (H3 eq_refl eq_refl) as (z' & Ez & _ & Gz). rewrite Ez in E. injection E as <-.
    apply (Gz []). constructor. }
  destruct (N.eq_dec r 1) as [->|Hr1].
  { destruct (c63_degree_one S R so p n t l (fun v => v) x y) as (H1 & H2); try assumption; [fold m; lia|].
    destruct (s_eqb so (coef so y 0) (s_zero so)) eqn:E0; [rewrite H1 in E by (left; reflexivity); discriminate|].
    destruct (s_eqb so (coef so y 0) (s_one so)) eqn:E1; [rewrite H1 in E by (right; reflexivity); discriminate|].
    destruct (H2 eq_refl eq_refl) as (G1 & G2 & G3 & G4). fold m in G2, G3, G4.
    destruct (N.eq_dec l 0) as [Hl0|Hl0]; [rewrite G1 in E by assumption; discriminate|].
    assert (D : (l = 1 /\ m = 2) \/ (2 <= l /\ m = 1) \/ (~ (l = 1 /\ m = 2) /\ ~ (2 <= l /\ m = 1))) by lia.
    destruct D as [[D1 D2]|[[D1 D2]|[D1 D2]]].
    - destruct (G3 D1 D2) as (z' & Ez & _ & Gz). rewrite Ez in E. injection E as <-. apply (Gz 0).
    - destruct (G4 D1 D2) as (z' & Ez & _ & Gz). rewrite Ez in E. injection E as <-. apply (Gz 0).
    - rewrite (G2 ltac:(lia) D1 D2) in E. discriminate. }
  exfalso. apply (c63_degree_two_and_more S R so p n t l r (fun v => v) x y Hp Hn Hx Hy Pl Pr Pm); try lia.
  exists z. exact E.
Qed.
(** what remains true: multiplying by a multiple of the unit, if the factor is 1 or x has no constant term *)
Lemma c35_scalar_partial : forall (S R : Type) (so : scalar_ops S R) (p : profile) (n t l : N) (x y : dvec S),
  ring_laws so -> 2 <= n -> filled n x l -> filled n y 0 -> n ^ (l + 1) < 2 ^ 64 -> 1 <= l <= t ->
  coef so y 0 <> s_zero so -> coef so y 0 = s_one so \/ wcoef so n x [] = s_zero so ->
  exists z z', alg_multiply_inplace so p n x y (Some t) = Ret z /\ alg_multiply so p n x y (Some t) = Ret z'
    /\ dv_elems z = dv_elems z'.
Proof.
  intros S R so p n t l x y L Hn Hx Hy Pl Hl H0 H1.
  assert (P0 : n ^ (0 + 1) < 2 ^ 64) by (apply (pow_1_fits n l); assumption).
  assert (Em : N.min t (l + 0) = l) by lia.
  destruct (multiply_conv so L p n Hn x y l 0 t Hx Hy ltac:(lia) Pl P0) as (e & E & He & We); [rewrite Em; exact Pl|].
  rewrite Em in He.
  assert (C : forall w, word_ok n w -> wcoef so n (dv_from e) w = s_mul so (wcoef so n x w) (coef so y 0)).
  { intros w Hw. rewrite (We w Hw). unfold tconv. destruct (N.leb_spec (len w) t) as [Ht|Ht].
    - rewrite (conv_ext so (wcoef so n x) (wcoef so n x) (wcoef so n y) (fun u => s_mul so (coef so y 0) (unit_fun so u))).
      + rewrite conv_scal_r by exact L. rewrite conv_unit_r by exact L. apply (l_mul_comm so L).
      + reflexivity.
      + intros u v Euv. destruct v as [|a v].
        * change (wcoef so n y []) with (coef so y 0). cbn [unit_fun]. symmetry. apply (r_mul_1_r so L).
        * cbn [unit_fun]. rewrite (r_mul_0_r so L). apply (wcoef_beyond so n Hn y 0).
          -- apply filled_degree; assumption.
          -- rewrite Euv in Hw. apply word_ok_app in Hw. apply Hw.
          -- rewrite len_cons. lia.
    - symmetry. rewrite (wcoef_beyond so n Hn x l w (filled_degree n Hn x l Hx) Hw ltac:(lia)). apply (r_mul_0_l so L). }
  assert (Z0 : s_eqb so (coef so y 0) (s_zero so) = false).
  { destruct (s_eqb so (coef so y 0) (s_zero so)) eqn:Z; [|reflexivity]. apply (l_eqb so L) in Z. contradiction. }
  destruct (c63_scalar S R so p n t l (fun v => v) x y Hn Hx Hy Pl ltac:(lia)) as (_ & G1 & G2).
  assert (X : forall z, dv_size z = dv_size x -> (forall w, word_ok n w -> wcoef so n z w = wcoef so n (dv_from e) w) ->
    dv_elems z = e).
  { intros z Hz Hw. apply (wcoef_ext so n Hn).
    - unfold filled, dv_size in *. congruence.
    - intros w Hwo _. exact (Hw w Hwo). }
  destruct (s_eqb so (coef so y 0) (s_one so)) eqn:Z1.
  - exists x, (dv_from e). split; [apply G1; assumption || reflexivity|]. split; [exact E|]. apply X; [reflexivity|].
    intros w Hw. rewrite (C w Hw). apply (l_eqb so L) in Z1. rewrite Z1. symmetry. apply (r_mul_1_r so L).
  - destruct (G2 Z0 eq_refl) as (z & Ez & Fz & Gz). exists z, (dv_from e). split; [exact Ez|]. split; [exact E|].
    apply X; [unfold filled in Fz; rewrite Fz; symmetry; exact Hx|].
    intros w Hw. rewrite (Gz w Hw), (C w Hw). replace (N.min t l) with l by lia.
    destruct H1 as [H1|H1]; [exfalso; apply (l_eqb so L) in H1; rewrite H1 in Z1; discriminate|].
    destruct w as [|a w].
    + change ((1 <=? len (@nil N)) && (len (@nil N) <=? l)) with false. cbv iota. rewrite H1. symmetry. apply (r_mul_0_l so L).
    + rewrite len_cons. destruct (N.leb_spec 1 (len w + 1)); [|lia]. cbn [andb].
      destruct (N.leb_spec (len w + 1) l) as [|Hlt]; [reflexivity|].
      rewrite (wcoef_beyond so n Hn x l (a :: w) (filled_degree n Hn x l Hx) Hw ltac:(rewrite len_cons; lia)).
      symmetry. apply (r_mul_0_l so L).
Qed.
Example c35_example : let x := dv_from (map q [0; 2; 3]%Z) in let y := dv_from [q 5] in
  (z <- alg_multiply_inplace qc_ops dev 2 x y (Some 1) ;; Ret (vals z)) = Ret (qz [0; 10; 15]%Z)
  /\ (z <- alg_multiply qc_ops dev 2 x y (Some 1) ;; Ret (vals z)) = Ret (qz [0; 10; 15]%Z)
  /\ filled 2 x 1 /\ filled 2 y 0.
Proof. repeat split; vm_compute; reflexivity. Qed.

(** * C36 *)
(** x·1 scaled by 2 is not scaled at all; x·5 "divided" by 2 is multiplied by 2 *)
Lemma c36_scaled_refuted : exists (x : dvec Qc), filled 2 x 1 /\ forall p,
  (z <- alg_mul_scal_lprod qc_ops p 2 x (dv_from [q 1]) (q 2) (Some 1) ;; Ret (vals z)) = Ret (qz [0; 2; 3]%Z)
  /\ (z <- alg_mul_scal_rprod qc_ops p 2 x (dv_from [q 1]) (q 2) (Some 1) ;; Ret (vals z)) = Ret (qz [0; 2; 3]%Z)
  /\ (z <- alg_mul_rat_ldiv qc_ops p 2 x (dv_from [q 1]) (q 2) (Some 1) ;; Ret (vals z)) = Ret (qz [0; 2; 3]%Z)
  /\ (z <- alg_mul_rat_ldiv qc_ops p 2 x (dv_from [q 4]) (q 2) (Some 1) ;; Ret (vals z)) = Ret (qz [0; 4; 6]%Z)
  /\ (z <- alg_mul_rat_rdiv qc_ops p 2 x (dv_from [q 4]) (q 2) (Some 1) ;; Ret (vals z)) = Ret (qz [0; 16; 24]%Z).
Proof.
  exists (dv_from (map q [0; 2; 3]%Z)). split; [reflexivity|]. intros [[] []]; repeat split; vm_compute; reflexivity.
Qed.
(** a right operand equal to the unit switches the scaling off, whatever the scalar *)
Lemma c36_unit_not_scaled : forall (S R : Type) (so : scalar_ops S R) (p : profile) (n t l : N) (x y : dvec S) (s : S) (r : R),
  2 <= n -> filled n x l -> filled n y 0 -> n ^ (l + 1) < 2 ^ 64 -> 1 <= N.min t l ->
  s_eqb so (coef so y 0) (s_zero so) = false -> s_eqb so (coef so y 0) (s_one so) = true ->
  alg_mul_scal_lprod so p n x y s (Some t) = Ret x /\ alg_mul_scal_rprod so p n x y s (Some t) = Ret x
  /\ alg_mul_rat_ldiv so p n x y r (Some t) = Ret x /\ alg_mul_rat_rdiv so p n x y s (Some t) = Ret x.
Proof.
  intros S R so p n t l x y s r Hn Hx Hy Pl Hm H0 H1.
  assert (G : forall func, multiply_into_impl so p n x y func (Some t) = Ret x).
  { intros func. destruct (c63_scalar S R so p n t l func x y Hn Hx Hy Pl Hm) as (_ & G & _). apply G; assumption. }
  repeat split; apply G.
Qed.
(** with any other multiple c of the unit (c <> 0), the coefficients of the words of length 1..t are scaled products;
    mul_rat_rdiv multiplies *)
Lemma c36_scaled_partial : forall (S R : Type) (so : scalar_ops S R) (p : profile) (n t l : N) (x y : dvec S) (s : S) (r : R),
  let m := N.min t l in let c := coef so y 0 in
  let scaled (run : outcome (dvec S)) f := exists z, run = Ret z /\ filled n z l
    /\ forall w, word_ok n w -> wcoef so n z w =
         if (1 <=? len w) && (len w <=? m) then f (s_mul so (wcoef so n x w) c) else wcoef so n x w in
  2 <= n -> filled n x l -> filled n y 0 -> n ^ (l + 1) < 2 ^ 64 -> 1 <= m ->
  s_eqb so c (s_zero so) = false -> s_eqb so c (s_one so) = false ->
  scaled (alg_mul_scal_lprod so p n x y s (Some t)) (fun v => s_mul so s v)
  /\ scaled (alg_mul_scal_rprod so p n x y s (Some t)) (fun v => s_mul so v s)
  /\ scaled (alg_mul_rat_ldiv so p n x y r (Some t)) (fun v => s_div so v r)
  /\ scaled (alg_mul_rat_rdiv so p n x y s (Some t)) (fun v => s_mul so v s).
Proof.
  intros S R so p n t l x y s r m c scaled Hn Hx Hy Pl Hm H0 H1.
  assert (G : forall func, scaled (multiply_into_impl so p n x y func (Some t)) func).
  { intros func. destruct (c63_scalar S R so p n t l func x y Hn Hx Hy Pl Hm) as (_ & _ & G). apply G; assumption. }
  repeat split; apply G.
Qed.
Example c36_example : let x := dv_from (map q [1; 2; 3]%Z) in
  (z <- alg_mul_scal_lprod qc_ops dev 2 x (dv_from [q 5]) (q 2) (Some 1) ;; Ret (vals z)) = Ret (qz [1; 20; 30]%Z)
  /\ (z <- alg_mul_scal_rprod qc_ops release 2 x (dv_from [q 5]) (q 2) (Some 1) ;; Ret (vals z)) = Ret (qz [1; 20; 30]%Z).
Proof. split; vm_compute; reflexivity. Qed.
