(** Property theorems (generated by tools/gen_props.py from L_PropWrap.v, where the proofs are). *)
From Coq Require Import QArith Qcanon.
From Verif Require Import Machine MachineLemmas S_Words L_Words M_TensorKey L_TensorKey M_TensorBasis
  L_TensorBasis M_Scalar M_Vector M_Dense S_Vector S_Tensor I_Scalars L_Dense L_Ring L_PropKey L_PropDense
  M_Algebra L_Algebra L_Conv L_PropAlgebra L_PropProducts L_Inplace L_PropInplace L_InplaceWrap
  M_FreeTensor L_FreeTensor.
From Verif Require Import L_PropWrap.
Local Open Scope N_scope.

(** * C82: The in-place products by a tensor of degree at least 1, in every build *)
Theorem C82_cut_below : forall (S R : Type) (so : scalar_ops S R) (p : profile) (n t l r : N) (func : S -> S) (x y : dvec S),
  let m := N.min t (l + r) in let c := coef so y 0 in
  let run := multiply_into_impl so p n x y func (Some t) in
  2 <= n -> filled n x l -> filled n y r -> n ^ (l + 1) < 2 ^ 64 -> n ^ (r + 1) < 2 ^ 64 -> n ^ (m + 1) < 2 ^ 64 ->
  1 <= m -> m < r ->
  (overflow_checks p = true -> run = Panic)
  /\ (overflow_checks p = false -> s_eqb so c (s_zero so) = true -> run = UB)
  /\ (overflow_checks p = false -> s_eqb so c (s_zero so) = false -> s_eqb so c (s_one so) = true ->
      exists z, run = Ret z /\ filled n z (N.max l m) /\ forall i, coef so z i = coef so x i)
  /\ (overflow_checks p = false -> s_eqb so c (s_zero so) = false -> s_eqb so c (s_one so) = false ->
      (l = 0 -> n ^ (m + 2) < 2 ^ 64 -> run = UB)
      /\ (1 <= l -> exists z, run = Ret z /\ filled n z (N.max l m)
            /\ forall w, word_ok n w -> wcoef so n z w =
                 if (1 <=? len w) && (len w <=? m)
                 then fold_left (fun a b => func (s_mul so a b)) (degree_block n y (len w - l)) (wcoef so n x w)
                 else wcoef so n x w)).
Proof. exact c82_cut_below. Qed.
Print Assumptions C82_cut_below.
Theorem C82_reaching : forall (S R : Type) (so : scalar_ops S R) (p : profile) (n t l r : N) (func : S -> S) (x y : dvec S),
  let m := N.min t (l + r) in let c := coef so y 0 in
  let run := multiply_into_impl so p n x y func (Some t) in
  let scanned v d := fold_left (fun a b => func (s_mul so a b)) (degree_block n y d) v in
  2 <= n -> filled n x l -> filled n y r -> n ^ (l + 1) < 2 ^ 64 -> n ^ (r + 1) < 2 ^ 64 -> n ^ (m + 1) < 2 ^ 64 ->
  1 <= r -> r <= m ->
  (s_eqb so c (s_zero so) = true \/ s_eqb so c (s_one so) = true -> run = UB)
  /\ (s_eqb so c (s_zero so) = false -> s_eqb so c (s_one so) = false ->
      (l = 0 -> overflow_checks p = true -> run = Panic)
      /\ (l = 0 -> overflow_checks p = false -> n ^ (m + 2) < 2 ^ 64 -> run = UB)
      /\ (1 <= l -> ~ (l = 1 /\ m = r + 1) -> ~ (r = 1 /\ 2 <= l /\ m = 1) -> run = UB)
      /\ (l = 1 -> m = r + 1 -> 2 <= r -> overflow_checks p = true -> run = Panic)
      /\ (l = 1 -> m = r + 1 -> overflow_checks p = false \/ r = 1 ->
          exists z, run = Ret z /\ filled n z (r + 1)
            /\ forall w, word_ok n w -> wcoef so n z w =
                 let v := if 1 <=? len w then scanned (wcoef so n x w) (len w - 1) else wcoef so n x w in
                 let i := windex n w in
                 if len w <=? r + 1 then
                   if (count_below n (N.to_nat r) <? i) && (i <=? count_below n (N.to_nat (r + 1)))
                   then s_add so v (func (s_mul so (wcoef so n x []) (coef so y (i - 1)))) else v
                 else s_zero so)
      /\ (r = 1 -> 2 <= l -> m = 1 -> exists z, run = Ret z /\ filled n z l
            /\ forall i, coef so z i =
                 let v := if (1 <=? i) && (i <=? n) then func (s_mul so (coef so x i) c) else coef so x i in
                 if (2 <=? i) && (i <=? n + 1)
                 then s_add so v (func (s_mul so (coef so x 0) (coef so y (i - 1)))) else v)).
Proof. exact c82_reaching. Qed.
Print Assumptions C82_reaching.
Theorem C82_empty_word : forall (S R : Type) (so : scalar_ops S R) (p : profile) (n t l r : N) (func : S -> S) (x y z : dvec S),
  let m := N.min t (l + r) in
  2 <= n -> filled n x l -> filled n y r -> n ^ (l + 1) < 2 ^ 64 -> n ^ (r + 1) < 2 ^ 64 -> n ^ (m + 2) < 2 ^ 64 ->
  multiply_into_impl so p n x y func (Some t) = Ret z -> wcoef so n z [] = wcoef so n x [].
Proof. exact c82_empty_word. Qed.
Print Assumptions C82_empty_word.
Example C82_example :
  let x := dv_from (map q [1; 2; 3]%Z) in let y a := dv_from (map q [a; 3; 1; 1; 1; 1; 2]%Z) in
  let run p x y t := z <- multiply_into_impl qc_ops p 2 x y (fun v => v) (Some t) ;; Ret (vals z) in
  run release x (y 5%Z) 1 = Ret (qz [1; 10; 15]%Z)     (* cut below: m = 1 < r = 2 *)
  /\ run dev x (y 5%Z) 1 = Panic
  /\ run release x (y 1%Z) 1 = Ret (qz [1; 2; 3]%Z)
  /\ run release x (y 0%Z) 1 = UB
  /\ multiply_into_impl qc_ops release 2 (dv_from [q 1]) (y 5%Z) (fun v => v) (Some 1) = UB  (* l = 0 *)
  /\ multiply_into_impl qc_ops release 2 (dv_from [q 1]) (y 5%Z) (fun v => v) (Some 2) = UB
  /\ run dev (dv_from [q 1]) (y 5%Z) 2 = Panic
  /\ run release x (y 5%Z) 3 = Ret (qz [1; 10; 15; 0; 1; 1; 1; 2; 0; 0; 0; 0; 0; 0; 0]%Z)  (* l = 1, m = r + 1 *)
  /\ run dev x (y 5%Z) 3 = Panic
  /\ run release x (y 5%Z) 2 = UB /\ run dev x (y 5%Z) 2 = UB.
Proof. exact c82_example. Qed.

(** * C83: What exp and fmexp do on tensors of degree at least 1, in every build *)
Theorem C83_exp : forall (S R : Type) (so : scalar_ops S R) (p : profile) (n md d : N) (x : dvec S),
  let c := coef so x 0 in
  2 <= n < 2 ^ 32 -> 2 <= md -> 1 <= d -> filled n x d -> n ^ (d + 2) < 2 ^ 64 ->
  (d <= md -> s_eqb so c (s_zero so) = true \/ s_eqb so c (s_one so) = true -> ft_exp so p n md x = UB)
  /\ (d <= md -> s_eqb so c (s_zero so) = false -> s_eqb so c (s_one so) = false ->
      ft_exp so p n md x = if overflow_checks p then Panic else UB)
  /\ (md < d -> overflow_checks p = true -> ft_exp so p n md x = Panic)
  /\ (md < d -> overflow_checks p = false -> s_eqb so c (s_zero so) = true \/ s_eqb so c (s_one so) = false ->
      ft_exp so p n md x = UB)
  /\ (md < d -> overflow_checks p = false -> s_eqb so c (s_zero so) = false -> s_eqb so c (s_one so) = true ->
      exists z, ft_exp so p n md x = Ret z /\ filled n z md
        /\ forall j, coef so z j =
             if j =? 0 then Nat.iter (N.to_nat (md - 1)) (fun a => s_add so a (s_one so)) (s_one so) else s_zero so).
Proof. exact c83_exp. Qed.
Print Assumptions C83_exp.
Theorem C83_fmexp : forall (S R : Type) (so : scalar_ops S R) (p : profile) (n md l d : N) (x y : dvec S),
  2 <= n < 2 ^ 32 -> s_eqb so (s_zero so) (s_zero so) = true ->
  2 <= md < 2 ^ 32 -> filled n x l -> filled n y d -> 1 <= l + d ->
  n ^ (l + 1) < 2 ^ 64 -> n ^ (d + 1) < 2 ^ 64 -> n ^ (N.min 2 (l + d) + 1) < 2 ^ 64 ->
  ft_fmexp so p n md x y = if overflow_checks p && (3 <=? d) then Panic else UB.
Proof. exact c83_fmexp. Qed.
Print Assumptions C83_fmexp.
Example C83_example :
  let x a := dv_from (map q [a; 3; 1; 1; 1; 1; 2; 0; 0; 0; 0; 0; 0; 0; 1]%Z) in
  let run p md x := z <- ft_exp qc_ops p 2 md x ;; Ret (vals z) in
  filled 2 (x 1%Z) 3
  /\ run release 2 (x 1%Z) = Ret (qz [2; 0; 0; 0; 0; 0; 0]%Z) /\ run dev 2 (x 1%Z) = Panic
  /\ run release 2 (x 0%Z) = UB /\ run release 3 (x 1%Z) = UB
  /\ run dev 3 (x 5%Z) = Panic /\ ft_exp qc_ops release 2 3 (x 5%Z) = UB
  /\ ft_fmexp qc_ops dev 2 4 (x 1%Z) (x 1%Z) = Panic /\ ft_fmexp qc_ops release 2 4 (x 1%Z) (x 1%Z) = UB.
Proof. exact c83_example. Qed.
