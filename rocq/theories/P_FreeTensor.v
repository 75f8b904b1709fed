(** Property theorems (generated by tools/gen_props.py from L_PropFreeTensor.v, where the proofs are). *)
From Coq Require Import QArith Qcanon.
From Verif Require Import Machine MachineLemmas S_Words L_Words M_TensorKey L_TensorKey M_TensorBasis
  L_TensorBasis M_Scalar M_Vector M_Dense S_Vector S_Tensor S_Series S_FreeTensor I_Scalars I_FunAlgebra L_Dense L_Ring L_PropKey
  L_PropDense M_Algebra L_Algebra L_Conv L_Series L_PropAlgebra L_Inplace L_PropInplace M_FreeTensor L_FreeTensor L_ExactAlgebra.
From Verif Require Import L_PropFreeTensor.
Local Open Scope N_scope.

(** * C64: What exp, log and fmexp do on dense tensors *)
Theorem C64_exp_degree_zero : forall (S R : Type) (so : scalar_ops S R) (p : profile) (n md : N) (x : dvec S),
  2 <= n < 2 ^ 32 -> dv_size x <= 1 ->
  ft_exp so p n md x
  = Ret (dv_from [Nat.iter (N.to_nat (md - 1)) (fun a => s_add so a (s_one so)) (s_one so)]).
Proof. exact c64_exp_degree_zero. Qed.
Print Assumptions C64_exp_degree_zero.
Theorem C64_exp_short : forall (S R : Type) (so : scalar_ops S R) (p : profile) (n md : N) (x : dvec S),
  2 <= n < 2 ^ 32 -> md <= 1 -> ft_exp so p n md x = Ret (dv_from [s_one so]).
Proof. exact c64_exp_short. Qed.
Print Assumptions C64_exp_short.
Theorem C64_exp_never : forall (S R : Type) (so : scalar_ops S R) (p : profile) (n md d : N) (x : dvec S),
  2 <= n < 2 ^ 32 -> overflow_checks p = true -> 2 <= md -> 1 <= d -> filled n x d -> n ^ (d + 1) < 2 ^ 64 ->
  ~ returns (ft_exp so p n md x).
Proof. exact c64_exp_never. Qed.
Print Assumptions C64_exp_never.
Theorem C64_fmexp_degree_zero : forall (S R : Type) (so : scalar_ops S R) (p : profile) (n md : N) (x y : dvec S),
  2 <= n < 2 ^ 32 -> md < 2 ^ 32 -> dv_size x <= 1 -> dv_size y <= 1 ->
  exists z, ft_fmexp so p n md x y = Ret z
    /\ dv_elems z = map (fun v => Nat.iter (N.to_nat (md - 1)) (fun a => s_add so a v) v) (dv_elems x).
Proof. exact c64_fmexp_degree_zero. Qed.
Print Assumptions C64_fmexp_degree_zero.
Theorem C64_fmexp_short : forall (S R : Type) (so : scalar_ops S R) (p : profile) (n md : N) (x y : dvec S),
  2 <= n < 2 ^ 32 -> md <= 1 -> ft_fmexp so p n md x y = Ret x.
Proof. exact c64_fmexp_short. Qed.
Print Assumptions C64_fmexp_short.
Theorem C64_fmexp_never : forall (S R : Type) (so : scalar_ops S R) (p : profile) (n md l d : N) (x y : dvec S),
  2 <= n < 2 ^ 32 -> overflow_checks p = true -> s_eqb so (s_zero so) (s_zero so) = true ->
  2 <= md < 2 ^ 32 -> filled n x l -> filled n y d -> 1 <= l + d ->
  n ^ (l + 1) < 2 ^ 64 -> n ^ (d + 1) < 2 ^ 64 -> n ^ (N.min 2 (l + d) + 1) < 2 ^ 64 ->
  ~ returns (ft_fmexp so p n md x y).
Proof. exact c64_fmexp_never. Qed.
Print Assumptions C64_fmexp_never.
Theorem C64_fmexp_empty : forall (S R : Type) (so : scalar_ops S R) (p : profile) (n md l : N) (x y : dvec S),
  2 <= n < 2 ^ 32 -> 2 <= md < 2 ^ 32 -> filled n x l -> 1 <= l -> n ^ (l + 1) < 2 ^ 64 -> dv_elems y = [] ->
  ft_fmexp so p n md x y = UB.
Proof. exact c64_fmexp_empty. Qed.
Print Assumptions C64_fmexp_empty.
Theorem C64_log : forall (S R : Type) (so : scalar_ops S R) (p : profile) (n md d : N) (x : dvec S),
  2 <= n < 2 ^ 32 -> 1 <= d -> filled n x d -> n ^ (d + 1) < 2 ^ 64 ->
  ft_log so p n md x = Ret (if md <=? 1 then dv_new else dv_from [
    fold_left (fun a i => if i mod 2 =? 0 then s_sub so a (s_div so (s_one so) (r_from_degree so i))
                          else s_add so a (s_div so (s_one so) (r_from_degree so i)))
      (rev (range 1 md)) (s_zero so)]).
Proof. exact c64_log. Qed.
Print Assumptions C64_log.
Theorem C64_log_degree_zero : forall (S R : Type) (so : scalar_ops S R) (p : profile) (n md : N) (x : dvec S),
  2 <= n < 2 ^ 32 -> 2 <= md -> dv_size x <= 1 -> ft_log so p n md x = UB.
Proof. exact c64_log_degree_zero. Qed.
Print Assumptions C64_log_degree_zero.
Example C64_example : let x := dv_from (map q [1; 2; 3]%Z) in
  (z <- ft_exp qc_ops dev 2 4 (dv_from [q 7]) ;; Ret (vals z)) = Ret (qz [4]%Z)
  /\ (z <- ft_log qc_ops release 2 4 x ;; Ret (vals z)) = Ret [5 # 6]%Q
  /\ ft_exp qc_ops dev 2 4 x = UB /\ ft_fmexp qc_ops dev 2 4 x x = UB /\ filled 2 x 1
  /\ (z <- ft_fmexp qc_ops dev 2 3 (dv_from [q 7]) (dv_from [q 2]) ;; Ret (vals z)) = Ret (qz [21]%Z).
Proof. exact c64_example. Qed.

(** * C65: The loops of exp, fmexp and log over an exact algebra *)
Theorem C65_exp : forall (V S R : Type) (so : scalar_ops S R) (n md : N) (vo : vec_ops V tkey S R)
    (mulr : V -> V -> S -> option N -> outcome V) (mul : V -> V -> option N -> outcome V) (val : V -> word -> S) (x : V),
  ring_laws so -> exact_algebra so n vo mulr mul val ->
  exists z, trait_exp so md vo mulr x = Ret z
    /\ forall w, word_ok n w -> val z w = exp_upto so md (val x) (N.to_nat (md - 1)) w.
Proof. exact c65_exp. Qed.
Print Assumptions C65_exp.
Theorem C65_fmexp : forall (V S R : Type) (so : scalar_ops S R) (p : profile) (n md : N) (vo : vec_ops V tkey S R)
    (mulr : V -> V -> S -> option N -> outcome V) (mul : V -> V -> option N -> outcome V) (val : V -> word -> S) (x y : V),
  ring_laws so -> exact_algebra so n vo mulr mul val -> md < 2 ^ 32 ->
  exists z, trait_fmexp so p md vo mulr x y = Ret z
    /\ forall w, word_ok n w -> val z w =
         if len w <=? md then conv so (val x) (exp_upto so md (no_unit so (val y)) (N.to_nat (md - 1))) w else val x w.
Proof. exact c65_fmexp. Qed.
Print Assumptions C65_fmexp.
Theorem C65_log : forall (V S R : Type) (so : scalar_ops S R) (n md : N) (vo : vec_ops V tkey S R)
    (mulr : V -> V -> S -> option N -> outcome V) (mul : V -> V -> option N -> outcome V) (val : V -> word -> S),
  ring_laws so -> exact_algebra so n vo mulr mul val ->
  exists c, forall x, exists z, trait_log so md vo mul x = Ret z
    /\ forall w, word_ok n w -> val z w = s_mul so c (unit_fun so w).
Proof. exact c65_log. Qed.
Print Assumptions C65_log.
Example C65_example : let x : word -> Qc := fun w => match w with [1] => q 1 | _ => q 0 end in
  exact_algebra qc_ops 2 (fun_ops qc_ops) fun_mul_rat_rdiv (fun_multiply qc_ops) (fun x w => x w)
  /\ (z <- trait_exp qc_ops 3 (fun_ops qc_ops) fun_mul_rat_rdiv x ;;
      Ret (map this (map z [[]; [1]; [2]; [1; 1]; [1; 2]; [1; 1; 1]]))) = Ret [1; 1; 0; 1 # 2; 0; 0]%Q
  /\ this (texp qc_ops 3 x [1; 1; 1]) = (1 # 6)%Q
  /\ (z <- trait_fmexp qc_ops dev 2 (fun_ops qc_ops) fun_mul_rat_rdiv x x ;;
      Ret (map this (map z [[]; [1]; [1; 1]; [1; 1; 1]]))) = Ret [0; 1; 1; 0]%Q
  /\ (z <- trait_log qc_ops 3 (fun_ops qc_ops) (fun_multiply qc_ops) x ;;
      Ret (map this (map z [[]; [1]; [1; 1]]))) = Ret [1 # 2; 0; 0]%Q.
Proof. exact c65_example. Qed.

(** * C37: exp is the truncated exponential *)
Theorem C37_exp_refuted : forall (p : profile) (n md : N), 2 <= n < 2 ^ 32 -> 2 <= md ->
  exists x z, ft_exp qc_ops p n md x = Ret z
    /\ wcoef qc_ops n z [] <> texp qc_ops md (wcoef qc_ops n x) [].
Proof. exact c37_exp_refuted. Qed.
Print Assumptions C37_exp_refuted.
Theorem C37_exp_partial : forall (S R : Type) (so : scalar_ops S R) (p : profile) (n : N) (x : dvec S),
  ring_laws so -> 2 <= n < 2 ^ 32 ->
  exists z, ft_exp so p n 0 x = Ret z /\ forall w, word_ok n w -> wcoef so n z w = texp so 0 (wcoef so n x) w.
Proof. exact c37_exp_partial. Qed.
Print Assumptions C37_exp_partial.
Example C37_example : (z <- ft_exp qc_ops dev 2 2 (dv_from [q 0]) ;; Ret (vals z)) = Ret (qz [2]%Z)
  /\ this (texp qc_ops 2 (wcoef qc_ops 2 (dv_from [q 0])) []) = 1%Q
  /\ (z <- ft_exp qc_ops dev 2 0 (dv_from (map q [0; 1; 1]%Z)) ;; Ret (vals z)) = Ret (qz [1]%Z).
Proof. exact c37_example. Qed.

(** * C38: log is the truncated logarithm *)
Theorem C38_log_refuted : forall (p : profile) (n md : N), 2 <= n < 2 ^ 32 -> 2 <= md ->
  exists x z, ft_log qc_ops p n md x = Ret z
    /\ wcoef qc_ops n z [1] <> tlog qc_ops md (wcoef qc_ops n x) [1].
Proof. exact c38_log_refuted. Qed.
Print Assumptions C38_log_refuted.
Theorem C38_log_constant : forall (S R : Type) (so : scalar_ops S R) (p : profile) (n md d d' : N) (x x' : dvec S),
  2 <= n < 2 ^ 32 -> 1 <= d -> filled n x d -> n ^ (d + 1) < 2 ^ 64 -> 1 <= d' -> filled n x' d' -> n ^ (d' + 1) < 2 ^ 64 ->
  ft_log so p n md x = ft_log so p n md x'.
Proof. exact c38_log_constant. Qed.
Print Assumptions C38_log_constant.
Example C38_example : let x := dv_from (map q [1; 1; 0]%Z) in
  (z <- ft_log qc_ops dev 2 2 x ;; Ret (vals z)) = Ret (qz [1]%Z)
  /\ map this (map (tlog qc_ops 2 (wcoef qc_ops 2 x)) [[]; [1]; [2]; [1; 1]]) = [0; 1; 0; (-1) # 2]%Q.
Proof. exact c38_example. Qed.

(** * C39: fmexp multiplies by the exponential *)
Theorem C39_fmexp_refuted : forall (p : profile) (n md : N), 2 <= n < 2 ^ 32 -> 2 <= md < 2 ^ 32 ->
  exists x y z, ft_fmexp qc_ops p n md x y = Ret z
    /\ wcoef qc_ops n z [] <> tconv qc_ops md (wcoef qc_ops n x) (texp qc_ops md (no_unit qc_ops (wcoef qc_ops n y))) [].
Proof. exact c39_fmexp_refuted. Qed.
Print Assumptions C39_fmexp_refuted.
Theorem C39_fmexp_partial : forall (S R : Type) (so : scalar_ops S R) (p : profile) (n : N) (x y : dvec S),
  ring_laws so -> 2 <= n < 2 ^ 32 -> dv_size x <= 1 ->
  exists z, ft_fmexp so p n 0 x y = Ret z
    /\ forall w, word_ok n w -> wcoef so n z w = tconv so 0 (wcoef so n x) (texp so 0 (no_unit so (wcoef so n y))) w.
Proof. exact c39_fmexp_partial. Qed.
Print Assumptions C39_fmexp_partial.
Example C39_example : (z <- ft_fmexp qc_ops dev 2 2 (dv_from [q 1]) (dv_from [q 5]) ;; Ret (vals z)) = Ret (qz [2]%Z)
  /\ this (tconv qc_ops 2 (wcoef qc_ops 2 (dv_from [q 1])) (texp qc_ops 2 (no_unit qc_ops (wcoef qc_ops 2 (dv_from [q 5])))) []) = 1%Q.
Proof. exact c39_example. Qed.
