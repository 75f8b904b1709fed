(** Property lemmas C37-C39, C64, C65 (restated as theorems in P_FreeTensor.v). *)
From Coq Require Import QArith Qcanon.
From Verif Require Import Machine MachineLemmas S_Words L_Words M_TensorKey L_TensorKey M_TensorBasis
  L_TensorBasis M_Scalar M_Vector M_Dense S_Vector S_Tensor S_Series S_FreeTensor I_Scalars I_FunAlgebra L_Dense L_Ring L_PropKey
  L_PropDense M_Algebra L_Algebra L_Conv L_Series L_PropAlgebra L_Inplace L_PropInplace M_FreeTensor L_FreeTensor L_ExactAlgebra.
Local Open Scope N_scope.

(** * C64: exp, fmexp and log of dense tensors *)
(** exp of a multiple of the unit (or of the empty vector) is MAX_DEGREE times the unit *)
Lemma c64_exp_degree_zero : forall (S R : Type) (so : scalar_ops S R) (p : profile) (n md : N) (x : dvec S),
  2 <= n < 2 ^ 32 -> dv_size x <= 1 ->
  ft_exp so p n md x
  = Ret (dv_from [Nat.iter (N.to_nat (md - 1)) (fun a => s_add so a (s_one so)) (s_one so)]).
Proof. intros. apply exp_degree_zero; assumption. Qed.
Lemma c64_exp_short : forall (S R : Type) (so : scalar_ops S R) (p : profile) (n md : N) (x : dvec S),
  2 <= n < 2 ^ 32 -> md <= 1 -> ft_exp so p n md x = Ret (dv_from [s_one so]).
Proof. intros. apply exp_short; assumption. Qed.
(** exp of anything of higher degree does not return in a build with overflow checks *)
Lemma c64_exp_never : forall (S R : Type) (so : scalar_ops S R) (p : profile) (n md d : N) (x : dvec S),
  2 <= n < 2 ^ 32 -> overflow_checks p = true -> 2 <= md -> 1 <= d -> filled n x d -> n ^ (d + 1) < 2 ^ 64 ->
  ~ returns (ft_exp so p n md x).
Proof. intros S R so p n md d x Hn Hp Hm Hd Hx Pd. exact (exp_never so p n Hn md x d Hp Hm Hd Hx Pd). Qed.
(** fmexp of two multiples of the unit is MAX_DEGREE times the first *)
Lemma c64_fmexp_degree_zero : forall (S R : Type) (so : scalar_ops S R) (p : profile) (n md : N) (x y : dvec S),
  2 <= n < 2 ^ 32 -> md < 2 ^ 32 -> dv_size x <= 1 -> dv_size y <= 1 ->
  exists z, ft_fmexp so p n md x y = Ret z
    /\ dv_elems z = map (fun v => Nat.iter (N.to_nat (md - 1)) (fun a => s_add so a v) v) (dv_elems x).
Proof. intros. apply fmexp_degree_zero; assumption. Qed.
Lemma c64_fmexp_short : forall (S R : Type) (so : scalar_ops S R) (p : profile) (n md : N) (x y : dvec S),
  2 <= n < 2 ^ 32 -> md <= 1 -> ft_fmexp so p n md x y = Ret x.
Proof. intros. apply fmexp_short; assumption. Qed.
Lemma c64_fmexp_never : forall (S R : Type) (so : scalar_ops S R) (p : profile) (n md l d : N) (x y : dvec S),
  2 <= n < 2 ^ 32 -> overflow_checks p = true -> s_eqb so (s_zero so) (s_zero so) = true ->
  2 <= md < 2 ^ 32 -> filled n x l -> filled n y d -> 1 <= l + d ->
  n ^ (l + 1) < 2 ^ 64 -> n ^ (d + 1) < 2 ^ 64 -> n ^ (N.min 2 (l + d) + 1) < 2 ^ 64 ->
  ~ returns (ft_fmexp so p n md x y).
Proof.
  intros S R so p n md l d x y Hn Hp H0 Hm Hx Hy Hld Pl Pd Pm. exact (fmexp_never so p n Hn md x y l d Hp H0 Hm Hx Hy Hld Pl Pd Pm).
Qed.
Lemma c64_fmexp_empty : forall (S R : Type) (so : scalar_ops S R) (p : profile) (n md l : N) (x y : dvec S),
  2 <= n < 2 ^ 32 -> 2 <= md < 2 ^ 32 -> filled n x l -> 1 <= l -> n ^ (l + 1) < 2 ^ 64 -> dv_elems y = [] ->
  ft_fmexp so p n md x y = UB.
Proof. intros S R so p n md l x y Hn Hm Hx Hl Pl Hy. exact (fmexp_empty_arg so p n Hn md x y l Hm Hx Hl Pl Hy). Qed.
(** log is a multiple of the unit that does not depend on its argument, or undefined behaviour *)
Lemma c64_log : forall (S R : Type) (so : scalar_ops S R) (p : profile) (n md d : N) (x : dvec S),
  2 <= n < 2 ^ 32 -> 1 <= d -> filled n x d -> n ^ (d + 1) < 2 ^ 64 ->
  ft_log so p n md x = Ret (if md <=? 1 then dv_new else dv_from [
    fold_left (fun a i => if i mod 2 =? 0 then s_sub so a (s_div so (s_one so) (r_from_degree so i))
                          else s_add so a (s_div so (s_one so) (r_from_degree so i)))
      (rev (range 1 md)) (s_zero so)]).
Proof. intros S R so p n md d x Hn Hd Hx Pd. exact (log_ok so p n Hn md x d Hd Hx Pd). Qed.
Lemma c64_log_degree_zero : forall (S R : Type) (so : scalar_ops S R) (p : profile) (n md : N) (x : dvec S),
  2 <= n < 2 ^ 32 -> 2 <= md -> dv_size x <= 1 -> ft_log so p n md x = UB.
Proof. intros. apply log_degree_zero; assumption. Qed.
Example c64_example : let x := dv_from (map q [1; 2; 3]%Z) in
  (z <- ft_exp qc_ops dev 2 4 (dv_from [q 7]) ;; Ret (vals z)) = Ret (qz [4]%Z)
  /\ (z <- ft_log qc_ops release 2 4 x ;; Ret (vals z)) = Ret [5 # 6]%Q
  /\ ft_exp qc_ops dev 2 4 x = UB /\ ft_fmexp qc_ops dev 2 4 x x = UB /\ filled 2 x 1
  /\ (z <- ft_fmexp qc_ops dev 2 3 (dv_from [q 7]) (dv_from [q 2]) ;; Ret (vals z)) = Ret (qz [21]%Z).
Proof. repeat split; vm_compute; reflexivity. Qed.

(** * C65: the loops of the trait, over any exact implementation of the algebra *)
Lemma c65_exp : forall (V S R : Type) (so : scalar_ops S R) (n md : N) (vo : vec_ops V tkey S R)
    (mulr : V -> V -> S -> option N -> outcome V) (mul : V -> V -> option N -> outcome V) (val : V -> word -> S) (x : V),
  ring_laws so -> exact_algebra so n vo mulr mul val ->
  exists z, trait_exp so md vo mulr x = Ret z
    /\ forall w, word_ok n w -> val z w = exp_upto so md (val x) (N.to_nat (md - 1)) w.
Proof. intros V S R so n md vo mulr mul val x L X. exact (exact_exp so n vo mulr mul val L X md x). Qed.
Lemma c65_fmexp : forall (V S R : Type) (so : scalar_ops S R) (p : profile) (n md : N) (vo : vec_ops V tkey S R)
    (mulr : V -> V -> S -> option N -> outcome V) (mul : V -> V -> option N -> outcome V) (val : V -> word -> S) (x y : V),
  ring_laws so -> exact_algebra so n vo mulr mul val -> md < 2 ^ 32 ->
  exists z, trait_fmexp so p md vo mulr x y = Ret z
    /\ forall w, word_ok n w -> val z w =
         if len w <=? md then conv so (val x) (exp_upto so md (no_unit so (val y)) (N.to_nat (md - 1))) w else val x w.
Proof. intros V S R so p n md vo mulr mul val x y L X H. exact (exact_fmexp so p n vo mulr mul val L X md x y H). Qed.
Lemma c65_log : forall (V S R : Type) (so : scalar_ops S R) (n md : N) (vo : vec_ops V tkey S R)
    (mulr : V -> V -> S -> option N -> outcome V) (mul : V -> V -> option N -> outcome V) (val : V -> word -> S),
  ring_laws so -> exact_algebra so n vo mulr mul val ->
  exists c, forall x, exists z, trait_log so md vo mul x = Ret z
    /\ forall w, word_ok n w -> val z w = s_mul so c (unit_fun so w).
Proof.
  intros V S R so n md vo mulr mul val L X. exists (log_const so (countdown md) (s_zero so)). intros x.
  exact (exact_log so n vo mulr mul val L X md x).
Qed.
(** exp of the letter 1, MAX_DEGREE 3: 1 + [1] + [1,1]/2, without [1,1,1]/6 *)
Example c65_example : let x : word -> Qc := fun w => match w with [1] => q 1 | _ => q 0 end in
  exact_algebra qc_ops 2 (fun_ops qc_ops) fun_mul_rat_rdiv (fun_multiply qc_ops) (fun x w => x w)
  /\ (z <- trait_exp qc_ops 3 (fun_ops qc_ops) fun_mul_rat_rdiv x ;;
      Ret (map this (map z [[]; [1]; [2]; [1; 1]; [1; 2]; [1; 1; 1]]))) = Ret [1; 1; 0; 1 # 2; 0; 0]%Q
  /\ this (texp qc_ops 3 x [1; 1; 1]) = (1 # 6)%Q
  /\ (z <- trait_fmexp qc_ops dev 2 (fun_ops qc_ops) fun_mul_rat_rdiv x x ;;
      Ret (map this (map z [[]; [1]; [1; 1]; [1; 1; 1]]))) = Ret [0; 1; 1; 0]%Q
  /\ (z <- trait_log qc_ops 3 (fun_ops qc_ops) (fun_multiply qc_ops) x ;;
      Ret (map this (map z [[]; [1]; [1; 1]]))) = Ret [1 # 2; 0; 0]%Q.
Proof. repeat split; try (vm_compute; reflexivity); apply fun_exact. Qed.

(** * C37 *)
Lemma iter_one k : Nat.iter k (fun a => s_add qc_ops a (s_one qc_ops)) (s_one qc_ops) = Qc_of_N (N.of_nat k + 1).
Proof.
  induction k as [|k IH]; [reflexivity|]. cbn [Nat.iter nat_rect]. unfold Nat.iter in IH. rewrite IH.
  rewrite Nat2N.inj_succ. replace (N.succ (N.of_nat k) + 1) with (N.of_nat k + 1 + 1) by lia. symmetry. apply Qc_of_N_succ.
Qed.
Lemma Qc_of_N_inj a b : Qc_of_N a = Qc_of_N b -> a = b.
Proof.
  intros H. apply (f_equal this) in H. unfold Qc_of_N, Q2Qc in H. cbn [this] in H.
  assert (E : (inject_Z (Z.of_N a) == inject_Z (Z.of_N b))%Q).
  { rewrite <- (Qred_correct (inject_Z (Z.of_N a))), H, Qred_correct. reflexivity. }
  unfold Qeq, inject_Z in E. cbn in E. lia.
Qed.
Lemma max_not_one md : 2 <= md ->
  Nat.iter (N.to_nat (md - 1)) (fun a => s_add qc_ops a (s_one qc_ops)) (s_one qc_ops) <> s_one qc_ops.
Proof.
  intros H E. rewrite iter_one in E. change (s_one qc_ops) with (Qc_of_N 1) in E. apply Qc_of_N_inj in E. lia.
Qed.
Lemma texp_new n t w : texp qc_ops t (wcoef qc_ops n dv_new) w = unit_fun qc_ops w.
Proof.
  unfold texp, exp_upto. rewrite (series_zero qc_ops qc_ring) by (intros; apply wc_new). apply (l_mul_1_l qc_ops qc_ring).
Qed.
(** for every build, alphabet and MAX_DEGREE >= 2: exp(0) is not 1 *)
Lemma c37_exp_refuted : forall (p : profile) (n md : N), 2 <= n < 2 ^ 32 -> 2 <= md ->
  exists x z, ft_exp qc_ops p n md x = Ret z
    /\ wcoef qc_ops n z [] <> texp qc_ops md (wcoef qc_ops n x) [].
Proof.
  intros p n md Hn Hm. exists dv_new. eexists. split; [apply c64_exp_degree_zero; [exact Hn|apply N.le_0_l]|].
  rewrite texp_new. exact (max_not_one md Hm).
Qed.
(** what remains: MAX_DEGREE = 0 *)
Lemma c37_exp_partial : forall (S R : Type) (so : scalar_ops S R) (p : profile) (n : N) (x : dvec S),
  ring_laws so -> 2 <= n < 2 ^ 32 ->
  exists z, ft_exp so p n 0 x = Ret z /\ forall w, word_ok n w -> wcoef so n z w = texp so 0 (wcoef so n x) w.
Proof.
  intros S R so p n x L Hn. eexists. split; [apply c64_exp_short; [exact Hn|lia]|].
  intros w Hw. unfold texp, exp_upto. cbn [N.to_nat series inv_fact tpow]. rewrite (l_mul_1_l so L).
  destruct w as [|a w]; [reflexivity|].
  apply (wcoef_beyond so n (proj1 Hn) (dv_from [s_one so]) 0 (a :: w)); [apply small_degree; cbn; lia|exact Hw|rewrite len_cons; lia].
Qed.
Example c37_example : (z <- ft_exp qc_ops dev 2 2 (dv_from [q 0]) ;; Ret (vals z)) = Ret (qz [2]%Z)
  /\ this (texp qc_ops 2 (wcoef qc_ops 2 (dv_from [q 0])) []) = 1%Q
  /\ (z <- ft_exp qc_ops dev 2 0 (dv_from (map q [0; 1; 1]%Z)) ;; Ret (vals z)) = Ret (qz [1]%Z).
Proof. repeat split; vm_compute; reflexivity. Qed.

(** * C38 *)
Definition one_plus_letters (n : N) : dvec Qc := dv_from (repeat (q 1) (N.to_nat (n + 1))).
Lemma series_low t f K : f [] = s_zero qc_ops -> (1 <= K)%nat ->
  series qc_ops t (log_coef qc_ops) f K [1] = series qc_ops t (log_coef qc_ops) f 1 [1].
Proof.
  intros F. induction K as [|K IH]; intros HK; [lia|]. destruct K as [|K]; [reflexivity|].
  rewrite <- IH by lia. cbn [series]. rewrite (tpow_low qc_ops qc_ring t f (Datatypes.S (Datatypes.S K))) by (exact F || (cbn; lia)).
  rewrite (r_mul_0_r qc_ops qc_ring). apply (r_add_0_r qc_ops qc_ring).
Qed.
(** for every build, alphabet and MAX_DEGREE >= 2: log(1 + letters) has coefficient 0 at the letter 1 *)
Lemma c38_log_refuted : forall (p : profile) (n md : N), 2 <= n < 2 ^ 32 -> 2 <= md ->
  exists x z, ft_log qc_ops p n md x = Ret z
    /\ wcoef qc_ops n z [1] <> tlog qc_ops md (wcoef qc_ops n x) [1].
Proof.
  intros p n md Hn Hm. exists (one_plus_letters n). eexists.
  assert (F : filled n (one_plus_letters n) 1).
  { unfold filled, one_plus_letters, dv_size. cbn [dv_from dv_elems]. unfold len. rewrite repeat_length.
    change (N.to_nat 1) with 1%nat. cbn [count_below]. rewrite N.pow_1_r. change (N.of_nat 0) with 0. rewrite N.pow_0_r. lia. }
  split.
  { apply (c64_log _ _ qc_ops p n md 1); [exact Hn|lia|exact F|]. change (1 + 1) with 2.
    apply N.lt_le_trans with ((2 ^ 32) ^ 2); [apply N.pow_lt_mono_l; [discriminate|apply Hn]|discriminate]. }
  assert (Hw : word_ok n [1]) by (repeat constructor; lia).
  rewrite (wcoef_beyond qc_ops n (proj1 Hn) _ 0 [1]); [|destruct (md <=? 1); apply small_degree; cbn; lia|exact Hw|reflexivity].
  unfold tlog. rewrite series_low by (reflexivity || lia).
  assert (T : tpow qc_ops md (no_unit qc_ops (wcoef qc_ops n (one_plus_letters n))) 1 [1] = s_one qc_ops).
  { cbn [tpow]. rewrite conv_tconv by (cbn; lia). rewrite (conv_unit_l qc_ops qc_ring). cbn [no_unit].
    unfold wcoef, coef, one_plus_letters. cbn [dv_from dv_as_slice dv_elems]. rewrite slice_get_repeat.
    pose proof (windex_upper n [1] Hw) as U. cbn [length count_below] in U. change (N.of_nat 0) with 0 in U. change (N.of_nat 1) with 1 in U.
    rewrite N.pow_0_r, N.pow_1_r in U.
    destruct (N.ltb_spec (windex n [1]) (N.of_nat (N.to_nat (n + 1)))); [apply Qc_is_canon; reflexivity|lia]. }
  intros E. cbn [series] in E. rewrite T in E. change (tpow qc_ops md (no_unit qc_ops (wcoef qc_ops n (one_plus_letters n))) 0 [1]) with (s_zero qc_ops) in E.
  vm_compute in E. discriminate E.
Qed.
(** it does not depend on its argument at all *)
Lemma c38_log_constant : forall (S R : Type) (so : scalar_ops S R) (p : profile) (n md d d' : N) (x x' : dvec S),
  2 <= n < 2 ^ 32 -> 1 <= d -> filled n x d -> n ^ (d + 1) < 2 ^ 64 -> 1 <= d' -> filled n x' d' -> n ^ (d' + 1) < 2 ^ 64 ->
  ft_log so p n md x = ft_log so p n md x'.
Proof.
  intros S R so p n md d d' x x' Hn Hd Hx Pd Hd' Hx' Pd'.
  rewrite (c64_log S R so p n md d x), (c64_log S R so p n md d' x') by assumption. reflexivity.
Qed.
Example c38_example : let x := dv_from (map q [1; 1; 0]%Z) in
  (z <- ft_log qc_ops dev 2 2 x ;; Ret (vals z)) = Ret (qz [1]%Z)
  /\ map this (map (tlog qc_ops 2 (wcoef qc_ops 2 x)) [[]; [1]; [2]; [1; 1]]) = [0; 1; 0; (-1) # 2]%Q.
Proof. repeat split; vm_compute; reflexivity. Qed.

(** * C39 *)
(** for every build, alphabet and MAX_DEGREE >= 2: 1·exp(0) is not 1 *)
Lemma c39_fmexp_refuted : forall (p : profile) (n md : N), 2 <= n < 2 ^ 32 -> 2 <= md < 2 ^ 32 ->
  exists x y z, ft_fmexp qc_ops p n md x y = Ret z
    /\ wcoef qc_ops n z [] <> tconv qc_ops md (wcoef qc_ops n x) (texp qc_ops md (no_unit qc_ops (wcoef qc_ops n y))) [].
Proof.
  intros p n md Hn Hm. exists (dv_from [s_one qc_ops]), dv_new.
  destruct (c64_fmexp_degree_zero _ _ qc_ops p n md (dv_from [s_one qc_ops]) dv_new) as (z & E & G); try assumption; try lia.
  { cbn. lia. }
  { cbn. lia. }
  exists z. split; [exact E|].
  assert (C : wcoef qc_ops n z [] = Nat.iter (N.to_nat (md - 1)) (fun a => s_add qc_ops a (s_one qc_ops)) (s_one qc_ops)).
  { unfold wcoef, coef, dv_as_slice. rewrite G. reflexivity. }
  rewrite C. rewrite conv_tconv by (cbn; lia). rewrite conv_nil by exact qc_ring.
  unfold texp, exp_upto. rewrite (series_zero qc_ops qc_ring).
  - change (unit_fun qc_ops []) with (s_one qc_ops). change (inv_fact qc_ops 0) with (s_one qc_ops).
    change (wcoef qc_ops n (dv_from [s_one qc_ops]) []) with (s_one qc_ops).
    rewrite !(r_mul_1_r qc_ops qc_ring). apply max_not_one. lia.
  - intros [|a u]; [reflexivity|]. apply wc_new.
Qed.
(** what remains: MAX_DEGREE = 0 and a multiple of the unit *)
Lemma c39_fmexp_partial : forall (S R : Type) (so : scalar_ops S R) (p : profile) (n : N) (x y : dvec S),
  ring_laws so -> 2 <= n < 2 ^ 32 -> dv_size x <= 1 ->
  exists z, ft_fmexp so p n 0 x y = Ret z
    /\ forall w, word_ok n w -> wcoef so n z w = tconv so 0 (wcoef so n x) (texp so 0 (no_unit so (wcoef so n y))) w.
Proof.
  intros S R so p n x y L Hn Hx. exists x. split; [apply c64_fmexp_short; [exact Hn|lia]|].
  intros w Hw. unfold tconv. destruct (N.leb_spec (len w) 0) as [H|H].
  - destruct w as [|a w]; [|rewrite len_cons in H; lia]. rewrite conv_nil by exact L.
    unfold texp, exp_upto. cbn. rewrite !(r_mul_1_r so L). reflexivity.
  - apply (wcoef_beyond so n (proj1 Hn) x 0 w); [apply small_degree; assumption|exact Hw|exact H].
Qed.
Example c39_example : (z <- ft_fmexp qc_ops dev 2 2 (dv_from [q 1]) (dv_from [q 5]) ;; Ret (vals z)) = Ret (qz [2]%Z)
  /\ this (tconv qc_ops 2 (wcoef qc_ops 2 (dv_from [q 1])) (texp qc_ops 2 (no_unit qc_ops (wcoef qc_ops 2 (dv_from [q 5])))) []) = 1%Q.
Proof. repeat split; vm_compute; reflexivity. Qed.
