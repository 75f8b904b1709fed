(** Dual numbers a + b e with e*e = 0 over the rationals: scalars that carry a derivative; and the integers among the rationals; only used in examples. *)
From Coq Require Import QArith Qcanon ZArith Lia.
From Verif Require Import Machine M_Scalar I_Scalars S_Param.

Local Open Scope Qc_scope.
Definition dual := (Qc * Qc)%type.
Definition dual_ops : scalar_ops dual Qc := {|
  s_zero := (0, 0);
  s_one := (1, 0);
  s_mone := (- (1), 0);
  s_uminus x := (- fst x, - snd x);
  s_inv r := (/ r, 0);
  s_add x y := (fst x + fst y, snd x + snd y);
  s_sub x y := (fst x - fst y, snd x - snd y);
  s_mul x y := (fst x * fst y, fst x * snd y + snd x * fst y);
  s_div x r := (fst x / r, snd x / r);
  s_eqb x y := s_eqb qc_ops (fst x) (fst y) && s_eqb qc_ops (snd x) (snd y);
  s_from_degree d := (s_from_degree qc_ops d, 0);
  r_from_degree := r_from_degree qc_ops
|}.
Definition du (a b : Z) : dual := (q a, q b).
(** forgetting the derivative, and taking the derivative of a constant to be 0, respect the operations *)
Lemma dual_value : homomorphism fst (fun r => r) dual_ops qc_ops.
Proof. constructor; cbn; intros; subst; reflexivity. Qed.
Definition constant (a : Qc) : dual := (a, 0).
Lemma dual_constant : homomorphism constant (fun r => r) qc_ops dual_ops.
Proof. constructor; cbn; intros; subst; unfold constant; cbn; f_equal; try ring. unfold Qcdiv. ring. Qed.
Lemma dual_constant_eq : related_eq (fun x x' => constant x = x') qc_ops dual_ops.
Proof.
  intros x x' y y' <- <-. cbn. unfold constant. cbn. destruct (Qc_eq_bool 0 0) eqn:E; [rewrite Bool.andb_true_r; reflexivity|].
  exfalso. vm_compute in E. discriminate.
Qed.
Lemma dual_constant_degrees : related_degrees (fun x x' => constant x = x') (fun r r' => r = r') qc_ops dual_ops.
Proof. intros d. split; reflexivity. Qed.
(** the integers among the rationals *)
Definition integer (x : Qc) : Prop := exists a, x = q a.
Lemma integers_closed : closed integer (fun r => r = q 1) qc_ops.
Proof.
  assert (A : forall x y, integer x -> integer y -> integer (x + y)).
  { intros x y (a & ->) (b & ->). exists (a + b)%Z. apply Qc_is_canon. cbn [this Qcplus Qcmult Q2Qc q]. rewrite !Qred_correct. rewrite inject_Z_plus. reflexivity. }
  assert (M : forall x y, integer x -> integer y -> integer (x * y)).
  { intros x y (a & ->) (b & ->). exists (a * b)%Z. apply Qc_is_canon. cbn [this Qcplus Qcmult Q2Qc q]. rewrite !Qred_correct. rewrite inject_Z_mult. reflexivity. }
  assert (O : integer (- (1))) by (exists (-1)%Z; apply Qc_is_canon; reflexivity).
  assert (U : forall x, integer x -> integer (- x)).
  { intros x H. replace (- x) with (- (1) * x) by ring. apply M; assumption. }
  repeat split; cbn; auto.
  - exists 0%Z. apply Qc_is_canon. reflexivity.
  - exists 1%Z. apply Qc_is_canon. reflexivity.
  - intros x y H G. apply A; [exact H|apply U; exact G].
  - intros x r H ->. replace (x / q 1) with x; [exact H|]. unfold Qcdiv. replace (/ q 1) with 1; [ring|apply Qc_is_canon; reflexivity].
Qed.
