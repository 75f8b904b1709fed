(** Cases that meet the hypotheses of the theorems of P_Algebra.v, P_AlgebraTrait.v, P_Products.v, P_Closures.v, P_Exp.v,
    P_FreeTensor.v and P_CommFloat.v. *)
From Coq Require Import QArith Qcanon SpecFloat.
From Verif Require Import Machine S_Words M_TensorKey M_TensorBasis M_Scalar M_Vector M_Dense S_Vector S_Tensor S_AlgebraTrait
  S_AlgebraFn S_Series S_FreeTensor M_Algebra M_AlgebraTrait M_AlgebraFn M_FreeTensor M_Float S_Float I_Scalars I_FunAlgebra
  L_PropAlgebraTrait L_PropClosures P_Algebra P_AlgebraTrait P_Products P_Closures P_Exp P_FreeTensor P_CommFloat E_Tac.
Local Open Scope N_scope.
Ltac at_words :=
  intros; unfold wcoef, coef, slice_get; cbn [dv_as_slice dv_from dv_elems map];
  match goal with |- context [N.to_nat (windex ?n ?w)] => destruct (N.to_nat (windex n w)) as [|[|[|[|?]]]] end;
  cbn [nth_error nth];
  repeat split; try (vm_compute; reflexivity); eexists; split; try (vm_compute; reflexivity).
Ltac hyp_more ::=
  lazymatch goal with
  | |- has_degree _ _ _ => unfold has_degree; first [left; vm_compute; split; reflexivity | right; vm_compute; split; [reflexivity|discriminate]]
  | |- stored_to _ _ _ => unfold stored_to; vm_compute; discriminate
  | |- filled _ _ _ => unfold filled; vm_compute; reflexivity
  | |- exact_algebra _ _ _ _ _ _ => exact (fun_exact _)
  | |- exact_products _ _ _ _ _ => exact (proj1 c106_example)
  | |- exact_ring _ _ _ _ _ _ => exact (proj1 (proj2 c106_example))
  | |- forall w, word_ok _ w -> is_float _ _ /\ is_float _ _ => at_words
  | |- forall w, word_ok _ w -> fl_int _ _ _ /\ fl_int _ _ _ => at_words
  | |- forall w, word_ok _ w -> _ = _ => reflexivity
  end.
Local Notation v l := (dv_from (map q l)).

(** of degree 2 with one letter of the alphabet 1, 2 missing at the end; of degree 1; of degree 2 *)
Local Notation short := (v [1; 2; 3; 4; 5]%Z).
Local Notation vx := (v [1; 2; 3]%Z).
Local Notation vy := (v [0; 2; -3; 4; 5; -6; 7]%Z).
Example case_C29_add_mul := ltac:(use (C29_add_mul _ _ qc_ops dev 2 short vx vx 2 1 1 1)).
Example case_C29_add_mul_grows := ltac:(use (C29_add_mul _ _ qc_ops dev 2 vx vx vy 1 1 2 7)).
Example case_C29_sub_mul := ltac:(use (C29_sub_mul _ _ qc_ops release 2 short vx vx 2 1 1 1)).
Example case_C29_multiply := ltac:(use (C29_multiply _ _ qc_ops dev 2 vx vy 1 2 7)).
Example case_C29_multiply_short := ltac:(use (C29_multiply _ _ qc_ops dev 2 short vx 2 1 1)).
Example case_C29_convolution := ltac:(use (C29_convolution _ _ qc_ops 2 vx vy 1 2 [2; 1; 1] (q 5))).
Example case_C29_read := ltac:(use (C29_read _ _ qc_ops dev 2 vy [2; 1] (key 2 [2; 1]))).
Example case_C30_exact := ltac:(use (C30_exact _ _ qc_ops dev 2 short vx vy 2 1 2 2)).
Example case_C30_multiply_exact := ltac:(use (C30_multiply_exact _ _ qc_ops dev 2 short vy 2 2 3)).
Example case_C30_memory_safety_refuted := ltac:(use (C30_memory_safety_refuted _ _ qc_ops dev 2 4)).
Example case_C30_overflow_panics :=
  ltac:(use (C30_overflow_panics _ _ qc_ops dev 2642246 vx (v [1; 2]%Z) (v [1; 2]%Z) 1 1 1 2)).
Example case_C30_wrapped_size_refuted :
  let x := dv_from (repeat (q 1) (N.to_nat 2642247)) in alg_multiply qc_ops release 2642246 x x (Some 2) = UB.
Proof.
  intros x. assert (filled 2642246 x 1).
  { unfold filled, x, dv_size, dv_from, len. cbn [dv_elems]. rewrite repeat_length, N2Nat.id. vm_compute. reflexivity. }
  apply C30_wrapped_size_refuted; try assumption; hyp.
Qed.

Example case_C106_products := ltac:(use
  (C106_products _ _ _ _ qc_ops mat_zero mat_alg (fun x => x) mat_terms ltac:(hyp) ltac:(hyp) (mat_of 0 1 0 0) (mat_of 0 0 1 0)
     (mat_of 1 2 3 4) (mat_of 1 0 0 1) (q 3) (q 2) None)).
Example case_C106_lie := ltac:(use (C106_lie _ _ _ _ qc_ops mat_zero mat_alg (fun x => x) mat_terms None
  (fun f g k => Qcplus (Qcmult (f (fst k, false)) (g (false, snd k))) (Qcmult (f (fst k, true)) (g (true, snd k)))))).
Example case_C106_mul_rat_rdiv := ltac:(use (C106_mul_rat_rdiv _ _ _ _ qc_ops mat_zero mat_alg (fun x => x) mat_terms
  ltac:(hyp) ltac:(hyp) (mat_of 1 2 3 4) (mat_of 1 0 0 1) (q 2) None)).

Example case_C31_basis_product := ltac:(use
  (C31_basis_product _ _ qc_ops dev 3 5 [2; 1] [3] (key 3 [2; 1]) (key 3 [3]) (key 3 [2; 1; 3]))).
Example case_C31_truncated := ltac:(use (C31_truncated _ _ qc_ops dev 3 2 [2; 1] [3] (key 3 [2; 1]) (key 3 [3]))).
Example case_C32_associative := ltac:(use (C32_associative _ _ qc_ops dev 2 3 vx vy (v [2; 3; 5]%Z) 1 2 1)).
Example case_C32_bilinear := ltac:(use (C32_bilinear _ _ qc_ops dev 2 3 vx vy vy (v [2; 3; 5]%Z) (q 7) 1 2 2 1)).
Example case_C32_unit := ltac:(use (C32_unit _ _ qc_ops dev 2 1 vy 2)).
Example case_C33_commutator := ltac:(use (C33_commutator _ _ qc_ops dev 2 3 vx vy 1 2)).
Example case_C33_antisymmetric := ltac:(use (C33_antisymmetric _ _ qc_ops dev 2 3 vx vy 1 2)).
Example case_C33_self := ltac:(use (C33_self _ _ qc_ops dev 2 3 vy 2)).
Example case_C33_jacobi := ltac:(use (C33_jacobi _ _ qc_ops dev 2 4 vx vy (v [2; 3; 5]%Z) 1 2 1)).
Example case_C34_none_panics := ltac:(use (C34_none_panics _ _ qc_ops dev 2 dv_new vx vy (q 2) (q 3) 1 2)).
Example case_C34_above_degree_partial := ltac:(use
  (C34_above_degree_partial _ _ qc_ops dev 2 vy vx vx (v [1; 6; 3; 4; 5; -6; 7]%Z) 2 1 1 1)).

Example case_C90_calls := ltac:(use
  (C90_calls _ _ _ qc_ops dev 2 counting dv_new vx (v [5; 7; 11]%Z) 0 1 1 2 0 5 (map q [14; 22; 21; 33]%Z) false)).
Example case_C96_counting_closure := ltac:(use (C96_counting_closure _ _ qc_ops dev 2 Qcopp vy vx vx 2 1 1 2 10)).
Example case_C96_all_words := ltac:(use (C96_all_words 3 4 2 7)).

Definition fy : word -> Qc := fun w => match w with [1] => q 1 | [2] => q 3 | _ => q 0 end.
Definition fx : word -> Qc := fun w => match w with [] => q 5 | [2; 1] => q 7 | _ => q 0 end.
Local Notation at_funs T := (T _ _ _ qc_ops dev 2 3 (fun_ops qc_ops) fun_mul_rat_rdiv (fun_multiply qc_ops) (fun x w => x w)).
Local Notation at_funs_ T := (T _ _ _ qc_ops 2 3 (fun_ops qc_ops) fun_mul_rat_rdiv (fun_multiply qc_ops) (fun x w => x w)).
Example case_C92_compose := ltac:(use (at_funs C92_compose fx fy fy (fun w => Qcplus (fy w) (fy w)))).
Example case_C92_undo := ltac:(use (at_funs C92_undo fx fy (fun w => Qcopp (fy w)))).
Example case_C92_exp := ltac:(use (at_funs_ C92_exp fy fy (fun w => Qcplus (fy w) (fy w)))).

Example case_C64_exp_degree_zero := ltac:(use (C64_exp_degree_zero _ _ qc_ops dev 2 4 (v [7]%Z))).
Example case_C64_exp_short := ltac:(use (C64_exp_short _ _ qc_ops dev 2 1 vy)).
Example case_C64_exp_never := ltac:(use (C64_exp_never _ _ qc_ops dev 2 4 2 vy)).
Example case_C64_fmexp_degree_zero := ltac:(use (C64_fmexp_degree_zero _ _ qc_ops dev 2 4 (v [7]%Z) (v [2]%Z))).
Example case_C64_fmexp_short := ltac:(use (C64_fmexp_short _ _ qc_ops dev 2 1 vx vy)).
Example case_C64_fmexp_never := ltac:(use (C64_fmexp_never _ _ qc_ops dev 2 4 1 2 vx vy)).
Example case_C64_fmexp_empty := ltac:(use (C64_fmexp_empty _ _ qc_ops dev 2 4 1 vx dv_new)).
Example case_C64_log := ltac:(use (C64_log _ _ qc_ops dev 2 4 2 vy)).
Example case_C64_log_degree_zero := ltac:(use (C64_log_degree_zero _ _ qc_ops dev 2 4 (v [7]%Z))).
Example case_C65_exp := ltac:(use (at_funs_ C65_exp fy)).
Example case_C65_fmexp := ltac:(use (at_funs C65_fmexp fx fy)).
Example case_C65_log := ltac:(use (at_funs_ C65_log)).
Example case_C37_exp_refuted := ltac:(use (C37_exp_refuted dev 3 4)).
Example case_C37_exp_partial := ltac:(use (C37_exp_partial _ _ qc_ops dev 2 vy)).
Example case_C38_log_refuted := ltac:(use (C38_log_refuted dev 3 4)).
Example case_C38_log_constant := ltac:(use (C38_log_constant _ _ qc_ops dev 2 4 1 2 vx vy)).
Example case_C39_fmexp_refuted := ltac:(use (C39_fmexp_refuted dev 3 4)).
Example case_C39_fmexp_partial := ltac:(use (C39_fmexp_partial _ _ qc_ops dev 2 (v [7]%Z) vy)).

Local Notation third := (s_div (fl_ops f32) (fl_of_Z f32 1) (fl_of_Z f32 3)).
Local Notation fv l := (dv_from (map (fl_of_Z f32) l)).
Example case_C110_terms := ltac:(use (C110_terms _ _ (fl_ops f32) dev 2 (fv [0; 2; 3]%Z) (fv [0; 2; -3; 4; 5; -6; 7]%Z) 1 2 3)).
Example case_C110_accuracy := ltac:(use
  (C110_accuracy f32 dev 2 (dv_from [s_zero (fl_ops f32); third; third]) (dv_from [s_one (fl_ops f32); third; third]) 1 1 2)).
Example case_C110_integers := ltac:(use (C110_integers f32 dev 2 (fv [0; 2; 3]%Z) (fv [0; 5; 7]%Z)
  (fun w => nth (N.to_nat (windex 2 w)) [0; 2; 3]%Z 0%Z) (fun w => nth (N.to_nat (windex 2 w)) [0; 5; 7]%Z 0%Z) 1 1 2)).
