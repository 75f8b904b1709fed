(** Lie polynomials and paths, computed through the API. *)
From Verif Require Import Machine S_Words M_TensorKey M_TensorBasis M_Scalar M_Vector M_Dense M_Algebra.

(** an expression made of letters by sums, differences, negation, multiples and brackets *)
Inductive lie (S : Type) : Type :=
| Letter (a : N)
| Plus (e e' : lie S)
| Minus (e e' : lie S)
| Neg (e : lie S)
| Scaled (c : S) (e : lie S)
| Bracket (e e' : lie S).
Arguments Letter {S}. Arguments Plus {S}. Arguments Minus {S}. Arguments Neg {S}. Arguments Scaled {S}. Arguments Bracket {S}.

(** every letter of the expression is one of 1..n *)
Fixpoint letters_ok {S} (n : N) (e : lie S) : Prop :=
  match e with
  | Letter a => 1 <= a <= n
  | Plus e e' | Minus e e' | Bracket e e' => letters_ok n e /\ letters_ok n e'
  | Neg e | Scaled _ e => letters_ok n e
  end.

(** its value as a dense tensor, with brackets truncated at degree [t] *)
Fixpoint lie_eval {S R} (so : scalar_ops S R) (p : profile) (n t : N) (e : lie S) : outcome (dvec S) :=
  let vo := dense_ops so (tensor_basis p n) in
  match e with
  | Letter a => k <- tk_from_letter p a ;; vr_from_key vo k
  | Plus e e' => x <- lie_eval so p n t e ;; y <- lie_eval so p n t e' ;; vd_add vo x y
  | Minus e e' => x <- lie_eval so p n t e ;; y <- lie_eval so p n t e' ;; vd_sub vo x y
  | Neg e => x <- lie_eval so p n t e ;; vd_uminus vo x
  | Scaled c e => x <- lie_eval so p n t e ;; vd_scalar_lmultiply vo x c
  | Bracket e e' => x <- lie_eval so p n t e ;; y <- lie_eval so p n t e' ;; alg_commutator so p n x y (Some t)
  end.

(** one increment after the other *)
Fixpoint follow {V} (step : V -> V -> outcome V) (x : V) (ys : list V) : outcome V :=
  match ys with [] => Ret x | y :: ys => z <- step x y ;; follow step z ys end.
