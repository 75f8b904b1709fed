(** Specification: rotations of words, and sums of commutators computed through the API. *)
From Verif Require Import Machine S_Words M_Scalar M_TensorBasis M_Vector M_Dense M_Algebra.

(** the words vu with w = uv, one for each letter of w *)
Definition rotations_of (w : word) : list word := map (fun i => skipn i w ++ firstn i w) (seq 0 (length w)).
Definition rotation_sum {S R} (so : scalar_ops S R) (f : word -> S) (w : word) : S :=
  fold_right (s_add so) (s_zero so) (map f (rotations_of w)).

(** [x1,y1] + ([x2,y2] + (... + 0)), with commutators truncated at degree [t] *)
Fixpoint commutator_sum {S R} (so : scalar_ops S R) (p : profile) (n t : N) (l : list (dvec S * dvec S)) : outcome (dvec S) :=
  match l with
  | [] => Ret dv_new
  | (x, y) :: l =>
      c <- alg_commutator so p n x y (Some t) ;; z <- commutator_sum so p n t l ;;
      vd_add (dense_ops so (tensor_basis p n)) c z
  end.
