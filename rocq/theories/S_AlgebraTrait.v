(** What an exact implementation of the trait Algebra does.  Vectors have coefficients [val x k]; the coefficient of the
    product of [l] and [r] at [k] is the sum of the finitely many scalars [terms t l r k], and the required methods
    apply the closure to each of them. *)
From Verif Require Import Machine M_Scalar M_AlgebraTrait.

(** s0 + f x1 + f x2 + ... *)
Definition sum_onto {S R} (so : scalar_ops S R) (s0 : S) (f : S -> S) (l : list S) : S :=
  fold_left (fun acc x => s_add so acc (f x)) l s0.

Section Exact.
  Context {V K S R : Type} (so : scalar_ops S R) (vnew : V) (ar : alg_required V S).
  Context (val : V -> K -> S) (terms : option N -> V -> V -> K -> list S).

  (** the required methods do what their names say, whenever they return *)
  Record exact_products : Prop := mk_exact_products {
    ep_new : forall k, val vnew k = s_zero so;
    ep_add_into : forall x l r f t z, ar_add_into ar x l r f t = Ret z ->
      forall k, val z k = sum_onto so (val x k) f (terms t l r k);
    ep_into : forall x r f t z, ar_into ar x r f t = Ret z ->
      forall k, val z k = sum_onto so (s_zero so) f (terms t x r k)
  }.
  (** the sums are those of a product of coefficient functions which is associative and additive on both sides, and
      the out-of-place products always return when truncated at [t] *)
  Record exact_ring (t : option N) (prod : (K -> S) -> (K -> S) -> K -> S) : Prop := mk_exact_ring {
    er_returns : forall x l r f, returns (ar_add_into ar x l r f t);
    er_prod : forall x y k, sum_onto so (s_zero so) (fun v => v) (terms t x y k) = prod (val x) (val y) k;
    er_ext : forall f f' g g' k, (forall k, f k = f' k) -> (forall k, g k = g' k) -> prod f g k = prod f' g' k;
    er_add_l : forall f f' g k, prod (fun j => s_add so (f j) (f' j)) g k = s_add so (prod f g k) (prod f' g k);
    er_add_r : forall f g g' k, prod f (fun j => s_add so (g j) (g' j)) k = s_add so (prod f g k) (prod f g' k);
    er_assoc : forall f g h k, prod (prod f g) h k = prod f (prod g h) k
  }.
End Exact.
