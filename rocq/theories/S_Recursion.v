(** Specification: the calls that index_to_degree_impl makes of itself. *)
From Verif Require Import Machine M_TensorBasis.

(** tensor_basis/mod.rs:39-46: index_to_degree_impl(i, d) answers r, and m calls of the function, including this one, are then
    on the stack at once (the recursion is the last thing a call does, and nothing requires the compiler to make a loop of it) *)
Inductive impl_calls (p : profile) (n i : N) : N -> nat -> outcome N -> Prop :=
| answers d r : tb_index_to_degree_step p n i d = inr r -> impl_calls p n i d 1 r
| asks d d' m r : tb_index_to_degree_step p n i d = inl d' -> impl_calls p n i d' m r -> impl_calls p n i d (S m) r.
(** index_to_degree(i) answers r with m nested calls of index_to_degree_impl: with m = 0 its answer does not depend on the
    function; otherwise it answers, whatever function is in its place, what that function answers for one degree d *)
Definition degree_calls (p : profile) (n i : N) (m : nat) (r : outcome N) : Prop :=
  (m = 0%nat /\ forall f, tb_index_to_degree_calling f p n i = r)
  \/ (exists d, (forall f, tb_index_to_degree_calling f p n i = f d) /\ impl_calls p n i d m r).
