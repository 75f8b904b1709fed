(** Specification: the antipode of a tensor reverses words, with the sign of their length. *)
From Verif Require Import Machine S_Words M_Scalar.

Definition antipode {S R : Type} (so : scalar_ops S R) (f : word -> S) (w : word) : S :=
  if Nat.even (length w) then f (rev w) else s_uminus so (f (rev w)).
