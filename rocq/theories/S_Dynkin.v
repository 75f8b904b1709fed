(** Specification: iterated brackets of letters, written as Lie expressions. *)
From Verif Require Import Machine S_Words M_Scalar S_Lie.

Section Dynkin.
  Context {S R : Type} (so : scalar_ops S R).

  (** the zero expression *)
  Definition nothing : lie S := Scaled (s_zero so) (Letter 1).
  (** [a1, [a2, [..., ak]]] *)
  Fixpoint right_bracket (w : word) : lie S :=
    match w with
    | [] => nothing
    | [a] => Letter a
    | a :: w' => Bracket (Letter a) (right_bracket w')
    end.
  (** the sum of f(w) times the bracket of w over the given words *)
  Definition bracket_sum (f : word -> S) (ws : list word) : lie S :=
    fold_right (fun w e => Plus (Scaled (f w) (right_bracket w)) e) nothing ws.
End Dynkin.
