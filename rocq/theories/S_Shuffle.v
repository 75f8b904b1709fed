(** Shuffles of words, and the two kinds of tensors defined by them: group-like tensors (such as signatures of paths) and
    primitive tensors (Lie elements). *)
From Verif Require Import Machine S_Words M_Scalar.

(** all ways to interleave two words, keeping the order of the letters of each; a word occurs as often as it arises *)
Fixpoint shuffle (u : word) : word -> list word :=
  match u with
  | [] => fun v => [v]
  | a :: u' =>
      fix go (v : word) : list word :=
        match v with
        | [] => [a :: u']
        | b :: v' => map (cons a) (shuffle u' (b :: v')) ++ map (cons b) (go v')
        end
  end.

Section Shuffle.
  Context {S R : Type} (so : scalar_ops S R) (n : N).

  (** the sum of the coefficients of all shuffles of [u] and [v] *)
  Definition shuffle_sum (f : word -> S) (u v : word) : S := fold_right (s_add so) (s_zero so) (map f (shuffle u v)).
  (** the product of two coefficients is the sum over the shuffles, for words of total length up to [t] *)
  Definition group_like (t : N) (f : word -> S) : Prop :=
    f [] = s_one so
    /\ forall u v, word_ok n u -> word_ok n v -> len u + len v <= t -> s_mul so (f u) (f v) = shuffle_sum f u v.
  (** the sum over the shuffles of two non-empty words is zero, for words of total length up to [t] *)
  Definition primitive (t : N) (f : word -> S) : Prop :=
    f [] = s_zero so
    /\ forall u v, word_ok n u -> word_ok n v -> u <> [] -> v <> [] -> len u + len v <= t -> shuffle_sum f u v = s_zero so.
  (** the product of the coefficients of the letters of [w] *)
  Definition weight (f : word -> S) (w : word) : S := fold_right (s_mul so) (s_one so) (map (fun a => f [a]) w).
End Shuffle.
