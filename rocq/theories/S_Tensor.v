(** Specification of products of tensors, on coefficient functions of words. *)
From Verif Require Import Machine S_Words M_Scalar M_Dense S_Vector.

(** the coefficient of the word [w] *)
Definition wcoef {S R} (so : scalar_ops S R) (n : N) (v : dvec S) (w : word) : S := coef so v (windex n w).

(** the dense tensor [v] is of degree [d]: its last position is that of a word of length [d] *)
Definition has_degree {S} (n : N) (v : dvec S) (d : N) : Prop :=
  (dv_size v = 0 /\ d = 0)
  \/ count_below n (N.to_nat d) < dv_size v <= count_below n (Datatypes.S (N.to_nat d)).
(** all words of length up to [d] have a stored coefficient *)
Definition stored_to {S} (n : N) (v : dvec S) (d : N) : Prop :=
  count_below n (Datatypes.S (N.to_nat d)) <= dv_size v.
(** both: exactly the words of length up to [d] are stored *)
Definition filled {S} (n : N) (v : dvec S) (d : N) : Prop :=
  dv_size v = count_below n (Datatypes.S (N.to_nat d)).

(** the stored coefficients of the words of length [d], in order *)
Definition degree_block {S} (n : N) (v : dvec S) (d : N) : list S :=
  firstn (N.to_nat (n ^ d)) (skipn (N.to_nat (count_below n (N.to_nat d))) (dv_elems v)).

(** all ways to write [w] as [u ++ v], the shortest [u] first *)
Fixpoint splits (w : word) : list (word * word) :=
  ([], w) :: match w with
             | [] => []
             | a :: w' => map (fun uv => (a :: fst uv, snd uv)) (splits w')
             end.

Section Products.
  Context {S R : Type} (so : scalar_ops S R).

  (** the terms added to one coefficient, in the order of the additions: longest left factor first,
      left factors up to length [l], right factors up to length [r] *)
  Definition terms (l r : N) (f g : word -> S) (w : word) : list S :=
    map (fun uv => s_mul so (f (fst uv)) (g (snd uv)))
      (filter (fun uv => (len (fst uv) <=? l) && (len (snd uv) <=? r)) (rev (splits w))).

  (** the tensor product of two coefficient functions, and its truncation at degree [t] *)
  Definition conv (f g : word -> S) (w : word) : S :=
    fold_right (s_add so) (s_zero so) (map (fun uv => s_mul so (f (fst uv)) (g (snd uv))) (splits w)).
  Definition tconv (t : N) (f g : word -> S) (w : word) : S :=
    if len w <=? t then conv f g w else s_zero so.
  (** the unit of the product *)
  Definition unit_fun (w : word) : S := match w with [] => s_one so | _ => s_zero so end.
End Products.
