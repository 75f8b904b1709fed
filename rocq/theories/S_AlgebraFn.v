(** The calls a product makes to the closure it is given, for C90. *)
From Verif Require Import Machine M_Scalar S_Words.

(** call [func] on the arguments in turn until it panics: the results, its last state, and whether it never panicked *)
Fixpoint run_calls {S St} (func : St -> S -> St * option S) (st : St) (args : list S) : list S * St * bool :=
  match args with
  | [] => ([], st, true)
  | a :: args' =>
      match func st a with
      | (st1, None) => ([], st1, false)
      | (st1, Some b) => let '(bs, st2, ok) := run_calls func st1 args' in (b :: bs, st2, ok)
      end
  end.

(** the pairs of words u, v with |u| <= l, |v| <= r and |u|+|v| <= m: by decreasing |u|+|v|, then by decreasing |u|,
    then u lexicographically, then v lexicographically *)
Definition product_pairs (n l r m : N) : list (word * word) :=
  flat_map (fun k => flat_map (fun d => list_prod (words_of_length n (N.to_nat d)) (words_of_length n (N.to_nat (k - d))))
                              (filter (fun d => (d <=? l) && (k - d <=? r)) (rev_range_incl 0 k)))
           (rev_range_incl 0 m).

(** what the calls add to the coefficient of [w], given the pair of each call made and its result *)
Definition added_to {S R} (so : scalar_ops S R) (w : word) (l : list (word * word * S)) (a : S) : S :=
  fold_left (s_add so) (map snd (filter (fun c => word_eqb (fst (fst c) ++ snd (fst c)) w) l)) a.

(** the number of such pairs with |u|+|v| < k: there are n^j words of length j, and a word of length j can be split at
    max(0, j-r), ..., min(l, j) *)
Fixpoint pairs_below (n l r : N) (k : nat) : N :=
  match k with
  | O => 0
  | S j => pairs_below n l r j + (N.min l (N.of_nat j) + 1 - (N.of_nat j - r)) * n ^ N.of_nat j
  end.
