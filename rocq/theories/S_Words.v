(** Specification vocabulary, independent of the code: words over the alphabet 1..n, their
    enumeration by length and then lexicographically, and counting. *)
From Verif Require Import Machine.

Definition word := list N.

(** every letter is in 1..n *)
Definition word_ok (n : N) (w : word) : Prop := Forall (fun a => 1 <= a <= n) w.

(** The alphabet in increasing order. *)
Definition letters (n : N) : list N := range_incl 1 n.

(** All words of length [d], lexicographically: the first letter varies slowest. *)
Fixpoint words_of_length (n : N) (d : nat) : list word :=
  match d with
  | O => [[]]
  | S d' => flat_map (fun a => map (cons a) (words_of_length n d')) (letters n)
  end.

(** All words of length < d, shorter words first, each length lexicographically. *)
Fixpoint words_below (n : N) (d : nat) : list word :=
  match d with
  | O => []
  | S d' => words_below n d' ++ words_of_length n d'
  end.

(** Number of words of length < d, as a number: 1 + n + ... + n^(d-1). *)
Fixpoint count_below (n : N) (d : nat) : N :=
  match d with
  | O => 0
  | S d' => count_below n d' + n ^ N.of_nat d'
  end.

(** Lexicographic comparison of words (used for words of equal length). *)
Fixpoint lex (u v : word) : comparison :=
  match u, v with
  | [], [] => Eq
  | [], _ :: _ => Lt
  | _ :: _, [] => Gt
  | a :: u', b :: v' => match N.compare a b with Eq => lex u' v' | c => c end
  end.

(** Equality of words, as a test. *)
Definition word_eqb (u v : word) : bool := if list_eq_dec N.eq_dec u v then true else false.

(** The position of a word in the enumeration [words_below]: the value of the word as a numeral in bijective
    base n.  (That this is the position is proved: C10.) *)
Definition idx_step (n acc a : N) : N := acc * n + a.
Definition windex (n : N) (w : word) : N := fold_left (idx_step n) w 0.
