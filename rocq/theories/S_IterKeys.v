(** Vocabulary for what iter_keys yields. *)
From Verif Require Import Machine S_KeyRaw.
Local Open Scope N_scope.

(** 0, 1, 2, 5, 10, 21, 42, ... : 0, 1, 10, 101, 1010, 10101, ... in binary *)
Definition alternating (j : N) : N := 2 ^ (j + 1) / 3.
(** the numbers of letters 2, 3, 6, 11, 22, 43, ... with the code of the last letter alternating *)
Definition special (n : N) : Prop := n = alternating (letter_bits n) + 1.
(** what stands before the last letter in the words of length 2, in the order in which they are yielded *)
Fixpoint fronts (b : N) (j : nat) : N :=
  match j with O => 0 | S j' => let y := fronts b j' in y / 2 * 2 + (y mod 2 ^ b + 1) end.
(** the words over n >= 2 letters from which the iterator goes to the next word *)
Definition goes_right (n : N) (w : list N) : Prop :=
  (exists u a, w = u ++ [a] /\ a < n)
  \/ (exists u a, w = u ++ [a; n] /\ a < n /\ a <= 2)
  \/ (exists u, w = u ++ [1; n; n] /\ n <= 4)
  \/ (exists u, w = u ++ [1; n; n; n] /\ n = 2)
  \/ w = [] \/ w = [n] \/ (w = [n; n] /\ n = 2).
