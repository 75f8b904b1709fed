(** Specification: Lyndon words, their brackets, and counting them.  Independent of the code. *)
From Verif Require Import Machine S_Words M_Scalar S_Lie S_Dynkin.

(** u comes before v in the dictionary *)
Definition before (u v : word) : bool := match lex u v with Lt => true | _ => false end.
(** all suffixes except the empty one *)
Fixpoint suffixes (w : word) : list word := match w with [] => [] | _ :: w' => w :: suffixes w' end.
(** a non-empty word that comes before all its other suffixes *)
Definition lyndon (w : word) : bool :=
  match w with [] => false | _ :: w' => forallb (before w) (suffixes w') end.
(** the Lyndon words of length k over the letters 1..n *)
Definition lyndon_words (n : N) (k : nat) : list word := filter lyndon (words_of_length n k).
(** the Lyndon words of length 1..t, shorter ones first *)
Definition lyndon_upto (n : N) (t : nat) : list word := concat (map (fun k => lyndon_words n (k + 1)) (seq 0 t)).

(** the first suffix in the dictionary *)
Fixpoint least_suffix (w : word) : word :=
  match w with
  | [] => []
  | a :: w' => match least_suffix w' with [] => w | s => if before w s then w else s end
  end.
(** the bracket of a Lyndon word: cut at its first proper suffix *)
Fixpoint bracket_rec {S R} (so : scalar_ops S R) (fuel : nat) (w : word) : lie S :=
  match fuel, w with
  | _, [] => nothing so
  | _, [a] => Letter a
  | O, _ => nothing so
  | Datatypes.S fuel', _ :: w' =>
      let v := least_suffix w' in
      Bracket (bracket_rec so fuel' (firstn (length w - length v) w)) (bracket_rec so fuel' v)
  end.
Definition lyndon_bracket {S R} (so : scalar_ops S R) (w : word) : lie S := bracket_rec so (length w) w.
(** the sum of c(l) times the bracket of l over the given words *)
Definition lyndon_sum {S R} (so : scalar_ops S R) (c : word -> S) (ws : list word) : lie S :=
  fold_right (fun l e => Plus (Scaled (c l) (lyndon_bracket so l)) e) (nothing so) ws.
