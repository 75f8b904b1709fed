(** Specification of the packing of letters into a key for arguments of any value: a letter takes [letter_bits n] bits, the
    last letter is lowest, and a letter a is stored as a - 1. *)
From Verif Require Import Machine.
Local Open Scope N_scope.

(** number of binary digits of n, and 1 for n = 0 *)
Definition letter_bits (n : N) : N := N.log2 n + 1.
(** a - 1 as a 32-bit number *)
Definition code32 (a : N) : N := if a =? 0 then 2 ^ 32 - 1 else a - 1.
(** [b] bits of [data], [s] bits from the right *)
Definition bits_at (b data s : N) : N := data / 2 ^ s mod 2 ^ b.
(** the letters one after the other, as a number of any size *)
Definition packed (b : N) (l : list N) : N := fold_left (fun acc a => acc * 2 ^ b + code32 a) l 0.
(** the letters at their places, the places counted modulo 64 *)
Fixpoint packed_around (b : N) (w : list N) : N :=
  match w with [] => 0 | a :: w' => packed_around b w' + code32 a * 2 ^ ((len w' * b) mod 64) end.
(** the letters of a key of [size] letters, first letter first; with places counted modulo 64 and letters modulo 2^32 *)
Definition stored_letters (b size data : N) : list N :=
  map (fun i => bits_at b data (N.of_nat i * b) + 1) (rev (seq 0 (N.to_nat size))).
Definition letters_around (b size data : N) : list N :=
  map (fun i => (bits_at b data ((N.of_nat i * b) mod 64) + 1) mod 2 ^ 32) (rev (seq 0 (N.to_nat size))).
(** every letter lies inside of the 64 bits and is a 32-bit number *)
Definition readable (b size data : N) : bool :=
  ((size - 1) * b <? 64) && forallb (fun a => a <? 2 ^ 32) (stored_letters b size data).
(** The bits that the crate sets aside for the length of a key: as many as the number 63 / letter_bits(n) has after
    its first. *)
Definition field_bits (n : N) : N := N.log2 (63 / letter_bits n).
