(** Specification vocabulary: sizes of degrees as 64-bit arithmetic without overflow checks gives them. *)
From Verif Require Import Machine.
Local Open Scope N_scope.

(** the 64-bit value of an integer *)
Definition low64 (z : Z) : N := Z.to_N (z mod 2 ^ 64).
(** (n^d - 1) / (n - 1), with numerator and denominator as 64-bit values *)
Definition wrapped_start (n d : N) : N := low64 (Z.of_N n ^ Z.of_N d - 1) / low64 (Z.of_N n - 1).
