(** Specification of Hall set sizes and Hall keys. *)
From Verif Require Import Machine.
Local Open Scope N_scope.

(** ** Calls modelled with fuel *)
(** the call ends with result [r] (a value or a panic) *)
Definition converges {A} (m : nat -> outcome A) (r : outcome A) : Prop := exists f0, forall f, (f0 <= f)%nat -> m f = r.
(** the call never ends *)
Definition never_ends {A} (m : nat -> outcome A) : Prop := forall f, m f = Diverge.
(** the call does not return: it may panic or never end *)
Definition never_returns {A} (m : nat -> outcome A) : Prop := forall f a, m f <> Ret a.

(** ** Number theory *)
Definition squarefree (n : N) : Prop := forall b, 2 <= b -> ~ (b * b | n).
Definition nprime (n : N) : Prop := 2 <= n /\ forall d, (d | n) -> d = 1 \/ d = n.
Definition nproduct (l : list N) : N := fold_right N.mul 1 l.
(** the Moebius function: 0 for numbers with a square factor, (-1)^k for products of k distinct primes *)
Definition is_mobius (n : N) (z : Z) : Prop :=
  (~ squarefree n /\ z = 0%Z)
  \/ exists ps, NoDup ps /\ Forall nprime ps /\ n = nproduct ps /\ z = ((-1) ^ Z.of_nat (length ps))%Z.

Definition zsum (l : list Z) : Z := fold_right Z.add 0%Z l.
(** sum over the divisors k of n of mu(k) w^(n/k) *)
Definition necklace (mu : N -> Z) (w n : N) : Z :=
  zsum (map (fun k => if n mod k =? 0 then (mu k * Z.of_N w ^ Z.of_N (n / k))%Z else 0%Z) (range_incl 1 n)).
(** dimension of the part of degree n of the free Lie algebra on w letters, and of the part of degree at most d *)
Definition witt (mu : N -> Z) (w n : N) : Z := (necklace mu w n / Z.of_N n)%Z.
Definition witt_sum (mu : N -> Z) (w d : N) : Z := zsum (map (witt mu w) (range_incl 1 d)).

(** the same in wrapping 64-bit arithmetic: each term is reduced to a signed 64-bit number and divided by n, dropping the
    fraction; the sum of all is reduced to an unsigned 64-bit number *)
Definition signed64 (z : Z) : Z := ((z + 2 ^ 63) mod 2 ^ 64 - 2 ^ 63)%Z.
Definition wrapped_level (mu : N -> Z) (w n : N) : Z :=
  zsum (map (fun k => if n mod k =? 0 then Z.quot (signed64 (mu k * Z.of_N w ^ Z.of_N (n / k))) (Z.of_N n) else 0%Z) (range_incl 1 n)).
Definition wrapped_sum (mu : N -> Z) (w d : N) : Z := (zsum (map (wrapped_level mu w) (range_incl 1 d)) mod 2 ^ 64)%Z.

(** ** Hall keys: the bits of a key *)
Definition field (k shift bits : N) : N := (k / 2 ^ shift) mod 2 ^ bits.
