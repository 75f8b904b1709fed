(** Specification of the truncated exponential and logarithm, on coefficient functions of words. *)
From Verif Require Import Machine S_Words M_Scalar S_Tensor.

Section Series.
  Context {S R : Type} (so : scalar_ops S R) (t : N).

  (** f^k, truncated at degree [t] *)
  Fixpoint tpow (f : word -> S) (k : nat) : word -> S :=
    match k with O => unit_fun so | Datatypes.S k => tconv so t (tpow f k) f end.
  (** 1/k! *)
  Fixpoint inv_fact (k : nat) : S :=
    match k with
    | O => s_one so
    | Datatypes.S k => s_mul so (inv_fact k) (s_inv so (r_from_degree so (N.of_nat (Datatypes.S k))))
    end.
  (** the sum of [c k * f^k] for k = 0..K *)
  Fixpoint series (c : nat -> S) (f : word -> S) (K : nat) (w : word) : S :=
    match K with
    | O => s_mul so (c 0%nat) (tpow f 0 w)
    | Datatypes.S K' => s_add so (series c f K' w) (s_mul so (c K) (tpow f K w))
    end.
  (** 1 + f + f^2/2! + ... + f^K/K! *)
  Definition exp_upto (f : word -> S) (K : nat) : word -> S := series inv_fact f K.
  (** the exponential, truncated at degree [t] *)
  Definition texp (f : word -> S) : word -> S := exp_upto f (N.to_nat t).
  (** f without its constant term *)
  Definition no_unit (f : word -> S) (w : word) : S := match w with [] => s_zero so | _ => f w end.
  (** the coefficients of log(1 + x): 0, 1, -1/2, 1/3, ... *)
  Definition log_coef (k : nat) : S :=
    match k with
    | O => s_zero so
    | _ => if Nat.even k then s_uminus so (s_inv so (r_from_degree so (N.of_nat k)))
           else s_inv so (r_from_degree so (N.of_nat k))
    end.
  (** log(1 + f), for f without its constant term, truncated at degree [t] *)
  Definition tlog (f : word -> S) : word -> S := series log_coef (no_unit f) (N.to_nat t).
End Series.
