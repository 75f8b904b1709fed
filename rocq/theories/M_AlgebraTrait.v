(** Model of src/algebra/mod.rs, the trait Algebra, for any implementing type: the default methods written with the
    two required ones and with Vector::new.  (M_Algebra.v has them for SimpleDenseVector over TensorBasis; C106 says
    that they are these with its required methods.)  Closures are pure functions, as in M_Algebra.v. *)
From Verif Require Import Machine M_Scalar.

(** algebra/mod.rs:16-29 the required methods; the first argument is `&mut self`, the result is self afterwards *)
Record alg_required (V S : Type) := mk_alg_required {
  ar_add_into : V -> V -> V -> (S -> S) -> option N -> outcome V;   (* multiply_and_add_into_impl *)
  ar_into : V -> V -> (S -> S) -> option N -> outcome V             (* multiply_into_impl *)
}.
Arguments mk_alg_required {V S}. Arguments ar_add_into {V S}. Arguments ar_into {V S}.

Section AlgebraTrait.
  (** [vnew] is Vector::new() of the type *)
  Context {V S R : Type} (so : scalar_ops S R) (vnew : V) (ar : alg_required V S).

  (** algebra/mod.rs:31-40 multiply *)
  Definition at_multiply (self rhs : V) (t : option N) : outcome V := ar_add_into ar vnew self rhs (fun v => v) t.
  (** algebra/mod.rs:42-50 multiply_inplace *)
  Definition at_multiply_inplace (self rhs : V) (t : option N) : outcome V := ar_into ar self rhs (fun v => v) t.
  (** algebra/mod.rs:52-66 add_mul *)
  Definition at_add_mul (self lhs rhs : V) (t : option N) : outcome V := ar_add_into ar self lhs rhs (fun v => v) t.
  (** algebra/mod.rs:68-81 sub_mul *)
  Definition at_sub_mul (self lhs rhs : V) (t : option N) : outcome V := ar_add_into ar self lhs rhs (s_uminus so) t.
  (** algebra/mod.rs:83-95 commutator *)
  Definition at_commutator (self rhs : V) (t : option N) : outcome V :=
    result <- at_add_mul vnew self rhs t ;;
    at_sub_mul result rhs self t.
  (** algebra/mod.rs:97-111 mul_scal_lprod *)
  Definition at_mul_scal_lprod (self rhs : V) (sca : S) (t : option N) : outcome V :=
    ar_into ar self rhs (fun v => s_mul so sca v) t.
  (** algebra/mod.rs:113-127 mul_scal_rprod *)
  Definition at_mul_scal_rprod (self rhs : V) (sca : S) (t : option N) : outcome V :=
    ar_into ar self rhs (fun v => s_mul so v sca) t.
  (** algebra/mod.rs:129-143 mul_rat_ldiv *)
  Definition at_mul_rat_ldiv (self rhs : V) (sca : R) (t : option N) : outcome V :=
    ar_into ar self rhs (fun v => s_div so v sca) t.
  (** algebra/mod.rs:145-159 mul_rat_rdiv: takes a scalar and multiplies by it *)
  Definition at_mul_rat_rdiv (self rhs : V) (sca : S) (t : option N) : outcome V :=
    ar_into ar self rhs (fun v => s_mul so v sca) t.
End AlgebraTrait.
