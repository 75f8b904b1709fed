(** Model of src/coefficients/mod.rs: the scalar traits as a record of operations, without laws. *)
From Verif Require Import Machine.

(** coefficients/mod.rs:17-50 CoefficientField, FromDegreeType, PartialEq.  [S] is the implementing
    type, [R] its RationalType.
    Simplifications: scalar operations return (do not panic); the `*_inplace` operations store the
    value of the operation of the same name (true of both implementations in the crate,
    floating_point_fields.rs:59-78 and 115-134); From<i8>, From<i16> and from_rational, which nothing in
    the crate uses, are left out. *)
Record scalar_ops (S R : Type) := mk_scalar_ops {
  s_zero : S;                    (* ZERO *)
  s_one : S;                     (* ONE *)
  s_mone : S;                    (* MONE *)
  s_uminus : S -> S;
  s_inv : R -> S;
  s_add : S -> S -> S;
  s_sub : S -> S -> S;
  s_mul : S -> S -> S;
  s_div : S -> R -> S;
  s_eqb : S -> S -> bool;        (* PartialEq::eq *)
  s_from_degree : N -> S;        (* FromDegreeType for S *)
  r_from_degree : N -> R         (* FromDegreeType for RationalType *)
}.
Arguments mk_scalar_ops {S R}.
Arguments s_zero {S R}. Arguments s_one {S R}. Arguments s_mone {S R}. Arguments s_uminus {S R}.
Arguments s_inv {S R}. Arguments s_add {S R}. Arguments s_sub {S R}. Arguments s_mul {S R}.
Arguments s_div {S R}. Arguments s_eqb {S R}. Arguments s_from_degree {S R}. Arguments r_from_degree {S R}.
