(** Model of src/coefficients/floating_point_fields.rs: f32 and f64 as scalars.
    The IEEE 754 operations themselves are not code of the crate; they are taken from the standard
    library's Coq.Floats.SpecFloat, which defines them by integer arithmetic for any precision and
    exponent range.  Simplification: there is one NaN (no sign, no payload), so results that differ in
    the bits of a NaN only are identified. *)
From Coq Require Import ZArith Floats.SpecFloat.
From Verif Require Import Machine M_Scalar.

(** a binary interchange format: precision and exponent of the infinities *)
Record fmt := mk_fmt { f_prec : Z; f_emax : Z }.
Definition f32 : fmt := mk_fmt 24 128.
Definition f64 : fmt := mk_fmt 53 1024.

(** the numbers of a format among the values of [spec_float] *)
Definition is_float (f : fmt) (x : spec_float) : Prop := valid_binary (f_prec f) (f_emax f) x = true.

(** 1.0 (the literals of floating_point_fields.rs:30 and 87) *)
Definition fl_one (f : fmt) : spec_float := SFone (f_prec f) (f_emax f).

(** floating_point_fields.rs:14-18, 20-24 from_degree: `*deg as Self`, which rounds to nearest, ties to even *)
Definition fl_from_degree (f : fmt) (d : N) : spec_float :=
  binary_normalize (f_prec f) (f_emax f) (Z.of_N d) 0 false.

(** floating_point_fields.rs:26-79 (f32) and 82-135 (f64): impl CoefficientField; RationalType is Self *)
Definition fl_ops (f : fmt) : scalar_ops spec_float spec_float := {|
  s_zero := S754_zero false;                                      (* :29, :86 *)
  s_one := fl_one f;                                              (* :30, :87 *)
  s_mone := SFopp (fl_one f);                                     (* :31, :88 *)
  s_uminus := SFopp;                                              (* :34-36, :90-92 *)
  s_inv := fun r => SFdiv (f_prec f) (f_emax f) (fl_one f) r;     (* :38-41, :94-97 *)
  s_add := SFadd (f_prec f) (f_emax f);                           (* :44-46, :100-102 *)
  s_sub := SFsub (f_prec f) (f_emax f);                           (* :48-50, :104-106 *)
  s_mul := SFmul (f_prec f) (f_emax f);                           (* :52-54, :108-110 *)
  s_div := SFdiv (f_prec f) (f_emax f);                           (* :56-58, :112-114 *)
  s_eqb := SFeqb;                                                 (* PartialEq of f32 and f64 *)
  s_from_degree := fl_from_degree f;
  r_from_degree := fl_from_degree f |}.

(** mod.rs:32-35 from_rational, the default of the trait CoefficientField that no type overrides;
    [num] and [denom] are the arguments after their conversion by Into *)
Definition sc_from_rational {S R : Type} (so : scalar_ops S R) (num : S) (denom : R) : S := s_div so num denom.

(** mod.rs:25, 27: `From<i8>` and `From<i16>` for f32 and f64 are those of the standard library: the float
    nearest to the integer, which is the integer itself *)
Definition fl_from_int (f : fmt) (z : Z) : spec_float := binary_normalize (f_prec f) (f_emax f) z 0 false.
