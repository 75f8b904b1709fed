(** Specification vocabulary for floating-point numbers: the rational number a float stands for. *)
From Coq Require Import ZArith QArith Qabs Floats.SpecFloat.
From Verif Require Import Machine S_Words S_Tensor M_Float.
Local Open Scope Q_scope.

(** (-1)^s * m * 2^e; infinities and NaN stand for no number *)
Definition fl_value (x : spec_float) : option Q :=
  match x with
  | S754_zero _ => Some 0
  | S754_finite s m e => Some (inject_Z (if s then Zneg m else Zpos m) * 2 ^ e)
  | S754_infinity _ | S754_nan => None
  end.
Definition has_value (x : spec_float) (v : Q) : Prop := exists w, fl_value x = Some w /\ w == v.
Definition finite (x : spec_float) : Prop := exists v, has_value x v.
(** an integer degree as a rational number *)
Definition Q_of_N (d : N) : Q := inject_Z (Z.of_N d).

(** equal, or both a zero: what the coefficients of float vectors can be compared by when NaN counts as itself *)
Definition fl_same (x y : spec_float) : Prop := x = y \/ (has_value x 0 /\ has_value y 0).
(** the float stands for the integer *)
Definition fl_int (f : fmt) (x : spec_float) (a : Z) : Prop := is_float f x /\ has_value x (inject_Z a).
Definition zsum (l : list Z) : Z := fold_right Z.add 0%Z l.
(** the product of integer tensors, and the sum of the sizes of its terms *)
Definition zconv (A B : word -> Z) (w : word) : Z := zsum (map (fun uv => A (fst uv) * B (snd uv))%Z (splits w)).
Definition zsize (A B : word -> Z) (w : word) : Z := zsum (map (fun uv => Z.abs (A (fst uv) * B (snd uv)))%Z (splits w)).
(** an integer as a float, for examples *)
Definition fl_of_Z (f : fmt) (z : Z) : spec_float := binary_normalize (f_prec f) (f_emax f) z 0 false.

(** ** IEEE 754 rounding to nearest, ties to even, of an exact value *)
Definition even_significand (x : spec_float) : Prop :=
  match x with S754_finite _ m _ => Z.even (Zpos m) = true | _ => True end.
(** half-way between the largest float and the next power of two: values from here on overflow *)
Definition fl_limit (f : fmt) : Q := 2 ^ f_emax f - 2 ^ (f_emax f - f_prec f - 1).
Definition rounds_to (f : fmt) (q : Q) (r : spec_float) : Prop :=
  is_float f r
  /\ (Qabs q < fl_limit f ->
        exists v, has_value r v /\
          forall x w, is_float f x -> has_value x w ->
            Qabs (v - q) <= Qabs (w - q) /\ (Qabs (v - q) == Qabs (w - q) -> w == v \/ even_significand r))
  /\ (fl_limit f <= q -> r = S754_infinity false)
  /\ (q <= - fl_limit f -> r = S754_infinity true).

(** ** sizes of rounding errors *)
(** the number a float stands for, 0 for infinities and NaN *)
Definition fl_val (x : spec_float) : Q := match fl_value x with Some v => v | None => 0 end.
(** the largest relative error of rounding to nearest, and half the smallest positive float *)
Definition unit_roundoff (f : fmt) : Q := 2 ^ (- f_prec f).
Definition half_smallest (f : fmt) : Q := 2 ^ (2 - f_emax f - f_prec f).
Definition qsum (l : list Q) : Q := fold_right Qplus 0 l.
(** the product of two tensors with rational coefficients, and the sum of the sizes of its terms *)
Definition qconv (A B : word -> Q) (w : word) : Q := qsum (map (fun uv => A (fst uv) * B (snd uv)) (splits w)).
Definition qsize (A B : word -> Q) (w : word) : Q := qsum (map (fun uv => Qabs (A (fst uv) * B (snd uv))) (splits w)).

(** ** equality *)
(** the same number, or the same infinity; NaN is not equal to anything *)
Definition num_equal (x y : spec_float) : Prop :=
  (exists v, has_value x v /\ has_value y v) \/ (exists s, x = S754_infinity s /\ y = S754_infinity s).
