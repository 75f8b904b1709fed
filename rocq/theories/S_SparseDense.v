(** Specification: the same calls on sparse and on dense vectors of floats. *)
From Coq Require Import QArith SpecFloat.
From stdpp Require Import gmap.
From Verif Require Import Machine M_Scalar M_Vector M_Dense M_Sparse S_Vector S_Sparse S_SparseHist M_Float S_Float.

Section Same.
  Context {K : Type} `{Countable K} (fm : fmt) (ok : K -> Prop) (f : K -> N).
  (** the same coefficient at every key, up to the sign of zero *)
  Definition fl_agree (d : dvec spec_float) (m : gmap K spec_float) : Prop :=
    forall k, ok k -> fl_same (coef (fl_ops fm) d (f k)) (sv_coef (fl_ops fm) m k).
  (** the same call on a dense and on a sparse vector: multiples by finite numbers other than 0, divisors that are
      neither 0 nor NaN *)
  Definition fl_same_op (o : vop K spec_float spec_float) (h : hop (gmap K spec_float) K spec_float spec_float) : Prop :=
    match o, h with
    | OAdd y, HAdd y' | OSub y, HSub y' => fl_agree y y'
    | OUminus, HUminus | OClear, HClear => True
    | OLmul s, HLmul s' | OLmul s, HRmul s' | ORmul s, HLmul s' | ORmul s, HRmul s' =>
        s = s' /\ finite s /\ ~ has_value s 0
    | ORdiv r, HRdiv r' | ORdiv r, HLdiv r' | OLdiv r, HRdiv r' | OLdiv r, HLdiv r' =>
        r = r' /\ r <> S754_nan /\ ~ has_value r 0
    | _, _ => False
    end.
End Same.
