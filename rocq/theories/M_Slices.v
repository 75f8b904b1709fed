(** Model of the provided methods of src/vector/traits/dense_vector.rs, on SimpleDenseVector. *)
From Verif Require Import Machine M_Scalar M_Vector M_Dense.

(** The index types of std that implement SliceIndex<[T]>: usize, Range, RangeFrom, RangeTo, RangeFull,
    RangeInclusive, RangeToInclusive.  Simplified: a RangeInclusive that an iteration has exhausted is left
    out, and so are the pairs of Bounds. *)
Inductive slice_index :=
| IAt (i : N)
| IRange (a b : N)
| IFrom (a : N)
| ITo (b : N)
| IFull
| IIncl (a b : N)
| IToIncl (b : N).

(** std: the half open range an index denotes in a slice of length [l], None where `get` gives None.
    A range whose inclusive end is usize::MAX has no half open form and gives None. *)
Definition index_range (l : N) (ix : slice_index) : option (N * N) :=
  let range a b := if (a <=? b) && (b <=? l) then Some (a, b) else None in
  match ix with
  | IAt i => if i <? l then Some (i, i + 1) else None
  | IRange a b => range a b
  | IFrom a => range a l
  | ITo b => range 0 b
  | IFull => Some (0, l)
  | IIncl a b => if b =? 2 ^ 64 - 1 then None else range a (b + 1)
  | IToIncl b => if b =? 2 ^ 64 - 1 then None else range 0 (b + 1)
  end.
(** std: `slice.get(index)`; for [IAt] the one element found is given as a slice of length 1 *)
Definition slice_get_index {S} (l : list S) (ix : slice_index) : option (list S) :=
  match index_range (len l) ix with
  | Some (a, b) => Some (firstn (N.to_nat (b - a)) (skipn (N.to_nat a) l))
  | None => None
  end.

(** dense_vector.rs:19-23 get_slice *)
Definition dv_get_slice {S} (v : dvec S) (ix : slice_index) : option (list S) :=
  slice_get_index (dv_as_slice v) ix.
(** dense_vector.rs:25-29 get_mut_slice: the vector afterwards; the contents of the slice handed out, and what
    the vector becomes when the caller has filled it with other values *)
Definition dv_get_mut_slice {S} (v : dvec S) (ix : slice_index)
  : dvec S * option (list S * (list S -> dvec S)) :=
  let v1 := dv_as_mut v in
  (v1, match index_range (len (dv_elems v1)) ix with
       | Some (a, b) => Some (firstn (N.to_nat (b - a)) (skipn (N.to_nat a) (dv_elems v1)),
                              fun s => dv_write v1 (splice (dv_elems v1) a s))
       | None => None
       end).
