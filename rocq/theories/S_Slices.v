(** Which positions of a slice an index selects, for the properties of get_slice and get_mut_slice. *)
From Verif Require Import Machine M_Slices.

(** position [i] is one of those the index names *)
Definition names (ix : slice_index) (i : N) : Prop :=
  match ix with
  | IAt j => i = j
  | IRange a b => a <= i < b
  | IFrom a => a <= i
  | ITo b => i < b
  | IFull => True
  | IIncl a b => a <= i <= b
  | IToIncl b => i <= b
  end.
(** an index that fits a slice of length [l]: its ends are in order and it does not reach past the end *)
Definition fits (l : N) (ix : slice_index) : Prop :=
  match ix with
  | IAt j => j < l
  | IRange a b => a <= b <= l
  | IFrom a => a <= l
  | ITo b => b <= l
  | IFull => True
  | IIncl a b => a <= b + 1 /\ b < l
  | IToIncl b => b < l
  end.
(** where it starts *)
Definition first_of (ix : slice_index) : N :=
  match ix with IAt a | IRange a _ | IFrom a | IIncl a _ => a | _ => 0 end.
