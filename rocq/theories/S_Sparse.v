(** Specification of sparse vectors. *)
From stdpp Require Import gmap.
From Verif Require Import Machine M_Scalar M_Vector M_Dense M_Sparse S_Vector.

Section Sparse.
  Context {K : Type} `{Countable K} {S R : Type} (so : scalar_ops S R).

  (** [iter] lists the entries of every map, in any order whatsoever *)
  Definition any_order (iter : gmap K S -> list (K * S)) : Prop := forall m, Permutation (iter m) (map_to_list m).

  (** the value of the last entry of the list with key [k] *)
  Fixpoint last_value (k : K) (l : list (K * S)) : option S :=
    match l with
    | [] => None
    | (k', v) :: l' =>
        match last_value k l' with
        | Some v' => Some v'
        | None => if decide (k = k') then Some v else None
        end
    end.

  (** the coefficient of [k]; ZERO where nothing is stored *)
  Definition sv_coef (m : gmap K S) (k : K) : S := match m !! k with Some v => v | None => s_zero so end.
  (** no ZERO is stored *)
  Definition no_zero (m : gmap K S) : Prop := forall k v, m !! k = Some v -> s_eqb so v (s_zero so) = false.

  (** one entry of a sum or difference: [op] where both are stored, [right] where only the right one is; nothing where
      the result of [op] is ZERO *)
  Definition merged (op : S -> S -> S) (right : S -> S) (x y : option S) : option S :=
    match x, y with
    | Some a, Some b => if s_eqb so (op a b) (s_zero so) then None else Some (op a b)
    | None, Some b => Some (right b)
    | _, None => x
    end.
End Sparse.

(** ** Histories of arithmetic, each call with its own iteration order *)
Inductive sop (K S R : Type) `{Countable K} : Type :=
| SAdd (iter : gmap K S -> list (K * S)) (y : gmap K S)
| SSub (iter : gmap K S -> list (K * S)) (y : gmap K S)
| SNeg (iter : gmap K S -> list (K * S))
| SScale (iter : gmap K S -> list (K * S)) (s : S)
| SDiv (iter : gmap K S -> list (K * S)) (r : R)
| SClear.
Arguments SAdd {K S R _ _}. Arguments SSub {K S R _ _}. Arguments SNeg {K S R _ _}.
Arguments SScale {K S R _ _}. Arguments SDiv {K S R _ _}. Arguments SClear {K S R _ _}.

(** ** An ordered basis in which every key of a class has its own index and vectors are made large enough for it *)
Record good_basis {K : Type} (ob : obasis K) (ok : K -> Prop) (f : K -> N) : Prop := mk_good_basis {
  gb_index : forall k, ok k -> ob_key_to_index ob k = Ret (f k);
  gb_inj : forall k k', ok k -> ok k' -> f k = f k' -> k = k';
  gb_dim_key : forall k, ok k -> exists d, ob_dim_for_key ob k = Ret d /\ f k < d;
  gb_dim_index : forall k, ok k -> exists d, ob_dim_for_index ob (f k) = Ret d /\ f k < d
}.

(** ** Calls on sparse vectors, and the same calls on dense ones *)
Definition scall {K} `{Countable K} {S R} (so : scalar_ops S R) (x : gmap K S) (o : sop K S R) : outcome (gmap K S) :=
  match o with
  | SAdd iter y => vr_add_inplace (sparse_ops so iter) x y
  | SSub iter y => vr_sub_inplace (sparse_ops so iter) x y
  | SNeg iter => vr_uminus_inplace (sparse_ops so iter) x
  | SScale iter s => vr_scalar_lmultiply_inplace (sparse_ops so iter) x s
  | SDiv iter r => vr_scalar_rdivide_inplace (sparse_ops so iter) x r
  | SClear => vr_clear (sparse_ops so map_to_list) x
  end.
(** any order; operands without stored ZERO; divisors with nonzero inverse *)
Definition sop_ok {K} `{Countable K} {S R} (so : scalar_ops S R) (o : sop K S R) : Prop :=
  match o with
  | SAdd iter y | SSub iter y => any_order iter /\ no_zero so y
  | SNeg iter | SScale iter _ => any_order iter
  | SDiv iter r => any_order iter /\ s_inv so r <> s_zero so
  | SClear => True
  end.
(** the same coefficient at every key *)
Definition agree {K} `{Countable K} {S R} (so : scalar_ops S R) (ok : K -> Prop) (f : K -> N) (d : dvec S) (m : gmap K S) : Prop :=
  forall k, ok k -> coef so d (f k) = sv_coef so m k.
(** the same call on a dense and on a sparse vector *)
Definition same_op {K} `{Countable K} {S R} (so : scalar_ops S R) (ok : K -> Prop) (f : K -> N) (o : vop K S R) (o' : sop K S R) : Prop :=
  match o, o' with
  | OAdd y, SAdd iter y' | OSub y, SSub iter y' => any_order iter /\ agree so ok f y y'
  | OUminus, SNeg iter => any_order iter
  | OLmul s, SScale iter s' | ORmul s, SScale iter s' => any_order iter /\ s = s'
  | ORdiv r, SDiv iter r' | OLdiv r, SDiv iter r' => any_order iter /\ r = r'
  | OClear, SClear => True
  | _, _ => False
  end.
