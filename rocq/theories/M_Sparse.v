(** Model of src/vector/implementation/simple_sparse_vector.rs.

    The HashMap is a finite map (std++ gmap) together with, wherever the code iterates over it, an unspecified
    iteration order: the model takes a function [iter] from maps to lists of entries, and the theorems hold for every
    [iter] that lists the entries of its map in some order ([any_order] in S_Sparse.v).
    Simplifications: the Hash and Eq implementations of the key type are lawful (Eq is Leibniz equality); `Into` and
    `Borrow` conversions are the identity; allocation does not fail. *)
From stdpp Require Import gmap.
From Verif Require Import Machine M_Scalar M_Vector.

Section Sparse.
  Context {K : Type} `{Countable K} {S R : Type} (so : scalar_ops S R) (iter : gmap K S -> list (K * S)).

  (** simple_sparse_vector.rs:14-17 SimpleSparseVector *)
  Notation V := (gmap K S).

  (** simple_sparse_vector.rs:87-89 new *)
  Definition sv_new : V := ∅.
  (** simple_sparse_vector.rs:95-99 from_key_scalar *)
  Definition sv_from_key_scalar (key : K) (scalar : S) : outcome V := Ret (<[key := scalar]> ∅).
  (** simple_sparse_vector.rs:91-93 from_key *)
  Definition sv_from_key (key : K) : outcome V := sv_from_key_scalar key (s_one so).
  (** simple_sparse_vector.rs:101-108 from_iterator *)
  Definition sv_from_iterator (items : list (K * S)) : outcome V :=
    for_each items (fun inner e => Ret (<[fst e := snd e]> inner)) ∅.
  (** simple_sparse_vector.rs:110-112 swap: todo!() *)
  Definition sv_swap (self other : V) : outcome (V * V) := Panic.
  (** simple_sparse_vector.rs:114-116 to_owned: todo!() *)
  Definition sv_to_owned (self : V) : outcome V := Panic.
  (** simple_sparse_vector.rs:118-120 clear *)
  Definition sv_clear (self : V) : outcome V := Ret ∅.
  (** simple_sparse_vector.rs:122-124 get *)
  Definition sv_get (self : V) (key : K) : outcome (option S) := Ret (self !! key).
  (** simple_sparse_vector.rs:126-128 get_mut *)
  Definition sv_get_mut (self : V) (key : K) : outcome (V * option (mut_ref S V)) :=
    Ret (self, match self !! key with
               | Some x => Some (x, fun y => <[key := y]> self)
               | None => None
               end).
  (** simple_sparse_vector.rs:130-132 insert_single *)
  Definition sv_insert_single (self : V) (key : K) (value : S) : outcome V := Ret (<[key := value]> self).
  (** simple_sparse_vector.rs:134-136 insert: todo!() *)
  Definition sv_insert (self : V) (items : list (K * S)) : outcome V := Panic.
  (** simple_sparse_vector.rs:138-140 erase: todo!() *)
  Definition sv_erase (self : V) (key : K) : outcome V := Panic.

  (** `self.0.iter_mut().for_each(|(_, v)| *v = f(v))` *)
  Definition sv_for_each_mut (f : S -> S) (self : V) : outcome V :=
    for_each (iter self) (fun m e => Ret (<[fst e := f (snd e)]> m)) self.
  (** simple_sparse_vector.rs:142-145 uminus_inplace *)
  Definition sv_uminus_inplace (self : V) : outcome V := sv_for_each_mut (s_uminus so) self.
  (** simple_sparse_vector.rs:147-160 add_inplace *)
  Definition sv_add_inplace (self other : V) : outcome V :=
    for_each (iter other) (fun m e =>
      let '(k, v) := e in
      match m !! k with
      | Some i =>
          let r := s_add so i v in
          let m1 := <[k := r]> m in
          Ret (if s_eqb so r (s_zero so) then delete k m1 else m1)
      | None => Ret (<[k := v]> m)
      end) self.
  (** simple_sparse_vector.rs:162-175 sub_inplace *)
  Definition sv_sub_inplace (self other : V) : outcome V :=
    for_each (iter other) (fun m e =>
      let '(k, v) := e in
      match m !! k with
      | Some i =>
          let r := s_sub so i v in
          let m1 := <[k := r]> m in
          Ret (if s_eqb so r (s_zero so) then delete k m1 else m1)
      | None => Ret (<[k := s_uminus so v]> m)
      end) self.
  (** simple_sparse_vector.rs:177-189 scalar_lmultiply_inplace *)
  Definition sv_scalar_lmultiply_inplace (self : V) (s : S) : outcome V :=
    if s_eqb so s (s_zero so) then Ret ∅
    else sv_for_each_mut (fun v => s_mul so v s) self.
  (** simple_sparse_vector.rs:191-199 scalar_rdivide_inplace *)
  Definition sv_scalar_rdivide_inplace (self : V) (r : R) : outcome V :=
    sv_for_each_mut (fun v => s_div so v r) self.

  (** simple_sparse_vector.rs:20-40 eq: the loop with its early returns; [Some b] is the value returned from inside *)
  Definition sv_eq (self other : V) : bool :=
    if negb (N.of_nat (size self) =? N.of_nat (size other)) then false
    else
      match fold_left (fun (done : option bool) e =>
              match done with
              | Some b => Some b
              | None =>
                  match other !! fst e with
                  | Some v1 => if negb (s_eqb so v1 (snd e)) then Some false else None
                  | None => Some false
                  end
              end) (iter self) None with
      | Some b => b
      | None => true
      end.

  (** simple_sparse_vector.rs:58-70 into_iter: the entries in iteration order *)
  Definition sv_into_iter (self : V) : list (K * S) := iter self.

  (** simple_sparse_vector.rs:75-200 impl Vector for SimpleSparseVector (no default is overridden) *)
  Definition sparse_required : vec_required V K S R := {|
    vr_new := sv_new;
    vr_from_key := sv_from_key;
    vr_from_key_scalar := sv_from_key_scalar;
    vr_from_iterator := sv_from_iterator;
    vr_swap := sv_swap;
    vr_to_owned := sv_to_owned;
    vr_clear := sv_clear;
    vr_get := sv_get;
    vr_get_mut := sv_get_mut;
    vr_insert_single := sv_insert_single;
    vr_insert := sv_insert;
    vr_erase := sv_erase;
    vr_uminus_inplace := sv_uminus_inplace;
    vr_add_inplace := sv_add_inplace;
    vr_sub_inplace := sv_sub_inplace;
    vr_scalar_lmultiply_inplace := sv_scalar_lmultiply_inplace;
    vr_scalar_rdivide_inplace := sv_scalar_rdivide_inplace |}.
  Definition sparse_ops : vec_ops V K S R := with_defaults sparse_required.
End Sparse.
