(** Model of src/vector/implementation/simple_dense_vector.rs. *)
From Verif Require Import Machine M_Scalar M_Vector.

(** simple_dense_vector.rs:21-27 the three storage variants *)
Inductive storage := Owned | Borrowed | BorrowedMut.

(** simple_dense_vector.rs:35-38 SimpleDenseVector: storage variant and the elements seen through it.
    [dv_lender] is a ghost: the contents of the buffer that was lent to this vector (by the `&[S]` or
    `&mut [S]`), also after the vector has stopped using it; [] if nothing was ever lent. *)
Record dvec (S : Type) := mk_dvec { dv_kind : storage; dv_elems : list S; dv_lender : list S }.
Arguments mk_dvec {S}. Arguments dv_kind {S}. Arguments dv_elems {S}. Arguments dv_lender {S}.

(** a vector that borrows the buffer [l] *)
Definition dv_borrow {S} (l : list S) : dvec S := mk_dvec Borrowed l l.
Definition dv_borrow_mut {S} (l : list S) : dvec S := mk_dvec BorrowedMut l l.

(** `*self.as_mut_slice()... = l`, after as_mut_slice: a `&mut` buffer is written through, an owned
    one is private *)
Definition dv_write {S} (v : dvec S) (l : list S) : dvec S :=
  mk_dvec (dv_kind v) l (match dv_kind v with BorrowedMut => l | _ => dv_lender v end).
(** `self.0 = Owned(l)`: an assignment to self.0; the buffer that was borrowed keeps its contents *)
Definition dv_assign_owned {S} (v : dvec S) (l : list S) : dvec S := mk_dvec Owned l (dv_lender v).

(** `for (lhs, rhs) in l.iter_mut().zip(r) { *lhs = op(lhs, rhs) }` *)
Fixpoint zip_apply {S T} (op : S -> T -> S) (l : list S) (r : list T) : list S :=
  match l, r with
  | x :: l', y :: r' => op x y :: zip_apply op l' r'
  | _, _ => l
  end.

(** `vec.sort_by(|(i1, _), (i2, _)| Ord::cmp(i1, i2))`: std's sort_by is stable, so its result is
    determined; this is insertion sort from the right. *)
Fixpoint sorted_insert {S} (x : N * S) (l : list (N * S)) : list (N * S) :=
  match l with
  | [] => [x]
  | y :: l' => if fst x <=? fst y then x :: l else y :: sorted_insert x l'
  end.
Fixpoint sort_by_index {S} (l : list (N * S)) : list (N * S) :=
  match l with [] => [] | x :: l' => sorted_insert x (sort_by_index l') end.

(** equality of slices through PartialEq of the elements *)
Fixpoint slice_eqb {S} (eqb : S -> S -> bool) (a b : list S) : bool :=
  match a, b with
  | [], [] => true
  | x :: a', y :: b' => eqb x y && slice_eqb eqb a' b'
  | _, _ => false
  end.

Section Dense.
  Context {K S R : Type} (so : scalar_ops S R) (ob : obasis K).

  (** simple_dense_vector.rs:57-60 new *)
  Definition dv_new : dvec S := mk_dvec Owned [] [].
  (** simple_dense_vector.rs:62-65 from *)
  Definition dv_from (l : list S) : dvec S := mk_dvec Owned l [].
  (** simple_dense_vector.rs:67-70 from_dimension *)
  Definition dv_from_dimension (size : N) : dvec S := dv_from (repeat (s_zero so) (N.to_nat size)).
  (** simple_dense_vector.rs:92-99 size *)
  Definition dv_size (v : dvec S) : N := len (dv_elems v).
  (** simple_dense_vector.rs:134-141 and 328-334 as_slice *)
  Definition dv_as_slice (v : dvec S) : list S := dv_elems v.
  (** simple_dense_vector.rs:143-154 and 336-346 as_mut_slice: the vector on which the returned slice
      gives write access (with [dv_write]); its elements are the slice *)
  Definition dv_as_mut (v : dvec S) : dvec S :=
    match dv_kind v with
    | Borrowed => dv_assign_owned v (dv_elems v)
    | _ => v
    end.
  (** simple_dense_vector.rs:72-90 to_owned_with_size *)
  Definition dv_to_owned_with_size (v : dvec S) (resize : option N) : outcome (dvec S) :=
    match dv_kind v with
    | Owned => Panic
    | _ =>
        let new_vec := match resize with
                       | Some dim => vec_resize (dv_elems v) dim (s_zero so)
                       | None => dv_elems v
                       end in
        Ret (dv_assign_owned v new_vec)
    end.
  (** simple_dense_vector.rs:353-359 resize *)
  Definition dv_resize (v : dvec S) (new_dim : N) : outcome (dvec S) :=
    match dv_kind v with
    | Owned => Ret (dv_write v (vec_resize (dv_elems v) new_dim (s_zero so)))
    | _ => dv_to_owned_with_size v (Some new_dim)
    end.
  (** simple_dense_vector.rs:103-109 from_degree *)
  Definition dv_from_degree (deg : N) : outcome (dvec S) :=
    dim <- ob_start_of_degree ob deg ;; Ret (dv_from_dimension dim).
  (** simple_dense_vector.rs:45-52 clone *)
  Definition dv_clone (v : dvec S) : dvec S := dv_from (dv_elems v).
  (** simple_dense_vector.rs:113-129 eq *)
  Definition dv_eq (a b : dvec S) : bool := slice_eqb (s_eqb so) (dv_elems a) (dv_elems b).

  (** simple_dense_vector.rs:178-189 from_key_scalar.  The right-hand side and the index are evaluated
      before the write; key_to_index can fail, the rest cannot. *)
  Definition dv_from_key_scalar (key : K) (scalar : S) : outcome (dvec S) :=
    size <- ob_dim_for_key ob key ;;
    let new_vect := dv_as_mut (dv_from_dimension size) in
    idx <- ob_key_to_index ob key ;;
    l <- set_unchecked (dv_elems new_vect) idx scalar ;;
    Ret (dv_write new_vect l).
  (** simple_dense_vector.rs:174-176 from_key *)
  Definition dv_from_key (key : K) : outcome (dvec S) := dv_from_key_scalar key (s_one so).
  (** simple_dense_vector.rs:207-209 one round of the loop of from_iterator *)
  Definition dv_add_at_unchecked (v : dvec S) (e : N * S) : outcome (dvec S) :=
    let v1 := dv_as_mut v in
    match slice_get (dv_elems v1) (fst e) with
    | Some x => Ret (dv_write v1 (list_set (dv_elems v1) (N.to_nat (fst e)) (s_add so x (snd e))))
    | None => UB
    end.
  (** simple_dense_vector.rs:191-213 from_iterator *)
  Definition dv_from_iterator (items : list (K * S)) : outcome (dvec S) :=
    vec <- mapM (fun e => i <- ob_key_to_index ob (fst e) ;; Ret (i, snd e)) items ;;
    match rev (sort_by_index vec) with
    | [] => Ret dv_new
    | last :: _ =>
        dimension <- ob_dim_for_index ob (fst last) ;;
        for_each (sort_by_index vec) dv_add_at_unchecked (dv_from_dimension dimension)
    end.
  (** simple_dense_vector.rs:215-218 swap: exchanges the whole data, with the borrows *)
  Definition dv_swap (v other : dvec S) : outcome (dvec S * dvec S) := Ret (other, v).
  (** simple_dense_vector.rs:220-222 to_owned *)
  Definition dv_to_owned (v : dvec S) : outcome (dvec S) := Ret (dv_from (dv_as_slice v)).
  (** simple_dense_vector.rs:224-230 clear *)
  Definition dv_clear (v : dvec S) : outcome (dvec S) :=
    match dv_kind v with
    | Owned => Ret (dv_write v [])
    | BorrowedMut => Ret (dv_write v (map (fun _ => s_zero so) (dv_elems v)))
    | Borrowed => Ret (dv_assign_owned v [])
    end.
  (** simple_dense_vector.rs:232-234 get *)
  Definition dv_get (v : dvec S) (key : K) : outcome (option S) :=
    idx <- ob_key_to_index ob key ;; Ret (slice_get (dv_as_slice v) idx).
  (** simple_dense_vector.rs:236-238 get_mut *)
  Definition dv_get_mut (v : dvec S) (key : K) : outcome (dvec S * option (mut_ref S (dvec S))) :=
    let v1 := dv_as_mut v in
    idx <- ob_key_to_index ob key ;;
    Ret (v1, match slice_get (dv_elems v1) idx with
             | Some x => Some (x, fun y => dv_write v1 (list_set (dv_elems v1) (N.to_nat idx) y))
             | None => None
             end).
  (** simple_dense_vector.rs:240-245 insert_single: computes an index and does nothing *)
  Definition dv_insert_single (v : dvec S) (key : K) (value : S) : outcome (dvec S) :=
    idx <- ob_key_to_index ob key ;; Ret v.
  (** simple_dense_vector.rs:247-249 insert: todo!() *)
  Definition dv_insert (v : dvec S) (items : list (K * S)) : outcome (dvec S) := Panic.
  (** simple_dense_vector.rs:251-256 erase *)
  Definition dv_erase (v : dvec S) (key : K) : outcome (dvec S) :=
    '(v1, ref) <- dv_get_mut v key ;;
    Ret (match ref with Some (_, write) => write (s_zero so) | None => v1 end).
  (** simple_dense_vector.rs:258-263 uminus_inplace *)
  Definition dv_uminus_inplace (v : dvec S) : outcome (dvec S) :=
    let v1 := dv_as_mut v in Ret (dv_write v1 (map (s_uminus so) (dv_elems v1))).
  (** simple_dense_vector.rs:265-281 add_inplace *)
  Definition dv_add_inplace (v other : dvec S) : outcome (dvec S) :=
    let v0 := match dv_kind v with Borrowed => dv_assign_owned v (dv_elems v) | _ => v end in
    v1 <- (if dv_size v0 <? dv_size other then dv_resize v0 (dv_size other) else Ret v0) ;;
    let v2 := dv_as_mut v1 in
    Ret (dv_write v2 (zip_apply (s_add so) (dv_elems v2) (dv_as_slice other))).
  (** simple_dense_vector.rs:283-295 sub_inplace *)
  Definition dv_sub_inplace (v other : dvec S) : outcome (dvec S) :=
    v1 <- (if dv_size v <? dv_size other then dv_resize v (dv_size other) else Ret v) ;;
    let v2 := dv_as_mut v1 in
    Ret (dv_write v2 (zip_apply (s_sub so) (dv_elems v2) (dv_as_slice other))).
  (** simple_dense_vector.rs:297-309 scalar_lmultiply_inplace *)
  Definition dv_scalar_lmultiply_inplace (v : dvec S) (val : S) : outcome (dvec S) :=
    let v0 := match dv_kind v with Borrowed => dv_assign_owned v (dv_elems v) | _ => v end in
    let v1 := dv_as_mut v0 in
    Ret (dv_write v1 (map (fun x => s_mul so x val) (dv_elems v1))).
  (** simple_dense_vector.rs:311-319 scalar_rdivide_inplace *)
  Definition dv_scalar_rdivide_inplace (v : dvec S) (val : R) : outcome (dvec S) :=
    let v1 := dv_as_mut v in
    Ret (dv_write v1 (map (fun x => s_div so x val) (dv_elems v1))).
  (** simple_dense_vector.rs:367-374 degree *)
  Definition dv_degree (v : dvec S) : outcome N :=
    if dv_size v =? 0 then Ret 0 else ob_index_to_degree ob (dv_size v - 1).

  (** simple_dense_vector.rs:161-321 impl Vector for SimpleDenseVector (no default is overridden) *)
  Definition dense_required : vec_required (dvec S) K S R := {|
    vr_new := dv_new;
    vr_from_key := dv_from_key;
    vr_from_key_scalar := dv_from_key_scalar;
    vr_from_iterator := dv_from_iterator;
    vr_swap := dv_swap;
    vr_to_owned := dv_to_owned;
    vr_clear := dv_clear;
    vr_get := dv_get;
    vr_get_mut := dv_get_mut;
    vr_insert_single := dv_insert_single;
    vr_insert := dv_insert;
    vr_erase := dv_erase;
    vr_uminus_inplace := dv_uminus_inplace;
    vr_add_inplace := dv_add_inplace;
    vr_sub_inplace := dv_sub_inplace;
    vr_scalar_lmultiply_inplace := dv_scalar_lmultiply_inplace;
    vr_scalar_rdivide_inplace := dv_scalar_rdivide_inplace |}.
  Definition dense_ops : vec_ops (dvec S) K S R := with_defaults dense_required.
End Dense.
