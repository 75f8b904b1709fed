(** Model of src/basis/mod.rs (the basis traits) and src/vector/traits/*.rs (the vector traits
    with their default methods). *)
From Verif Require Import Machine M_Scalar M_TensorKey M_TensorBasis.

(** basis/mod.rs:8-44 OrderedBasis and OrderedBasisWithDegree: the functions that vectors use. *)
Record obasis (K : Type) := mk_obasis {
  ob_key_to_index : K -> outcome N;
  ob_dim_for_key : K -> outcome N;              (* vector_dimension_for_key *)
  ob_dim_for_index : N -> outcome N;            (* vector_dimension_for_index *)
  ob_index_to_degree : N -> outcome N;
  ob_start_of_degree : N -> outcome N
}.
Arguments mk_obasis {K}. Arguments ob_key_to_index {K}. Arguments ob_dim_for_key {K}.
Arguments ob_dim_for_index {K}. Arguments ob_index_to_degree {K}. Arguments ob_start_of_degree {K}.

(** free_tensor/tensor_basis/mod.rs:67-136 TensorBasis as OrderedBasisWithDegree *)
Definition tensor_basis (p : profile) (n : N) : obasis tkey := {|
  ob_key_to_index := tb_key_to_index p n;
  ob_dim_for_key := tb_vector_dimension_for_key p n;
  ob_dim_for_index := tb_vector_dimension_for_index p n;
  ob_index_to_degree := tb_index_to_degree p n;
  ob_start_of_degree := tb_start_of_degree p n |}.

(** A mutable reference to a stored value: the value seen through it and, for each value written
    through it, the vector after that write. *)
Definition mut_ref (S V : Type) : Type := S * (S -> V).

(** traits/vector.rs:13-103 the required methods of Vector.  A method taking `&mut self` returns the
    new vector.  [vo_get_mut] returns the vector (access alone can change its storage) and the
    reference, if any. *)
Record vec_required (V K S R : Type) := mk_vec_required {
  vr_new : V;
  vr_from_key : K -> outcome V;
  vr_from_key_scalar : K -> S -> outcome V;
  vr_from_iterator : list (K * S) -> outcome V;
  vr_swap : V -> V -> outcome (V * V);
  vr_to_owned : V -> outcome V;
  vr_clear : V -> outcome V;
  vr_get : V -> K -> outcome (option S);
  vr_get_mut : V -> K -> outcome (V * option (mut_ref S V));
  vr_insert_single : V -> K -> S -> outcome V;
  vr_insert : V -> list (K * S) -> outcome V;
  vr_erase : V -> K -> outcome V;
  vr_uminus_inplace : V -> outcome V;
  vr_add_inplace : V -> V -> outcome V;
  vr_sub_inplace : V -> V -> outcome V;
  vr_scalar_lmultiply_inplace : V -> S -> outcome V;
  vr_scalar_rdivide_inplace : V -> R -> outcome V
}.
Arguments mk_vec_required {V K S R}. Arguments vr_new {V K S R}. Arguments vr_from_key {V K S R}.
Arguments vr_from_key_scalar {V K S R}. Arguments vr_from_iterator {V K S R}. Arguments vr_swap {V K S R}.
Arguments vr_to_owned {V K S R}. Arguments vr_clear {V K S R}. Arguments vr_get {V K S R}.
Arguments vr_get_mut {V K S R}. Arguments vr_insert_single {V K S R}. Arguments vr_insert {V K S R}.
Arguments vr_erase {V K S R}. Arguments vr_uminus_inplace {V K S R}. Arguments vr_add_inplace {V K S R}.
Arguments vr_sub_inplace {V K S R}. Arguments vr_scalar_lmultiply_inplace {V K S R}.
Arguments vr_scalar_rdivide_inplace {V K S R}.

(** traits/vector.rs:43-153 the methods of Vector that have default bodies *)
Record vec_defaulted (V S R : Type) := mk_vec_defaulted {
  vd_uminus : V -> outcome V;
  vd_add : V -> V -> outcome V;
  vd_sub : V -> V -> outcome V;
  vd_scalar_rmultiply : V -> S -> outcome V;
  vd_scalar_lmultiply : V -> S -> outcome V;
  vd_scalar_rdivide : V -> R -> outcome V;
  vd_scalar_ldivide : V -> R -> outcome V;
  vd_scalar_rmultiply_inplace : V -> S -> outcome V;
  vd_scalar_ldivide_inplace : V -> R -> outcome V;
  vd_add_scalar_rmultiply : V -> V -> S -> outcome V;
  vd_add_scalar_lmultiply : V -> V -> S -> outcome V;
  vd_sub_scalar_rmultiply : V -> V -> S -> outcome V;
  vd_sub_scalar_lmultiply : V -> V -> S -> outcome V;
  vd_add_scalar_rdivide : V -> V -> R -> outcome V;
  vd_add_scalar_ldivide : V -> V -> R -> outcome V;
  vd_sub_scalar_rdivide : V -> V -> R -> outcome V;
  vd_sub_scalar_ldivide : V -> V -> R -> outcome V
}.
Arguments mk_vec_defaulted {V S R}. Arguments vd_uminus {V S R}. Arguments vd_add {V S R}.
Arguments vd_sub {V S R}. Arguments vd_scalar_rmultiply {V S R}. Arguments vd_scalar_lmultiply {V S R}.
Arguments vd_scalar_rdivide {V S R}. Arguments vd_scalar_ldivide {V S R}.
Arguments vd_scalar_rmultiply_inplace {V S R}. Arguments vd_scalar_ldivide_inplace {V S R}.
Arguments vd_add_scalar_rmultiply {V S R}. Arguments vd_add_scalar_lmultiply {V S R}.
Arguments vd_sub_scalar_rmultiply {V S R}. Arguments vd_sub_scalar_lmultiply {V S R}.
Arguments vd_add_scalar_rdivide {V S R}. Arguments vd_add_scalar_ldivide {V S R}.
Arguments vd_sub_scalar_rdivide {V S R}. Arguments vd_sub_scalar_ldivide {V S R}.

(** An implementation of Vector. *)
Record vec_ops (V K S R : Type) := mk_vec_ops {
  v_req :> vec_required V K S R;
  v_def :> vec_defaulted V S R
}.
Arguments mk_vec_ops {V K S R}. Arguments v_req {V K S R}. Arguments v_def {V K S R}.

Section Defaults.
  Context {V K S R : Type} (r : vec_required V K S R).

  (** traits/vector.rs:43-48 *)
  Definition dflt_uminus (x : V) : outcome V :=
    result <- vr_to_owned r x ;; vr_uminus_inplace r result.
  (** traits/vector.rs:50-55 *)
  Definition dflt_add (x other : V) : outcome V :=
    result <- vr_to_owned r x ;; vr_add_inplace r result other.
  (** traits/vector.rs:57-62 *)
  Definition dflt_sub (x other : V) : outcome V :=
    result <- vr_to_owned r x ;; vr_sub_inplace r result other.
  (** traits/vector.rs:68-73 *)
  Definition dflt_scalar_lmultiply (x : V) (scalar : S) : outcome V :=
    result <- vr_to_owned r x ;; vr_scalar_lmultiply_inplace r result scalar.
  (** traits/vector.rs:64-67 *)
  Definition dflt_scalar_rmultiply (x : V) (scalar : S) : outcome V := dflt_scalar_lmultiply x scalar.
  (** traits/vector.rs:75-80 *)
  Definition dflt_scalar_rdivide (x : V) (rational : R) : outcome V :=
    result <- vr_to_owned r x ;; vr_scalar_rdivide_inplace r result rational.
  (** traits/vector.rs:82-85 *)
  Definition dflt_scalar_ldivide (x : V) (rational : R) : outcome V := dflt_scalar_rdivide x rational.
  (** traits/vector.rs:94-97 *)
  Definition dflt_scalar_rmultiply_inplace (x : V) (scalar : S) : outcome V :=
    vr_scalar_lmultiply_inplace r x scalar.
  (** traits/vector.rs:100-103 *)
  Definition dflt_scalar_ldivide_inplace (x : V) (rational : R) : outcome V :=
    vr_scalar_rdivide_inplace r x rational.
  (** traits/vector.rs:108-111 *)
  Definition dflt_add_scalar_rmultiply (x other : V) (scalar : S) : outcome V :=
    y <- dflt_scalar_rmultiply other scalar ;; vr_add_inplace r x y.
  (** traits/vector.rs:114-117 *)
  Definition dflt_add_scalar_lmultiply (x other : V) (scalar : S) : outcome V :=
    y <- dflt_scalar_lmultiply other scalar ;; vr_add_inplace r x y.
  (** traits/vector.rs:120-123 *)
  Definition dflt_sub_scalar_rmultiply (x other : V) (scalar : S) : outcome V :=
    y <- dflt_scalar_rmultiply other scalar ;; vr_sub_inplace r x y.
  (** traits/vector.rs:126-129 *)
  Definition dflt_sub_scalar_lmultiply (x other : V) (scalar : S) : outcome V :=
    y <- dflt_scalar_lmultiply other scalar ;; vr_sub_inplace r x y.
  (** traits/vector.rs:132-135 *)
  Definition dflt_add_scalar_rdivide (x other : V) (rational : R) : outcome V :=
    y <- dflt_scalar_rdivide other rational ;; vr_add_inplace r x y.
  (** traits/vector.rs:138-141 *)
  Definition dflt_add_scalar_ldivide (x other : V) (rational : R) : outcome V :=
    y <- dflt_scalar_ldivide other rational ;; vr_add_inplace r x y.
  (** traits/vector.rs:144-147 *)
  Definition dflt_sub_scalar_rdivide (x other : V) (rational : R) : outcome V :=
    y <- dflt_scalar_rdivide other rational ;; vr_sub_inplace r x y.
  (** traits/vector.rs:150-153 *)
  Definition dflt_sub_scalar_ldivide (x other : V) (rational : R) : outcome V :=
    y <- dflt_scalar_ldivide other rational ;; vr_sub_inplace r x y.

  (** an implementation that overrides none of the default methods *)
  Definition with_defaults : vec_ops V K S R := {|
    v_req := r;
    v_def := {|
      vd_uminus := dflt_uminus; vd_add := dflt_add; vd_sub := dflt_sub;
      vd_scalar_rmultiply := dflt_scalar_rmultiply; vd_scalar_lmultiply := dflt_scalar_lmultiply;
      vd_scalar_rdivide := dflt_scalar_rdivide; vd_scalar_ldivide := dflt_scalar_ldivide;
      vd_scalar_rmultiply_inplace := dflt_scalar_rmultiply_inplace;
      vd_scalar_ldivide_inplace := dflt_scalar_ldivide_inplace;
      vd_add_scalar_rmultiply := dflt_add_scalar_rmultiply;
      vd_add_scalar_lmultiply := dflt_add_scalar_lmultiply;
      vd_sub_scalar_rmultiply := dflt_sub_scalar_rmultiply;
      vd_sub_scalar_lmultiply := dflt_sub_scalar_lmultiply;
      vd_add_scalar_rdivide := dflt_add_scalar_rdivide;
      vd_add_scalar_ldivide := dflt_add_scalar_ldivide;
      vd_sub_scalar_rdivide := dflt_sub_scalar_rdivide;
      vd_sub_scalar_ldivide := dflt_sub_scalar_ldivide |} |}.
End Defaults.

Section KeyExt.
  Context {V K S R : Type} (so : scalar_ops S R) (vo : vec_ops V K S R).

  (** traits/extension.rs:8-20 add_scalar_multiply *)
  Definition ke_add_scalar_multiply (x : V) (key : K) (val : S) : outcome V :=
    '(x1, ref) <- vr_get_mut vo x key ;;
    match ref with
    | Some (v, write) => Ret (write (s_add so v val))
    | None => vr_insert_single vo x1 key val
    end.
  (** traits/extension.rs:22-34 sub_scalar_multiply *)
  Definition ke_sub_scalar_multiply (x : V) (key : K) (val : S) : outcome V :=
    '(x1, ref) <- vr_get_mut vo x key ;;
    match ref with
    | Some (v, write) => Ret (write (s_sub so v val))
    | None => vr_insert_single vo x1 key (s_uminus so val)
    end.
  (** traits/extension.rs:36-49 add_scalar_divide *)
  Definition ke_add_scalar_divide (x : V) (key : K) (val : R) : outcome V :=
    let sca := s_div so (s_one so) val in
    '(x1, ref) <- vr_get_mut vo x key ;;
    match ref with
    | Some (v, write) => Ret (write (s_add so v sca))
    | None => vr_insert_single vo x1 key sca
    end.
  (** traits/extension.rs:52-65 sub_scalar_divide *)
  Definition ke_sub_scalar_divide (x : V) (key : K) (val : R) : outcome V :=
    let sca := s_div so (s_mone so) val in
    '(x1, ref) <- vr_get_mut vo x key ;;
    match ref with
    | Some (v, write) => Ret (write (s_sub so v sca))
    | None => vr_insert_single vo x1 key sca
    end.
End KeyExt.
