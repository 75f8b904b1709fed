(** Model of src/vector/implementation/deref_impl.rs, and of the wrapper type DenseTensor
    (src/free_tensor/implementation/dense.rs:16-57) to which it applies. *)
From Verif Require Import Machine M_Scalar M_Vector M_Dense M_TensorKey M_TensorBasis.

(** dense.rs:16-18 a type that dereferences to the wrapped vector *)
Record wrapped (U : Type) := wrap { unwrap : U }.
Arguments wrap {U}. Arguments unwrap {U}.

(** deref_impl.rs:48-50 get and 52-54 get_mut: `self.borrow()` (resp. `borrow_mut()`) is the reflexive
    `Borrow<T> for T`, so the body is a call of the same method on the same arguments.  A call that does
    nothing but call itself: [inl] on every round of [run_loop]. *)
Definition calls_itself {A B} (arg : A) : outcome B := run_loop (fun a : A => inl a) arg.

Section Deref.
  Context {U K S R : Type} (vo : vec_ops U K S R).
  Let W := wrapped U.

  Definition wrap1 (f : U -> outcome U) (x : W) : outcome W := u <- f (unwrap x) ;; Ret (wrap u).
  Definition wrap2 (f : U -> U -> outcome U) (x y : W) : outcome W :=
    u <- f (unwrap x) (unwrap y) ;; Ret (wrap u).

  (** deref_impl.rs:19-66, 98-116 and 123-126 *)
  Definition deref_required : vec_required W K S R := {|
    vr_new := wrap (vr_new vo);
    vr_from_key := fun k => u <- vr_from_key vo k ;; Ret (wrap u);
    vr_from_key_scalar := fun k s => u <- vr_from_key_scalar vo k s ;; Ret (wrap u);
    vr_from_iterator := fun l => u <- vr_from_iterator vo l ;; Ret (wrap u);
    vr_swap := fun x y => '(a, b) <- vr_swap vo (unwrap x) (unwrap y) ;; Ret (wrap a, wrap b);
    vr_to_owned := wrap1 (vr_to_owned vo);
    vr_clear := wrap1 (vr_clear vo);
    vr_get := fun x k => calls_itself (x, k);
    vr_get_mut := fun x k => calls_itself (x, k);
    vr_insert_single := fun x k s => wrap1 (fun u => vr_insert_single vo u k s) x;
    vr_insert := fun x l => wrap1 (fun u => vr_insert vo u l) x;
    vr_erase := fun x k => wrap1 (fun u => vr_erase vo u k) x;
    vr_uminus_inplace := wrap1 (vr_uminus_inplace vo);
    vr_add_inplace := wrap2 (vr_add_inplace vo);
    vr_sub_inplace := wrap2 (vr_sub_inplace vo);
    vr_scalar_lmultiply_inplace := fun x s => wrap1 (fun u => vr_scalar_lmultiply_inplace vo u s) x;
    vr_scalar_rdivide_inplace := fun x r => wrap1 (fun u => vr_scalar_rdivide_inplace vo u r) x |}.

  (** deref_impl.rs:70-96, 118-121 and 128-176: every default method is overridden by a call of the same method
      of the wrapped vector *)
  Definition deref_ops : vec_ops W K S R := {|
    v_req := deref_required;
    v_def := {|
      vd_uminus := wrap1 (vd_uminus vo);
      vd_add := wrap2 (vd_add vo);
      vd_sub := wrap2 (vd_sub vo);
      vd_scalar_rmultiply := fun x s => wrap1 (fun u => vd_scalar_rmultiply vo u s) x;
      vd_scalar_lmultiply := fun x s => wrap1 (fun u => vd_scalar_lmultiply vo u s) x;
      vd_scalar_rdivide := fun x r => wrap1 (fun u => vd_scalar_rdivide vo u r) x;
      vd_scalar_ldivide := fun x r => wrap1 (fun u => vd_scalar_ldivide vo u r) x;
      vd_scalar_rmultiply_inplace := fun x s => wrap1 (fun u => vd_scalar_rmultiply_inplace vo u s) x;
      vd_scalar_ldivide_inplace := fun x r => wrap1 (fun u => vd_scalar_ldivide_inplace vo u r) x;
      vd_add_scalar_rmultiply := fun x y s => wrap2 (fun u v => vd_add_scalar_rmultiply vo u v s) x y;
      vd_add_scalar_lmultiply := fun x y s => wrap2 (fun u v => vd_add_scalar_lmultiply vo u v s) x y;
      vd_sub_scalar_rmultiply := fun x y s => wrap2 (fun u v => vd_sub_scalar_rmultiply vo u v s) x y;
      vd_sub_scalar_lmultiply := fun x y s => wrap2 (fun u v => vd_sub_scalar_lmultiply vo u v s) x y;
      vd_add_scalar_rdivide := fun x y r => wrap2 (fun u v => vd_add_scalar_rdivide vo u v r) x y;
      vd_add_scalar_ldivide := fun x y r => wrap2 (fun u v => vd_add_scalar_ldivide vo u v r) x y;
      vd_sub_scalar_rdivide := fun x y r => wrap2 (fun u v => vd_sub_scalar_rdivide vo u v r) x y;
      vd_sub_scalar_ldivide := fun x y r => wrap2 (fun u v => vd_sub_scalar_ldivide vo u v r) x y |} |}.
End Deref.

(** dense.rs:16-18 DenseTensor<S, N>, with the Vector implementation of deref_impl.rs; equality is the
    derived one (dense.rs:16), i.e. that of the wrapped vector *)
Definition dense_tensor_ops {S R} (so : scalar_ops S R) (p : profile) (n : N)
  : vec_ops (wrapped (dvec S)) tkey S R := deref_ops (dense_ops so (tensor_basis p n)).
Definition dense_tensor_eq {S R} (so : scalar_ops S R) (x y : wrapped (dvec S)) : bool :=
  dv_eq so (unwrap x) (unwrap y).
