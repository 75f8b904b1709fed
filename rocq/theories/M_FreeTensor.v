(** Model of src/free_tensor/mod.rs:21-82, the trait FreeTensor: first for any implementing type, given by its
    Vector operations and the two Algebra methods that the trait calls, then for SimpleDenseVector over TensorBasis.
    No type of the crate implements the trait; [max_degree] is the associated constant MAX_DEGREE that an
    implementation would choose. *)
From Verif Require Import Machine M_Scalar M_Vector M_Dense M_TensorKey M_TensorBasis M_Algebra.

Section Trait.
  Context {V S R : Type} (so : scalar_ops S R) (p : profile) (max_degree : N) (vo : vec_ops V tkey S R)
    (mul_rat_rdiv : V -> V -> S -> option N -> outcome V) (multiply : V -> V -> option N -> outcome V).

  (** `(1..Self::MAX_DEGREE).rev()` *)
  Definition countdown : list N := rev (range 1 max_degree).
  (** free_tensor/mod.rs:46-48 and 66-68: `if let Some(unit) = x.get_mut(KeyType::new()) { *unit = ZERO }` *)
  Definition trait_clear_unit (x : V) : outcome V :=
    '(x1, ref) <- vr_get_mut vo x tk_new ;;
    Ret (match ref with Some (_, write) => write (s_zero so) | None => x1 end).

  (** free_tensor/mod.rs:26-37 exp *)
  Definition trait_exp (self : V) : outcome V :=
    tunit <- vr_from_key vo tk_new ;;
    result <- vr_from_key vo tk_new ;;
    for_each countdown (fun r i =>
      r1 <- mul_rat_rdiv r self (s_from_degree so i) (Some max_degree) ;;
      vr_add_inplace vo r1 tunit) result.

  (** free_tensor/mod.rs:39-56 fmexp *)
  Definition trait_fmexp (self arg : V) : outcome V :=
    old_self <- vr_to_owned vo self ;;
    x0 <- vr_to_owned vo arg ;;
    x <- trait_clear_unit x0 ;;
    for_each countdown (fun r i =>
      t0 <- usub 32 p max_degree i ;;
      t <- uadd 32 p t0 1 ;;
      r1 <- mul_rat_rdiv r x (s_from_degree so i) (Some t) ;;
      vr_add_inplace vo r1 old_self) self.

  (** free_tensor/mod.rs:58-80 log: the result of `rv.multiply(..)` is dropped *)
  Definition trait_log (self : V) : outcome V :=
    tunit <- vr_from_key vo tk_new ;;
    x0 <- vr_to_owned vo self ;;
    x <- trait_clear_unit x0 ;;
    for_each countdown (fun rv i =>
      rv1 <- (if i mod 2 =? 0 then vd_sub_scalar_rdivide vo rv tunit (r_from_degree so i)
              else vd_add_scalar_rdivide vo rv tunit (r_from_degree so i)) ;;
      _ <- multiply rv1 x (Some max_degree) ;;
      Ret rv1) (vr_new vo).
End Trait.

(** The trait for SimpleDenseVector over TensorBasis. *)
Section FreeTensor.
  Context {S R : Type} (so : scalar_ops S R) (p : profile) (n : N) (max_degree : N).
  Notation V := (dvec S).
  Notation vo := (dense_ops so (tensor_basis p n)).
  Definition clear_unit : V -> outcome V := trait_clear_unit so vo.
  Definition ft_exp : V -> outcome V := trait_exp so max_degree vo (alg_mul_rat_rdiv so p n).
  Definition ft_fmexp : V -> V -> outcome V := trait_fmexp so p max_degree vo (alg_mul_rat_rdiv so p n).
  Definition ft_log : V -> outcome V := trait_log so max_degree vo (alg_multiply so p n).
End FreeTensor.
