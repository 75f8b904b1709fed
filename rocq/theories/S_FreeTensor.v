(** What an exact implementation of the tensor algebra does, for the trait FreeTensor (M_FreeTensor.v):
    [val x w] is the coefficient of the word [w] in [x]. *)
From Verif Require Import Machine S_Words M_Scalar M_Vector M_TensorKey S_Tensor S_Series.

Record exact_algebra {V S R : Type} (so : scalar_ops S R) (n : N) (vo : vec_ops V tkey S R)
    (mul_rat_rdiv : V -> V -> S -> option N -> outcome V) (multiply : V -> V -> option N -> outcome V)
    (val : V -> word -> S) : Prop := mk_exact_algebra {
  ea_new : forall w, word_ok n w -> val (vr_new vo) w = s_zero so;
  ea_unit : exists u, vr_from_key vo tk_new = Ret u /\ forall w, word_ok n w -> val u w = unit_fun so w;
  ea_owned : forall x, exists z, vr_to_owned vo x = Ret z /\ forall w, word_ok n w -> val z w = val x w;
  ea_get_mut : forall x, exists x1 ref, vr_get_mut vo x tk_new = Ret (x1, ref)
    /\ match ref with
       | Some (_, write) => forall w, word_ok n w -> val (write (s_zero so)) w = no_unit so (val x) w
       | None => forall w, word_ok n w -> val x1 w = no_unit so (val x) w
       end;
  ea_add : forall x y, exists z, vr_add_inplace vo x y = Ret z
    /\ forall w, word_ok n w -> val z w = s_add so (val x w) (val y w);
  ea_add_div : forall x y r, exists z, vd_add_scalar_rdivide vo x y r = Ret z
    /\ forall w, word_ok n w -> val z w = s_add so (val x w) (s_mul so (s_inv so r) (val y w));
  ea_sub_div : forall x y r, exists z, vd_sub_scalar_rdivide vo x y r = Ret z
    /\ forall w, word_ok n w -> val z w = s_sub so (val x w) (s_mul so (s_inv so r) (val y w));
  ea_mul : forall x y t, exists z, multiply x y (Some t) = Ret z
    /\ forall w, word_ok n w -> val z w = tconv so t (val x) (val y) w;
  (* the product, divided by the degree [i] *)
  ea_mul_div : forall x y i t, 1 <= i -> exists z, mul_rat_rdiv x y (s_from_degree so i) (Some t) = Ret z
    /\ forall w, word_ok n w -> val z w = s_mul so (s_inv so (r_from_degree so i)) (tconv so t (val x) (val y) w)
}.
