(** Specification: putting elements of an algebra in place of the letters. *)
From Verif Require Import Machine S_Words M_Scalar S_Vector S_TensorProg.

(** an associative algebra with unit over the scalars, not necessarily commutative: matrices, for example *)
Record algebra (S A : Type) := mk_algebra { a_zero : A; a_one : A; a_add : A -> A -> A; a_mul : A -> A -> A; a_scale : S -> A -> A }.
Arguments a_zero {S A}. Arguments a_one {S A}. Arguments a_add {S A}. Arguments a_mul {S A}. Arguments a_scale {S A}.
Record algebra_laws {S R A} (so : scalar_ops S R) (al : algebra S A) : Prop := mk_algebra_laws {
  al_add_comm : forall x y, a_add al x y = a_add al y x;
  al_add_assoc : forall x y z, a_add al x (a_add al y z) = a_add al (a_add al x y) z;
  al_add_0 : forall x, a_add al (a_zero al) x = x;
  al_mul_assoc : forall x y z, a_mul al x (a_mul al y z) = a_mul al (a_mul al x y) z;
  al_one_l : forall x, a_mul al (a_one al) x = x;
  al_one_r : forall x, a_mul al x (a_one al) = x;
  al_mul_add_l : forall x y z, a_mul al (a_add al x y) z = a_add al (a_mul al x z) (a_mul al y z);
  al_mul_add_r : forall x y z, a_mul al x (a_add al y z) = a_add al (a_mul al x y) (a_mul al x z);
  al_scale_add : forall s t x, a_scale al (s_add so s t) x = a_add al (a_scale al s x) (a_scale al t x);
  al_scale_add_r : forall s x y, a_scale al s (a_add al x y) = a_add al (a_scale al s x) (a_scale al s y);
  al_scale_mul : forall s t x, a_scale al (s_mul so s t) x = a_scale al s (a_scale al t x);
  al_scale_0 : forall x, a_scale al (s_zero so) x = a_zero al;
  al_scale_1 : forall x, a_scale al (s_one so) x = x;
  al_scale_mul_l : forall s x y, a_mul al (a_scale al s x) y = a_scale al s (a_mul al x y);
  al_scale_mul_r : forall s x y, a_mul al x (a_scale al s y) = a_scale al s (a_mul al x y)
}.

Section Eval.
  Context {S R A : Type} (so : scalar_ops S R) (al : algebra S A) (phi : N -> A).
  Definition a_sum (l : list A) : A := fold_right (a_add al) (a_zero al) l.
  (** the product of the elements in place of the letters *)
  Definition eval_word (w : word) : A := fold_right (fun a x => a_mul al (phi a) x) (a_one al) w.
  (** a tensor with the coefficients [f], up to degree [D] *)
  Definition evaluate (n D : N) (f : word -> S) : A :=
    a_sum (map (fun w => a_scale al (f w) (eval_word w)) (words_below n (Datatypes.S (N.to_nat D)))).

  Definition a_sub (x y : A) : A := a_add al x (a_scale al (s_uminus so (s_one so)) y).
  (** what a command does to the elements of the algebra that the variables stand for *)
  Definition image_cmd (x : nat -> A) (c : tcmd S R) : nat -> A :=
    match c with
    | CNew d | CClear d | CDegree d _ => set_var x d (a_zero al)
    | CKey d w c => set_var x d (a_scale al c (eval_word w))
    | CPairs d l => set_var x d (a_sum (map (fun e => a_scale al (snd e) (eval_word (fst e))) l))
    | CCopy d a => set_var x d (x a)
    | CNeg d => set_var x d (a_scale al (s_uminus so (s_one so)) (x d))
    | CScale d c => set_var x d (a_scale al c (x d))
    | CDivide d r => set_var x d (a_scale al (s_inv so r) (x d))
    | CAdd d a => set_var x d (a_add al (x d) (x a))
    | CSub d a => set_var x d (a_sub (x d) (x a))
    | CAddScaled d a c => set_var x d (a_add al (x d) (a_scale al c (x a)))
    | CSubScaled d a c => set_var x d (a_sub (x d) (a_scale al c (x a)))
    | CAddDivided d a r => set_var x d (a_add al (x d) (a_scale al (s_inv so r) (x a)))
    | CSubDivided d a r => set_var x d (a_sub (x d) (a_scale al (s_inv so r) (x a)))
    | CMul d a b _ => set_var x d (a_mul al (x a) (x b))
    | CComm d a b _ => set_var x d (a_sub (a_mul al (x a) (x b)) (a_mul al (x b) (x a)))
    | CAddMul d a b _ => set_var x d (a_add al (x d) (a_mul al (x a) (x b)))
    | CSubMul d a b _ => set_var x d (a_sub (x d) (a_mul al (x a) (x b)))
    | CErase _ _ | CSet _ _ _ | CKeyAdd _ _ _ | CKeySub _ _ _ => x     (* excluded by [algebraic] *)
    end.
  Definition image_prog (x : nat -> A) (cs : list (tcmd S R)) : nat -> A := fold_left image_cmd cs x.
End Eval.

(** the commands that are operations of an algebra, products up to degree [D] *)
Definition algebraic {S R} (D : N) (c : tcmd S R) : Prop :=
  match c with
  | CErase _ _ | CSet _ _ _ | CKeyAdd _ _ _ | CKeySub _ _ _ => False
  | CMul _ _ _ t | CComm _ _ _ t | CAddMul _ _ _ t | CSubMul _ _ _ t => t = Some D
  | _ => True
  end.
