(** Specification: programs on tensors that borrow their coefficients. *)
From Verif Require Import Machine M_Scalar M_TensorBasis M_Vector M_Dense S_Vector S_Tensor S_TensorProg.

(** both return and the results are related, or both end in the same other way *)
Definition same_outcome {A B} (P : A -> B -> Prop) (x : outcome A) (y : outcome B) : Prop :=
  match x, y with
  | Ret a, Ret b => P a b
  | Panic, Panic | UB, UB | Diverge, Diverge => True
  | _, _ => False
  end.
(** the same stored coefficients, however they are held *)
Definition same_coeffs {S} (x y : dvec S) : Prop := dv_elems x = dv_elems y.

(** the variable that a command changes *)
Definition changed {S R} (c : tcmd S R) : nat :=
  match c with
  | CNew d | CKey d _ _ | CCopy d _ | CClear d | CErase d _ | CNeg d | CScale d _ | CDivide d _ | CAdd d _ | CSub d _
  | CAddScaled d _ _ | CSubDivided d _ _ | CMul d _ _ _ | CComm d _ _ _ | CAddMul d _ _ _ | CSubMul d _ _ _
  | CSubScaled d _ _ | CAddDivided d _ _ | CDegree d _ | CPairs d _ | CSet d _ _ | CKeyAdd d _ _ | CKeySub d _ _ => d
  end.
(** the command gives its variable a new vector; the old one is dropped *)
Definition replaces {S R} (c : tcmd S R) : bool :=
  match c with
  | CNew _ | CKey _ _ _ | CCopy _ _ | CMul _ _ _ _ | CComm _ _ _ _ | CDegree _ _ | CPairs _ _ => true
  | _ => false
  end.
Definition is_clear {S R} (c : tcmd S R) : bool := match c with CClear _ => true | _ => false end.
(** the command needs more storage for the variable that it changes than that variable has *)
Definition needs_room {S R} (p : profile) (n : N) (st : nat -> dvec S) (c : tcmd S R) : Prop :=
  let degree i := dv_degree (tensor_basis p n) (st i) in
  match c with
  | CAdd d a | CSub d a | CAddScaled d a _ | CSubScaled d a _ | CAddDivided d a _ | CSubDivided d a _ =>
      (dv_size (st d) < dv_size (st a))%N
  | CAddMul d a b t | CSubMul d a b t =>
      exists e l r t', degree d = Ret e /\ degree a = Ret l /\ degree b = Ret r /\ t = Some t' /\ (e < t')%N /\ (e < l + r)%N
  | _ => False
  end.
