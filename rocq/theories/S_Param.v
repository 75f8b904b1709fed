(** Specification: two kinds of scalars whose operations correspond. *)
From Verif Require Import Machine M_Scalar M_Vector M_Dense S_Words S_TensorProg S_Borrow.

Section Related.
  Context {S R S' R' : Type} (P : S -> S' -> Prop) (Q : R -> R' -> Prop).
  (** the operations take related arguments to related results *)
  Record related (so : scalar_ops S R) (so' : scalar_ops S' R') : Prop := mk_related {
    r_zero : P (s_zero so) (s_zero so');
    r_one : P (s_one so) (s_one so');
    r_mone : P (s_mone so) (s_mone so');
    r_uminus : forall x x', P x x' -> P (s_uminus so x) (s_uminus so' x');
    r_add : forall x x' y y', P x x' -> P y y' -> P (s_add so x y) (s_add so' x' y');
    r_sub : forall x x' y y', P x x' -> P y y' -> P (s_sub so x y) (s_sub so' x' y');
    r_mul : forall x x' y y', P x x' -> P y y' -> P (s_mul so x y) (s_mul so' x' y');
    r_div : forall x x' y y', P x x' -> Q y y' -> P (s_div so x y) (s_div so' x' y')
  }.
  (** comparisons agree *)
  Definition related_eq (so : scalar_ops S R) (so' : scalar_ops S' R') : Prop :=
    forall x x' y y', P x x' -> P y y' -> s_eqb so x y = s_eqb so' x' y'.
  (** the numbers made from degrees are related *)
  Definition related_degrees (so : scalar_ops S R) (so' : scalar_ops S' R') : Prop :=
    forall d, P (s_from_degree so d) (s_from_degree so' d) /\ Q (r_from_degree so d) (r_from_degree so' d).

  (** vectors of related scalars, held in the same way *)
  Definition vec_rel (v : dvec S) (v' : dvec S') : Prop :=
    dv_kind v = dv_kind v' /\ Forall2 P (dv_elems v) (dv_elems v') /\ Forall2 P (dv_lender v) (dv_lender v').
  (** the same command with related scalars *)
  Inductive cmd_rel : tcmd S R -> tcmd S' R' -> Prop :=
  | rel_new d : cmd_rel (CNew d) (CNew d)
  | rel_key d w c c' : P c c' -> cmd_rel (CKey d w c) (CKey d w c')
  | rel_copy d a : cmd_rel (CCopy d a) (CCopy d a)
  | rel_clear d : cmd_rel (CClear d) (CClear d)
  | rel_erase d w : cmd_rel (CErase d w) (CErase d w)
  | rel_neg d : cmd_rel (CNeg d) (CNeg d)
  | rel_scale d c c' : P c c' -> cmd_rel (CScale d c) (CScale d c')
  | rel_divide d r r' : Q r r' -> cmd_rel (CDivide d r) (CDivide d r')
  | rel_add d a : cmd_rel (CAdd d a) (CAdd d a)
  | rel_sub d a : cmd_rel (CSub d a) (CSub d a)
  | rel_add_scaled d a c c' : P c c' -> cmd_rel (CAddScaled d a c) (CAddScaled d a c')
  | rel_sub_divided d a r r' : Q r r' -> cmd_rel (CSubDivided d a r) (CSubDivided d a r')
  | rel_mul d a b t : cmd_rel (CMul d a b t) (CMul d a b t)
  | rel_comm d a b t : cmd_rel (CComm d a b t) (CComm d a b t)
  | rel_add_mul d a b t : cmd_rel (CAddMul d a b t) (CAddMul d a b t)
  | rel_sub_mul d a b t : cmd_rel (CSubMul d a b t) (CSubMul d a b t)
  | rel_sub_scaled d a c c' : P c c' -> cmd_rel (CSubScaled d a c) (CSubScaled d a c')
  | rel_add_divided d a r r' : Q r r' -> cmd_rel (CAddDivided d a r) (CAddDivided d a r')
  | rel_degree d e : cmd_rel (CDegree d e) (CDegree d e)
  | rel_pairs d l l' : Forall2 (fun e e' => fst e = fst e' /\ P (snd e) (snd e')) l l' -> cmd_rel (CPairs d l) (CPairs d l')
  | rel_set d w c c' : P c c' -> cmd_rel (CSet d w c) (CSet d w c')
  | rel_key_add d w c c' : P c c' -> cmd_rel (CKeyAdd d w c) (CKeyAdd d w c')
  | rel_key_sub d w c c' : P c c' -> cmd_rel (CKeySub d w c) (CKeySub d w c').
End Related.

(** the same vector and the same command with other scalars *)
Definition vec_map {S S'} (h : S -> S') (v : dvec S) : dvec S' := mk_dvec (dv_kind v) (map h (dv_elems v)) (map h (dv_lender v)).
Definition cmd_map {S R S' R'} (h : S -> S') (g : R -> R') (c : tcmd S R) : tcmd S' R' :=
  match c with
  | CNew d => CNew d | CKey d w c => CKey d w (h c) | CCopy d a => CCopy d a | CClear d => CClear d | CErase d w => CErase d w
  | CNeg d => CNeg d | CScale d c => CScale d (h c) | CDivide d r => CDivide d (g r) | CAdd d a => CAdd d a | CSub d a => CSub d a
  | CAddScaled d a c => CAddScaled d a (h c) | CSubDivided d a r => CSubDivided d a (g r)
  | CMul d a b t => CMul d a b t | CComm d a b t => CComm d a b t | CAddMul d a b t => CAddMul d a b t | CSubMul d a b t => CSubMul d a b t
  | CSubScaled d a c => CSubScaled d a (h c) | CAddDivided d a r => CAddDivided d a (g r) | CDegree d e => CDegree d e
  | CPairs d l => CPairs d (map (fun e => (fst e, h (snd e))) l) | CSet d w c => CSet d w (h c)
  | CKeyAdd d w c => CKeyAdd d w (h c) | CKeySub d w c => CKeySub d w (h c)
  end.
(** [h] and [g] respect the operations *)
Definition homomorphism {S R S' R'} (h : S -> S') (g : R -> R') (so : scalar_ops S R) (so' : scalar_ops S' R') : Prop :=
  related (fun x x' => h x = x') (fun r r' => g r = r') so so'.
(** the scalars that satisfy [T] are closed under the operations, with divisors that satisfy [U] *)
Definition closed {S R} (T : S -> Prop) (U : R -> Prop) (so : scalar_ops S R) : Prop :=
  T (s_zero so) /\ T (s_one so) /\ T (s_mone so) /\ (forall x, T x -> T (s_uminus so x)) /\ (forall x y, T x -> T y -> T (s_add so x y))
  /\ (forall x y, T x -> T y -> T (s_sub so x y)) /\ (forall x y, T x -> T y -> T (s_mul so x y)) /\ (forall x r, T x -> U r -> T (s_div so x r)).
(** all scalars that are written in a command satisfy [T], all divisors [U] *)
Definition cmd_in {S R} (T : S -> Prop) (U : R -> Prop) (c : tcmd S R) : Prop :=
  match c with
  | CKey _ _ c | CScale _ c | CAddScaled _ _ c | CSubScaled _ _ c | CSet _ _ c | CKeyAdd _ _ c | CKeySub _ _ c => T c
  | CDivide _ r | CSubDivided _ _ r | CAddDivided _ _ r => U r
  | CPairs _ l => Forall (fun e => T (snd e)) l
  | _ => True
  end.
