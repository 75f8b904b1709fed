(** Specification vocabulary for vectors: coefficients, laws of scalars, and a mathematical machine
    on coefficient functions. *)
From Verif Require Import Machine M_Scalar M_Vector M_Dense.

(** ** Laws of scalars *)

(** The laws of a commutative ring with the operations of CoefficientField; equality `==` is equality. *)
Record ring_laws {S R} (so : scalar_ops S R) : Prop := mk_ring_laws {
  l_add_comm : forall x y, s_add so x y = s_add so y x;
  l_add_assoc : forall x y z, s_add so x (s_add so y z) = s_add so (s_add so x y) z;
  l_add_0_l : forall x, s_add so (s_zero so) x = x;
  l_add_opp : forall x, s_add so x (s_uminus so x) = s_zero so;
  l_sub_def : forall x y, s_sub so x y = s_add so x (s_uminus so y);
  l_mul_comm : forall x y, s_mul so x y = s_mul so y x;
  l_mul_assoc : forall x y z, s_mul so x (s_mul so y z) = s_mul so (s_mul so x y) z;
  l_mul_1_l : forall x, s_mul so (s_one so) x = x;
  l_mul_add_l : forall x y z, s_mul so (s_add so x y) z = s_add so (s_mul so x z) (s_mul so y z);
  l_mone : s_mone so = s_uminus so (s_one so);
  l_eqb : forall x y, s_eqb so x y = true <-> x = y
}.

(** The laws of a field whose RationalType acts by division: division by [r] is multiplication by [inv r];
    degrees are numbers of ones, and dividing by a positive degree undoes multiplying by it. *)
Record field_laws {S R} (so : scalar_ops S R) : Prop := mk_field_laws {
  l_ring : ring_laws so;
  l_one_zero : s_one so <> s_zero so;
  l_integral : forall x y, s_mul so x y = s_zero so -> x = s_zero so \/ y = s_zero so;
  l_div : forall x r, s_div so x r = s_mul so x (s_inv so r);
  l_degree_0 : s_from_degree so 0 = s_zero so;
  l_degree_S : forall d, s_from_degree so (d + 1) = s_add so (s_from_degree so d) (s_one so);
  l_degree_inv : forall d, 0 < d ->
    s_mul so (s_from_degree so d) (s_inv so (r_from_degree so d)) = s_one so
}.

(** ** Coefficients *)

(** the coefficient number [i] of a vector; ZERO where nothing is stored *)
Definition coef {S R} (so : scalar_ops S R) (v : dvec S) (i : N) : S :=
  match slice_get (dv_as_slice v) i with Some x => x | None => s_zero so end.

(** what coefficientwise addition or subtraction has to give, by what is stored on each side *)
Definition combine {S R} (so : scalar_ops S R) (op : S -> S -> S) (a b : option S) : option S :=
  match a, b with
  | Some x, Some y => Some (op x y)
  | Some x, None => Some x
  | None, Some y => Some (op (s_zero so) y)
  | None, None => None
  end.

(** the scalars given for one key, in the order given *)
Definition given {K S} (same : K -> bool) (items : list (K * S)) : list S :=
  map snd (filter (fun e => same (fst e)) items).
(** ZERO + s1 + s2 + ..., from left to right *)
Definition sum_from_zero {S R} (so : scalar_ops S R) (l : list S) : S :=
  fold_left (s_add so) l (s_zero so).

(** storage and lender belong together: a borrowed buffer has the contents seen through it.  Every vector
    made by the constructors and by borrowing has this, and every operation keeps it. *)
Definition dv_wf {S} (v : dvec S) : Prop :=
  match dv_kind v with Owned => True | _ => dv_lender v = dv_elems v end.

(** ** Operations as data, for histories *)

(** A call on a vector that can change it.  [OSet k s] is `if let Some(r) = x.get_mut(k) { *r = s }`,
    [OSwap w] is `x.swap(&mut w)` seen from x; [OKey..] are the methods of VectorKeyExt. *)
Inductive vop (K S R : Type) : Type :=
| OClear
| OErase (k : K)
| OSet (k : K) (s : S)
| OInsertSingle (k : K) (s : S)
| OUminus
| OAdd (y : dvec S)
| OSub (y : dvec S)
| OLmul (s : S)
| ORmul (s : S)
| ORdiv (r : R)
| OLdiv (r : R)
| OAddRmul (y : dvec S) (s : S)
| OAddLmul (y : dvec S) (s : S)
| OSubRmul (y : dvec S) (s : S)
| OSubLmul (y : dvec S) (s : S)
| OAddRdiv (y : dvec S) (r : R)
| OAddLdiv (y : dvec S) (r : R)
| OSubRdiv (y : dvec S) (r : R)
| OSubLdiv (y : dvec S) (r : R)
| OResize (n : N)
| OSwap (w : dvec S)
| OKeyAddMul (k : K) (s : S)
| OKeySubMul (k : K) (s : S)
| OKeyAddDiv (k : K) (r : R)
| OKeySubDiv (k : K) (r : R).
Arguments OClear {K S R}. Arguments OErase {K S R}. Arguments OSet {K S R}.
Arguments OInsertSingle {K S R}. Arguments OUminus {K S R}. Arguments OAdd {K S R}.
Arguments OSub {K S R}. Arguments OLmul {K S R}. Arguments ORmul {K S R}. Arguments ORdiv {K S R}.
Arguments OLdiv {K S R}. Arguments OAddRmul {K S R}. Arguments OAddLmul {K S R}.
Arguments OSubRmul {K S R}. Arguments OSubLmul {K S R}. Arguments OAddRdiv {K S R}.
Arguments OAddLdiv {K S R}. Arguments OSubRdiv {K S R}. Arguments OSubLdiv {K S R}.
Arguments OResize {K S R}. Arguments OSwap {K S R}. Arguments OKeyAddMul {K S R}.
Arguments OKeySubMul {K S R}. Arguments OKeyAddDiv {K S R}. Arguments OKeySubDiv {K S R}.

(** the call itself, on dense vectors *)
Definition call {K S R} (so : scalar_ops S R) (ob : obasis K) (x : dvec S) (o : vop K S R)
  : outcome (dvec S) :=
  let vo := dense_ops so ob in
  match o with
  | OClear => vr_clear vo x
  | OErase k => vr_erase vo x k
  | OSet k s => '(x1, ref) <- vr_get_mut vo x k ;;
                Ret (match ref with Some (_, write) => write s | None => x1 end)
  | OInsertSingle k s => vr_insert_single vo x k s
  | OUminus => vr_uminus_inplace vo x
  | OAdd y => vr_add_inplace vo x y
  | OSub y => vr_sub_inplace vo x y
  | OLmul s => vr_scalar_lmultiply_inplace vo x s
  | ORmul s => vd_scalar_rmultiply_inplace vo x s
  | ORdiv r => vr_scalar_rdivide_inplace vo x r
  | OLdiv r => vd_scalar_ldivide_inplace vo x r
  | OAddRmul y s => vd_add_scalar_rmultiply vo x y s
  | OAddLmul y s => vd_add_scalar_lmultiply vo x y s
  | OSubRmul y s => vd_sub_scalar_rmultiply vo x y s
  | OSubLmul y s => vd_sub_scalar_lmultiply vo x y s
  | OAddRdiv y r => vd_add_scalar_rdivide vo x y r
  | OAddLdiv y r => vd_add_scalar_ldivide vo x y r
  | OSubRdiv y r => vd_sub_scalar_rdivide vo x y r
  | OSubLdiv y r => vd_sub_scalar_ldivide vo x y r
  | OResize n => dv_resize so x n
  | OSwap w => '(a, b) <- vr_swap vo x w ;; Ret a
  | OKeyAddMul k s => ke_add_scalar_multiply so vo x k s
  | OKeySubMul k s => ke_sub_scalar_multiply so vo x k s
  | OKeyAddDiv k r => ke_add_scalar_divide so vo x k r
  | OKeySubDiv k r => ke_sub_scalar_divide so vo x k r
  end.
Definition calls {K S R} (so : scalar_ops S R) (ob : obasis K) (x : dvec S) (os : list (vop K S R))
  : outcome (dvec S) := for_each os (call so ob) x.

(** the key an operation uses has the index that [idx] gives (for the tensor basis: it is a valid key) *)
Definition op_key_ok {K S R} (ob : obasis K) (idx : K -> N) (o : vop K S R) : Prop :=
  match o with
  | OErase k | OSet k _ | OInsertSingle k _ | OKeyAddMul k _ | OKeySubMul k _
  | OKeyAddDiv k _ | OKeySubDiv k _ => ob_key_to_index ob k = Ret (idx k)
  | _ => True
  end.

(** operations that need a buffer of another size than the vector [m] has *)
Definition needs_resize {K S R} (m : dvec S) (o : vop K S R) : Prop :=
  match o with
  | OAdd y | OSub y | OAddRmul y _ | OAddLmul y _ | OSubRmul y _ | OSubLmul y _
  | OAddRdiv y _ | OAddLdiv y _ | OSubRdiv y _ | OSubLdiv y _ => dv_size m < dv_size y
  | OResize _ => True
  | _ => False
  end.
Definition is_swap {K S R} (o : vop K S R) : bool := match o with OSwap _ => true | _ => false end.
Definition is_clear {K S R} (o : vop K S R) : bool := match o with OClear => true | _ => false end.

(** ** The mathematical machine: a dimension and a function from indices to coefficients.
    [a_fixed]: the coefficients live in a caller's `&mut [S]`, so that clear cannot drop them. *)
Record avec (S : Type) := mk_avec { a_fixed : bool; a_dim : N; a_fun : N -> S }.
Arguments mk_avec {S}. Arguments a_fixed {S}. Arguments a_dim {S}. Arguments a_fun {S}.

Definition avec_eq {S} (a b : avec S) : Prop :=
  a_fixed a = a_fixed b /\ a_dim a = a_dim b /\ forall i, a_fun a i = a_fun b i.

(** the mathematical vector that a dense vector stands for *)
Definition avec_of {S R} (so : scalar_ops S R) (x : dvec S) : avec S :=
  mk_avec (match dv_kind x with BorrowedMut => true | _ => false end) (dv_size x) (coef so x).

Section AbstractMachine.
  Context {K S R : Type} (so : scalar_ops S R) (idx : K -> N).

  Definition a_clear (a : avec S) : avec S :=
    mk_avec (a_fixed a) (if a_fixed a then a_dim a else 0) (fun _ => s_zero so).
  (** change the coefficient at [i] if it is inside the dimension *)
  Definition a_update (a : avec S) (i : N) (f : S -> S) : avec S :=
    mk_avec (a_fixed a) (a_dim a)
      (fun j => if (j =? i) && (i <? a_dim a) then f (a_fun a i) else a_fun a j).
  Definition a_map (a : avec S) (f : S -> S) : avec S :=
    mk_avec (a_fixed a) (a_dim a) (fun j => if j <? a_dim a then f (a_fun a j) else a_fun a j).
  Definition a_combine (op : S -> S -> S) (a b : avec S) : avec S :=
    mk_avec (a_fixed a && (a_dim b <=? a_dim a)) (N.max (a_dim a) (a_dim b))
      (fun j => if j <? a_dim b then op (a_fun a j) (a_fun b j) else a_fun a j).
  Definition a_resize (a : avec S) (n : N) : avec S :=
    mk_avec false n (fun j => if j <? n then a_fun a j else s_zero so).

  Definition a_call (a : avec S) (o : vop K S R) : avec S :=
    match o with
    | OClear => a_clear a
    | OErase k => a_update a (idx k) (fun _ => s_zero so)
    | OSet k s => a_update a (idx k) (fun _ => s)
    | OInsertSingle k s => a
    | OUminus => a_map a (s_uminus so)
    | OAdd y => a_combine (s_add so) a (avec_of so y)
    | OSub y => a_combine (s_sub so) a (avec_of so y)
    | OLmul s | ORmul s => a_map a (fun x => s_mul so x s)
    | ORdiv r | OLdiv r => a_map a (fun x => s_div so x r)
    | OAddRmul y s | OAddLmul y s => a_combine (fun u v => s_add so u (s_mul so v s)) a (avec_of so y)
    | OSubRmul y s | OSubLmul y s => a_combine (fun u v => s_sub so u (s_mul so v s)) a (avec_of so y)
    | OAddRdiv y r | OAddLdiv y r => a_combine (fun u v => s_add so u (s_div so v r)) a (avec_of so y)
    | OSubRdiv y r | OSubLdiv y r => a_combine (fun u v => s_sub so u (s_div so v r)) a (avec_of so y)
    | OResize n => a_resize a n
    | OSwap w => avec_of so w
    | OKeyAddMul k s => a_update a (idx k) (fun x => s_add so x s)
    | OKeySubMul k s => a_update a (idx k) (fun x => s_sub so x s)
    | OKeyAddDiv k r => a_update a (idx k) (fun x => s_add so x (s_div so (s_one so) r))
    | OKeySubDiv k r => a_update a (idx k) (fun x => s_sub so x (s_div so (s_mone so) r))
    end.

  (** ** The same on bare coefficient functions, for the operations whose effect does not depend on what
      is stored.  [None]: not such an operation. *)
  Definition f_call (c : N -> S) (o : vop K S R) : option (N -> S) :=
    match o with
    | OClear => Some (fun _ => s_zero so)
    | OErase k => Some (fun j => if j =? idx k then s_zero so else c j)
    | OUminus => Some (fun j => s_uminus so (c j))
    | OAdd y => Some (fun j => s_add so (c j) (coef so y j))
    | OSub y => Some (fun j => s_sub so (c j) (coef so y j))
    | OLmul s | ORmul s => Some (fun j => s_mul so (c j) s)
    | ORdiv r | OLdiv r => Some (fun j => s_div so (c j) r)
    | OAddRmul y s | OAddLmul y s => Some (fun j => s_add so (c j) (s_mul so (coef so y j) s))
    | OSubRmul y s | OSubLmul y s => Some (fun j => s_sub so (c j) (s_mul so (coef so y j) s))
    | OAddRdiv y r | OAddLdiv y r => Some (fun j => s_add so (c j) (s_div so (coef so y j) r))
    | OSubRdiv y r | OSubLdiv y r => Some (fun j => s_sub so (c j) (s_div so (coef so y j) r))
    | OSwap w => Some (coef so w)
    | _ => None
    end.
  Fixpoint f_calls (c : N -> S) (os : list (vop K S R)) : option (N -> S) :=
    match os with
    | [] => Some c
    | o :: os' => match f_call c o with Some c' => f_calls c' os' | None => None end
    end.
End AbstractMachine.
