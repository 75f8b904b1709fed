(** Straight-line programs on dense tensors: what a caller can write with the Vector and Algebra methods,
    and what such a program means in the truncated tensor algebra. *)
From Verif Require Import Machine S_Words M_TensorKey M_TensorBasis M_Scalar M_Vector M_Dense M_Algebra
  S_Vector S_Tensor.

(** A command on numbered variables; the first number is the variable that changes.  Where a variable is
    both changed and read, the caller passes a clone. *)
Inductive tcmd (S R : Type) : Type :=
| CNew (d : nat)                        (* d = new() *)
| CKey (d : nat) (w : word) (c : S)     (* d = from_key_scalar(the key of w, c) *)
| CCopy (d a : nat)                     (* d = a.to_owned() *)
| CClear (d : nat)                      (* d.clear() *)
| CErase (d : nat) (w : word)           (* d.erase(the key of w) *)
| CNeg (d : nat)                        (* d.uminus_inplace() *)
| CScale (d : nat) (c : S)              (* d.scalar_lmultiply_inplace(c) *)
| CDivide (d : nat) (r : R)             (* d.scalar_rdivide_inplace(r) *)
| CAdd (d a : nat)                      (* d.add_inplace(a) *)
| CSub (d a : nat)                      (* d.sub_inplace(a) *)
| CAddScaled (d a : nat) (c : S)        (* d.add_scalar_lmultiply(a, c) *)
| CSubDivided (d a : nat) (r : R)       (* d.sub_scalar_rdivide(a, r) *)
| CMul (d a b : nat) (t : option N)     (* d = a.multiply(b, t) *)
| CComm (d a b : nat) (t : option N)    (* d = a.commutator(b, t) *)
| CAddMul (d a b : nat) (t : option N)  (* d.add_mul(a, b, t) *)
| CSubMul (d a b : nat) (t : option N)  (* d.sub_mul(a, b, t) *)
| CSubScaled (d a : nat) (c : S)        (* d.sub_scalar_lmultiply(a, c) *)
| CAddDivided (d a : nat) (r : R)       (* d.add_scalar_rdivide(a, r) *)
| CDegree (d : nat) (e : N)             (* d = from_degree(e) *)
| CPairs (d : nat) (l : list (word * S)) (* d = from_iterator(l), with the keys of the words *)
| CSet (d : nat) (w : word) (c : S)     (* if let Some(x) = d.get_mut(the key of w) { *x = c } *)
| CKeyAdd (d : nat) (w : word) (c : S)  (* d.add_scalar_multiply(the key of w, c) *)
| CKeySub (d : nat) (w : word) (c : S). (* d.sub_scalar_multiply(the key of w, c) *)
Arguments CNew {S R}. Arguments CKey {S R}. Arguments CCopy {S R}. Arguments CClear {S R}.
Arguments CErase {S R}. Arguments CNeg {S R}. Arguments CScale {S R}. Arguments CDivide {S R}.
Arguments CAdd {S R}. Arguments CSub {S R}. Arguments CAddScaled {S R}. Arguments CSubDivided {S R}.
Arguments CMul {S R}. Arguments CComm {S R}. Arguments CAddMul {S R}. Arguments CSubMul {S R}.
Arguments CSubScaled {S R}. Arguments CAddDivided {S R}. Arguments CDegree {S R}. Arguments CPairs {S R}.
Arguments CSet {S R}. Arguments CKeyAdd {S R}. Arguments CKeySub {S R}.

(** the variables after giving variable [d] the value [v] *)
Definition set_var {A} (st : nat -> A) (d : nat) (v : A) : nat -> A :=
  fun i => if Nat.eqb i d then v else st i.

(** ** Running a program with the methods of the crate *)
Section Run.
  Context {S R : Type} (so : scalar_ops S R) (p : profile) (n : N).
  Notation vo := (dense_ops so (tensor_basis p n)).

  Definition run_cmd (st : nat -> dvec S) (c : tcmd S R) : outcome (nat -> dvec S) :=
    match c with
    | CNew d => Ret (set_var st d (vr_new vo))
    | CKey d w c => k <- tk_from_letters p n w ;; v <- vr_from_key_scalar vo k c ;; Ret (set_var st d v)
    | CCopy d a => v <- vr_to_owned vo (st a) ;; Ret (set_var st d v)
    | CClear d => v <- vr_clear vo (st d) ;; Ret (set_var st d v)
    | CErase d w => k <- tk_from_letters p n w ;; v <- vr_erase vo (st d) k ;; Ret (set_var st d v)
    | CNeg d => v <- vr_uminus_inplace vo (st d) ;; Ret (set_var st d v)
    | CScale d c => v <- vr_scalar_lmultiply_inplace vo (st d) c ;; Ret (set_var st d v)
    | CDivide d r => v <- vr_scalar_rdivide_inplace vo (st d) r ;; Ret (set_var st d v)
    | CAdd d a => v <- vr_add_inplace vo (st d) (st a) ;; Ret (set_var st d v)
    | CSub d a => v <- vr_sub_inplace vo (st d) (st a) ;; Ret (set_var st d v)
    | CAddScaled d a c => v <- vd_add_scalar_lmultiply vo (st d) (st a) c ;; Ret (set_var st d v)
    | CSubDivided d a r => v <- vd_sub_scalar_rdivide vo (st d) (st a) r ;; Ret (set_var st d v)
    | CMul d a b t => v <- alg_multiply so p n (st a) (st b) t ;; Ret (set_var st d v)
    | CComm d a b t => v <- alg_commutator so p n (st a) (st b) t ;; Ret (set_var st d v)
    | CAddMul d a b t => v <- alg_add_mul so p n (st d) (st a) (st b) t ;; Ret (set_var st d v)
    | CSubMul d a b t => v <- alg_sub_mul so p n (st d) (st a) (st b) t ;; Ret (set_var st d v)
    | CSubScaled d a c => v <- vd_sub_scalar_lmultiply vo (st d) (st a) c ;; Ret (set_var st d v)
    | CAddDivided d a r => v <- vd_add_scalar_rdivide vo (st d) (st a) r ;; Ret (set_var st d v)
    | CDegree d e => v <- dv_from_degree so (tensor_basis p n) e ;; Ret (set_var st d v)
    | CPairs d l => ks <- mapM (fun e => k <- tk_from_letters p n (fst e) ;; Ret (k, snd e)) l ;;
                    v <- vr_from_iterator vo ks ;; Ret (set_var st d v)
    | CSet d w c => k <- tk_from_letters p n w ;; '(v, ref) <- vr_get_mut vo (st d) k ;;
                    Ret (set_var st d (match ref with Some (_, write) => write c | None => v end))
    | CKeyAdd d w c => k <- tk_from_letters p n w ;; v <- ke_add_scalar_multiply so vo (st d) k c ;; Ret (set_var st d v)
    | CKeySub d w c => k <- tk_from_letters p n w ;; v <- ke_sub_scalar_multiply so vo (st d) k c ;; Ret (set_var st d v)
    end.
  Fixpoint run_prog (st : nat -> dvec S) (cs : list (tcmd S R)) : outcome (nat -> dvec S) :=
    match cs with [] => Ret st | c :: cs => st' <- run_cmd st c ;; run_prog st' cs end.
End Run.

(** ** The meaning of a program
    A variable is a tensor - a coefficient for every word - and the degree up to which it has storage;
    [None]: it has none at all.  Only the safety of products depends on the second part. *)
Record atensor (S : Type) := mk_atensor { t_deg : option N; t_fun : word -> S }.
Arguments mk_atensor {S}. Arguments t_deg {S}. Arguments t_fun {S}.

Definition stores {S} (a : atensor S) (w : word) : bool :=
  match t_deg a with Some d => len w <=? d | None => false end.
Definition join (a b : option N) : option N :=
  match a, b with Some x, Some y => Some (N.max x y) | None, _ => b | _, None => a end.
(** from_degree(e) has storage for the words shorter than [e], from_iterator up to the longest word *)
Definition deg_below (e : N) : option N := if e =? 0 then None else Some (e - 1).
Definition deg_pairs {A} (l : list (word * A)) : option N := fold_right (fun e d => join (Some (len (fst e))) d) None l.

Section Meaning.
  Context {S R : Type} (so : scalar_ops S R).
  Notation zero := (s_zero so).

  Definition t_zero : atensor S := mk_atensor None (fun _ => zero).
  Definition t_map (a : atensor S) (h : S -> S) : atensor S := mk_atensor (t_deg a) (fun w => h (t_fun a w)).
  Definition t_zip (a b : atensor S) (h : S -> S -> S) : atensor S :=
    mk_atensor (join (t_deg a) (t_deg b)) (fun w => h (t_fun a w) (t_fun b w)).

  (** one coefficient changed, if it is stored *)
  Definition t_at (a : atensor S) (w : word) (h : S -> S) : atensor S :=
    mk_atensor (t_deg a) (fun u => if word_eqb u w && stores a w then h (t_fun a w) else t_fun a u).

  (** x + h(a b), products truncated at [t].  Without a degree the crate panics.  With one, both factors
      have to have storage, and a result without storage only gets some if the product has a degree
      above 0; otherwise memory outside of the buffers is accessed. *)
  Definition t_product (x a b : atensor S) (h : S -> S -> S) (t : option N) : outcome (atensor S) :=
    match t with
    | None => Panic
    | Some t =>
        match t_deg a, t_deg b with
        | Some l, Some r =>
            let m := N.min t (l + r) in
            match t_deg x with
            | None => if m =? 0 then UB
                      else Ret (mk_atensor (Some m) (fun w => h (t_fun x w) (tconv so t (t_fun a) (t_fun b) w)))
            | Some s => Ret (mk_atensor (Some (N.max s m)) (fun w => h (t_fun x w) (tconv so t (t_fun a) (t_fun b) w)))
            end
        | _, _ => UB
        end
    end.

  Definition mean_cmd (st : nat -> atensor S) (c : tcmd S R) : outcome (nat -> atensor S) :=
    match c with
    | CNew d | CClear d => Ret (set_var st d t_zero)
    | CKey d w c => Ret (set_var st d (mk_atensor (Some (len w)) (fun u => if word_eqb u w then c else zero)))
    | CCopy d a => Ret (set_var st d (st a))
    | CErase d w => Ret (set_var st d (mk_atensor (t_deg (st d))
                           (fun u => if word_eqb u w then zero else t_fun (st d) u)))
    | CNeg d => Ret (set_var st d (t_map (st d) (s_uminus so)))
    | CScale d c => Ret (set_var st d (t_map (st d) (fun x => s_mul so x c)))
    | CDivide d r => Ret (set_var st d (t_map (st d) (fun x => s_div so x r)))
    | CAdd d a => Ret (set_var st d (t_zip (st d) (st a) (s_add so)))
    | CSub d a => Ret (set_var st d (t_zip (st d) (st a) (s_sub so)))
    | CAddScaled d a c => Ret (set_var st d (t_zip (st d) (st a) (fun x y => s_add so x (s_mul so y c))))
    | CSubDivided d a r => Ret (set_var st d (t_zip (st d) (st a) (fun x y => s_sub so x (s_div so y r))))
    | CMul d a b t => v <- t_product t_zero (st a) (st b) (s_add so) t ;; Ret (set_var st d v)
    | CComm d a b t => u <- t_product t_zero (st a) (st b) (s_add so) t ;;
                       v <- t_product u (st b) (st a) (s_sub so) t ;; Ret (set_var st d v)
    | CAddMul d a b t => v <- t_product (st d) (st a) (st b) (s_add so) t ;; Ret (set_var st d v)
    | CSubMul d a b t => v <- t_product (st d) (st a) (st b) (s_sub so) t ;; Ret (set_var st d v)
    | CSubScaled d a c => Ret (set_var st d (t_zip (st d) (st a) (fun x y => s_sub so x (s_mul so y c))))
    | CAddDivided d a r => Ret (set_var st d (t_zip (st d) (st a) (fun x y => s_add so x (s_div so y r))))
    | CDegree d e => Ret (set_var st d (mk_atensor (deg_below e) (fun _ => zero)))
    | CPairs d l => Ret (set_var st d (mk_atensor (deg_pairs l) (fun u => sum_from_zero so (given (word_eqb u) l))))
    | CSet d w c => Ret (set_var st d (t_at (st d) w (fun _ => c)))
    | CKeyAdd d w c => Ret (set_var st d (t_at (st d) w (fun x => s_add so x c)))
    | CKeySub d w c => Ret (set_var st d (t_at (st d) w (fun x => s_sub so x c)))
    end.
  Fixpoint mean_prog (st : nat -> atensor S) (cs : list (tcmd S R)) : outcome (nat -> atensor S) :=
    match cs with [] => Ret st | c :: cs => st' <- mean_cmd st c ;; mean_prog st' cs end.
End Meaning.

(** ** What a program does to the storage alone, for scalars without any laws *)
Definition d_product (x a b t : option N) : outcome (option N) :=
  match t, a, b, x with
  | None, _, _, _ => Panic
  | Some t, Some l, Some r, Some s => Ret (Some (N.max s (N.min t (l + r))))
  | Some t, Some l, Some r, None => if N.min t (l + r) =? 0 then UB else Ret (Some (N.min t (l + r)))
  | Some _, _, _, _ => UB
  end.
Definition deg_cmd {S R} (st : nat -> option N) (c : tcmd S R) : outcome (nat -> option N) :=
  match c with
  | CNew d | CClear d => Ret (set_var st d None)
  | CKey d w _ => Ret (set_var st d (Some (len w)))
  | CCopy d a => Ret (set_var st d (st a))
  | CErase d _ | CNeg d | CScale d _ | CDivide d _ | CSet d _ _ | CKeyAdd d _ _ | CKeySub d _ _ => Ret st
  | CAdd d a | CSub d a | CAddScaled d a _ | CSubDivided d a _ | CSubScaled d a _ | CAddDivided d a _ => Ret (set_var st d (join (st d) (st a)))
  | CMul d a b t => v <- d_product None (st a) (st b) t ;; Ret (set_var st d v)
  | CComm d a b t => u <- d_product None (st a) (st b) t ;; v <- d_product u (st b) (st a) t ;; Ret (set_var st d v)
  | CAddMul d a b t | CSubMul d a b t => v <- d_product (st d) (st a) (st b) t ;; Ret (set_var st d v)
  | CDegree d e => Ret (set_var st d (deg_below e))
  | CPairs d l => Ret (set_var st d (deg_pairs l))
  end.
Fixpoint deg_prog {S R} (st : nat -> option N) (cs : list (tcmd S R)) : outcome (nat -> option N) :=
  match cs with [] => Ret st | c :: cs => st' <- deg_cmd st c ;; deg_prog st' cs end.
(** the owned tensor [v] has storage up to degree [d] *)
Definition shaped {S} (n D : N) (v : dvec S) (d : option N) : Prop :=
  dv_kind v = Owned /\ match d with None => dv_size v = 0 | Some d => d <= D /\ filled n v d end.

(** The words and degrees written in a program are within bounds: words over 1..n that have a key, and no
    degree above [D]. *)
Definition cmd_within {S R} (n D : N) (c : tcmd S R) : Prop :=
  match c with
  | CKey _ w _ => word_ok n w /\ len w <= max_depth n /\ len w <= D
  | CErase _ w | CSet _ w _ | CKeyAdd _ w _ | CKeySub _ w _ => word_ok n w /\ len w <= max_depth n
  | CDegree _ e => e <= D + 1
  | CPairs _ l => Forall (fun e => word_ok n (fst e) /\ len (fst e) <= max_depth n /\ len (fst e) <= D) l
  | CMul _ _ _ (Some t) | CComm _ _ _ (Some t) | CAddMul _ _ _ (Some t) | CSubMul _ _ _ (Some t) => t <= D
  | _ => True
  end.

(** the owned tensor [v] is the tensor [a] *)
Definition stands_for {S R} (so : scalar_ops S R) (n D : N) (v : dvec S) (a : atensor S) : Prop :=
  dv_kind v = Owned
  /\ match t_deg a with None => dv_size v = 0 | Some d => d <= D /\ filled n v d end
  /\ forall w, word_ok n w -> wcoef so n v w = t_fun a w.

(** Programs that keep storage: no new() and no clear(), keys of non-empty words, products with a degree of at
    least 1, from_degree(e) with e of at least 2 and from_iterator with at least one non-empty word. *)
Definition cmd_careful {S R} (c : tcmd S R) : Prop :=
  match c with
  | CNew _ | CClear _ => False
  | CKey _ w _ => w <> []
  | CMul _ _ _ t | CComm _ _ _ t | CAddMul _ _ _ t | CSubMul _ _ _ t => exists d, t = Some d /\ 1 <= d
  | CDegree _ e => 2 <= e
  | CPairs _ l => exists e, List.In e l /\ fst e <> []
  | _ => True
  end.
