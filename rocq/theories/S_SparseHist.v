(** Specification of histories of calls on a sparse vector: a machine whose state is a partial function from keys to
    stored scalars.  No law of the scalars is used. *)
From stdpp Require Import gmap.
From Verif Require Import Machine M_Scalar M_Vector M_Sparse.

(** A call of a method of Vector or VectorKeyExt that can change the vector, with vectors of type [V] as operands.
    [HSet k s] is `if let Some(r) = x.get_mut(k) { *r = s }`, [HSwap w] is `x.swap(&mut w)` seen from x. *)
Inductive hop (V K S R : Type) : Type :=
| HClear
| HErase (k : K)
| HSet (k : K) (s : S)
| HInsertSingle (k : K) (s : S)
| HInsert (l : list (K * S))
| HSwap (w : V)
| HUminus
| HAdd (y : V)
| HSub (y : V)
| HLmul (s : S)
| HRmul (s : S)
| HRdiv (r : R)
| HLdiv (r : R)
| HAddRmul (y : V) (s : S)
| HAddLmul (y : V) (s : S)
| HSubRmul (y : V) (s : S)
| HSubLmul (y : V) (s : S)
| HAddRdiv (y : V) (r : R)
| HAddLdiv (y : V) (r : R)
| HSubRdiv (y : V) (r : R)
| HSubLdiv (y : V) (r : R)
| HKeyAddMul (k : K) (s : S)
| HKeySubMul (k : K) (s : S)
| HKeyAddDiv (k : K) (r : R)
| HKeySubDiv (k : K) (r : R).
Arguments HClear {V K S R}. Arguments HErase {V K S R}. Arguments HSet {V K S R}. Arguments HInsertSingle {V K S R}.
Arguments HInsert {V K S R}. Arguments HSwap {V K S R}. Arguments HUminus {V K S R}. Arguments HAdd {V K S R}.
Arguments HSub {V K S R}. Arguments HLmul {V K S R}. Arguments HRmul {V K S R}. Arguments HRdiv {V K S R}.
Arguments HLdiv {V K S R}. Arguments HAddRmul {V K S R}. Arguments HAddLmul {V K S R}. Arguments HSubRmul {V K S R}.
Arguments HSubLmul {V K S R}. Arguments HAddRdiv {V K S R}. Arguments HAddLdiv {V K S R}. Arguments HSubRdiv {V K S R}.
Arguments HSubLdiv {V K S R}. Arguments HKeyAddMul {V K S R}. Arguments HKeySubMul {V K S R}.
Arguments HKeyAddDiv {V K S R}. Arguments HKeySubDiv {V K S R}.

(** the call itself, for any implementation of Vector *)
Definition hcall {V K S R} (so : scalar_ops S R) (vo : vec_ops V K S R) (x : V) (o : hop V K S R) : outcome V :=
  match o with
  | HClear => vr_clear vo x
  | HErase k => vr_erase vo x k
  | HSet k s => '(x1, ref) <- vr_get_mut vo x k ;;
                Ret (match ref with Some (_, write) => write s | None => x1 end)
  | HInsertSingle k s => vr_insert_single vo x k s
  | HInsert l => vr_insert vo x l
  | HSwap w => '(a, b) <- vr_swap vo x w ;; Ret a
  | HUminus => vr_uminus_inplace vo x
  | HAdd y => vr_add_inplace vo x y
  | HSub y => vr_sub_inplace vo x y
  | HLmul s => vr_scalar_lmultiply_inplace vo x s
  | HRmul s => vd_scalar_rmultiply_inplace vo x s
  | HRdiv r => vr_scalar_rdivide_inplace vo x r
  | HLdiv r => vd_scalar_ldivide_inplace vo x r
  | HAddRmul y s => vd_add_scalar_rmultiply vo x y s
  | HAddLmul y s => vd_add_scalar_lmultiply vo x y s
  | HSubRmul y s => vd_sub_scalar_rmultiply vo x y s
  | HSubLmul y s => vd_sub_scalar_lmultiply vo x y s
  | HAddRdiv y r => vd_add_scalar_rdivide vo x y r
  | HAddLdiv y r => vd_add_scalar_ldivide vo x y r
  | HSubRdiv y r => vd_sub_scalar_rdivide vo x y r
  | HSubLdiv y r => vd_sub_scalar_ldivide vo x y r
  | HKeyAddMul k s => ke_add_scalar_multiply so vo x k s
  | HKeySubMul k s => ke_sub_scalar_multiply so vo x k s
  | HKeyAddDiv k r => ke_add_scalar_divide so vo x k r
  | HKeySubDiv k r => ke_sub_scalar_divide so vo x k r
  end.

Section Machine.
  Context {K : Type} `{Countable K} {S R : Type} (so : scalar_ops S R).

  (** what is stored at each key *)
  Definition pfun : Type := K -> option S.
  Definition upd (f : pfun) (k : K) (v : option S) : pfun := fun j => if decide (j = k) then v else f j.
  (** a value that is kept unless it compares equal to ZERO *)
  Definition keep (v : S) : option S := if s_eqb so v (s_zero so) then None else Some v.
  (** the value at [k] becomes [stored] of it, or [absent] if there is none *)
  Definition alter_or (f : pfun) (k : K) (stored : S -> S) (absent : S) : pfun :=
    upd f k (Some (match f k with Some c => stored c | None => absent end)).
  Definition pmap (g : S -> S) (f : pfun) : pfun := fun k => match f k with Some c => Some (g c) | None => None end.

  (** one call; [None] is a panic *)
  Definition step (f : pfun) (o : hop (gmap K S) K S R) : option pfun :=
    match o with
    | HClear => Some (fun _ => None)
    | HSet k s => Some (match f k with Some _ => upd f k (Some s) | None => f end)
    | HInsertSingle k s => Some (upd f k (Some s))
    | HUminus => Some (pmap (s_uminus so) f)
    | HAdd y => Some (fun k => match f k, y !! k with
                               | Some a, Some b => keep (s_add so a b)
                               | Some a, None => Some a
                               | None, b => b
                               end)
    | HSub y => Some (fun k => match f k, y !! k with
                               | Some a, Some b => keep (s_sub so a b)
                               | Some a, None => Some a
                               | None, Some b => Some (s_uminus so b)
                               | None, None => None
                               end)
    | HLmul s | HRmul s => Some (if s_eqb so s (s_zero so) then fun _ => None else pmap (fun c => s_mul so c s) f)
    | HRdiv r | HLdiv r => Some (pmap (fun c => s_div so c r) f)
    | HKeyAddMul k s => Some (alter_or f k (fun c => s_add so c s) s)
    | HKeySubMul k s => Some (alter_or f k (fun c => s_sub so c s) (s_uminus so s))
    | HKeyAddDiv k r => let v := s_div so (s_one so) r in Some (alter_or f k (fun c => s_add so c v) v)
    | HKeySubDiv k r => let v := s_div so (s_mone so) r in Some (alter_or f k (fun c => s_sub so c v) v)
    | HErase _ | HInsert _ | HSwap _
    | HAddRmul _ _ | HAddLmul _ _ | HSubRmul _ _ | HSubLmul _ _
    | HAddRdiv _ _ | HAddLdiv _ _ | HSubRdiv _ _ | HSubLdiv _ _ => None
    end.
  Fixpoint steps (f : pfun) (os : list (hop (gmap K S) K S R)) : option pfun :=
    match os with
    | [] => Some f
    | o :: os' => match step f o with Some f' => steps f' os' | None => None end
    end.
  (** a history: each call with the order in which it happens to see the entries of the hash maps *)
  Definition hcalls (x : gmap K S) (os : list ((gmap K S -> list (K * S)) * hop (gmap K S) K S R)) : outcome (gmap K S) :=
    for_each os (fun x e => hcall so (sparse_ops so (fst e)) x (snd e)) x.
End Machine.
