(** Property theorems (generated by tools/gen_props.py from L_PropSparseHist.v, where the proofs are). *)
From Coq Require Import QArith Qcanon Permutation.
From stdpp Require Import gmap.
From Verif Require Import Machine MachineLemmas M_Scalar M_Vector M_Dense S_Vector I_Scalars L_Dense M_Sparse S_Sparse L_Sparse L_PropSparse
  S_SparseHist.
From Verif Require Import L_PropSparseHist.
Local Open Scope N_scope.

(** * C95: Every history of calls on a sparse vector *)
Theorem C95_refinement : forall (K : Type) (E : EqDecision K) (C : Countable K) (S R : Type) (so : scalar_ops S R)
    (os : list ((gmap K S -> list (K * S)) * hop (gmap K S) K S R)) (x : gmap K S),
  Forall (fun e => any_order (fst e)) os ->
  match steps so (fun k => x !! k) (map snd os) with
  | Some f => exists z, hcalls so x os = Ret z
      /\ forall k iter, any_order iter -> vr_get (sparse_ops so iter) z k = Ret (f k)
           /\ forall v, In (k, v) (sv_into_iter iter z) <-> f k = Some v
  | None => hcalls so x os = Panic
  end.
Proof. exact c95_refinement. Qed.
Print Assumptions C95_refinement.
Theorem C95_order_independent : forall (K : Type) (E : EqDecision K) (C : Countable K) (S R : Type) (so : scalar_ops S R)
    (os os' : list ((gmap K S -> list (K * S)) * hop (gmap K S) K S R)) (x : gmap K S),
  Forall (fun e => any_order (fst e)) os -> Forall (fun e => any_order (fst e)) os' -> map snd os = map snd os' ->
  hcalls so x os = hcalls so x os'.
Proof. exact c95_order_independent. Qed.
Print Assumptions C95_order_independent.
Theorem C95_panics : forall (K : Type) (E : EqDecision K) (C : Countable K) (S R : Type) (so : scalar_ops S R)
    (os : list ((gmap K S -> list (K * S)) * hop (gmap K S) K S R)) (x : gmap K S),
  Forall (fun e => any_order (fst e)) os ->
  let unimplemented (o : hop (gmap K S) K S R) := match o with
    | HErase _ | HInsert _ | HSwap _ | HAddRmul _ _ | HAddLmul _ _ | HSubRmul _ _ | HSubLmul _ _
    | HAddRdiv _ _ | HAddLdiv _ _ | HSubRdiv _ _ | HSubLdiv _ _ => True
    | _ => False
    end in
  (hcalls so x os = Panic <-> exists e, In e os /\ unimplemented (snd e))
  /\ (hcalls so x os <> Panic -> returns (hcalls so x os)).
Proof. exact c95_panics. Qed.
Print Assumptions C95_panics.
Example C95_example : let up := (fun m : gmap N Qc => map_to_list m) in let down := (fun m : gmap N Qc => rev (map_to_list m)) in
  let y : gmap N Qc := {[ 1 := q 2; 2 := q 5 ]} in
  let os := [(up, HKeyAddMul 1 (q (-2))); (down, HAdd y); (down, HInsertSingle 7 (q 0)); (up, HLmul (q 3)); (up, HSet 7 (q 4));
             (up, HSet 8 (q 4)); (down, HSub y); (up, HKeySubDiv 7 (q 1)); (up, HUminus)] in
  Forall (fun e => any_order (fst e)) os
  /\ (z <- hcalls qc_ops ∅ os ;; Ret (map (fun k => option_map this (z !! k)) [1; 2; 7; 8]))
     = Ret [Some 2%Q; Some (-10 # 1)%Q; Some (-5 # 1)%Q; None]
  /\ hcalls qc_ops ∅ (os ++ [(up, HErase 1)]) = Panic.
Proof. exact c95_example. Qed.
