(** Property theorems (generated by tools/gen_props.py from L_PropParamSparse.v, where the proofs are). *)
From Coq Require Import QArith Qcanon Permutation.
From stdpp Require Import gmap.
From Verif Require Import Machine MachineLemmas M_Scalar M_Vector M_Dense M_Sparse S_Vector I_Scalars S_Sparse L_Sparse S_SparseHist L_PropSparse
  L_PropSparseHist S_Borrow S_Param I_Dual S_ParamSparse.
From Verif Require Import L_PropParamSparse.
Local Open Scope N_scope.

(** * C123: Sparse vectors are generic in their keys and scalars *)
Theorem C123_histories : forall (K : Type) (E : EqDecision K) (C : Countable K) (K' : Type) (E' : EqDecision K') (C' : Countable K') (S R S' R' : Type)
    (P : S -> S' -> Prop) (Q : R -> R' -> Prop) (g : K -> K') (so : scalar_ops S R) (so' : scalar_ops S' R')
    (os : list ((gmap K S -> list (K * S)) * hop (gmap K S) K S R)) (os' : list ((gmap K' S' -> list (K' * S')) * hop (gmap K' S') K' S' R'))
    (x : gmap K S) (x' : gmap K' S'),
  related P Q so so' -> related_eq P so so' -> (forall a b, g a = g b -> a = b) ->
  Forall (fun e => any_order (fst e)) os -> Forall (fun e => any_order (fst e)) os' ->
  Forall2 (hop_rel P Q g) (map snd os) (map snd os') -> map_rel P g x x' ->
  same_outcome (map_rel P g) (hcalls so x os) (hcalls so' x' os').
Proof. exact c123_histories. Qed.
Print Assumptions C123_histories.
Theorem C123_new_and_reads : forall (K : Type) (E : EqDecision K) (C : Countable K) (K' : Type) (E' : EqDecision K') (C' : Countable K') (S R S' R' : Type)
    (P : S -> S' -> Prop) (Q : R -> R' -> Prop) (g : K -> K') (so : scalar_ops S R) (so' : scalar_ops S' R')
    (iter : gmap K S -> list (K * S)) (iter' : gmap K' S' -> list (K' * S')) (x y : gmap K S) (x' y' : gmap K' S')
    (k : K) (s : S) (s' : S') (l : list (K * S)) (l' : list (K' * S')),
  related P Q so so' -> (forall a b, g a = g b -> a = b) -> any_order iter -> any_order iter' -> P s s' -> map_rel P g x x' -> map_rel P g y y' ->
  Forall2 (fun e e' => fst e' = g (fst e) /\ P (snd e) (snd e')) l l' ->
  let v := sparse_ops so iter in let v' := sparse_ops so' iter' in
  map_rel P g (vr_new v) (vr_new v')
  /\ same_outcome (map_rel P g) (vr_from_key v k) (vr_from_key v' (g k))
  /\ same_outcome (map_rel P g) (vr_from_key_scalar v k s) (vr_from_key_scalar v' (g k) s')
  /\ same_outcome (map_rel P g) (vr_from_iterator v l) (vr_from_iterator v' l')
  /\ same_outcome (opt_rel P) (vr_get v x k) (vr_get v' x' (g k))
  /\ (related_eq P so so' -> only_keys g x' -> only_keys g y' -> sv_eq so iter x y = sv_eq so' iter' x' y').
Proof. exact c123_new_and_reads. Qed.
Print Assumptions C123_new_and_reads.
Example C123_example :
  let g := (fun k : N => [k; k]) in
  let up := (fun m : gmap N Qc => map_to_list m) in let down := (fun m : gmap (list N) dual => rev (map_to_list m)) in
  let y : gmap N Qc := {[ 1 := q 2; 2 := q 5 ]} in
  let y' : gmap (list N) dual := {[ [1; 1] := du 2 0; [2; 2] := du 5 0 ]} in
  (z <- hcalls qc_ops ∅ [(up, HKeyAddMul 1 (q (-2))); (up, HAdd y); (up, HLmul (q 3)); (up, HInsertSingle 7 (q 4)); (up, HSub y); (up, HKeyAddDiv 7 (q 2))] ;;
   Ret (map (fun k => option_map this (z !! k)) [1; 2; 7; 8])) = Ret [Some (- 2 # 1); Some 10; Some (9 # 2); None]%Q
  /\ (z <- hcalls dual_ops ∅ [(down, HKeyAddMul (g 1) (du (-2) 0)); (down, HAdd y'); (down, HLmul (du 3 0)); (down, HInsertSingle (g 7) (du 4 0));
                              (down, HSub y'); (down, HKeyAddDiv (g 7) (q 2))] ;;
      Ret (map (fun k => option_map (fun c : dual => this (fst c)) (z !! g k)) [1; 2; 7; 8])) = Ret [Some (- 2 # 1); Some 10; Some (9 # 2); None]%Q
  (** with a derivative that is not 0, the entry at 1 is kept *)
  /\ (z <- hcalls dual_ops ∅ [(down, HKeyAddMul (g 1) (du (-2) 1)); (down, HAdd y')] ;;
      Ret (map (fun k => option_map (fun c : dual => (this (fst c), this (snd c))) (z !! g k)) [1; 2])) = Ret [Some (0, 1); Some (5, 0)]%Q.
Proof. exact c123_example. Qed.
