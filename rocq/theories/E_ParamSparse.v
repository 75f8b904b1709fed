(** Cases that meet the hypotheses of the theorems of P_ParamSparse.v. *)
From Coq Require Import QArith Qcanon.
From stdpp Require Import gmap.
From Verif Require Import Machine M_Scalar M_Vector M_Dense M_Sparse S_Vector S_Sparse S_SparseHist S_Param I_Scalars I_Dual S_ParamSparse L_PropSparse
  P_ParamSparse E_Tac.
Local Open Scope N_scope.
Local Notation g := (fun k : N => [k; k]).
Local Notation rel := (fun (x : Qc) (x' : dual) => constant x = x').
Local Notation same := (fun r r' : Qc => r = r').
Lemma g_injective (a b : N) : g a = g b -> a = b.
Proof. intros [=]; assumption. Qed.
Ltac entry :=
  let k := fresh "k" in intros k; cbv beta;
  repeat lazymatch goal with
  | |- opt_rel _ (<[?a := _]> _ !! ?j) (<[?b := _]> _ !! ?i) =>
      destruct (decide (a = j)) as [<-|];
      [rewrite !lookup_insert; reflexivity
      |let Ne := fresh in assert (Ne : b <> i) by (let Q := fresh in intros Q; inversion Q; congruence);
       rewrite (lookup_insert_ne _ b i) by exact Ne; rewrite (lookup_insert_ne _ a j) by assumption]
  end; rewrite !lookup_empty; exact I.
Ltac only_entries :=
  let k := fresh "k" in let v := fresh "v" in let H := fresh "H" in intros k v H;
  repeat lazymatch type of H with
  | <[?a := _]> _ !! _ = Some _ =>
      destruct (decide (a = k)) as [<-|]; [eexists; reflexivity|rewrite lookup_insert_ne in H by assumption]
  | ∅ !! _ = Some _ => rewrite lookup_empty in H; discriminate
  end.
Ltac hyp_more ::=
  lazymatch goal with
  | |- any_order _ => intros ?; first [reflexivity | symmetry; apply Permutation_rev]
  | |- related _ _ _ _ => exact dual_constant
  | |- related_eq _ _ _ => exact dual_constant_eq
  | |- map_rel _ _ _ _ => entry
  | |- only_keys _ _ => only_entries
  | |- hop_rel _ _ _ _ _ => progress cbn [hop_rel fst snd]; hyp
  | |- True => exact I
  | |- forall a b : N, _ => exact g_injective
  end.
Local Notation up := (fun m : gmap N Qc => map_to_list m).
Local Notation down := (fun m : gmap (list N) dual => rev (map_to_list m)).
Local Notation gx := (<[1 := q 3]> (<[2 := q 5]> (<[3 := q (-2)]> ∅)) : gmap N Qc).
Local Notation gy := (<[1 := q (-3)]> (<[2 := q 1]> (<[5 := q 7]> ∅)) : gmap N Qc).
Local Notation c a := (constant (q a)).
Local Notation gx' := (<[[1; 1] := c 3]> (<[[2; 2] := c 5]> (<[[3; 3] := c (-2)]> ∅)) : gmap (list N) dual).
Local Notation gy' := (<[[1; 1] := c (-3)]> (<[[2; 2] := c 1]> (<[[5; 5] := c 7]> ∅)) : gmap (list N) dual).
Definition case_C123_histories := ltac:(use (C123_histories _ _ _ _ _ _ _ _ _ _ rel same g qc_ops dual_ops
  [(up, HAdd gy); (up, HLmul (q 2)); (up, HKeySubMul 2 (q 4)); (up, HInsertSingle 9 (q 0)); (up, HSub gx); (up, HRdiv (q 3)); (up, HUminus); (up, HSet 9 (q 1))]
  [(down, HAdd gy'); (down, HLmul (c 2)); (down, HKeySubMul [2; 2] (c 4)); (down, HInsertSingle [9; 9] (c 0)); (down, HSub gx'); (down, HRdiv (q 3));
   (down, HUminus); (down, HSet [9; 9] (c 1))] gx gx')).
Definition case_C123_new_and_reads := ltac:(use (C123_new_and_reads _ _ _ _ _ _ _ _ _ _ rel same g qc_ops dual_ops up down gx gy gx' gy' 2 (q 4) (c 4)
  [(1, q 2); (1, q 3)] [([1; 1], c 2); ([1; 1], c 3)])).
