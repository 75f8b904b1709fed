(** Cases that meet the hypotheses of the theorems of P_Rotation.v. *)
From Coq Require Import QArith Qcanon.
From Verif Require Import Machine S_Words M_TensorKey M_TensorBasis M_Scalar M_Vector M_Dense S_Vector S_Tensor S_Series
  M_Algebra I_Scalars S_Shuffle S_Lie S_Dynkin S_Rotation P_Rotation E_Tac E_Shuffle.
Local Open Scope N_scope.

Ltac hyp_more ::=
  lazymatch goal with
  | |- filled _ _ _ => unfold filled; vm_compute; reflexivity
  | |- letters_ok _ _ => cbn; lia
  end.
Local Notation v l := (dv_from (map q l)).
Example case_C130_cyclic := ltac:(use (C130_cyclic _ _ qc_ops dev 2 2 1 3 (v [1; 2; 0; 0; 1; 0; 0]%Z) (v [5; 0; 1]%Z))).
Example case_C130_lie := ltac:(use (C130_lie _ _ qc_ops dev 2 4
  (Bracket (Bracket (Letter 1) (Letter 2)) (Minus (Letter 1) (Bracket (Letter 1) (Letter 2)))))).
Local Notation pairs := [(v [0; 1; 0]%Z, v [1; 3; 2]%Z); (v [4]%Z, v [0; 0; 1]%Z)].
Lemma pairs_ok : Forall (fun xy => exists a b, filled 2 (fst xy) a /\ filled 2 (snd xy) b /\ a <= 2 /\ b <= 2 /\ 1 <= a + b) pairs.
Proof. repeat constructor; [exists 1, 1|exists 0, 1]; repeat split; try (vm_compute; discriminate). Qed.
Example case_C130_commutators := C130_commutators _ _ qc_ops dev 2 2 pairs qc_ring ltac:(hyp) ltac:(hyp) ltac:(hyp) pairs_ok.
Example case_C130_letters : exists x es ys z,
  commutator_sum qc_ops dev 2 2 pairs = Ret x
  /\ mapM (fun a => k <- tk_from_letter dev a ;; vr_from_key (dense_ops qc_ops (tensor_basis dev 2)) k) (letters 2) = Ret es
  /\ length ys = length es /\ Forall (fun y => filled 2 y 2) ys
  /\ commutator_sum qc_ops dev 2 2 (List.combine es ys) = Ret z
  /\ forall w, word_ok 2 w -> wcoef qc_ops 2 z w = wcoef qc_ops 2 x w.
Proof.
  destruct case_C130_commutators as (x & E & Z & Zr). exists x.
  assert (Fx : filled 2 x 2).
  { assert (G : (z <- commutator_sum qc_ops dev 2 2 pairs ;; Ret (dv_size z)) = Ret 7) by (vm_compute; reflexivity).
    rewrite E in G. cbn [bind] in G. injection G as G. exact G. }
  destruct (C130_letters _ _ qc_ops dev 2 2 2 x) as (es & ys & z & H); [hyp..|exact Z|exact Zr|].
  exists es, ys, z. split; [exact E|exact H].
Qed.
(** 1 + x1 and its inverse 1 - x1 + x1x1 up to degree 2 *)
Example case_C130_conjugate : exists u z z',
  alg_multiply qc_ops dev 2 (v [1; -1; 0; 1; 0; 0; 0]%Z) (v [1; 1; 0]%Z) (Some 2) = Ret u
  /\ alg_multiply qc_ops dev 2 (v [1; 1; 0]%Z) (v [0; 2; 1; 0; 0; 4; 0]%Z) (Some 2) = Ret z
  /\ alg_multiply qc_ops dev 2 z (v [1; -1; 0; 1; 0; 0; 0]%Z) (Some 2) = Ret z'
  /\ forall w, word_ok 2 w -> len w <= 2 ->
       rotation_sum qc_ops (wcoef qc_ops 2 z') w = rotation_sum qc_ops (wcoef qc_ops 2 (v [0; 2; 1; 0; 0; 4; 0]%Z)) w.
Proof.
  eexists _, _, _. split; [vm_compute; reflexivity|]. split; [vm_compute; reflexivity|]. split; [vm_compute; reflexivity|].
  eapply (C130_conjugate _ _ qc_ops dev 2 1 2 2 2 (v [1; 1; 0]%Z) (v [0; 2; 1; 0; 0; 4; 0]%Z) (v [1; -1; 0; 1; 0; 0; 0]%Z));
    [hyp..|vm_compute; reflexivity| |vm_compute; reflexivity|vm_compute; reflexivity].
  intros w Hw Hl. assert (I : In w (short_words 3)) by (apply short_words_all; [assumption|unfold len in *; lia]).
  each I; first [exfalso; unfold len in *; cbn [length] in *; lia | apply Qc_is_canon; vm_compute; reflexivity].
Qed.
