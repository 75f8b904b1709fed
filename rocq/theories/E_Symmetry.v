(** Cases that meet the hypotheses of the theorems of P_Symmetry.v. *)
From Coq Require Import QArith Qcanon Lia.
From Verif Require Import Machine MachineLemmas S_Words M_Scalar M_Vector M_Dense M_Algebra M_TensorKey M_TensorBasis S_Vector S_Tensor S_TensorProg
  I_Scalars M_Float S_Borrow S_Symmetry P_Symmetry L_Algebra E_Tac.
Local Open Scope N_scope.
Local Notation sig := (fun a => if a =? 1 then 3 else 1).
Local Notation wts := (fun a => if a =? 1 then q 2 else q 3).
Local Notation vx := (dv_from [q 1; q 2; q 3]).
Local Notation st := (fun i : nat => match i with O => vx | _ => dv_new end).
(** the letters 1, 2 become 3, 1; the letter 2 has the coefficient 9 *)
Local Notation st3 := (fun i : nat => match i with O => dv_from [q 1; q 3; q 9; q 2] | _ => dv_new end).
Local Notation stw := (fun i : nat => match i with O => dv_from [q 1; q 4; q 9] | _ => dv_new end).
Local Notation cs := [CPairs 1 [([], q 4); ([2], q 2); ([1; 2], q 3); ([2], q 5)]; CComm 2 0 1 (Some 2); CSubMul 1 0 1 (Some 2); CDivide 1 (q 2);
                      CAddScaled 1 2 (q 5); CErase 1 [2; 1]; CNeg 1].
Ltac hyp_more ::=
  lazymatch goal with
  | |- cmd_within _ _ _ => cbn [map rename cmd_within]; hyp
  | |- filled _ _ _ => vm_compute; reflexivity
  | |- injects _ _ _ => split; [intros a H; destruct (N.eqb_spec a 1); lia|intros a b Ha Hb; destruct (N.eqb_spec a 1), (N.eqb_spec b 1); lia]
  end.
(** a property of all words holds if it holds for the words of up to one letter of 1..2 and the longer ones *)
Lemma words (P : word -> Prop) : P [] -> P [1] -> P [2] -> (forall w, word_ok 2 w -> 1 < len w -> P w) -> forall w, word_ok 2 w -> P w.
Proof.
  intros H0 H1 H2 H w Hw. destruct w as [|a [|b w]]; [exact H0| |].
  - inversion_clear Hw as [|? ? Ha _]. assert (a = 1 \/ a = 2) as [-> | ->] by lia; assumption.
  - apply H; [exact Hw|]. unfold len. cbn [length]. lia.
Qed.
Lemma degree_1 n (v : dvec Qc) w : 2 <= n -> filled n v 1 -> word_ok n w -> 1 < len w -> wcoef qc_ops n v w = q 0.
Proof. intros Hn F Hw Hl. exact (wcoef_beyond qc_ops n Hn v 1 w (filled_degree n Hn v 1 F) Hw Hl). Qed.
Lemma nothing n (w : word) : wcoef qc_ops n dv_new w = q 0.
Proof. unfold wcoef, coef, dv_as_slice, slice_get. cbn. destruct (_ : nat); reflexivity. Qed.
Lemma starts_renamed i : renamed qc_ops 2 3 2 (map sig) (st i) (st3 i).
Proof.
  destruct i as [|i].
  - exists (Some 1). split; [split; [reflexivity|split; [discriminate|reflexivity]]|]. split; [split; [reflexivity|split; [discriminate|reflexivity]]|].
    apply words; try reflexivity. intros w Hw Hl. rewrite !degree_1; try reflexivity; try discriminate; try assumption.
    + unfold word_ok in *. rewrite Forall_map. revert Hw. apply Forall_impl. intros a H. destruct (N.eqb_spec a 1); lia.
    + unfold len in *. rewrite map_length. exact Hl.
  - exists None. split; [split; reflexivity|]. split; [split; reflexivity|]. intros w _. rewrite !nothing. reflexivity.
Qed.
Lemma starts_weighted i : weighted qc_ops 2 2 wts (st i) (stw i).
Proof.
  destruct i as [|i].
  - exists (Some 1). split; [split; [reflexivity|split; [discriminate|reflexivity]]|]. split; [split; [reflexivity|split; [discriminate|reflexivity]]|].
    apply words; try (vm_compute; reflexivity). intros w Hw Hl. rewrite !degree_1; try reflexivity; try discriminate; try assumption.
    change (q 0 = (weight qc_ops wts w * q 0)%Qc). change (q 0) with 0%Qc. ring.
  - exists None. split; [split; reflexivity|]. split; [split; reflexivity|]. intros w _. rewrite !nothing.
    change (q 0 = (weight qc_ops wts w * q 0)%Qc). change (q 0) with 0%Qc. ring.
Qed.
Lemma starts_reversed i : renamed qc_ops 2 2 2 (@rev N) (st i) (st i).
Proof.
  destruct i as [|i].
  - exists (Some 1). split; [split; [reflexivity|split; [discriminate|reflexivity]]|]. split; [split; [reflexivity|split; [discriminate|reflexivity]]|].
    apply words; try reflexivity. intros w Hw Hl. rewrite !degree_1; try reflexivity; try discriminate; try assumption.
    + apply Forall_rev. exact Hw.
    + unfold len in *. rewrite rev_length. exact Hl.
  - exists None. split; [split; reflexivity|]. split; [split; reflexivity|]. intros w _. rewrite !nothing. reflexivity.
Qed.
Definition case_C122_relabel := ltac:(let t := constr:(fun A B C D E F G => C122_relabel Qc Qc qc_ops dev release 2 3 2 sig cs st st3 A B C D E F G starts_renamed) in use t).
Definition case_C122_weights := ltac:(let t := constr:(fun A B C D => C122_weights Qc Qc qc_ops dev release 2 2 wts cs st stw A B C D starts_weighted) in use t).
Definition case_C122_backwards := ltac:(let t := constr:(fun A B C D => C122_backwards Qc Qc qc_ops dev release 2 2 cs st st A B C D starts_reversed) in use t).
