(** Cases that meet the hypotheses of the theorems of P_Shuffle.v. *)
From Coq Require Import QArith Qcanon.
From Verif Require Import Machine S_Words M_TensorKey M_TensorBasis M_Scalar M_Vector M_Dense S_Vector S_Tensor S_Series S_FreeTensor
  M_Algebra M_FreeTensor I_Scalars I_FunAlgebra S_Shuffle S_Lie P_Shuffle E_Tac.
Local Open Scope N_scope.

(** the words over 1, 2 up to length 3 *)
Fixpoint short_words (k : nat) : list word :=
  match k with
  | O => [[]]
  | Datatypes.S k => [] :: map (cons 1) (short_words k) ++ map (cons 2) (short_words k)
  end.
Lemma short_words_all k : forall w, word_ok 2 w -> (length w <= k)%nat -> In w (short_words k).
Proof.
  induction k as [|k IH]; intros [|a w] H L; cbn in *; [now left|lia|now left|right].
  inversion H as [|? ? A B]; subst. apply in_or_app.
  assert (I : In w (short_words k)) by (apply IH; [exact B|lia]).
  assert (C : a = 1 \/ a = 2) by lia. destruct C as [->| ->]; [left|right]; now apply in_map.
Qed.
Ltac each H := cbn in H; repeat (destruct H as [<-|H]); [..|destruct H].
Ltac two_words :=
  let u := fresh "u" in let v := fresh "v" in let Iu := fresh "Iu" in let Iv := fresh "Iv" in
  intros u v ? ?; intros;
  assert (Iu : In u (short_words 3)) by (apply short_words_all; [assumption|unfold len in *; lia]);
  assert (Iv : In v (short_words 3)) by (apply short_words_all; [assumption|unfold len in *; lia]);
  each Iu; try congruence; each Iv; try congruence;
  first [exfalso; unfold len in *; cbn [length] in *; lia | apply Qc_is_canon; vm_compute; reflexivity].
Ltac hyp_more ::=
  lazymatch goal with
  | |- filled _ _ _ => unfold filled; vm_compute; reflexivity
  | |- exact_algebra _ _ _ _ _ _ => exact (fun_exact _)
  | |- group_like _ _ _ _ => split; [apply Qc_is_canon; vm_compute; reflexivity|two_words]
  | |- primitive _ _ _ _ => split; [apply Qc_is_canon; vm_compute; reflexivity|two_words]
  | |- letters_ok _ _ => cbn; lia
  | |- forall w, word_ok _ w -> 2 <= len w -> _ =>
      let w := fresh in let H := fresh in intros w ? H; destruct w as [|? [|? ?]];
      [vm_compute in H; congruence|vm_compute in H; congruence|repeat (match goal with |- context [match ?a with _ => _ end] => destruct a end); reflexivity]
  | |- forall w, word_ok _ w -> _ = _ => reflexivity
  end.
Local Notation v l := (dv_from (map q l)).
(** exp of the first and of the second letter, up to degree 2 *)
Local Notation e1 := (dv_from [q 1; q 1; q 0; Q2Qc (1 # 2); q 0; q 0; q 0]).
Local Notation e2 := (dv_from [q 1; q 0; q 1; q 0; q 0; q 0; Q2Qc (1 # 2)]).
Example case_C100_multiply := ltac:(use (C100_multiply _ _ qc_ops dev 2 3 2 2 2 e1 e2)).
Example case_C100_commutator := ltac:(use (C100_commutator _ _ qc_ops dev 2 3 1 2 (v [0; 1; 2]%Z) (v [0; 3; 0; 0; 5; -5; 0]%Z))).
Example case_C100_lie := ltac:(use (C100_lie _ _ qc_ops dev 2 3
  (Bracket (Plus (Scaled (q 2) (Letter 1)) (Letter 2)) (Bracket (Letter 1) (Letter 2))))).

Definition fy : word -> Qc := fun w => match w with [1] => q 1 | [2] => q 3 | [1; 2] => q 5 | [2; 1] => q (-5) | _ => q 0 end.
Definition step : word -> Qc := fun w => match w with [a] => if a =? 1 then q 1 else q 3 | _ => q 0 end.
Definition fneg (f : word -> Qc) : word -> Qc := fun w => Qcopp (f w).
Local Notation at_funs T := (T _ _ _ qc_ops dev 2 3 (fun_ops qc_ops) fun_mul_rat_rdiv (fun_multiply qc_ops) (fun x w => x w)).
Example case_C101_exp := ltac:(use
  (C101_exp _ _ _ qc_ops 2 3 (fun_ops qc_ops) fun_mul_rat_rdiv (fun_multiply qc_ops) (fun x w => x w) fy)).
Example case_C101_fmexp := ltac:(use (at_funs C101_fmexp (unit_fun qc_ops) [fy; step; fy])).
Example case_C102_chen := ltac:(use (at_funs C102_chen [fy; step] [step; step; fy])).
Example case_C102_back := ltac:(use (at_funs C102_back fy [fy; step] [fneg step; fneg fy])).
Example case_C102_line := ltac:(use (at_funs C102_line step)).
Example case_C101_not_at_max_degree : exists u z, vr_from_key (fun_ops qc_ops) tk_new = Ret u
  /\ trait_fmexp qc_ops dev 3 (fun_ops qc_ops) fun_mul_rat_rdiv u step = Ret z /\ ~ group_like qc_ops 2 3 z.
Proof.
  destruct case_C102_line as (u & z & Hu & Hz & _). exists u, z. split; [exact Hu|]. split; [exact Hz|].
  exact (C101_not_at_max_degree _ _ _ qc_ops dev 2 3 1 (fun_ops qc_ops) fun_mul_rat_rdiv (fun_multiply qc_ops) (fun x w => x w)
           step u z ltac:(hyp) ltac:(hyp) ltac:(hyp) ltac:(hyp) ltac:(hyp) eq_refl Hu Hz).
Qed.
