(** Cases that meet the hypotheses of the theorems of P_HallLock.v. *)
From Verif Require Import Machine M_HallKey M_HallSet L_PropHall M_HallLock S_HallLock L_PropHallLock P_HallLock E_Tac.
Local Open Scope N_scope.
Local Notation es := (example_events (Ret (inl (VRange 12 78)))).
(** thread 1 has the write guard *)
Local Notation growing := (ls_set (ls_set lock_start 1%nat (HWaiting (QGrow 5)) false) 1%nat (HHolds (QGrow 5) false) false).
Lemma growing_runs : lock_runs dev 12 example_set lock_start [ECall 1%nat (QGrow 5)] growing.
Proof.
  apply front_call with false; [reflexivity|reflexivity|].
  apply (front_take _ _ _ _ 1%nat (QGrow 5) _ _ false); [reflexivity|reflexivity| |apply lock_done].
  intros u _. cbn [ls_set ls_pc lock_start]. destruct (Nat.eqb u 1); reflexivity.
Qed.
Ltac hyp_more ::=
  lazymatch goal with
  | |- lock_runs _ _ _ _ _ example_state => exact example_runs
  | |- lock_runs _ _ _ _ _ _ => exact growing_runs
  | |- good_call _ => vm_compute; first [exact I | reflexivity]
  end.
Definition case_C119_linearizable := ltac:(use (C119_linearizable dev 12 example_set es example_state)).
Definition case_C119_own_calls := ltac:(use (C119_own_calls dev 12 example_set es example_state)).
Definition case_C119_exclusive := ltac:(use (C119_exclusive dev 12 example_set [ECall 1%nat (QGrow 5)] growing 1%nat 1%nat 5 false (QGrow 5) false)).
Definition case_C119_no_deadlock := ltac:(use (C119_no_deadlock dev 12 example_set es example_state 3%nat (QGrow 1))).
Definition case_C119_all_return := ltac:(use (C119_all_return dev 12 example_set es example_state)).
Definition case_C119_answers := ltac:(use (C119_answers dev 60 12 (Some 4) (ho_new 12 example_set) es example_state)).
