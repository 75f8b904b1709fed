(** Property theorems (generated by tools/gen_props.py from L_PropHallLock.v, where the proofs are). *)
From Verif Require Import Machine MachineLemmas M_DegreeRange M_HallKey M_HallSet L_PropHall M_HallLock S_HallLock.
From Verif Require Import L_PropHallLock.
Local Open Scope N_scope.

(** * C119: Concurrent calls on a shared Hall set *)
Theorem C119_linearizable : forall p n h es s, lock_runs p n h lock_start es s ->
  map result_of (returned es) = fst (ho_runs p (ho_new n h) (map call_of (returned es)))
  /\ ls_poisoned s = ho_poisoned (snd (ho_runs p (ho_new n h) (map call_of (returned es)))).
Proof. exact c119_linearizable. Qed.
Print Assumptions C119_linearizable.
Theorem C119_own_calls : forall p n h es s, lock_runs p n h lock_start es s ->
  well_bracketed es /\ forall t, open_call t es = None <-> ls_pc s t = HOut.
Proof. exact c119_own_calls. Qed.
Print Assumptions C119_own_calls.
Theorem C119_exclusive : forall p n h es s t u d b c b', lock_runs p n h lock_start es s ->
  ls_pc s t = HHolds (QGrow d) b -> ls_pc s u = HHolds c b' -> t = u.
Proof. exact c119_exclusive. Qed.
Print Assumptions C119_exclusive.
Theorem C119_no_deadlock : forall p n h es s t c, lock_runs p n h lock_start es s -> open_call t es = Some c ->
  exists u c' e s', open_call u es = Some c' /\ lock_step p n h s u e s'.
Proof. exact c119_no_deadlock. Qed.
Print Assumptions C119_no_deadlock.
Theorem C119_all_return : forall p n h es s, lock_runs p n h lock_start es s ->
  exists es' s', lock_runs p n h s es' s' /\ no_calls es' /\ forall t, open_call t (es ++ es') = None.
Proof. exact c119_all_return. Qed.
Print Assumptions C119_all_return.
Theorem C119_answers : forall p f n pre o es s, n < 2 ^ 32 -> degree_arg pre < 2 ^ 32 -> new_object p f n pre = Ret o ->
  lock_runs p n (ho_inner o) lock_start es s -> Forall (fun x => good_call (call_of x)) (returned es) ->
  exists queries rest, returned es = queries ++ rest
    /\ Forall (fun x => is_grow (call_of x) = false /\ (exists a, result_of x = Ret a) /\ fst (ho_runs p o [call_of x]) = [result_of x]) queries
    /\ match rest with
       | [] => True
       | x :: rest => is_grow (call_of x) = true /\ result_of x = Panic
                      /\ Forall (fun y => result_of y = Ret (inr (if is_grow (call_of y) then HallSetWriteError else HallSetReadError))) rest
       end.
Proof. exact c119_answers. Qed.
Print Assumptions C119_answers.
Example C119_example : exists o s, new_object dev 60 12 (Some 4) = Ret o
  /\ lock_runs dev 12 (ho_inner o) lock_start (example_events (Ret (inl (VRange 12 78)))) s
  /\ ls_poisoned s = true /\ ls_pc s 3%nat = HWaiting (QGrow 1)
  /\ Forall (fun x => good_call (call_of x)) (returned (example_events (Ret (inl (VRange 12 78))))).
Proof. exact c119_example. Qed.
