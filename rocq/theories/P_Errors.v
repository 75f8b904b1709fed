(** Property theorems (generated by tools/gen_props.py from L_PropErrors.v, where the proofs are). *)
From Coq Require Import String.
From Verif Require Import Machine MachineLemmas M_DegreeRange M_HallSet M_Errors S_Errors L_HallSet L_PropHall.
From Verif Require Import L_PropErrors.
Local Open Scope string_scope.

(** * C97: Texts of the errors of Hall sets *)
Theorem C97_display : forall k e,
  dyn_display (wrapped k e) = (copies k "another error occurred: " ++ fst (dyn_display e), snd (dyn_display e)).
Proof. exact c97_display. Qed.
Print Assumptions C97_display.
Theorem C97_map : forall e,
  drm_display e = (match e with MapIsEmpty => "degree range map is empty" | DegreeOutOfBounds => "requested degree is out of bounds" end, true)
  /\ drm_debug e = (match e with MapIsEmpty => "MapIsEmpty" | DegreeOutOfBounds => "DegreeOutOfBounds" end, true).
Proof. exact c97_map. Qed.
Print Assumptions C97_map.
Theorem C97_plain : forall e, hs_display (Plain e) =
  (match e with HallSetTooSmall => "the hall set is not sufficiently large"
   | HallSetReadError | HallSetWriteError => "an unknown error occured" end, true).
Proof. exact c97_plain. Qed.
Print Assumptions C97_plain.
Theorem C97_to_string : forall k e,
  to_string (dyn_display (wrapped k e)) = if snd (dyn_display e)
    then Ret (copies k "another error occurred: " ++ fst (dyn_display e)) else Panic.
Proof. exact c97_to_string. Qed.
Print Assumptions C97_to_string.
Theorem C97_own_never_panics : forall e, own e = true ->
  returns (to_string (dyn_display e)) /\ returns (to_string (dyn_debug e)).
Proof. exact c97_own_never_panics. Qed.
Print Assumptions C97_own_never_panics.
Theorem C97_after_grow : forall p f n pre o qs d cs, (n < 2 ^ 32)%N -> (degree_arg pre < 2 ^ 32)%N -> new_object p f n pre = Ret o ->
  Forall (fun c => is_grow c = false) qs -> Forall good_call qs ->
  exists answers, fst (ho_runs p o (qs ++ QGrow d :: cs)) = answers
  /\ forall i a, (length qs < i)%nat -> nth_error answers i = Some a ->
     exists e, a = Ret (inr e) /\ to_string (hs_display (Plain e)) = Ret "an unknown error occured" /\ hs_cause (Plain e) = None.
Proof. exact c97_after_grow. Qed.
Print Assumptions C97_after_grow.
Example C97_example :
  hs_display (OtherError (DHall (OtherError (DMap MapIsEmpty))))
    = ("another error occurred: another error occurred: degree range map is empty", true)
  /\ hs_debug (OtherError (DHall (OtherError (DMap MapIsEmpty)))) = ("OtherError(OtherError(MapIsEmpty))", true)
  /\ hs_display (OtherError (DUser ("disk ful", false) ("", true) None None)) = ("another error occurred: disk ful", false).
Proof. exact c97_example. Qed.
Example C97_grow_example : exists o, new_object dev 60 12 (Some 4%N) = Ret o
  /\ nth_error (fst (ho_runs dev o [QKey 0; QGrow 3; QKey 0]%N)) 2 = Some (Ret (inr HallSetReadError)).
Proof. exact c97_grow_example. Qed.

(** * C98: The text of an error identifies it *)
Theorem C98_text_refuted : exists e e', own_hall e = true /\ own_hall e' = true /\ e <> e' /\ hs_display e = hs_display e'.
Proof. exact c98_text_refuted. Qed.
Print Assumptions C98_text_refuted.
Theorem C98_text_partial : forall e e', own_hall e = true -> own_hall e' = true -> hs_display e = hs_display e' ->
  same_up_to_lock_hall e e'.
Proof. exact c98_text_partial. Qed.
Print Assumptions C98_text_partial.
Theorem C98_debug : forall e e', own_hall e = true -> own_hall e' = true -> hs_debug e = hs_debug e' -> e = e'.
Proof. exact c98_debug. Qed.
Print Assumptions C98_debug.
Example C98_example : same_up_to_lock_hall (OtherError (DHall (Plain HallSetReadError))) (OtherError (DHall (Plain HallSetWriteError)))
  /\ ~ same_up_to_lock_hall (OtherError (DMap MapIsEmpty)) (OtherError (DMap DegreeOutOfBounds)).
Proof. exact c98_example. Qed.

(** * C99: The chain of causes of an error *)
Theorem C99_cause_partial : forall k e l, chain dyn_cause e l -> chain dyn_cause (wrapped k e) (wraps k e ++ l).
Proof. exact c99_cause_partial. Qed.
Print Assumptions C99_cause_partial.
Theorem C99_no_cause : forall e, hs_cause (Plain e) = None /\ (forall m, dyn_cause (DMap m) = None).
Proof. exact c99_no_cause. Qed.
Print Assumptions C99_no_cause.
Theorem C99_source_refuted : forall k e, (0 < k)%nat -> chain dyn_source (wrapped k e) [wrapped k e]
  /\ forall l, chain dyn_source (wrapped k e) l -> l = [wrapped k e].
Proof. exact c99_source_refuted. Qed.
Print Assumptions C99_source_refuted.
Theorem C99_conversion : forall e, Plain (hs_from_drm e) = Plain HallSetTooSmall /\ hs_cause (Plain (hs_from_drm e)) = None.
Proof. exact c99_conversion. Qed.
Print Assumptions C99_conversion.
Example C99_example : chain dyn_cause (wrapped 2 (DMap MapIsEmpty)) [wrapped 2 (DMap MapIsEmpty); wrapped 1 (DMap MapIsEmpty); DMap MapIsEmpty].
Proof. exact c99_example. Qed.
