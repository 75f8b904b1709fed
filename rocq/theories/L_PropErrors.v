(** Property lemmas C97-C99 (restated as theorems in P_Errors.v). *)
From Coq Require Import String.
From Verif Require Import Machine MachineLemmas M_DegreeRange M_HallSet M_Errors S_Errors L_HallSet L_PropHall.
Local Open Scope string_scope.

Lemma append_assoc (a b c : string) : (a ++ b) ++ c = a ++ (b ++ c).
Proof. induction a as [|x a IH]; [reflexivity|]. cbn. f_equal. exact IH. Qed.
Lemma append_inj (a b c : string) : a ++ b = a ++ c -> b = c.
Proof. induction a as [|x a IH]; [exact (fun H => H)|]. cbn. intros H. injection H as H. exact (IH H). Qed.
Lemma append_inj_end (t a b : string) : a ++ t = b ++ t -> a = b.
Proof.
  assert (L : forall x y, String.length (x ++ y) = (String.length x + String.length y)%nat).
  { intros x y. induction x as [|c x IH]; [reflexivity|]. cbn. f_equal. exact IH. }
  revert b; induction a as [|x a IH]; intros [|y b] H; [reflexivity| | |].
  - apply (f_equal String.length) in H. cbn [String.append String.length] in H; rewrite ?L in H; cbn in H; lia.
  - apply (f_equal String.length) in H. cbn [String.append String.length] in H; rewrite ?L in H; cbn in H; lia.
  - cbn in H. injection H as -> H. f_equal. exact (IH b H).
Qed.

(** * C97: texts of errors *)
Lemma c97_display : forall k e,
  dyn_display (wrapped k e) = (copies k "another error occurred: " ++ fst (dyn_display e), snd (dyn_display e)).
Proof.
  intros k e. induction k as [|k IH]; [cbn [wrapped copies]; destruct (dyn_display e); reflexivity|].
  change (dyn_display (wrapped (Datatypes.S k) e)) with (write_then "another error occurred: " (dyn_display (wrapped k e))).
  rewrite IH. unfold write_then. cbn [fst snd copies]. rewrite append_assoc. reflexivity.
Qed.
Lemma c97_map : forall e,
  drm_display e = (match e with MapIsEmpty => "degree range map is empty" | DegreeOutOfBounds => "requested degree is out of bounds" end, true)
  /\ drm_debug e = (match e with MapIsEmpty => "MapIsEmpty" | DegreeOutOfBounds => "DegreeOutOfBounds" end, true).
Proof. intros []; split; reflexivity. Qed.
Lemma c97_plain : forall e, hs_display (Plain e) =
  (match e with HallSetTooSmall => "the hall set is not sufficiently large"
   | HallSetReadError | HallSetWriteError => "an unknown error occured" end, true).
Proof. intros []; reflexivity. Qed.
(** to_string panics exactly if the Display of a user's error inside fails *)
Lemma c97_to_string : forall k e,
  to_string (dyn_display (wrapped k e)) = if snd (dyn_display e)
    then Ret (copies k "another error occurred: " ++ fst (dyn_display e)) else Panic.
Proof. intros k e. rewrite c97_display. reflexivity. Qed.
Lemma own_ok : forall e, own e = true -> snd (dyn_display e) = true /\ snd (dyn_debug e) = true
with own_hall_ok : forall e, own_hall e = true -> snd (hs_display e) = true /\ snd (hs_debug e) = true.
Proof.
  - intros [[]|e|d b c s] H; [split; reflexivity|split; reflexivity|exact (own_hall_ok e H)|discriminate].
  - intros [[]|e] H; [split; reflexivity|split; reflexivity|split; reflexivity|exact (own_ok e H)].
Qed.
Lemma c97_own_never_panics : forall e, own e = true ->
  returns (to_string (dyn_display e)) /\ returns (to_string (dyn_debug e)).
Proof. intros e H. unfold to_string. destruct (own_ok e H) as [-> ->]. split; eexists; reflexivity. Qed.
(** what a user reads after the first grow_up of a Hall set *)
Lemma c97_after_grow : forall p f n pre o qs d cs, (n < 2 ^ 32)%N -> (degree_arg pre < 2 ^ 32)%N -> new_object p f n pre = Ret o ->
  Forall (fun c => is_grow c = false) qs -> Forall good_call qs ->
  exists answers, fst (ho_runs p o (qs ++ QGrow d :: cs)) = answers
  /\ forall i a, (length qs < i)%nat -> nth_error answers i = Some a ->
     exists e, a = Ret (inr e) /\ to_string (hs_display (Plain e)) = Ret "an unknown error occured" /\ hs_cause (Plain e) = None.
Proof.
  intros p f n pre o qs d cs Hn Hd Ho H1 H2. destruct (c76_history p f n pre o qs d cs Hn Hd Ho H1 H2) as (as_ & EL & E).
  eexists. split; [reflexivity|]. intros i a Hi Ha. rewrite E in Ha.
  rewrite nth_error_app2 in Ha by (rewrite map_length; lia). rewrite map_length in Ha.
  replace (i - length as_)%nat with (Datatypes.S (i - length as_ - 1)) in Ha by lia. cbn [nth_error] in Ha.
  rewrite nth_error_map in Ha. destruct (nth_error cs _) as [c|]; [|discriminate]. cbn [option_map] in Ha. injection Ha as <-.
  unfold poisoned_answer. eexists. split; [reflexivity|]. destruct (is_grow c); split; reflexivity.
Qed.
Example c97_example :
  hs_display (OtherError (DHall (OtherError (DMap MapIsEmpty))))
    = ("another error occurred: another error occurred: degree range map is empty", true)
  /\ hs_debug (OtherError (DHall (OtherError (DMap MapIsEmpty)))) = ("OtherError(OtherError(MapIsEmpty))", true)
  /\ hs_display (OtherError (DUser ("disk ful", false) ("", true) None None)) = ("another error occurred: disk ful", false).
Proof. repeat apply conj; reflexivity. Qed.
Example c97_grow_example : exists o, new_object dev 60 12 (Some 4%N) = Ret o
  /\ nth_error (fst (ho_runs dev o [QKey 0; QGrow 3; QKey 0]%N)) 2 = Some (Ret (inr HallSetReadError)).
Proof. eexists. split; [vm_compute; reflexivity|vm_compute; reflexivity]. Qed.

(** * C98: the text of an error identifies it *)
(** the text of Display does not tell which error it is *)
Lemma c98_text_refuted : exists e e', own_hall e = true /\ own_hall e' = true /\ e <> e' /\ hs_display e = hs_display e'.
Proof. exists (Plain HallSetReadError), (Plain HallSetWriteError). repeat apply conj; try reflexivity. discriminate. Qed.
(** ... apart from the difference between reading and writing, it does *)
Lemma display_same : forall e e', own e = true -> own e' = true -> fst (dyn_display e) = fst (dyn_display e') -> same_up_to_lock e e'
with display_same_hall : forall e e', own_hall e = true -> own_hall e' = true -> fst (hs_display e) = fst (hs_display e') ->
  same_up_to_lock_hall e e'.
Proof.
  - intros [a|a|d b c s] [a'|a'|d' b' c' s'] H H' E; try discriminate.
    + destruct a, a'; try reflexivity; discriminate.
    + destruct a' as [[]|i]; destruct a; discriminate.
    + destruct a as [[]|i]; destruct a'; discriminate.
    + exact (display_same_hall a a' H H' E).
  - intros [a|i] [a'|i'] H H' E.
    + destruct a, a'; cbn [same_up_to_lock_hall]; try (left; reflexivity); try discriminate; right; split; discriminate.
    + destruct a; discriminate.
    + destruct a'; discriminate.
    + apply (display_same i i' H H'). exact (append_inj "another error occurred: " _ _ E).
Qed.
Lemma c98_text_partial : forall e e', own_hall e = true -> own_hall e' = true -> hs_display e = hs_display e' ->
  same_up_to_lock_hall e e'.
Proof. intros e e' H H' E. apply display_same_hall; [exact H|exact H'|rewrite E; reflexivity]. Qed.
(** the text of Debug does tell which error it is, up to the boxes *)
Lemma debug_same : forall e e', own e = true -> own e' = true -> fst (dyn_debug e) = fst (dyn_debug e') -> e = e'
with debug_same_hall : forall e e', own_hall e = true -> own_hall e' = true -> fst (hs_debug e) = fst (hs_debug e') -> e = e'.
Proof.
  - intros [a|a|d b c s] [a'|a'|d' b' c' s'] H H' E; try discriminate.
    + destruct a, a'; try reflexivity; discriminate.
    + destruct a' as [[]|i]; destruct a; discriminate.
    + destruct a as [[]|i]; destruct a'; discriminate.
    + f_equal. exact (debug_same_hall a a' H H' E).
  - intros [a|i] [a'|i'] H H' E.
    + destruct a, a'; try reflexivity; discriminate.
    + destruct a; discriminate.
    + destruct a'; discriminate.
    + f_equal. apply (debug_same i i' H H'). cbn [hs_debug] in E. unfold debug_tuple in E. cbn [fst] in E.
      rewrite (proj2 (own_ok i H)), (proj2 (own_ok i' H')) in E.
      apply (append_inj "OtherError") in E. apply (append_inj "(") in E. exact (append_inj_end ")" _ _ E).
Qed.
Lemma c98_debug : forall e e', own_hall e = true -> own_hall e' = true -> hs_debug e = hs_debug e' -> e = e'.
Proof. intros e e' H H' E. apply debug_same_hall; [exact H|exact H'|rewrite E; reflexivity]. Qed.
Example c98_example : same_up_to_lock_hall (OtherError (DHall (Plain HallSetReadError))) (OtherError (DHall (Plain HallSetWriteError)))
  /\ ~ same_up_to_lock_hall (OtherError (DMap MapIsEmpty)) (OtherError (DMap DegreeOutOfBounds)).
Proof. split; [cbn; right; split; discriminate|cbn; discriminate]. Qed.

(** * C99: causes *)
(** cause leads through all the wrappers to the innermost error *)
Lemma c99_cause_partial : forall k e l, chain dyn_cause e l -> chain dyn_cause (wrapped k e) (wraps k e ++ l).
Proof.
  intros k e l H. induction k as [|k IH]; [exact H|]. cbn [wraps app wrapped]. apply (chain_next _ _ (wrapped k e)); [reflexivity|exact IH].
Qed.
Lemma c99_no_cause : forall e, hs_cause (Plain e) = None /\ (forall m, dyn_cause (DMap m) = None).
Proof. intros e. split; [reflexivity|intros []; reflexivity]. Qed.
(** source, which the documentation of std has replace cause, stops at the first wrapper *)
Lemma c99_source_refuted : forall k e, (0 < k)%nat -> chain dyn_source (wrapped k e) [wrapped k e]
  /\ forall l, chain dyn_source (wrapped k e) l -> l = [wrapped k e].
Proof.
  intros [|k] e Hk; [lia|]. split; [constructor; reflexivity|]. intros l H.
  inversion H as [x E|x x' l' E H']; subst; [reflexivity|discriminate].
Qed.
(** the conversion used by `?` forgets which error of the map it was *)
Lemma c99_conversion : forall e, Plain (hs_from_drm e) = Plain HallSetTooSmall /\ hs_cause (Plain (hs_from_drm e)) = None.
Proof. intros e. split; reflexivity. Qed.
Example c99_example : chain dyn_cause (wrapped 2 (DMap MapIsEmpty)) [wrapped 2 (DMap MapIsEmpty); wrapped 1 (DMap MapIsEmpty); DMap MapIsEmpty].
Proof. apply (c99_cause_partial 2 (DMap MapIsEmpty) [DMap MapIsEmpty]). constructor. reflexivity. Qed.
