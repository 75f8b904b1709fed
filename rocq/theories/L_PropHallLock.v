(** Property lemmas C119 (restated as theorems in P_HallLock.v). *)
From Verif Require Import Machine MachineLemmas M_DegreeRange M_HallKey M_HallSet L_PropHall M_HallLock S_HallLock.
Local Open Scope N_scope.

Section Lock.
  Context (p : profile) (n : N) (h : hall_inner).
  Notation runs := (lock_runs p n h lock_start).
  Notation start := (ho_new n h).
  (** everybody with a guard saw the poison flag as it is; who has the write guard is alone *)
  Definition lock_inv (s : lock_state) : Prop :=
    (forall t c b, ls_pc s t = HHolds c b -> b = ls_poisoned s)
    /\ forall t u c b c' b', ls_pc s t = HHolds c b -> ls_pc s u = HHolds c' b' -> takes_write c = true -> t = u.
  Lemma set_here s t c b : ls_pc (ls_set s t c b) t = c.
  Proof. cbn. rewrite Nat.eqb_refl. reflexivity. Qed.
  Lemma set_there s t c b u : u <> t -> ls_pc (ls_set s t c b) u = ls_pc s u.
  Proof. intros H. cbn. destruct (Nat.eqb_spec u t); [contradiction|reflexivity]. Qed.
  Lemma step_inv s t es s' : lock_inv s -> lock_step p n h s t es s' -> lock_inv s'.
  Proof.
    intros [I J] H. destruct H as [c E|c E F|c b r E Er].
    - split.
      + intros u c' b'. destruct (Nat.eq_dec u t) as [->|N]; [rewrite set_here; discriminate|rewrite set_there by exact N; apply I].
      + intros u v c1 b1 c2 b2. destruct (Nat.eq_dec u t) as [->|N]; [rewrite set_here; discriminate|].
        destruct (Nat.eq_dec v t) as [->|M]; [rewrite set_here; discriminate|]. rewrite !set_there by assumption. apply J.
    - split.
      + intros u c' b'. destruct (Nat.eq_dec u t) as [->|N]; [rewrite set_here; intros X; injection X as _ <-; reflexivity|].
        rewrite set_there by exact N. apply I.
      + intros u v c1 b1 c2 b2. destruct (Nat.eq_dec u t) as [->|N]; destruct (Nat.eq_dec v t) as [->|M]; [reflexivity| | |].
        * rewrite set_here, set_there by exact M. intros X Y W. injection X as <- _. specialize (F v M). rewrite Y in F. cbn in F.
          rewrite W in F. discriminate.
        * rewrite set_here, set_there by exact N. intros Y X W. injection X as <- _. specialize (F u N). rewrite Y in F. cbn in F.
          rewrite W, andb_false_r in F. discriminate.
        * rewrite !set_there by assumption. apply J.
    - split.
      + intros u c' b'. destruct (Nat.eq_dec u t) as [->|N]; [rewrite set_here; discriminate|]. rewrite set_there by exact N. intros X.
        cbn [ls_set ls_poisoned]. rewrite (I _ _ _ X). destruct (poisons c r) eqn:P; [|rewrite orb_false_r; reflexivity].
        unfold poisons in P. apply andb_true_iff in P. elim N. symmetry. exact (J _ _ _ _ _ _ E X (proj1 P)).
      + intros u v c1 b1 c2 b2. destruct (Nat.eq_dec u t) as [->|N]; [rewrite set_here; discriminate|].
        destruct (Nat.eq_dec v t) as [->|M]; [rewrite set_here; discriminate|]. rewrite !set_there by assumption. apply J.
  Qed.
  Lemma runs_inv es s : runs es s -> lock_inv s.
  Proof.
    intros H. remember lock_start as s0. induction H as [s|s s' s'' t es es' H IH St]; [subst; split; discriminate|].
    exact (step_inv _ _ _ _ (IH Heqs0) St).
  Qed.
  Lemma runs_app_seq cs cs' : forall o, fst (ho_runs p o (cs ++ cs')) = fst (ho_runs p o cs) ++ fst (ho_runs p (snd (ho_runs p o cs)) cs')
    /\ snd (ho_runs p o (cs ++ cs')) = snd (ho_runs p (snd (ho_runs p o cs)) cs').
  Proof.
    induction cs as [|c cs IH]; intros o; [split; reflexivity|]. cbn [app ho_runs]. destruct (ho_run p o c) as [r o1].
    specialize (IH o1). destruct (ho_runs p o1 (cs ++ cs')) as [rs o2], (ho_runs p o1 cs) as [rs' o3]. cbn in *. destruct IH as [-> ->]. split; reflexivity.
  Qed.
  Definition state_of (b : bool) : hall_object := {| ho_n := n; ho_inner := h; ho_poisoned := b |}.
  Lemma one_call c b : ho_run p (state_of b) c = (locked_call p n h c b, state_of (b || poisons c (locked_call p n h c b))).
  Proof. destruct c, b; reflexivity || (cbn; unfold poisons; cbn; rewrite ?orb_false_r; reflexivity). Qed.
  Lemma lin es s : runs es s ->
    map result_of (returned es) = fst (ho_runs p start (map call_of (returned es)))
    /\ snd (ho_runs p start (map call_of (returned es))) = state_of (ls_poisoned s).
  Proof.
    intros H. remember lock_start as s0. induction H as [s|s s' s'' t es es' H IH St]; [subst; split; reflexivity|]. subst s. specialize (IH eq_refl).
    pose proof (runs_inv _ _ H) as [I _]. unfold returned in *. rewrite flat_map_app.
    destruct St as [c E|c E F|c b r E Er]; cbn [flat_map app]; rewrite ?app_nil_r; [exact IH|exact IH|].
    rewrite !map_app. cbn [map call_of result_of fst snd]. destruct IH as [A B].
    destruct (runs_app_seq (map call_of (flat_map (fun e => match e with EReturn t c r => [(t, c, r)] | ECall _ _ => [] end) es)) [c] start) as [X Y].
    rewrite X, Y, B, <- A. cbn [ho_runs]. rewrite one_call. rewrite (I _ _ _ E) in Er. rewrite Er. split; reflexivity.
  Qed.

  Lemma open_app t es e : open_call t (es ++ [e]) = match e with
      | ECall u c => if Nat.eqb u t then Some c else open_call t es | EReturn u _ _ => if Nat.eqb u t then None else open_call t es end.
  Proof. unfold open_call. rewrite fold_left_app. reflexivity. Qed.
  Definition open_pc (c : hpc) : option ho_call := match c with HOut => None | HWaiting c | HHolds c _ => Some c end.
  Lemma bracket_snoc es e : well_bracketed es -> match e with ECall t _ => open_call t es = None | EReturn t c _ => open_call t es = Some c end ->
    well_bracketed (es ++ [e]).
  Proof.
    intros W H b x a E. destruct a as [|y a] using rev_ind.
    - change (b ++ [x]) with (b ++ [x]) in E. apply app_inj_tail in E. destruct E as [<- <-]. exact H.
    - rewrite app_comm_cons, app_assoc in E. apply app_inj_tail in E. destruct E as [E _]. exact (W _ _ _ E).
  Qed.
  Lemma brackets es s : runs es s -> well_bracketed es /\ forall t, open_call t es = open_pc (ls_pc s t).
  Proof.
    intros H. remember lock_start as s0. induction H as [s|s s' s'' t es es' H IH St].
    - subst. split; [|reflexivity]. intros b e a E. destruct b; discriminate.
    - specialize (IH Heqs0). destruct IH as [W O]. destruct St as [c E|c E F|c b r E Er].
      + split; [apply bracket_snoc; [exact W|rewrite O, E; reflexivity]|]. intros u. rewrite open_app, O.
        destruct (Nat.eqb_spec t u) as [->|N]; [rewrite set_here; reflexivity|rewrite set_there by congruence; reflexivity].
      + rewrite app_nil_r. split; [exact W|]. intros u. rewrite O.
        destruct (Nat.eq_dec u t) as [->|N]; [rewrite set_here, E; reflexivity|rewrite set_there by exact N; reflexivity].
      + split; [apply bracket_snoc; [exact W|rewrite O, E; reflexivity]|]. intros u. rewrite open_app, O.
        destruct (Nat.eqb_spec t u) as [->|N]; [rewrite set_here; reflexivity|rewrite set_there by congruence; reflexivity].
  Qed.
  Lemma runs_trans s es s' es' s'' : lock_runs p n h s es s' -> lock_runs p n h s' es' s'' -> lock_runs p n h s (es ++ es') s''.
  Proof.
    intros H G. induction G as [s'|s' x y t e e' G IH St]; [rewrite app_nil_r; exact H|].
    rewrite app_assoc. exact (lock_next _ _ _ _ _ _ _ _ _ (IH H) St).
  Qed.
  Lemma run_one s t es s' : lock_step p n h s t es s' -> lock_runs p n h s es s'.
  Proof. intros H. exact (lock_next p n h s s s' t [] es (lock_done _ _ _ _) H). Qed.
  Lemma front s t e s' es s'' : lock_step p n h s t e s' -> lock_runs p n h s' es s'' -> lock_runs p n h s (e ++ es) s''.
  Proof. intros H. exact (runs_trans _ _ _ _ _ (run_one _ _ _ _ H)). Qed.
  Lemma front_call s t c es s' q : ls_poisoned s = q -> ls_pc s t = HOut -> lock_runs p n h (ls_set s t (HWaiting c) q) es s' ->
    lock_runs p n h s (ECall t c :: es) s'.
  Proof. intros <- H. apply (front _ t [ECall t c]). apply lock_call, H. Qed.
  Lemma front_take s t c es s' q : ls_poisoned s = q -> ls_pc s t = HWaiting c -> (forall u, u <> t -> compatible c (ls_pc s u) = true) ->
    lock_runs p n h (ls_set s t (HHolds c q) q) es s' -> lock_runs p n h s es s'.
  Proof. intros <- H F. apply (front _ t []). apply lock_take; assumption. Qed.
  Lemma front_return s t c b r es s' q : ls_pc s t = HHolds c b -> locked_call p n h c b = r -> ls_poisoned s || poisons c r = q ->
    lock_runs p n h (ls_set s t HOut q) es s' -> lock_runs p n h s (EReturn t c r :: es) s'.
  Proof. intros H E <-. apply (front _ t [EReturn t c r]). apply lock_return with b; assumption. Qed.
  (** only finitely many threads are in a method *)
  Lemma finite_threads es s : runs es s -> exists ts, forall t, ~ In t ts -> ls_pc s t = HOut.
  Proof.
    intros H. remember lock_start as s0. induction H as [s|s s' s'' t es es' H IH St]; [subst; exists []; reflexivity|].
    destruct (IH Heqs0) as [ts Hts]. exists (t :: ts). intros u Hu. cbn in Hu.
    assert (u <> t) by intuition congruence. assert (E : ls_pc s' u = HOut) by (apply Hts; tauto).
    destruct St; rewrite set_there by assumption; exact E.
  Qed.
  (** those with a guard return *)
  Lemma drop_guards ts : forall s, exists es s', lock_runs p n h s es s' /\ no_calls es
    /\ (forall t c b, In t ts -> ls_pc s' t <> HHolds c b)
    /\ (forall t, ls_pc s' t = ls_pc s t \/ ls_pc s' t = HOut /\ exists c b, ls_pc s t = HHolds c b).
  Proof.
    induction ts as [|t ts IH]; intros s.
    - exists [], s. split; [constructor|]. split; [constructor|]. split; [intros t c b []|auto].
    - destruct (ls_pc s t) as [|c|c b] eqn:E.
      + destruct (IH s) as (es & s' & R & N & A & B). exists es, s'. repeat split; auto. intros u c b [<-|Hu]; [|apply A, Hu].
        destruct (B t) as [X|[X _]]; rewrite X; congruence.
      + destruct (IH s) as (es & s' & R & N & A & B). exists es, s'. repeat split; auto. intros u c' b [<-|Hu]; [|apply A, Hu].
        destruct (B t) as [X|[X _]]; rewrite X; congruence.
      + set (s1 := ls_set s t HOut (ls_poisoned s || poisons c (locked_call p n h c b))).
        assert (St : lock_step p n h s t [EReturn t c (locked_call p n h c b)] s1) by (apply lock_return with b; auto).
        destruct (IH s1) as (es & s' & R & N & A & B). exists ([EReturn t c (locked_call p n h c b)] ++ es), s'.
        split; [exact (runs_trans _ _ _ _ _ (run_one _ _ _ _ St) R)|]. split; [constructor; [exact I|exact N]|]. split.
        * intros u c' b' [<-|Hu]; [|apply A, Hu]. destruct (B t) as [X|[X _]]; rewrite X; [|discriminate]. unfold s1. rewrite set_here. discriminate.
        * intros u. destruct (Nat.eq_dec u t) as [->|M].
          -- right. split; [|eauto]. destruct (B t) as [X|[X _]]; [rewrite X; apply set_here|exact X].
          -- specialize (B u). unfold s1 in B. rewrite set_there in B by exact M. exact B.
  Qed.
  (** with no guard around, those who wait take theirs and return, one after the other *)
  Lemma serve ts : forall s, (forall t c b, ls_pc s t <> HHolds c b) -> (forall t, ~ In t ts -> ls_pc s t = HOut) ->
    exists es s', lock_runs p n h s es s' /\ no_calls es /\ forall t, ls_pc s' t = HOut.
  Proof.
    induction ts as [|t ts IH]; intros s F O.
    - exists [], s. split; [constructor|]. split; [constructor|]. intros t. apply O. intros [].
    - destruct (ls_pc s t) as [|c|c b] eqn:E; [| |elim (F _ _ _ E)].
      + apply IH; [exact F|]. intros u Hu. destruct (Nat.eq_dec u t) as [->|M]; [exact E|apply O]. cbn. intuition congruence.
      + set (s1 := ls_set s t (HHolds c (ls_poisoned s)) (ls_poisoned s)).
        assert (S1 : lock_step p n h s t [] s1).
        { apply lock_take; [exact E|]. intros u _. destruct (ls_pc s u) eqn:Eu; try reflexivity. elim (F _ _ _ Eu). }
        set (r := locked_call p n h c (ls_poisoned s)). set (s2 := ls_set s1 t HOut (ls_poisoned s1 || poisons c r)).
        assert (S2 : lock_step p n h s1 t [EReturn t c r] s2) by (apply lock_return with (ls_poisoned s); [apply set_here|reflexivity]).
        assert (P2 : forall u, ls_pc s2 u = if Nat.eqb u t then HOut else ls_pc s u).
        { intros u. destruct (Nat.eqb_spec u t) as [->|M]; [apply set_here|]. unfold s2, s1. rewrite !set_there by exact M. reflexivity. }
        destruct (IH s2) as (es & s' & R & N & A).
        * intros u c' b. rewrite P2. destruct (Nat.eqb u t); [discriminate|apply F].
        * intros u Hu. rewrite P2. destruct (Nat.eqb_spec u t) as [->|M]; [reflexivity|]. apply O. cbn. intuition congruence.
        * exists ([] ++ [EReturn t c r] ++ es), s'. split; [|split; [constructor; [exact I|exact N]|exact A]].
          exact (runs_trans _ _ _ _ _ (run_one _ _ _ _ S1) (runs_trans _ _ _ _ _ (run_one _ _ _ _ S2) R)).
  Qed.
  Lemma all_return es s : runs es s -> exists es' s', lock_runs p n h s es' s' /\ no_calls es' /\ forall t, ls_pc s' t = HOut.
  Proof.
    intros H. destruct (finite_threads _ _ H) as [ts Hts]. destruct (drop_guards ts s) as (e1 & s1 & R1 & N1 & A1 & B1).
    destruct (serve ts s1) as (e2 & s2 & R2 & N2 & A2).
    - intros t c b X. destruct (in_dec Nat.eq_dec t ts) as [Hi|Hi]; [exact (A1 _ _ _ Hi X)|].
      destruct (B1 t) as [Y|[Y _]]; rewrite Y in X; [rewrite (Hts t Hi) in X|]; discriminate.
    - intros t Hi. destruct (B1 t) as [Y|[Y _]]; rewrite Y; [apply Hts, Hi|reflexivity].
    - exists (e1 ++ e2), s2. split; [exact (runs_trans _ _ _ _ _ R1 R2)|]. split; [apply Forall_app; split; assumption|exact A2].
  Qed.
  (** while calls are open, one of those threads can go on *)
  Lemma can_step es s t : runs es s -> ls_pc s t <> HOut -> exists u e s', ls_pc s u <> HOut /\ lock_step p n h s u e s'.
  Proof.
    intros H Ht. destruct (finite_threads _ _ H) as [ts Hts].
    assert (D : (exists u c b, In u ts /\ ls_pc s u = HHolds c b) \/ forall u c b, In u ts -> ls_pc s u <> HHolds c b).
    { clear. induction ts as [|u ts [(v & c & b & Hv & E)|IH]]; [right; intros u c b []|left; exists v, c, b; split; [right; exact Hv|exact E]|].
      destruct (ls_pc s u) as [|c|c b] eqn:E; [right|right|left; exists u, c, b; split; [left; reflexivity|exact E]];
        intros v c' b' [<-|Hv]; try congruence; apply IH, Hv. }
    destruct D as [(u & c & b & _ & E)|D].
    - exists u. eexists. eexists. split; [rewrite E; discriminate|]. apply lock_return with b; [exact E|reflexivity].
    - assert (F : forall u c b, ls_pc s u <> HHolds c b).
      { intros u c b X. destruct (in_dec Nat.eq_dec u ts) as [Hi|Hi]; [exact (D _ _ _ Hi X)|]. rewrite (Hts u Hi) in X. discriminate. }
      destruct (ls_pc s t) as [|c|c b] eqn:E; [contradiction| |elim (F _ _ _ E)].
      exists t. eexists. eexists. split; [rewrite E; discriminate|]. apply lock_take with (c := c); [exact E|].
      intros u _. destruct (ls_pc s u) eqn:Eu; try reflexivity. elim (F _ _ _ Eu).
  Qed.
End Lock.

(** * C119 *)
(** Linearizable: the calls return what they would return one after the other, in the order of their returns. *)
Lemma c119_linearizable : forall p n h es s, lock_runs p n h lock_start es s ->
  map result_of (returned es) = fst (ho_runs p (ho_new n h) (map call_of (returned es)))
  /\ ls_poisoned s = ho_poisoned (snd (ho_runs p (ho_new n h) (map call_of (returned es)))).
Proof. intros p n h es s H. destruct (lin p n h es s H) as [A B]. split; [exact A|rewrite B; reflexivity]. Qed.
(** What returns to a thread is the call it made last. *)
Lemma c119_own_calls : forall p n h es s, lock_runs p n h lock_start es s ->
  well_bracketed es /\ forall t, open_call t es = None <-> ls_pc s t = HOut.
Proof.
  intros p n h es s H. destruct (brackets p n h es s H) as [W O]. split; [exact W|]. intros t. rewrite O.
  destruct (ls_pc s t); cbn; split; congruence.
Qed.
(** While grow_up has the lock nobody else does. *)
Lemma c119_exclusive : forall p n h es s t u d b c b', lock_runs p n h lock_start es s ->
  ls_pc s t = HHolds (QGrow d) b -> ls_pc s u = HHolds c b' -> t = u.
Proof. intros p n h es s t u d b c b' H E F. exact (proj2 (runs_inv p n h es s H) _ _ _ _ _ _ E F eq_refl). Qed.
(** No deadlock. *)
Lemma c119_no_deadlock : forall p n h es s t c, lock_runs p n h lock_start es s -> open_call t es = Some c ->
  exists u c' e s', open_call u es = Some c' /\ lock_step p n h s u e s'.
Proof.
  intros p n h es s t c H E. destruct (brackets p n h es s H) as [_ O]. rewrite O in E.
  destruct (can_step p n h es s t H) as (u & e & s' & Hu & St); [destruct (ls_pc s t); discriminate|].
  destruct (open_pc (ls_pc s u)) as [c'|] eqn:Eu; [|destruct (ls_pc s u); cbn in Eu; congruence].
  exists u, c', e, s'. rewrite O. auto.
Qed.
(** Whatever has happened, all open calls can return without another call being made. *)
Lemma c119_all_return : forall p n h es s, lock_runs p n h lock_start es s ->
  exists es' s', lock_runs p n h s es' s' /\ no_calls es' /\ forall t, open_call t (es ++ es') = None.
Proof.
  intros p n h es s H. destruct (all_return p n h es s H) as (es' & s' & R & N & A). exists es', s'. split; [exact R|]. split; [exact N|].
  intros t. rewrite (proj2 (brackets p n h _ s' (runs_trans p n h _ _ _ _ _ H R)) t), A. reflexivity.
Qed.
(** On an object as get_hall_set makes it: until a grow_up returns, every query is answered as if it were the only call;
    the first grow_up that returns panics; whatever returns after that returns an error. *)
Lemma c119_answers : forall p f n pre o es s, n < 2 ^ 32 -> degree_arg pre < 2 ^ 32 -> new_object p f n pre = Ret o ->
  lock_runs p n (ho_inner o) lock_start es s -> Forall (fun x => good_call (call_of x)) (returned es) ->
  exists queries rest, returned es = queries ++ rest
    /\ Forall (fun x => is_grow (call_of x) = false /\ (exists a, result_of x = Ret a) /\ fst (ho_runs p o [call_of x]) = [result_of x]) queries
    /\ match rest with
       | [] => True
       | x :: rest => is_grow (call_of x) = true /\ result_of x = Panic
                      /\ Forall (fun y => result_of y = Ret (inr (if is_grow (call_of y) then HallSetWriteError else HallSetReadError))) rest
       end.
Proof.
  intros p f n pre o es s Hn Hd Ho H G. destruct (object_fresh p f n pre o Hn Hd Ho) as (h & E & _).
  assert (A : map result_of (returned es) = fst (ho_runs p o (map call_of (returned es)))).
  { rewrite E in H |- *. exact (proj1 (lin p n h es s H)). }
  assert (P : ho_poisoned o = false) by (rewrite E; reflexivity).
  clear H E. revert A G. induction (returned es) as [|x l IH]; intros A G; [exists [], []; auto|].
  inversion_clear G as [|? ? Gx Gl]. cbn [map ho_runs] in A. destruct (is_grow (call_of x)) eqn:Ex.
  - exists [], (x :: l). split; [reflexivity|]. split; [constructor|]. split; [exact Ex|].
    destruct (call_of x) as [| | | | |d] eqn:Ec; try discriminate Ex. unfold ho_run in A. rewrite P in A. cbn [hi_trait_grow_up] in A.
    rewrite poisoned_after in A by reflexivity. injection A as A1 A2. split; [exact A1|]. revert A2. clear.
    induction l as [|y l IH]; intros A; [constructor|]. injection A as A1 A2. constructor; [exact A1|exact (IH A2)].
  - destruct (c76_before p f n pre o [call_of x] Hn Hd Ho) as (an & E1 & E2); [repeat constructor; assumption|repeat constructor; assumption|].
    inversion E2 as [|? a ? ? E3 E4]; subst. inversion E4; subst. clear E1 E2 E4.
    assert (Q : ho_run p o (call_of x) = (Ret a, o)).
    { cbn [ho_runs] in E3. destruct (ho_run p o (call_of x)) as [r o1] eqn:Er. injection E3 as ->.
      destruct (call_of x); try discriminate; unfold ho_run in Er; injection Er as E5 <-; reflexivity. }
    rewrite Q in A. destruct (ho_runs p o (map call_of l)) as [rs o2] eqn:Es. injection A as A1 A2.
    destruct (IH A2 Gl) as (qs & rest & -> & F & M). exists (x :: qs), rest. split; [reflexivity|]. split; [|exact M].
    constructor; [|exact F]. split; [exact Ex|]. split; [eauto|]. rewrite E3, A1. reflexivity.
Qed.

(** threads 1, 2 and 3 call at the same time; thread 1 is answered, the grow_up of thread 2 panics, thread 3 gets the error *)
Definition example_events (r : outcome (ho_value + hs_error)) : list hevent :=
  [ECall 1 (QRange 1); ECall 2 (QGrow 5); ECall 3 (QKey 0); ECall 4 (QIsLetter 5); EReturn 4 (QIsLetter 5) (Ret (inl (VBool true)));
   EReturn 1 (QRange 1) r; EReturn 2 (QGrow 5) Panic; EReturn 3 (QKey 0) (Ret (inr HallSetReadError)); ECall 3 (QGrow 1)]%nat.
(** the Hall set of the example, and where the threads are at the end *)
Definition example_set : hall_inner := {| hi_current_degree := 4; hi_set := [(0, 0)]; hi_degrees := [0; 12; 78] |}.
Definition example_state : lock_state :=
  fold_left (fun s '(t, c, b) => ls_set s t c b)
    [(1%nat, HWaiting (QRange 1), false); (2%nat, HWaiting (QGrow 5), false); (3%nat, HWaiting (QKey 0), false); (4%nat, HWaiting (QIsLetter 5), false); (1%nat, HHolds (QRange 1) false, false); (4%nat, HHolds (QIsLetter 5) false, false); (4%nat, HOut, false); (1%nat, HOut, false); (2%nat, HHolds (QGrow 5) false, false); (2%nat, HOut, true); (3%nat, HHolds (QKey 0) true, true); (3%nat, HOut, true); (3%nat, HWaiting (QGrow 1), true)] lock_start.
Lemma example_runs : lock_runs dev 12 example_set lock_start (example_events (Ret (inl (VRange 12 78)))) example_state.
Proof.
  Local Ltac go := intros ? ?; cbn [ls_set ls_pc lock_start]; repeat (match goal with |- context [Nat.eqb ?x ?y] => destruct (Nat.eqb x y) end); reflexivity.
  unfold example_state. cbn [fold_left].
  unfold example_events. do 4 (apply front_call with false; [reflexivity|reflexivity|]).
  apply (front_take _ _ _ _ 1%nat (QRange 1) _ _ false); [reflexivity|reflexivity|go|]. apply (front_take _ _ _ _ 4%nat (QIsLetter 5) _ _ false); [reflexivity|reflexivity|go|].
  apply front_return with false false; [reflexivity|vm_compute; reflexivity|reflexivity|]. apply front_return with false false; [reflexivity|vm_compute; reflexivity|reflexivity|].
  apply (front_take _ _ _ _ 2%nat (QGrow 5) _ _ false); [reflexivity|reflexivity|go|]. apply front_return with false true; [reflexivity|vm_compute; reflexivity|reflexivity|].
  apply (front_take _ _ _ _ 3%nat (QKey 0) _ _ true); [reflexivity|reflexivity|go|]. apply front_return with true true; [reflexivity|vm_compute; reflexivity|reflexivity|].
  apply front_call with true; [reflexivity|reflexivity|]. apply lock_done.
Qed.
Example c119_example : exists o s, new_object dev 60 12 (Some 4) = Ret o
  /\ lock_runs dev 12 (ho_inner o) lock_start (example_events (Ret (inl (VRange 12 78)))) s
  /\ ls_poisoned s = true /\ ls_pc s 3%nat = HWaiting (QGrow 1)
  /\ Forall (fun x => good_call (call_of x)) (returned (example_events (Ret (inl (VRange 12 78))))).
Proof.
  exists (ho_new 12 example_set), example_state.
  split; [vm_compute; reflexivity|]. split; [exact example_runs|]. split; [reflexivity|]. split; [reflexivity|].
  unfold example_events, returned. cbn [flat_map app]. repeat (apply Forall_cons; [first [exact I | reflexivity]|]). apply Forall_nil.
Qed.
