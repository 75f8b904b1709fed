(** Lemmas on the model of hall_set.rs. *)
From Verif Require Import Machine MachineLemmas S_Hall L_Moebius M_DegreeRange M_HallKey M_HallSet L_HallSize L_HallSums L_HallMap.
Local Open Scope N_scope.

(** ** HallSetInner::new *)
Lemma start_large n : 2 <= n <= 10 -> 7 <= starting_size_for_width n.
Proof.
  intros Hn. unfold starting_size_for_width. destruct (N.eqb_spec n 2); [lia|].
  destruct ((3 <=? n) && (n <=? 5)) eqn:E1; [lia|]. destruct ((6 <=? n) && (n <=? 10)) eqn:E2; [lia|].
  destruct (N.leb_spec 3 n), (N.leb_spec n 5), (N.leb_spec 6 n), (N.leb_spec n 10); cbn in *; try lia; try discriminate.
Qed.
Lemma start_small n : n < 2 \/ 10 < n -> starting_size_for_width n = if (11 <=? n) && (n <=? 20) then 3 else 2.
Proof.
  intros Hn. unfold starting_size_for_width. destruct (N.eqb_spec n 2); [lia|].
  destruct (N.leb_spec 3 n), (N.leb_spec n 5); cbn [andb]; try lia;
  destruct (N.leb_spec 6 n), (N.leb_spec n 10); cbn [andb]; try lia; reflexivity.
Qed.
Lemma hi_new_never p n : 2 <= n <= 10 -> never_returns (fun f => hi_new p f n).
Proof.
  intros Hn f h H. unfold hi_new in H. destruct (drm_new p f n (starting_size_for_width n)) as [m| | |] eqn:E; try discriminate.
  apply new_never in E; [exact E|apply start_large, Hn].
Qed.
(** the two or three entries of the map *)
Definition start_degrees (n : N) : drm := if (11 <=? n) && (n <=? 20) then [0; n; n + (n * n - n) / 2] else [0; n].
Lemma size_0 p f n : hall_set_size p f n 0 = Ret 0.
Proof. reflexivity. Qed.
Lemma size_1 p f n : (30 <= f)%nat -> n < 2 ^ 32 -> hall_set_size p f n 1 = Ret n.
Proof.
  intros Hf Hn. rewrite (size_ok p f n 1 Hf ltac:(lia) Hn) by (change (Z.of_N 1) with 1%Z; rewrite Z.pow_1_r; lia).
  rewrite levels_cons, levels_nil by lia. cbn [level_value]. f_equal. lia.
Qed.
Lemma size_2 p f n : (30 <= f)%nat -> n <= 20 -> hall_set_size p f n 2 = Ret (n + (n * n - n) / 2).
Proof.
  intros Hf Hn.
  assert (P : (Z.of_N n ^ Z.of_N 2 < 2 ^ 63)%Z) by (change (Z.of_N 2) with 2%Z; rewrite Z.pow_2_r; nia).
  rewrite (size_ok p f n 2 Hf ltac:(lia) ltac:(lia) P).
  rewrite (levels_cons _ 1 2), (levels_cons _ (1 + 1) 2), levels_nil by lia. change (1 + 1) with 2. f_equal.
  pose proof (level_value_eq 2 (Z.of_N n) ltac:(lia) ltac:(lia)) as E. cbn [N.eqb Pos.eqb] in E. change (Z.of_N 2) with 2%Z in E. rewrite Z.pow_2_r in E.
  change (level_value 1 (Z.of_N n)) with (Z.of_N n). set (v := level_value 2 (Z.of_N n)) in *. clearbody v.
  assert (Q : (n * n - n) = Z.to_N v * 2).
  { apply N2Z.inj. rewrite N2Z.inj_mul, N2Z.inj_sub by nia. rewrite Z2N.id by nia. rewrite N2Z.inj_mul. lia. }
  rewrite Q, N.div_mul by lia. rewrite Z.add_0_r. assert (0 <= v)%Z by nia. lia.
Qed.
Lemma hi_new_ok p f n : (30 <= f)%nat -> n < 2 ^ 32 -> n < 2 \/ 10 < n ->
  hi_new p f n = Ret {| hi_current_degree := 0; hi_set := [(0, 0)]; hi_degrees := start_degrees n |}.
Proof.
  intros Hf Hn H. unfold hi_new. rewrite start_small by exact H. unfold start_degrees, drm_new.
  destruct ((11 <=? n) && (n <=? 20)) eqn:E.
  - change (range 0 3) with [0; 1; 2]. cbn [for_each]. rewrite size_0. cbn [bind]. rewrite size_1 by assumption. cbn [bind].
    rewrite size_2 by lia. reflexivity.
  - change (range 0 2) with [0; 1]. cbn [for_each]. rewrite size_0. cbn [bind]. rewrite size_1 by assumption. reflexivity.
Qed.
(** the inherent grow_up only counts *)
Lemma grow_up_ok p f h d : (N.to_nat (d - hi_current_degree h) < f)%nat -> d < 2 ^ 32 ->
  hi_grow_up p f h d = Ret {| hi_current_degree := N.max (hi_current_degree h) d; hi_set := hi_set h; hi_degrees := hi_degrees h |}.
Proof.
  revert h; induction f as [|f IH]; intros h Hf Hd; [lia|]. cbn [hi_grow_up].
  destruct (N.ltb_spec (hi_current_degree h) d) as [Hlt|Hge].
  - unfold uadd. rewrite (proj2 (N.ltb_lt _ _)) by lia. cbn [bind]. rewrite IH by (cbn [hi_current_degree]; lia).
    cbn [hi_current_degree hi_set hi_degrees]. f_equal. f_equal. lia.
  - destruct h as [c s m]. cbn [hi_current_degree hi_set hi_degrees] in *. f_equal. f_equal. lia.
Qed.
(** a Hall set made by new and the inherent grow_up *)
Definition fresh_inner (n : N) (h : hall_inner) : Prop :=
  n < 2 ^ 32 /\ (n < 2 \/ 10 < n) /\ hi_set h = [(0, 0)] /\ hi_degrees h = start_degrees n.
(** degree of key 0 as find_deg sees it *)
Definition zero_degree (n : N) : N := if n =? 0 then 2 else 1.
Lemma fresh_degree_0 n h : fresh_inner n h -> hi_degree h 0 = Some (zero_degree n).
Proof.
  intros (Hn & Hr & Hs & Hd). unfold hi_degree. rewrite Hd. unfold start_degrees, zero_degree.
  destruct ((11 <=? n) && (n <=? 20)) eqn:E.
  - assert (R : 11 <= n <= 20) by lia. unfold drm_find_deg. cbn [rev app partition_point].
    destruct (N.ltb_spec (n + (n * n - n) / 2) 0); [lia|]. change (0 <=? 0) with true. cbv iota.
    destruct (N.leb_spec n 0); [lia|]. destruct (N.eqb_spec n 0); [lia|]. reflexivity.
  - unfold drm_find_deg. cbn [rev app partition_point]. destruct (N.ltb_spec n 0); [lia|]. change (0 <=? 0) with true. cbv iota.
    destruct (N.eqb_spec n 0) as [->|H0]; [reflexivity|]. destruct (N.leb_spec n 0); [lia|]. reflexivity.
Qed.
Lemma fresh_parents n h k : fresh_inner n h -> hi_get_parents h k = if k =? 0 then Some (0, 0) else None.
Proof.
  intros (Hn & Hr & Hs & Hd). unfold hi_get_parents, slice_get. rewrite Hs. destruct (N.eqb_spec k 0) as [->|H0]; [reflexivity|].
  destruct (N.to_nat k) as [|[|i]] eqn:E; try reflexivity. lia.
Qed.
Lemma fresh_details n h k : fresh_inner n h ->
  let answer := Ret (if k =? 0 then inl (0, 0, 0, zero_degree n) else inr HallSetTooSmall) in
  hi_key_details h k = answer /\ hi_lparent_details h k = answer /\ hi_rparent_details h k = answer.
Proof.
  intros H. cbv zeta. unfold hi_key_details, hi_lparent_details, hi_rparent_details. rewrite (fresh_parents n h k H).
  destruct (N.eqb_spec k 0) as [->|H0]; [|auto]. rewrite (fresh_parents n h 0 H). change (0 =? 0) with true. cbv iota.
  cbn [unwrap bind fst snd]. rewrite (fresh_degree_0 n h H). cbn [unwrap bind]. auto.
Qed.
Lemma degree_range_ok p h d : d < 2 ^ 32 -> len (hi_degrees h) < 2 ^ 32 -> hi_degree_range p h d =
  Ret (match slice_get (hi_degrees h) d, slice_get (hi_degrees h) (d + 1) with
       | Some a, Some b => inl (a, b) | _, _ => inr HallSetTooSmall end).
Proof.
  intros Hd Hl. unfold hi_degree_range, drm_get. destruct (slice_get (hi_degrees h) d) as [a|] eqn:E; [|reflexivity].
  assert (d < len (hi_degrees h)).
  { unfold slice_get, len in *. assert (nth_error (hi_degrees h) (N.to_nat d) <> None) as Q by congruence. apply nth_error_Some in Q. lia. }
  unfold uadd. rewrite (proj2 (N.ltb_lt (d + 1) (2 ^ 32))) by lia. cbn [bind]. destruct (slice_get (hi_degrees h) (d + 1)); reflexivity.
Qed.

(** ** The cache *)
Definition no_hit (c : pc) : Prop :=
  match c with Cloned _ _ | HasWrite _ _ | Returning _ _ | Returned _ _ => False | _ => True end.
Definition cache_inv (s : cache_state) : Prop :=
  (forall t, no_hit (cs_pc s t)) /\ (forall n, cs_cache s n = None) /\ cs_poisoned s = false.
Lemma inv_set s t c : cache_inv s -> no_hit c -> cache_inv (set_pc s t c).
Proof.
  intros (H1 & H2 & H3) Hc. split; [|split; assumption]. intros u. cbn. destruct (Nat.eqb u t); [exact Hc|apply H1].
Qed.
Lemma inv_step p mp s t s' : cache_inv s -> step p mp s t s' -> cache_inv s'.
Proof.
  intros I H. pose proof I as (H1 & H2 & H3). specialize (H1 t).
  destruct H; try (apply inv_set; [exact I|exact Logic.I]);
    try (match goal with E : cs_pc s t = _ |- _ => rewrite E in H1; destruct H1 end);
    try (match goal with E : cs_cache s _ = Some _ |- _ => rewrite H2 in E; discriminate end).
  match goal with E : cs_pc s t = AtWrite _ _, R : forall u, holds_read _ = false |- _ => specialize (R t); rewrite E in R; discriminate end.
Qed.
Lemma inv_reaches p mp s s' : cache_inv s -> reaches p mp s s' -> cache_inv s'.
Proof. intros I H. induction H; [exact I|]. eapply inv_step; [apply IHreaches, I|eassumption]. Qed.
Lemma inv_start : cache_inv cache_start.
Proof. repeat split. Qed.
Lemma reaches_trans p mp s1 s2 s3 : reaches p mp s1 s2 -> reaches p mp s2 s3 -> reaches p mp s1 s3.
Proof. intros H1 H2. induction H2; [exact H1|]. econstructor; [apply IHreaches; exact H1|eassumption]. Qed.
Lemma at_write_steps p mp s t n o s' : cs_pc s t = AtWrite n o -> step p mp s t s' -> mp = true /\ s' = set_pc s t Unwound.
Proof.
  intros E H. destruct H; try congruence.
  - match goal with R : forall u, holds_read _ = false |- _ => specialize (R t); rewrite E in R; discriminate end.
  - match goal with R : forall u, holds_read _ = false |- _ => specialize (R t); rewrite E in R; discriminate end.
  - auto.
Qed.
Lemma other_pc p mp s t u s' : step p mp s t s' -> u <> t -> cs_pc s' u = cs_pc s u.
Proof. intros H Hne. destruct H; cbn; rewrite (proj2 (Nat.eqb_neq u t)) by exact Hne; reflexivity. Qed.
Lemma at_write_stuck p s t n o s' : cs_pc s t = AtWrite n o -> reaches p false s s' -> cs_pc s' t = AtWrite n o.
Proof.
  intros E H. induction H; [exact E|]. specialize (IHreaches E). destruct (Nat.eq_dec t t0) as [<-|Hne].
  - destruct (at_write_steps _ _ _ _ _ _ _ IHreaches H0). discriminate.
  - rewrite (other_pc _ _ _ _ _ _ H0 Hne). exact IHreaches.
Qed.
Lemma new_object_never p n pre f : 2 <= n <= 10 -> new_object p f n pre = Diverge.
Proof.
  intros Hn. unfold new_object, hi_new. rewrite (new_never_ends p n _ (start_large n Hn)); [reflexivity|].
  assert (Z.of_N n ^ 6 <= 10 ^ 6)%Z by (apply Z.pow_le_mono_l; lia). assert (10 ^ 6 < 2 ^ 63)%Z by reflexivity. lia.
Qed.
Lemma creating_stuck p mp s t n pre s' : 2 <= n <= 10 -> cs_pc s t = Creating n pre -> reaches p mp s s' -> cs_pc s' t = Creating n pre.
Proof.
  intros Hn E H. induction H; [exact E|]. specialize (IHreaches E). destruct (Nat.eq_dec t t0) as [<-|Hne].
  - destruct H0; try congruence; rewrite IHreaches in *; match goal with Q : Creating _ _ = Creating _ _ |- _ => injection Q as <- <- end;
      rewrite new_object_never in * by exact Hn; discriminate.
  - rewrite (other_pc _ _ _ _ _ _ H0 Hne). exact IHreaches.
Qed.
Lemma new_object_ok p f n pre : n < 2 ^ 32 -> n < 2 \/ 10 < n -> (match pre with Some d => d | None => 1 end) < 2 ^ 32 ->
  (30 + N.to_nat (match pre with Some d => d | None => 1 end) < f)%nat ->
  exists h, new_object p f n pre = Ret (ho_new n h) /\ fresh_inner n h.
Proof.
  intros Hn Hr Hd Hf. unfold new_object. rewrite hi_new_ok by (assumption || lia). cbn [bind].
  rewrite grow_up_ok; [|cbn [hi_current_degree]; lia|exact Hd]. cbn [bind hi_set hi_degrees].
  eexists. split; [reflexivity|]. repeat split; assumption.
Qed.
