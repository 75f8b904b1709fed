(** Lemmas on sparse vectors. *)
From Verif Require Import Machine M_Scalar M_Vector S_Vector M_Sparse S_Sparse.
From stdpp Require Import gmap fin_maps fin_map_dom.

Section Sparse.
  Context {K : Type} `{Countable K} {S R : Type} (so : scalar_ops S R).
  Notation V := (gmap K S).

  Lemma for_each_ret {A St} (l : list A) (f : St -> A -> outcome St) (g : St -> A -> St) s :
    (forall s a, f s a = Ret (g s a)) -> for_each l f s = Ret (fold_left g l s).
  Proof.
    intros E. revert s. induction l as [|a l IH]; intros s; [reflexivity|]. cbn [for_each fold_left]. rewrite E. cbn [bind]. apply IH.
  Qed.

  (** entries with distinct keys, applied one after the other *)
  Lemma fold_alter (g : S -> option S -> option S) (l : list (K * S)) (m : V) k : NoDup (l.*1) ->
    fold_left (fun m e => partial_alter (g e.2) e.1 m) l m !! k
    = match (list_to_map l : V) !! k with Some v => g v (m !! k) | None => m !! k end.
  Proof.
    revert m. induction l as [|[k' v] l IH]; intros m ND; [reflexivity|]. cbn [fold_left].
    inversion ND as [|? ? Hk HND]; subst. cbn [fst snd] in *. rewrite IH by exact HND. cbn [list_to_map foldr].
    destruct (decide (k' = k)) as [->|Hne].
    - rewrite lookup_partial_alter. cbn. rewrite lookup_insert.
      rewrite not_elem_of_list_to_map_1 by exact Hk. reflexivity.
    - rewrite lookup_partial_alter_ne by exact Hne. cbn. rewrite lookup_insert_ne by exact Hne. reflexivity.
  Qed.
  Context (iter : V -> list (K * S)) (Hiter : any_order iter).
  Lemma iter_nodup m : NoDup ((iter m).*1).
  Proof. rewrite (Hiter m). apply NoDup_fst_map_to_list. Qed.
  Lemma iter_map m : (list_to_map (iter m) : V) = m.
  Proof.
    rewrite (list_to_map_proper (iter m) (map_to_list m)); [apply list_to_map_to_list|apply iter_nodup|apply Hiter].
  Qed.
  Lemma iter_alter (g : S -> option S -> option S) (x y : V) f :
    (forall m e, f m e = Ret (partial_alter (g e.2) e.1 m)) ->
    exists z, for_each (iter y) f x = Ret z
      /\ forall k, z !! k = match y !! k with Some v => g v (x !! k) | None => x !! k end.
  Proof.
    intros E. exists (fold_left (fun m e => partial_alter (g e.2) e.1 m) (iter y) x).
    split; [apply for_each_ret; exact E|]. intros k. rewrite fold_alter by apply iter_nodup. rewrite iter_map. reflexivity.
  Qed.
  Lemma alter_insert (m : V) k v : partial_alter (fun _ => Some v) k m = <[k := v]> m.
  Proof. reflexivity. Qed.
  Lemma merge_step op right (m : V) (k : K) (v : S) :
    match m !! k with
    | Some i => Ret (if s_eqb so (op i v) (s_zero so) then delete k (<[k := op i v]> m) else <[k := op i v]> m)
    | None => Ret (<[k := right v]> m)
    end = Ret (partial_alter (fun o => merged so op right o (Some v)) k m).
  Proof.
    destruct (m !! k) as [i|] eqn:E; f_equal.
    - destruct (s_eqb so (op i v) (s_zero so)) eqn:Z; apply map_eq; intros j; destruct (decide (k = j)) as [<-|Hne].
      + rewrite lookup_delete, lookup_partial_alter, E. cbn. rewrite Z. reflexivity.
      + rewrite lookup_delete_ne, lookup_insert_ne, lookup_partial_alter_ne by exact Hne. reflexivity.
      + rewrite lookup_insert, lookup_partial_alter, E. cbn. rewrite Z. reflexivity.
      + rewrite lookup_insert_ne, lookup_partial_alter_ne by exact Hne. reflexivity.
    - apply map_eq. intros j. destruct (decide (k = j)) as [<-|Hne].
      + rewrite lookup_insert, lookup_partial_alter, E. reflexivity.
      + rewrite lookup_insert_ne, lookup_partial_alter_ne by exact Hne. reflexivity.
  Qed.
  Lemma add_ok x y : exists z, sv_add_inplace so iter x y = Ret z
    /\ forall k, z !! k = merged so (s_add so) (fun v => v) (x !! k) (y !! k).
  Proof.
    destruct (iter_alter (fun v o => merged so (s_add so) (fun v => v) o (Some v)) x y
      (fun m e => let '(k, v) := e in
         match m !! k with
         | Some i => let r := s_add so i v in let m1 := <[k := r]> m in
             Ret (if s_eqb so r (s_zero so) then delete k m1 else m1)
         | None => Ret (<[k := v]> m)
         end)) as (z & E & G).
    { intros m [k v]. apply (merge_step (s_add so) (fun v => v)). }
    exists z. split; [exact E|]. intros k. rewrite G. destruct (y !! k), (x !! k); reflexivity.
  Qed.
  Lemma sub_ok x y : exists z, sv_sub_inplace so iter x y = Ret z
    /\ forall k, z !! k = merged so (s_sub so) (s_uminus so) (x !! k) (y !! k).
  Proof.
    destruct (iter_alter (fun v o => merged so (s_sub so) (s_uminus so) o (Some v)) x y
      (fun m e => let '(k, v) := e in
         match m !! k with
         | Some i => let r := s_sub so i v in let m1 := <[k := r]> m in
             Ret (if s_eqb so r (s_zero so) then delete k m1 else m1)
         | None => Ret (<[k := s_uminus so v]> m)
         end)) as (z & E & G).
    { intros m [k v]. apply (merge_step (s_sub so) (s_uminus so)). }
    exists z. split; [exact E|]. intros k. rewrite G. destruct (y !! k), (x !! k); reflexivity.
  Qed.
  Lemma for_each_mut_ok f x : sv_for_each_mut iter f x = Ret (f <$> x).
  Proof.
    destruct (iter_alter (fun v _ => Some (f v)) x x (fun m e => Ret (<[fst e := f (snd e)]> m))) as (z & E & G).
    { reflexivity. }
    unfold sv_for_each_mut. rewrite E. f_equal. apply map_eq. intros k. rewrite G, lookup_fmap. destruct (x !! k); reflexivity.
  Qed.
  Lemma from_iterator_ok (items : list (K * S)) : exists z : V, sv_from_iterator items = Ret z /\ forall k, z !! k = last_value k items.
  Proof.
    unfold sv_from_iterator.
    rewrite (for_each_ret items _ (fun inner e => <[fst e := snd e]> inner)) by reflexivity.
    eexists. split; [reflexivity|]. intros k.
    assert (G : forall m : V, fold_left (fun (inner : V) e => <[fst e := snd e]> inner) items m !! k
                = match last_value k items with Some v => Some v | None => m !! k end).
    { induction items as [|[k' v] items IH]; intros m; [reflexivity|]. cbn [fold_left last_value fst snd]. rewrite IH.
      destruct (last_value k items); [reflexivity|]. destruct (decide (k = k')) as [->|Hne].
      - apply lookup_insert.
      - apply lookup_insert_ne. congruence. }
    rewrite G. rewrite lookup_empty. destruct (last_value k items); reflexivity.
  Qed.

  (** the loop of eq *)
  Lemma eq_loop (y : V) (l : list (K * S)) (f := fun (done : option bool) (e : K * S) =>
      match done with
      | Some b => Some b
      | None => match y !! fst e with
                | Some v1 => if negb (s_eqb so v1 (snd e)) then Some false else None
                | None => Some false
                end
      end) :
    match fold_left f l None with Some b => b | None => true end = true
    <-> Forall (fun e => exists v1, y !! fst e = Some v1 /\ s_eqb so v1 (snd e) = true) l.
  Proof.
    assert (St : forall l b, fold_left f l (Some b) = Some b) by (intros l'; induction l'; intros b; [reflexivity|apply IHl']).
    induction l as [|[k v] l IH]; cbn [fold_left].
    - split; [constructor|reflexivity].
    - rewrite Forall_cons. cbn [fst snd]. unfold f at 2. cbn [fst snd]. destruct (y !! k) as [v1|].
      + destruct (s_eqb so v1 v) eqn:E; cbn [negb].
        * rewrite IH. split; [intros Q; split; [exists v1; auto|exact Q]|intros [_ Q]; exact Q].
        * rewrite St. split; [discriminate|]. intros [(v2 & E2 & E3) _]. congruence.
      + rewrite St. split; [discriminate|]. intros [(v2 & E2 & E3) _]. discriminate.
  Qed.
  Lemma eq_ok x y : sv_eq so iter x y = true <->
    size x = size y /\ forall k v, x !! k = Some v -> exists v1, y !! k = Some v1 /\ s_eqb so v1 v = true.
  Proof.
    unfold sv_eq. destruct (N.eqb_spec (N.of_nat (size x)) (N.of_nat (size y))) as [E|E]; cbn [negb].
    - rewrite eq_loop. rewrite (Hiter x), Forall_forall. split.
      + intros Q. split; [apply Nat2N.inj; exact E|]. intros k v Hk. apply (Q (k, v)). apply elem_of_map_to_list. exact Hk.
      + intros [_ Q] [k v] Hk. apply elem_of_map_to_list in Hk. exact (Q k v Hk).
    - split; [discriminate|]. intros [Q _]. congruence.
  Qed.
  (** same size and included keys: same keys *)
  Lemma eq_keys x y : sv_eq so iter x y = true <->
    forall k, match x !! k, y !! k with
              | Some a, Some b => s_eqb so b a = true
              | None, None => True
              | _, _ => False
              end.
  Proof.
    rewrite eq_ok. split.
    - intros [Hs Q] k. destruct (x !! k) as [a|] eqn:Ex.
      { destruct (Q k a Ex) as (b & -> & E). exact E. }
      destruct (y !! k) as [b|] eqn:Ey; [|exact I]. exfalso.
      assert (Sub : (dom x : gset K) ⊂ (dom y : gset K)).
      { split.
        - intros j Hj. apply elem_of_dom in Hj. destruct Hj as [a Ha]. destruct (Q j a Ha) as (c & Hc & _).
          apply elem_of_dom. exists c. exact Hc.
        - intros Sub. assert (Hk : k ∈ (dom y : gset K)) by (apply elem_of_dom; exists b; exact Ey).
          apply Sub, elem_of_dom in Hk. destruct Hk as [a Ha]. congruence. }
      apply subset_size in Sub. rewrite !size_dom in Sub. lia.
    - intros Q. split.
      + rewrite <- !(size_dom (D := gset K)). f_equal. apply set_eq. intros j. rewrite !elem_of_dom.
        specialize (Q j). unfold is_Some. destruct (x !! j), (y !! j); split; intros [? ?]; try discriminate; try contradiction; eauto.
      + intros k v Hk. specialize (Q k). rewrite Hk in Q. destruct (y !! k) as [b|]; [|contradiction]. exists b. auto.
  Qed.
End Sparse.
