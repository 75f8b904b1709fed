(** Property lemmas C123 (restated as theorems in P_ParamSparse.v). *)
From Coq Require Import QArith Qcanon Permutation.
From stdpp Require Import gmap.
From Verif Require Import Machine MachineLemmas M_Scalar M_Vector M_Dense M_Sparse S_Vector I_Scalars S_Sparse L_Sparse S_SparseHist L_PropSparse
  L_PropSparseHist S_Borrow S_Param I_Dual S_ParamSparse.
Local Open Scope N_scope.

Section Rel.
  Context {K K' : Type} `{Countable K, Countable K'} {S R S' R' : Type} (P : S -> S' -> Prop) (Q : R -> R' -> Prop) (g : K -> K')
    (so : scalar_ops S R) (so' : scalar_ops S' R') (RO : related P Q so so') (EQ : related_eq P so so') (G : forall a b, g a = g b -> a = b).
  Notation frel := (fun (f : pfun) (f' : pfun) => forall k, opt_rel P (f k) (f' (g k))).
  Lemma rel_upd (f : K -> option S) (f' : K' -> option S') k v v' : frel f f' -> opt_rel P v v' -> frel (upd f k v) (upd f' (g k) v').
  Proof.
    intros F V j. unfold upd. destruct (decide (j = k)) as [->|Ne].
    - destruct (decide (g k = g k)); [exact V|contradiction].
    - destruct (decide (g j = g k)) as [E|_]; [contradiction Ne; apply G; exact E|apply F].
  Qed.
  Lemma rel_keep v v' : P v v' -> opt_rel P (keep so v) (keep so' v').
  Proof. intros V. unfold keep. rewrite (EQ v v' _ _ V (r_zero P Q so so' RO)). destruct (s_eqb so' v' (s_zero so')); [exact I|exact V]. Qed.
  Lemma rel_pmap (f : K -> option S) (f' : K' -> option S') h h' : (forall x x', P x x' -> P (h x) (h' x')) -> frel f f' -> frel (pmap h f) (pmap h' f').
  Proof. intros Hh F k. unfold pmap. specialize (F k). destruct (f k), (f' (g k)); cbn in *; auto. Qed.
  Lemma rel_alter (f : K -> option S) (f' : K' -> option S') k h h' v v' : (forall x x', P x x' -> P (h x) (h' x')) -> P v v' -> frel f f' ->
    frel (alter_or f k h v) (alter_or f' (g k) h' v').
  Proof. intros Hh V F. unfold alter_or. refine (rel_upd _ _ k _ _ F _). specialize (F k). cbn. destruct (f k), (f' (g k)); cbn in *; auto; contradiction. Qed.
  Lemma rel_step (f : K -> option S) (f' : K' -> option S') o o' : frel f f' -> hop_rel P Q g o o' -> opt_rel frel (step so f o) (step so' f' o').
  Proof.
    intros F O. pose proof (r_uminus P Q so so' RO) as U. pose proof (r_add P Q so so' RO) as A. pose proof (r_sub P Q so so' RO) as B.
    pose proof (r_mul P Q so so' RO) as M. pose proof (r_div P Q so so' RO) as D. pose proof (r_one P Q so so' RO) as One. pose proof (r_mone P Q so so' RO) as Mone.
    destruct o, o'; cbn [hop_rel] in O; try contradiction; cbn [step opt_rel]; try exact I; try (lazymatch type of O with _ /\ _ => destruct O as [-> O] end).
    - intros k. exact I.
    - intros j. pose proof (F k) as Fk. destruct (f k), (f' (g k)); cbn in Fk; try contradiction; [apply rel_upd; assumption|apply F].
    - apply rel_upd; assumption.
    - apply rel_pmap; assumption.
    - intros k. pose proof (F k) as Fk. pose proof (O k) as Ok. destruct (f k), (f' (g k)), (y !! k), (y0 !! g k); cbn in *; auto; try contradiction.
      apply rel_keep. auto.
    - intros k. pose proof (F k) as Fk. pose proof (O k) as Ok. destruct (f k), (f' (g k)), (y !! k), (y0 !! g k); cbn in *; auto; try contradiction.
      apply rel_keep. auto.
    - rewrite (EQ s s0 _ _ O (r_zero P Q so so' RO)). destruct (s_eqb so' s0 (s_zero so')); [intros k; exact I|apply rel_pmap; auto].
    - rewrite (EQ s s0 _ _ O (r_zero P Q so so' RO)). destruct (s_eqb so' s0 (s_zero so')); [intros k; exact I|apply rel_pmap; auto].
    - apply rel_pmap; auto.
    - apply rel_pmap; auto.
    - apply rel_alter; auto.
    - apply rel_alter; auto.
    - apply rel_alter; auto.
    - apply rel_alter; auto.
  Qed.
  Lemma rel_steps os os' : Forall2 (hop_rel P Q g) os os' -> forall (f : K -> option S) (f' : K' -> option S'), frel f f' -> opt_rel frel (steps so f os) (steps so' f' os').
  Proof.
    induction 1 as [|o o' os os' O _ IH]; intros f f' F; [exact F|]. cbn [steps]. pose proof (rel_step f f' o o' F O) as X.
    destruct (step so f o), (step so' f' o'); cbn in X; try contradiction; [apply IH; exact X|exact I].
  Qed.
End Rel.

(** Histories of calls with related scalars on renamed keys end the same way with related entries, in whatever order the hash maps list theirs. *)
Lemma c123_histories : forall (K : Type) (E : EqDecision K) (C : Countable K) (K' : Type) (E' : EqDecision K') (C' : Countable K') (S R S' R' : Type)
    (P : S -> S' -> Prop) (Q : R -> R' -> Prop) (g : K -> K') (so : scalar_ops S R) (so' : scalar_ops S' R')
    (os : list ((gmap K S -> list (K * S)) * hop (gmap K S) K S R)) (os' : list ((gmap K' S' -> list (K' * S')) * hop (gmap K' S') K' S' R'))
    (x : gmap K S) (x' : gmap K' S'),
  related P Q so so' -> related_eq P so so' -> (forall a b, g a = g b -> a = b) ->
  Forall (fun e => any_order (fst e)) os -> Forall (fun e => any_order (fst e)) os' ->
  Forall2 (hop_rel P Q g) (map snd os) (map snd os') -> map_rel P g x x' ->
  same_outcome (map_rel P g) (hcalls so x os) (hcalls so' x' os').
Proof.
  intros K E C K' E' C' S R S' R' P Q g so so' os os' x x' RO EQ G A A' O X.
  pose proof (steps_ok so os A x) as M. pose proof (steps_ok so' os' A' x') as M'.
  pose proof (rel_steps P Q g so so' RO EQ G _ _ O (fun k => x !! k) (fun k => x' !! k) X) as T.
  destruct (steps so _ _) as [f|], (steps so' _ _) as [f'|]; cbn [opt_rel] in T; try contradiction.
  - destruct M as (z & -> & Z), M' as (z' & -> & Z'). cbn [same_outcome]. intros k. rewrite Z, Z'. apply T.
  - rewrite M, M'. exact I.
Qed.
(** the new vectors, and what get and == answer *)
Lemma c123_new_and_reads : forall (K : Type) (E : EqDecision K) (C : Countable K) (K' : Type) (E' : EqDecision K') (C' : Countable K') (S R S' R' : Type)
    (P : S -> S' -> Prop) (Q : R -> R' -> Prop) (g : K -> K') (so : scalar_ops S R) (so' : scalar_ops S' R')
    (iter : gmap K S -> list (K * S)) (iter' : gmap K' S' -> list (K' * S')) (x y : gmap K S) (x' y' : gmap K' S')
    (k : K) (s : S) (s' : S') (l : list (K * S)) (l' : list (K' * S')),
  related P Q so so' -> (forall a b, g a = g b -> a = b) -> any_order iter -> any_order iter' -> P s s' -> map_rel P g x x' -> map_rel P g y y' ->
  Forall2 (fun e e' => fst e' = g (fst e) /\ P (snd e) (snd e')) l l' ->
  let v := sparse_ops so iter in let v' := sparse_ops so' iter' in
  map_rel P g (vr_new v) (vr_new v')
  /\ same_outcome (map_rel P g) (vr_from_key v k) (vr_from_key v' (g k))
  /\ same_outcome (map_rel P g) (vr_from_key_scalar v k s) (vr_from_key_scalar v' (g k) s')
  /\ same_outcome (map_rel P g) (vr_from_iterator v l) (vr_from_iterator v' l')
  /\ same_outcome (opt_rel P) (vr_get v x k) (vr_get v' x' (g k))
  /\ (related_eq P so so' -> only_keys g x' -> only_keys g y' -> sv_eq so iter x y = sv_eq so' iter' x' y').
Proof.
  intros K E C K' E' C' S R S' R' P Q g so so' iter iter' x y x' y' k s s' l l' RO G Hi Hi' Hs X Y L v v'. subst v v'.
  assert (Em : map_rel P g (∅ : gmap K S) (∅ : gmap K' S')) by (intros j; rewrite !lookup_empty; exact I).
  assert (Ins : forall m m' j c c', map_rel P g m m' -> P c c' -> map_rel P g (<[j := c]> m) (<[g j := c']> m')).
  { intros m m' j c c' M Pc i. destruct (decide (i = j)) as [->|Ne].
    - rewrite !lookup_insert. exact Pc.
    - rewrite !lookup_insert_ne by (intros Z; apply Ne; first [symmetry; exact Z|apply G; symmetry; exact Z]). apply M. }
  split; [exact Em|]. split; [apply Ins; [exact Em|exact (r_one P Q so so' RO)]|]. split; [apply Ins; assumption|]. split.
  - cbn. unfold sv_from_iterator. revert Em. generalize (∅ : gmap K S) (∅ : gmap K' S'). induction L as [|[a c] [a' c'] l l' [Ea Ec] _ IH]; intros m m' M; [exact M|].
    cbn in Ea, Ec. subst a'. cbn [for_each bind fst snd]. apply IH. apply Ins; assumption.
  - split; [exact (X k)|]. intros EQ Ox Oy.
    assert (Sy : forall b c : bool, (b = true <-> c = true) -> b = c) by (intros [] [] [U V]; try reflexivity; [discriminate (U eq_refl)|discriminate (V eq_refl)]).
    apply Sy. rewrite (eq_keys so iter Hi), (eq_keys so' iter' Hi'). split; intros T.
    + intros k'. destruct (x' !! k') as [b|] eqn:Ex.
      * destruct (Ox k' b Ex) as (j & ->). specialize (T j). pose proof (X j) as Xj. pose proof (Y j) as Yj. rewrite Ex in Xj.
        destruct (x !! j), (y !! j), (y' !! g j); cbn in *; try contradiction. rewrite <- (EQ _ _ _ _ Yj Xj). exact T.
      * destruct (y' !! k') as [c|] eqn:Ey; [|exact I]. destruct (Oy k' c Ey) as (j & ->). specialize (T j). pose proof (X j) as Xj. pose proof (Y j) as Yj.
        rewrite Ex in Xj. rewrite Ey in Yj. destruct (x !! j), (y !! j); cbn in *; try contradiction.
    + intros j. specialize (T (g j)). pose proof (X j) as Xj. pose proof (Y j) as Yj.
      destruct (x !! j), (x' !! g j), (y !! j), (y' !! g j); cbn in *; try contradiction; try exact I. rewrite (EQ _ _ _ _ Yj Xj). exact T.
Qed.
(** rational scalars at numbers, and dual numbers at the words of two equal letters *)
Example c123_example :
  let g := (fun k : N => [k; k]) in
  let up := (fun m : gmap N Qc => map_to_list m) in let down := (fun m : gmap (list N) dual => rev (map_to_list m)) in
  let y : gmap N Qc := {[ 1 := q 2; 2 := q 5 ]} in
  let y' : gmap (list N) dual := {[ [1; 1] := du 2 0; [2; 2] := du 5 0 ]} in
  (z <- hcalls qc_ops ∅ [(up, HKeyAddMul 1 (q (-2))); (up, HAdd y); (up, HLmul (q 3)); (up, HInsertSingle 7 (q 4)); (up, HSub y); (up, HKeyAddDiv 7 (q 2))] ;;
   Ret (map (fun k => option_map this (z !! k)) [1; 2; 7; 8])) = Ret [Some (- 2 # 1); Some 10; Some (9 # 2); None]%Q
  /\ (z <- hcalls dual_ops ∅ [(down, HKeyAddMul (g 1) (du (-2) 0)); (down, HAdd y'); (down, HLmul (du 3 0)); (down, HInsertSingle (g 7) (du 4 0));
                              (down, HSub y'); (down, HKeyAddDiv (g 7) (q 2))] ;;
      Ret (map (fun k => option_map (fun c : dual => this (fst c)) (z !! g k)) [1; 2; 7; 8])) = Ret [Some (- 2 # 1); Some 10; Some (9 # 2); None]%Q
  (** with a derivative that is not 0, the entry at 1 is kept *)
  /\ (z <- hcalls dual_ops ∅ [(down, HKeyAddMul (g 1) (du (-2) 1)); (down, HAdd y')] ;;
      Ret (map (fun k => option_map (fun c : dual => (this (fst c), this (snd c))) (z !! g k)) [1; 2])) = Ret [Some (0, 1); Some (5, 0)]%Q.
Proof. cbv zeta. repeat split; vm_compute; reflexivity. Qed.
