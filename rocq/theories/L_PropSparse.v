(** Property lemmas C40-C44, C66, C67 (restated as theorems in P_Sparse.v). *)
From Coq Require Import QArith Qcanon Permutation.
From stdpp Require Import gmap.
From Verif Require Import Machine M_Scalar M_Vector M_Dense S_Vector I_Scalars L_Ring L_Dense M_Sparse S_Sparse L_Sparse L_PropHistory.
Local Open Scope N_scope.

(** * C40 *)
Lemma c40_constructors : forall (K : Type) (E : EqDecision K) (C : Countable K) (S R : Type) (so : scalar_ops S R)
    (iter : gmap K S -> list (K * S)) (items : list (K * S)) (k j : K) (v : S),
  let vo := sparse_ops so iter in
  vr_get vo (vr_new vo) j = Ret None
  /\ (exists x, vr_from_key_scalar vo k v = Ret x /\ vr_get vo x j = Ret (if decide (j = k) then Some v else None))
  /\ (exists x, vr_from_key vo k = Ret x /\ vr_get vo x j = Ret (if decide (j = k) then Some (s_one so) else None))
  /\ (exists x, vr_from_iterator vo items = Ret x /\ vr_get vo x j = Ret (last_value j items)).
Proof.
  intros K E C S R so iter items k j v vo. cbn. unfold sv_get, sv_new, sv_from_key, sv_from_key_scalar.
  split; [rewrite lookup_empty; reflexivity|].
  assert (G : forall s : S, (<[k := s]> ∅ : gmap K S) !! j = if decide (j = k) then Some s else None).
  { intros s. destruct (decide (j = k)) as [->|Hne]; [apply lookup_insert|].
    rewrite lookup_insert_ne by congruence. apply lookup_empty. }
  split; [eexists; split; [reflexivity|f_equal; apply G]|].
  split; [eexists; split; [reflexivity|f_equal; apply G]|].
  destruct (from_iterator_ok items) as (z & Ez & Gz). exists z. split; [exact Ez|]. rewrite Gz. reflexivity.
Qed.
Lemma c40_updates : forall (K : Type) (E : EqDecision K) (C : Countable K) (S R : Type) (so : scalar_ops S R)
    (iter : gmap K S -> list (K * S)) (x : gmap K S) (k j : K) (v : S),
  let vo := sparse_ops so iter in
  (exists z, vr_insert_single vo x k v = Ret z
     /\ vr_get vo z j = if decide (j = k) then Ret (Some v) else vr_get vo x j)
  /\ (exists ref, vr_get_mut vo x k = Ret (x, ref)
     /\ match ref with
        | Some (a, write) => vr_get vo x k = Ret (Some a)
            /\ vr_get vo (write v) j = if decide (j = k) then Ret (Some v) else vr_get vo x j
        | None => vr_get vo x k = Ret None
        end)
  /\ (exists z, vr_clear vo x = Ret z /\ vr_get vo z j = Ret None).
Proof.
  intros K E C S R so iter x k j v vo. cbn. unfold sv_get, sv_insert_single, sv_get_mut, sv_clear.
  assert (G : Ret ((<[k := v]> x) !! j) = if decide (j = k) then Ret (Some v) else Ret (x !! j)).
  { destruct (decide (j = k)) as [->|Hne]; f_equal; [apply lookup_insert|apply lookup_insert_ne; congruence]. }
  split; [eexists; split; [reflexivity|exact G]|]. split.
  - eexists. split; [reflexivity|]. destruct (x !! k); [split; [reflexivity|exact G]|reflexivity].
  - eexists. split; [reflexivity|]. rewrite lookup_empty. reflexivity.
Qed.
Lemma c40_iteration : forall (K : Type) (E : EqDecision K) (C : Countable K) (S R : Type) (so : scalar_ops S R)
    (iter : gmap K S -> list (K * S)) (x : gmap K S),
  any_order iter ->
  List.NoDup (map fst (sv_into_iter iter x))
  /\ forall k v, In (k, v) (sv_into_iter iter x) <-> vr_get (sparse_ops so iter) x k = Ret (Some v).
Proof.
  intros K E C S R so iter x Hi. unfold sv_into_iter. split.
  - apply NoDup_ListNoDup. apply iter_nodup. exact Hi.
  - intros k v. cbn. unfold sv_get. rewrite <- elem_of_list_In, (Hi x), elem_of_map_to_list. split; [intros ->; reflexivity|].
    intros Q. injection Q as ->. reflexivity.
Qed.
Example c40_example : let vo := sparse_ops qc_ops (fun m : gmap N Qc => rev (map_to_list m)) in
  any_order (fun m : gmap N Qc => rev (map_to_list m))
  /\ (x <- vr_from_iterator vo [(3, q 1); (7, q 2); (3, q 5)] ;; y <- vr_insert_single vo x 9 (q 4) ;;
      a <- vr_get vo y 3 ;; b <- vr_get vo y 9 ;; c <- vr_get vo y 8 ;; Ret (a, b, c, length (sv_into_iter (fun m => rev (map_to_list m)) y)))
     = Ret (Some (q 5), Some (q 4), None, 3%nat).
Proof. split; [intros m; symmetry; apply Permutation_rev|vm_compute; reflexivity]. Qed.

(** * C41 *)
Lemma c41_add_inplace : forall (K : Type) (E : EqDecision K) (C : Countable K) (S R : Type) (so : scalar_ops S R)
    (iter : gmap K S -> list (K * S)) (x y : gmap K S),
  any_order iter ->
  exists z, vr_add_inplace (sparse_ops so iter) x y = Ret z
    /\ forall k, z !! k = merged so (s_add so) (fun v => v) (x !! k) (y !! k).
Proof. intros. apply add_ok. assumption. Qed.
Lemma c41_sub_inplace : forall (K : Type) (E : EqDecision K) (C : Countable K) (S R : Type) (so : scalar_ops S R)
    (iter : gmap K S -> list (K * S)) (x y : gmap K S),
  any_order iter ->
  exists z, vr_sub_inplace (sparse_ops so iter) x y = Ret z
    /\ forall k, z !! k = merged so (s_sub so) (s_uminus so) (x !! k) (y !! k).
Proof. intros. apply sub_ok. assumption. Qed.
(** the result of every arithmetic call and of == is the same for all iteration orders *)
Lemma c41_order_independent : forall (K : Type) (E : EqDecision K) (C : Countable K) (S R : Type) (so : scalar_ops S R)
    (iter iter' : gmap K S -> list (K * S)) (x y : gmap K S) (s : S) (r : R),
  any_order iter -> any_order iter' ->
  vr_add_inplace (sparse_ops so iter) x y = vr_add_inplace (sparse_ops so iter') x y
  /\ vr_sub_inplace (sparse_ops so iter) x y = vr_sub_inplace (sparse_ops so iter') x y
  /\ vr_uminus_inplace (sparse_ops so iter) x = vr_uminus_inplace (sparse_ops so iter') x
  /\ vr_scalar_lmultiply_inplace (sparse_ops so iter) x s = vr_scalar_lmultiply_inplace (sparse_ops so iter') x s
  /\ vr_scalar_rdivide_inplace (sparse_ops so iter) x r = vr_scalar_rdivide_inplace (sparse_ops so iter') x r
  /\ sv_eq so iter x y = sv_eq so iter' x y.
Proof.
  intros K E C S R so iter iter' x y s r Hi Hi'. cbn.
  split.
  { destruct (add_ok so iter Hi x y) as (z & -> & G), (add_ok so iter' Hi' x y) as (z' & -> & G').
    f_equal. apply map_eq. intros k. rewrite G, G'. reflexivity. }
  split.
  { destruct (sub_ok so iter Hi x y) as (z & -> & G), (sub_ok so iter' Hi' x y) as (z' & -> & G').
    f_equal. apply map_eq. intros k. rewrite G, G'. reflexivity. }
  unfold sv_uminus_inplace, sv_scalar_lmultiply_inplace, sv_scalar_rdivide_inplace.
  rewrite !(for_each_mut_ok iter Hi), !(for_each_mut_ok iter' Hi'). repeat (split; [reflexivity|]).
  destruct (sv_eq so iter x y) eqn:A, (sv_eq so iter' x y) eqn:B; try reflexivity.
  - rewrite (eq_keys so iter Hi x y), <- (eq_keys so iter' Hi' x y) in A. congruence.
  - rewrite (eq_keys so iter' Hi' x y), <- (eq_keys so iter Hi x y) in B. congruence.
Qed.
(** the other in-place operations, entry by entry *)
Lemma c41_scaling : forall (K : Type) (E : EqDecision K) (C : Countable K) (S R : Type) (so : scalar_ops S R)
    (iter : gmap K S -> list (K * S)) (x : gmap K S) (s : S) (r : R),
  any_order iter ->
  exists a b c, vr_uminus_inplace (sparse_ops so iter) x = Ret a
    /\ vr_scalar_lmultiply_inplace (sparse_ops so iter) x s = Ret b
    /\ vd_scalar_rmultiply_inplace (sparse_ops so iter) x s = Ret b
    /\ vr_scalar_rdivide_inplace (sparse_ops so iter) x r = Ret c
    /\ vd_scalar_ldivide_inplace (sparse_ops so iter) x r = Ret c
    /\ forall k, a !! k = option_map (s_uminus so) (x !! k)
         /\ b !! k = (if s_eqb so s (s_zero so) then None else option_map (fun v => s_mul so v s) (x !! k))
         /\ c !! k = option_map (fun v => s_div so v r) (x !! k).
Proof.
  intros K E C S R so iter x s r Hi. cbn.
  unfold dflt_scalar_rmultiply_inplace, dflt_scalar_ldivide_inplace. cbn.
  unfold sv_uminus_inplace, sv_scalar_lmultiply_inplace, sv_scalar_rdivide_inplace.
  rewrite !(for_each_mut_ok iter Hi).
  exists (s_uminus so <$> x), (if s_eqb so s (s_zero so) then ∅ else (fun v => s_mul so v s) <$> x), ((fun v => s_div so v r) <$> x).
  destruct (s_eqb so s (s_zero so)); repeat (split; [reflexivity|]);
    intros k; rewrite !lookup_fmap, ?lookup_empty; repeat split; destruct (x !! k); reflexivity.
Qed.
Example c41_example :
  let iter := (fun m : gmap N Qc => rev (map_to_list m)) in let vo := sparse_ops qc_ops iter in
  any_order iter
  /\ (x <- vr_from_iterator vo [(1, q 1); (2, q 2)] ;; y <- vr_from_iterator vo [(2, q (-2)); (3, q 3)] ;;
      z <- vr_add_inplace vo x y ;; w <- vr_sub_inplace vo x y ;;
      Ret (map (fun k => option_map this (z !! k)) [1; 2; 3], map (fun k => option_map this (w !! k)) [1; 2; 3]))
     = Ret ([Some 1; None; Some 3]%Q, [Some 1; Some 4; Some (-3 # 1)]%Q).
Proof. split; [intros m; symmetry; apply Permutation_rev|vm_compute; reflexivity]. Qed.

(** * C42 *)
Lemma neqb {S R} (so : scalar_ops S R) (L : ring_laws so) a b : s_eqb so a b = false <-> a <> b.
Proof.
  destruct (s_eqb so a b) eqn:E; split; try congruence.
  - apply (l_eqb so L) in E. contradiction.
  - intros _ ->. assert (s_eqb so b b = true) by (apply (l_eqb so L); reflexivity). congruence.
Qed.
Lemma merged_no_zero {S R} (so : scalar_ops S R) op right a b (P := fun v => s_eqb so v (s_zero so) = false) :
  (forall v, a = Some v -> P v) -> (forall v, b = Some v -> P (right v)) -> forall v, merged so op right a b = Some v -> P v.
Proof.
  intros Ha Hb v. unfold merged. destruct a as [a|], b as [b|].
  - destruct (s_eqb so (op a b) (s_zero so)) eqn:Z; [discriminate|]. intros Q. injection Q as <-. exact Z.
  - apply Ha.
  - intros Q. injection Q as <-. apply Hb. reflexivity.
  - discriminate.
Qed.
Lemma scall_no_zero {K} `{Countable K} {S R} (so : scalar_ops S R) (L : field_laws so) (x : gmap K S) o :
  no_zero so x -> sop_ok so o -> exists z, scall so x o = Ret z /\ no_zero so z.
Proof.
  pose proof (l_ring so L) as Lr. intros Hx Ho.
  assert (U : forall v, s_eqb so v (s_zero so) = false -> s_eqb so (s_uminus so v) (s_zero so) = false).
  { intros v. rewrite !(neqb so Lr). intros Hv E. apply Hv. rewrite <- (r_opp_opp so Lr v), E. apply (r_opp_0 so Lr). }
  destruct o as [it y|it y|it|it s|it r|]; cbn [scall sop_ok] in *.
  - destruct Ho as [Hi Hy]. destruct (add_ok so it Hi x y) as (z & E & G). exists z. split; [exact E|].
    intros k v. rewrite G. apply merged_no_zero; [apply Hx|apply Hy].
  - destruct Ho as [Hi Hy]. destruct (sub_ok so it Hi x y) as (z & E & G). exists z. split; [exact E|].
    intros k v. rewrite G. apply merged_no_zero; [apply Hx|]. intros w Hw. apply U. exact (Hy k w Hw).
  - cbn. unfold sv_uminus_inplace. rewrite (for_each_mut_ok it Ho). eexists. split; [reflexivity|].
    intros k v. rewrite lookup_fmap. destruct (x !! k) as [w|] eqn:E; [|discriminate]. intros Q. injection Q as <-. apply U, (Hx k w E).
  - cbn. unfold sv_scalar_lmultiply_inplace. destruct (s_eqb so s (s_zero so)) eqn:Es.
    { eexists. split; [reflexivity|]. intros k v. rewrite lookup_empty. discriminate. }
    rewrite (for_each_mut_ok it Ho). eexists. split; [reflexivity|].
    intros k v. rewrite lookup_fmap. destruct (x !! k) as [w|] eqn:E; [|discriminate]. intros Q. injection Q as <-.
    apply Hx in E. rewrite (neqb so Lr) in *. intros M. apply (l_integral so L) in M. destruct M; contradiction.
  - cbn. unfold sv_scalar_rdivide_inplace. destruct Ho as [Hi Hr]. rewrite (for_each_mut_ok it Hi). eexists. split; [reflexivity|].
    intros k v. rewrite lookup_fmap. destruct (x !! k) as [w|] eqn:E; [|discriminate]. intros Q. injection Q as <-.
    apply Hx in E. rewrite (neqb so Lr) in *. rewrite (l_div so L). intros M. apply (l_integral so L) in M. destruct M; contradiction.
  - eexists. split; [reflexivity|]. intros k v. cbn. rewrite lookup_empty. discriminate.
Qed.
Lemma c42_invariant : forall (K : Type) (E : EqDecision K) (C : Countable K) (S R : Type) (so : scalar_ops S R)
    (x : gmap K S) (os : list (sop K S R)),
  field_laws so -> no_zero so x -> Forall (sop_ok so) os ->
  exists z, for_each os (scall so) x = Ret z /\ no_zero so z.
Proof.
  intros K E C S R so x os L Hx Hos. revert x Hx. induction Hos as [|o os Ho Hos IH]; intros x Hx.
  - exists x. split; [reflexivity|exact Hx].
  - cbn [for_each]. destruct (scall_no_zero so L x o Hx Ho) as (z & -> & Hz). cbn [bind]. apply IH. exact Hz.
Qed.
Lemma c42_equality : forall (K : Type) (E : EqDecision K) (C : Countable K) (S R : Type) (so : scalar_ops S R)
    (iter : gmap K S -> list (K * S)) (x y : gmap K S),
  ring_laws so -> any_order iter -> no_zero so x -> no_zero so y ->
  (sv_eq so iter x y = true <-> forall k, sv_coef so x k = sv_coef so y k).
Proof.
  intros K E C S R so iter x y L Hi Hx Hy. rewrite (eq_keys so iter Hi). unfold sv_coef. split; intros Q k; specialize (Q k).
  - destruct (x !! k), (y !! k); try contradiction; [|reflexivity]. apply (l_eqb so L) in Q. congruence.
  - destruct (x !! k) as [a|] eqn:A, (y !! k) as [b|] eqn:B; [| | |exact I].
    + apply (l_eqb so L). congruence.
    + apply Hx in A. rewrite (neqb so L) in A. contradiction.
    + apply Hy in B. rewrite (neqb so L) in B. congruence.
Qed.
(** the condition is needed: a stored ZERO makes a vector different from the empty one *)
Lemma c42_stored_zero : forall (K : Type) (E : EqDecision K) (C : Countable K) (S R : Type) (so : scalar_ops S R)
    (iter : gmap K S -> list (K * S)) (k : K),
  any_order iter ->
  exists x, vr_from_key_scalar (sparse_ops so iter) k (s_zero so) = Ret x
    /\ (forall j, sv_coef so x j = sv_coef so (vr_new (sparse_ops so iter)) j)
    /\ sv_eq so iter x (vr_new (sparse_ops so iter)) = false.
Proof.
  intros K E C S R so iter k Hi. eexists. split; [reflexivity|]. cbn. unfold sv_coef, sv_new. split.
  - intros j. rewrite lookup_empty. destruct (decide (k = j)) as [->|Hne]; [rewrite lookup_insert; reflexivity|].
    rewrite lookup_insert_ne, lookup_empty by exact Hne. reflexivity.
  - destruct (sv_eq so iter (<[k:=s_zero so]> ∅) ∅) eqn:Q; [|reflexivity]. rewrite (eq_keys so iter Hi) in Q.
    specialize (Q k). rewrite lookup_insert, lookup_empty in Q. contradiction.
Qed.
Example c42_example : let iter := (fun m : gmap N Qc => map_to_list m) in
  let x : gmap N Qc := <[1 := q 2]> (<[2 := q 3]> ∅) in let y : gmap N Qc := <[2 := q 3]> ∅ in
  field_laws qc_ops /\ no_zero qc_ops x /\ no_zero qc_ops y /\ any_order iter
  /\ (z <- for_each [SSub iter y; SScale iter (q 5); SNeg iter; SDiv iter (q 2)] (scall qc_ops) x ;;
      Ret (map (fun e => (fst e, this (snd e))) (map_to_list z))) = Ret [(1, (-5 # 1)%Q)].
Proof.
  cbv zeta. split; [exact qc_field|]. split.
  { intros k v. destruct (decide (1 = k)) as [<-|H1]; [rewrite lookup_insert; intros Q; injection Q as <-; reflexivity|].
    rewrite lookup_insert_ne by exact H1. destruct (decide (2 = k)) as [<-|H2]; [rewrite lookup_insert; intros Q; injection Q as <-; reflexivity|].
    rewrite lookup_insert_ne by exact H2. rewrite lookup_empty. discriminate. }
  split.
  { intros k v. destruct (decide (2 = k)) as [<-|H2]; [rewrite lookup_insert; intros Q; injection Q as <-; reflexivity|].
    rewrite lookup_insert_ne by exact H2. rewrite lookup_empty. discriminate. }
  split; [intros m; reflexivity|]. vm_compute. reflexivity.
Qed.

(** * C43, C67 *)
Lemma c43_refuted : exists x y : gmap N Qc, forall iter, any_order iter ->
  vd_add (sparse_ops qc_ops iter) x y = Panic /\ vr_to_owned (sparse_ops qc_ops iter) x = Panic.
Proof. exists ∅, ∅. intros iter _. split; reflexivity. Qed.
(** which operations panic, whatever the operands *)
Lemma c67_panics : forall (K : Type) (E : EqDecision K) (C : Countable K) (S R : Type) (so : scalar_ops S R)
    (iter : gmap K S -> list (K * S)) (x y : gmap K S) (k : K) (items : list (K * S)) (s : S) (r : R),
  let vo := sparse_ops so iter in
  vr_swap vo x y = Panic /\ vr_to_owned vo x = Panic /\ vr_insert vo x items = Panic /\ vr_erase vo x k = Panic
  /\ vd_uminus vo x = Panic /\ vd_add vo x y = Panic /\ vd_sub vo x y = Panic
  /\ vd_scalar_lmultiply vo x s = Panic /\ vd_scalar_rmultiply vo x s = Panic
  /\ vd_scalar_ldivide vo x r = Panic /\ vd_scalar_rdivide vo x r = Panic
  /\ vd_add_scalar_lmultiply vo x y s = Panic /\ vd_add_scalar_rmultiply vo x y s = Panic
  /\ vd_sub_scalar_lmultiply vo x y s = Panic /\ vd_sub_scalar_rmultiply vo x y s = Panic
  /\ vd_add_scalar_ldivide vo x y r = Panic /\ vd_add_scalar_rdivide vo x y r = Panic
  /\ vd_sub_scalar_ldivide vo x y r = Panic /\ vd_sub_scalar_rdivide vo x y r = Panic.
Proof. intros. repeat split. Qed.
(** all the others return *)
Lemma c67_returns : forall (K : Type) (E : EqDecision K) (C : Countable K) (S R : Type) (so : scalar_ops S R)
    (iter : gmap K S -> list (K * S)) (x y : gmap K S) (k : K) (items : list (K * S)) (s : S) (r : R),
  any_order iter ->
  let vo := sparse_ops so iter in
  returns (vr_from_key vo k) /\ returns (vr_from_key_scalar vo k s) /\ returns (vr_from_iterator vo items)
  /\ returns (vr_clear vo x) /\ returns (vr_get vo x k) /\ returns (vr_get_mut vo x k) /\ returns (vr_insert_single vo x k s)
  /\ returns (vr_uminus_inplace vo x) /\ returns (vr_add_inplace vo x y) /\ returns (vr_sub_inplace vo x y)
  /\ returns (vr_scalar_lmultiply_inplace vo x s) /\ returns (vd_scalar_rmultiply_inplace vo x s)
  /\ returns (vr_scalar_rdivide_inplace vo x r) /\ returns (vd_scalar_ldivide_inplace vo x r).
Proof.
  intros K E C S R so iter x y k items s r Hi vo.
  destruct (c41_scaling K E C S R so iter x s r Hi) as (a & b & c & Ea & Eb & Eb' & Ec & Ec' & _).
  destruct (c41_add_inplace K E C S R so iter x y Hi) as (d & Ed & _).
  destruct (c41_sub_inplace K E C S R so iter x y Hi) as (e & Ee & _).
  destruct (from_iterator_ok items) as (z & Ez & _).
  unfold returns. repeat split; try (eexists; reflexivity); eexists; eassumption.
Qed.
Example c67_example : any_order (fun m : gmap N Qc => map_to_list m)
  /\ vd_add (sparse_ops qc_ops (fun m : gmap N Qc => map_to_list m)) ∅ ∅ = Panic
  /\ vr_add_inplace (sparse_ops qc_ops (fun m : gmap N Qc => map_to_list m)) ∅ ∅ = Ret ∅.
Proof. split; [intros m; reflexivity|]. split; reflexivity. Qed.

(** * C66: VectorKeyExt on sparse vectors *)
Lemma c66_key_ext : forall (K : Type) (E : EqDecision K) (C : Countable K) (S R : Type) (so : scalar_ops S R)
    (iter : gmap K S -> list (K * S)) (x : gmap K S) (k : K) (v : S) (r : R),
  let vo := sparse_ops so iter in
  let becomes m stored absent := exists z, m = Ret z /\ forall j, z !! j =
    if decide (j = k) then Some (match x !! k with Some c => stored c | None => absent end) else x !! j in
  becomes (ke_add_scalar_multiply so vo x k v) (fun c => s_add so c v) v
  /\ becomes (ke_sub_scalar_multiply so vo x k v) (fun c => s_sub so c v) (s_uminus so v)
  /\ becomes (ke_add_scalar_divide so vo x k r) (fun c => s_add so c (s_div so (s_one so) r)) (s_div so (s_one so) r)
  /\ becomes (ke_sub_scalar_divide so vo x k r) (fun c => s_sub so c (s_div so (s_mone so) r)) (s_div so (s_mone so) r).
Proof.
  intros K E C S R so iter x k v r vo becomes.
  assert (G : forall s j, (<[k := s]> x) !! j = if decide (j = k) then Some s else x !! j).
  { intros s j. destruct (decide (j = k)) as [->|Hne]; [apply lookup_insert|apply lookup_insert_ne; congruence]. }
  unfold becomes, vo, ke_add_scalar_multiply, ke_sub_scalar_multiply, ke_add_scalar_divide, ke_sub_scalar_divide. cbn.
  unfold sv_insert_single. destruct (x !! k); repeat split; (eexists; split; [reflexivity|apply G]).
Qed.
(** over a field the coefficients change as the names say, except for sub_scalar_divide: it subtracts 1/r if the key is
    absent and adds 1/r if it is stored *)
Lemma c66_coefficients : forall (K : Type) (E : EqDecision K) (C : Countable K) (S R : Type) (so : scalar_ops S R)
    (iter : gmap K S -> list (K * S)) (x : gmap K S) (k : K) (v : S) (r : R),
  field_laws so ->
  let vo := sparse_ops so iter in
  let changes m d := exists z, m = Ret z /\ forall j, sv_coef so z j =
    if decide (j = k) then s_add so (sv_coef so x k) d else sv_coef so x j in
  changes (ke_add_scalar_multiply so vo x k v) v
  /\ changes (ke_sub_scalar_multiply so vo x k v) (s_uminus so v)
  /\ changes (ke_add_scalar_divide so vo x k r) (s_inv so r)
  /\ changes (ke_sub_scalar_divide so vo x k r)
       (match x !! k with Some _ => s_inv so r | None => s_uminus so (s_inv so r) end).
Proof.
  intros K E C S R so iter x k v r L vo changes. pose proof (l_ring so L) as Lr.
  destruct (c66_key_ext K E C S R so iter x k v r) as ((a & Ea & Ga) & (b & Eb & Gb) & (c & Ec & Gc) & (d & Ed & Gd)).
  assert (D1 : s_div so (s_one so) r = s_inv so r) by (rewrite (l_div so L); apply (l_mul_1_l so Lr)).
  assert (D2 : s_div so (s_mone so) r = s_uminus so (s_inv so r)).
  { rewrite (l_div so L), (l_mone so Lr), (r_mul_opp_l so Lr). f_equal. apply (l_mul_1_l so Lr). }
  unfold changes. repeat split; [exists a; split; [exact Ea|]|exists b; split; [exact Eb|]|exists c; split; [exact Ec|]|exists d; split; [exact Ed|]];
    intros j; unfold sv_coef; rewrite ?Ga, ?Gb, ?Gc, ?Gd, ?D1, ?D2; destruct (decide (j = k)); try reflexivity;
    destruct (x !! k); rewrite ?(l_add_0_l so Lr), ?(l_sub_def so Lr), ?(r_opp_opp so Lr); reflexivity.
Qed.
Example c66_example : let iter := (fun m : gmap N Qc => map_to_list m) in let vo := sparse_ops qc_ops iter in
  let x : gmap N Qc := <[1 := q 3]> ∅ in
  (a <- ke_sub_scalar_divide qc_ops vo x 1 (q 1) ;; b <- ke_sub_scalar_divide qc_ops vo x 2 (q 1) ;;
   Ret (this (sv_coef qc_ops a 1), this (sv_coef qc_ops b 2))) = Ret (4%Q, (-1 # 1)%Q).
Proof. vm_compute. reflexivity. Qed.

(** * C44 *)
Lemma scall_coef {K} `{Countable K} {S R} (so : scalar_ops S R) (L : field_laws so) (x : gmap K S) o :
  match o with SAdd it _ | SSub it _ | SNeg it | SScale it _ | SDiv it _ => any_order it | SClear => True end ->
  exists z, scall so x o = Ret z /\ forall k, sv_coef so z k = match o with
    | SAdd _ y => s_add so (sv_coef so x k) (sv_coef so y k)
    | SSub _ y => s_sub so (sv_coef so x k) (sv_coef so y k)
    | SNeg _ => s_uminus so (sv_coef so x k)
    | SScale _ s => s_mul so (sv_coef so x k) s
    | SDiv _ r => s_div so (sv_coef so x k) r
    | SClear => s_zero so
    end.
Proof.
  pose proof (l_ring so L) as Lr. intros Ho. destruct o as [it y|it y|it|it s|it r|]; cbn [scall].
  - destruct (add_ok so it Ho x y) as (z & Ez & G). exists z. split; [exact Ez|]. intros k. unfold sv_coef. rewrite G.
    destruct (x !! k) as [a|], (y !! k) as [b|]; cbn [merged];
      rewrite ?(l_add_0_l so Lr), ?(r_add_0_r so Lr); try reflexivity.
    destruct (s_eqb so (s_add so a b) (s_zero so)) eqn:Q; [|reflexivity]. apply (l_eqb so Lr) in Q. congruence.
  - destruct (sub_ok so it Ho x y) as (z & Ez & G). exists z. split; [exact Ez|]. intros k. unfold sv_coef. rewrite G.
    destruct (x !! k) as [a|], (y !! k) as [b|]; cbn [merged];
      rewrite ?(r_sub_0_r so Lr), ?(l_sub_def so Lr), ?(l_add_0_l so Lr); try reflexivity.
    destruct (s_eqb so (s_add so a (s_uminus so b)) (s_zero so)) eqn:Q; [|reflexivity]. apply (l_eqb so Lr) in Q. congruence.
  - cbn. unfold sv_uminus_inplace. rewrite (for_each_mut_ok it Ho). eexists. split; [reflexivity|]. intros k. unfold sv_coef.
    rewrite lookup_fmap. destruct (x !! k); cbn; [reflexivity|]. symmetry. apply (r_opp_0 so Lr).
  - cbn. unfold sv_scalar_lmultiply_inplace. destruct (s_eqb so s (s_zero so)) eqn:Es.
    + eexists. split; [reflexivity|]. intros k. unfold sv_coef at 1. rewrite lookup_empty. apply (l_eqb so Lr) in Es. rewrite Es, (l_mul_comm so Lr).
      symmetry. apply (r_mul_0_l so Lr).
    + rewrite (for_each_mut_ok it Ho). eexists. split; [reflexivity|]. intros k. unfold sv_coef.
      rewrite lookup_fmap. destruct (x !! k); cbn; [reflexivity|]. symmetry. apply (r_mul_0_l so Lr).
  - cbn. unfold sv_scalar_rdivide_inplace. rewrite (for_each_mut_ok it Ho). eexists. split; [reflexivity|]. intros k. unfold sv_coef.
    rewrite lookup_fmap. destruct (x !! k); cbn; [reflexivity|]. rewrite (l_div so L). symmetry. apply (r_mul_0_l so Lr).
  - eexists. split; [reflexivity|]. intros k. cbn. unfold sv_coef. rewrite lookup_empty. reflexivity.
Qed.
(** arithmetic: whatever is done to both, they go on agreeing *)
Lemma c44_arithmetic_partial : forall (K : Type) (E : EqDecision K) (C : Countable K) (S R : Type) (so : scalar_ops S R) (ob : obasis K)
    (ok : K -> Prop) (f : K -> N) (d : dvec S) (m : gmap K S) (os : list (vop K S R)) (os' : list (sop K S R)),
  field_laws so -> dv_wf d -> agree so ok f d m -> Forall2 (same_op so ok f) os os' ->
  exists d' m', calls so ob d os = Ret d' /\ for_each os' (scall so) m = Ret m' /\ agree so ok f d' m'.
Proof.
  intros K E C S R so ob ok f d m os os' L Hd Ha Hos. revert d m Hd Ha.
  induction Hos as [|o o' os os' Ho Hos IH]; intros d m Hd Ha.
  - exists d, m. repeat split; assumption.
  - assert (G : exists d1 m1, call so ob d o = Ret d1 /\ scall so m o' = Ret m1 /\ dv_wf d1 /\ agree so ok f d1 m1).
    { assert (Hk : op_key_ok ob f o) by (destruct o, o'; try contradiction; exact I).
      assert (Hi : match o' with SAdd it _ | SSub it _ | SNeg it | SScale it _ | SDiv it _ => any_order it | SClear => True end)
        by (destruct o, o'; cbn in Ho; tauto).
      destruct (scall_coef so L m o' Hi) as (m1 & Em & Gm).
      destruct (f_call so f (coef so d) o) as [c|] eqn:Ec; [|destruct o, o'; cbn in Ho; try contradiction; discriminate].
      destruct (f_call_ok so ob f d o c L Hd Hk Ec) as (d1 & Ed & Gd).
      exists d1, m1. split; [exact Ed|]. split; [exact Em|]. split.
      - eapply (call_wf so ob f d o d1 Hd); [|exact Hk|exact Ed]. destruct o, o'; try contradiction; exact I.
      - intros k Hk'. rewrite Gd, Gm. specialize (Ha k Hk').
        destruct o, o'; cbn in Ho; try contradiction; cbn [f_call] in Ec; injection Ec as <-; rewrite ?Ha; try reflexivity.
        all: destruct Ho as [_ Ho]; try (rewrite (Ho k Hk')); try subst; reflexivity. }
    destruct G as (d1 & m1 & Ed & Em & Hd1 & Ha1). destruct (IH d1 m1 Hd1 Ha1) as (d' & m' & Ed' & Em' & H).
    exists d', m'. split; [unfold calls; cbn; rewrite Ed; exact Ed'|]. split; [cbn [for_each]; rewrite Em; exact Em'|exact H].
Qed.

Lemma given_cons {K S} (same : K -> bool) k (v : S) items :
  given same ((k, v) :: items) = if same k then v :: given same items else given same items.
Proof. unfold given. cbn. destruct (same k); reflexivity. Qed.
Lemma given_none {K} `{Countable K} {S} (ok : K -> Prop) (f : K -> N) (items : list (K * S)) k :
  (forall k k', ok k -> ok k' -> f k = f k' -> k = k') -> ok k -> Forall (fun e => ok (fst e)) items ->
  ~ In k (map fst items) -> given (fun k' => f k =? f k') items = [].
Proof.
  intros Hj Hk HF. induction HF as [|[k' v] items Hk' HF IH]; intros Hn; [reflexivity|]. cbn [map fst] in Hn, Hk'.
  rewrite given_cons. destruct (N.eqb_spec (f k) (f k')) as [Q|Q].
  - exfalso. apply Hn. left. symmetry. apply Hj; assumption.
  - apply IH. intros Hin. apply Hn. right. exact Hin.
Qed.
Lemma given_distinct {K} `{Countable K} {S R} (so : scalar_ops S R) (L : ring_laws so) (ok : K -> Prop) (f : K -> N) (items : list (K * S)) k :
  (forall k k', ok k -> ok k' -> f k = f k' -> k = k') -> ok k -> Forall (fun e => ok (fst e)) items ->
  List.NoDup (map fst items) ->
  sum_from_zero so (given (fun k' => f k =? f k') items)
  = match last_value k items with Some v => v | None => s_zero so end.
Proof.
  intros Hj Hk HF. induction HF as [|[k' v] items Hk' HF IH]; intros Hn; [reflexivity|]. cbn [map fst] in Hn.
  apply NoDup_cons_iff in Hn. destruct Hn as [Hn Hd]. cbn [last_value]. cbn [fst] in Hk'.
  destruct (decide (k = k')) as [->|Hne].
  - rewrite given_cons, N.eqb_refl. rewrite (given_none ok f items k' Hj Hk HF Hn). unfold sum_from_zero. cbn [fold_left]. rewrite (l_add_0_l so L).
    assert (N : forall (l : list (K * S)), ~ In k' (map fst l) -> last_value k' l = None).
    { induction l as [|[a b] l IHl]; [reflexivity|]. cbn. intros Hx. rewrite IHl by tauto. destruct (decide (k' = a)); [subst; tauto|reflexivity]. }
    rewrite (N items Hn). reflexivity.
  - rewrite given_cons. destruct (N.eqb_spec (f k) (f k')) as [Q|Q]; [apply Hj in Q; [contradiction|assumption..]|].
    rewrite (IH Hd). destruct (last_value k items); reflexivity.
Qed.
(** constructors: with distinct keys the vectors agree *)
Lemma c44_constructors_partial : forall (K : Type) (E : EqDecision K) (C : Countable K) (S R : Type) (so : scalar_ops S R) (ob : obasis K)
    (ok : K -> Prop) (f : K -> N) (iter : gmap K S -> list (K * S)) (items : list (K * S)) (k : K) (s : S),
  ring_laws so -> good_basis ob ok f -> ok k -> Forall (fun e => ok (fst e)) items -> List.NoDup (map fst items) ->
  (exists d m, vr_from_key_scalar (dense_ops so ob) k s = Ret d /\ vr_from_key_scalar (sparse_ops so iter) k s = Ret m
     /\ agree so ok f d m)
  /\ (exists d m, vr_from_iterator (dense_ops so ob) items = Ret d /\ vr_from_iterator (sparse_ops so iter) items = Ret m
     /\ agree so ok f d m).
Proof.
  intros K E C S R so ob ok f iter items k s L G Hk HF Hn. split.
  - destruct (gb_dim_key ob ok f G k Hk) as (dim & Ed & Hdim).
    exists (dv_from (list_set (repeat (s_zero so) (N.to_nat dim)) (N.to_nat (f k)) s)), (<[k := s]> ∅). split.
    { cbn. unfold dv_from_key_scalar. rewrite Ed, (gb_index ob ok f G k Hk). cbn [bind]. cbn.
      unfold set_unchecked, len. rewrite !repeat_length, !N2Nat.id.
      destruct (N.ltb_spec (f k) dim); [|lia]. reflexivity. }
    split; [reflexivity|]. intros j Hj. unfold coef, sv_coef, dv_as_slice. cbn [dv_from dv_elems].
    rewrite slice_get_list_set by (unfold len; rewrite repeat_length; lia).
    destruct (N.eqb_spec (f j) (f k)) as [Q|Q].
    + apply (gb_inj ob ok f G) in Q; [|assumption..]. subst j. rewrite lookup_insert. reflexivity.
    + rewrite lookup_insert_ne, lookup_empty by congruence. rewrite slice_get_repeat. destruct (f j <? _); reflexivity.
  - destruct (L_Sparse.from_iterator_ok items) as (m & Em & Gm).
    destruct (L_Dense.from_iterator_ok so ob items f) as [[-> Ed]|(k0 & s0 & Hin & Hmax & Hd)].
    + revert HF. apply List.Forall_impl. intros e He. apply (gb_index ob ok f G). exact He.
    + do 2 eexists. split; [exact Ed|]. split; [exact Em|]. intros j Hj. unfold coef, sv_coef, dv_as_slice. rewrite Gm.
      cbn [dv_from dv_elems last_value]. rewrite slice_get_none by (apply N.le_0_l). reflexivity.
    + assert (Hk0 : ok k0). { rewrite List.Forall_forall in HF. apply (HF (k0, s0)). exact Hin. }
      destruct (gb_dim_index ob ok f G k0 Hk0) as (dim & Edim & Hdim).
      destruct (Hd dim Edim Hdim) as (l & El & Hl & Gl). exists (dv_from l), m. split; [exact El|]. split; [exact Em|].
      intros j Hj. unfold coef, sv_coef, dv_as_slice. rewrite Gm. cbn [dv_from dv_elems].
      rewrite <- (given_distinct so L ok f items j (gb_inj ob ok f G) Hj HF Hn).
      destruct (N.lt_ge_cases (f j) dim) as [Hlt|Hge]; [rewrite Gl by exact Hlt; reflexivity|].
      rewrite slice_get_none by lia.
      rewrite (given_none ok f items j (gb_inj ob ok f G) Hj HF); [reflexivity|].
      intros Hin'. apply in_map_iff in Hin'. destruct Hin' as (e & <- & He). specialize (Hmax e He). lia.
Qed.
(** the natural numbers as keys that are their own index *)
Definition nat_basis : obasis N := {| ob_key_to_index := Ret; ob_dim_for_key := fun k => Ret (k + 1);
  ob_dim_for_index := fun i => Ret (i + 1); ob_index_to_degree := Ret; ob_start_of_degree := Ret |}.
Lemma nat_basis_good : good_basis nat_basis (fun _ => True) (fun k => k).
Proof. constructor; try reflexivity; try tauto; intros k _; exists (k + 1); split; (reflexivity || lia). Qed.
(** where they disagree: repeated keys (sparse keeps the last value, dense adds up) ... *)
Lemma c44_from_iterator_refuted : exists (ob : obasis N) (k : N) (d : dvec Qc) (m : gmap N Qc),
  good_basis ob (fun _ => True) (fun k => k)
  /\ vr_from_iterator (dense_ops qc_ops ob) [(k, q 1); (k, q 1)] = Ret d
  /\ (forall iter, vr_from_iterator (sparse_ops qc_ops iter) [(k, q 1); (k, q 1)] = Ret m)
  /\ coef qc_ops d k <> sv_coef qc_ops m k.
Proof.
  exists nat_basis, 0, (dv_from [(0 + q 1 + q 1)%Qc]), (<[0 := q 1]> (<[0 := q 1]> ∅)). split; [exact nat_basis_good|].
  split; [reflexivity|]. split; [intros iter; reflexivity|].
  intros Q. apply (f_equal this) in Q. vm_compute in Q. discriminate.
Qed.
(** ... and insert_single, which does nothing on dense vectors *)
Lemma c44_insert_single_refuted : exists (ob : obasis N) (k : N) (d d' : dvec Qc) (m m' : gmap N Qc),
  good_basis ob (fun _ => True) (fun k => k) /\ agree qc_ops (fun _ => True) (fun k => k) d m
  /\ vr_insert_single (dense_ops qc_ops ob) d k (q 5) = Ret d'
  /\ (forall iter, vr_insert_single (sparse_ops qc_ops iter) m k (q 5) = Ret m')
  /\ coef qc_ops d' k <> sv_coef qc_ops m' k.
Proof.
  exists nat_basis, 0, (dv_from [q 1]), (dv_from [q 1]), (<[0 := q 1]> ∅), (<[0 := q 5]> (<[0 := q 1]> ∅)).
  split; [exact nat_basis_good|]. split.
  { intros k _. unfold coef, sv_coef. destruct (decide (k = 0)) as [->|Hne]; [reflexivity|].
    rewrite lookup_insert_ne, lookup_empty by congruence. rewrite slice_get_none; [reflexivity|]. cbn. unfold len. cbn. lia. }
  split; [reflexivity|]. split; [reflexivity|]. intros Q. apply (f_equal this) in Q. vm_compute in Q. discriminate.
Qed.
Example c44_example : let iter := (fun m : gmap N Qc => map_to_list m) in
  let items := [(3, q 1); (1, q 2)] in
  field_laws qc_ops /\ good_basis nat_basis (fun _ => True) (fun k => k) /\ List.NoDup (map fst items)
  /\ (d <- vr_from_iterator (dense_ops qc_ops nat_basis) items ;; m <- vr_from_iterator (sparse_ops qc_ops iter) items ;;
      d' <- calls qc_ops nat_basis d [OLmul (q 2); OSub d] ;; m' <- for_each [SScale iter (q 2); SSub iter m] (scall qc_ops) m ;;
      Ret (vals d', map (fun k => this (sv_coef qc_ops m' k)) [0; 1; 2; 3])) = Ret (qz [0; 2; 0; 1]%Z, qz [0; 2; 0; 1]%Z).
Proof.
  cbv zeta. split; [exact qc_field|]. split; [exact nat_basis_good|]. split.
  - cbn. constructor; [cbn; intros [H|[]]; discriminate|]. constructor; [intros []|constructor].
  - vm_compute. reflexivity.
Qed.
