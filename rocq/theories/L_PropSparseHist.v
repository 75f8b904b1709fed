(** Property lemmas C95 (restated as theorems in P_SparseHist.v). *)
From Coq Require Import QArith Qcanon Permutation.
From stdpp Require Import gmap.
From Verif Require Import Machine MachineLemmas M_Scalar M_Vector M_Dense S_Vector I_Scalars L_Dense M_Sparse S_Sparse L_Sparse L_PropSparse
  S_SparseHist.
Local Open Scope N_scope.

Section Hist.
  Context {K : Type} `{Countable K} {S R : Type} (so : scalar_ops S R).

  Lemma step_ext (f g : pfun) o : (forall k, f k = g k) ->
    match step (K:=K) so f o, step so g o with
    | Some f', Some g' => forall k, f' k = g' k
    | None, None => True
    | _, _ => False
    end.
  Proof.
    intros E. destruct o; cbn [step]; try exact I; intros j; unfold upd, pmap, alter_or, upd; rewrite ?E; try reflexivity.
    - destruct (g k); [destruct (decide (j = k)); [reflexivity|]|]; apply E.
    - destruct (s_eqb so s (s_zero so)); rewrite ?E; reflexivity.
    - destruct (s_eqb so s (s_zero so)); rewrite ?E; reflexivity.
  Qed.
  Lemma steps_ext os : forall f g : pfun, (forall k, f k = g k) ->
    match steps (K:=K) (R:=R) so f os, steps so g os with
    | Some f', Some g' => forall k, f' k = g' k
    | None, None => True
    | _, _ => False
    end.
  Proof.
    induction os as [|o os IH]; intros f g E; [exact E|]. cbn [steps]. pose proof (step_ext f g o E) as X.
    destruct (step so f o), (step so g o); try contradiction; [|exact I]. apply IH, X.
  Qed.

  Lemma scale_ok (iter : gmap K S -> list (K * S)) (Hi : any_order iter) (x : gmap K S) s :
    exists z, vr_scalar_lmultiply_inplace (sparse_ops so iter) x s = Ret z
      /\ forall k, z !! k = (if s_eqb so s (s_zero so) then fun _ => None else pmap (fun c => s_mul so c s) (fun k => x !! k)) k.
  Proof.
    cbn. unfold sv_scalar_lmultiply_inplace. destruct (s_eqb so s (s_zero so)).
    - eexists. split; [reflexivity|]. intros j. apply lookup_empty.
    - rewrite (for_each_mut_ok iter Hi). eexists. split; [reflexivity|]. intros j. rewrite lookup_fmap. reflexivity.
  Qed.
  Lemma div_ok (iter : gmap K S -> list (K * S)) (Hi : any_order iter) (x : gmap K S) r :
    exists z, vr_scalar_rdivide_inplace (sparse_ops so iter) x r = Ret z
      /\ forall k, z !! k = pmap (fun c => s_div so c r) (fun k => x !! k) k.
  Proof.
    cbn. unfold sv_scalar_rdivide_inplace. rewrite (for_each_mut_ok iter Hi). eexists. split; [reflexivity|]. intros j.
    rewrite lookup_fmap. reflexivity.
  Qed.
  Lemma step_ok (iter : gmap K S -> list (K * S)) (Hi : any_order iter) (x : gmap K S) o :
    match step so (fun k => x !! k) o with
    | Some f => exists z, hcall so (sparse_ops so iter) x o = Ret z /\ forall k, z !! k = f k
    | None => hcall so (sparse_ops so iter) x o = Panic
    end.
  Proof.
    assert (U : forall k s j, (<[k := s]> x) !! j = if decide (j = k) then Some s else x !! j).
    { intros k s j. destruct (decide (j = k)) as [->|Hne]; [apply lookup_insert|apply lookup_insert_ne; congruence]. }
    destruct o as [|k|k s|k s|l|w| |y|y|s|s|r|r|y s|y s|y s|y s|y r|y r|y r|y r|k s|k s|k r|k r]; cbn [step hcall]; try reflexivity.
    - eexists. split; [reflexivity|]. intros j. apply lookup_empty.
    - eexists. split; [reflexivity|]. intros j. destruct (x !! k); [apply U|reflexivity].
    - eexists. split; [reflexivity|]. intros j. apply U.
    - cbn. unfold sv_uminus_inplace. rewrite (for_each_mut_ok iter Hi). eexists. split; [reflexivity|]. intros j.
      rewrite lookup_fmap. reflexivity.
    - destruct (add_ok so iter Hi x y) as (z & Ez & G). exists z. split; [exact Ez|]. intros j. rewrite G.
      destruct (x !! j), (y !! j); reflexivity.
    - destruct (sub_ok so iter Hi x y) as (z & Ez & G). exists z. split; [exact Ez|]. intros j. rewrite G.
      destruct (x !! j), (y !! j); reflexivity.
    - apply scale_ok, Hi.
    - cbn. unfold dflt_scalar_rmultiply_inplace. apply scale_ok, Hi.
    - apply div_ok, Hi.
    - cbn. unfold dflt_scalar_ldivide_inplace. apply div_ok, Hi.
    - unfold ke_add_scalar_multiply, alter_or. cbn. destruct (x !! k); (eexists; split; [reflexivity|]); intros j; apply U.
    - unfold ke_sub_scalar_multiply, alter_or. cbn. destruct (x !! k); (eexists; split; [reflexivity|]); intros j; apply U.
    - unfold ke_add_scalar_divide, alter_or. cbn. destruct (x !! k); (eexists; split; [reflexivity|]); intros j; apply U.
    - unfold ke_sub_scalar_divide, alter_or. cbn. destruct (x !! k); (eexists; split; [reflexivity|]); intros j; apply U.
  Qed.
  Lemma steps_ok os : Forall (fun e => any_order (fst e)) os -> forall x : gmap K S,
    match steps so (fun k => x !! k) (map snd os) with
    | Some f => exists z, hcalls so x os = Ret z /\ forall k, z !! k = f k
    | None => hcalls so x os = Panic
    end.
  Proof.
    induction 1 as [|[iter o] os Hi _ IH]; intros x; [exists x; split; reflexivity|].
    cbn [map snd steps]. unfold hcalls. cbn [for_each fst snd] in *. pose proof (step_ok iter Hi x o) as X.
    destruct (step so (fun k => x !! k) o) as [f|]; [|rewrite X; reflexivity].
    destruct X as (z & -> & G). cbn [bind]. specialize (IH z).
    pose proof (steps_ext (map snd os) (fun k => z !! k) f G) as Y. fold (hcalls so z os).
    destruct (steps so (fun k => z !! k) (map snd os)) as [g|], (steps so f (map snd os)) as [g'|]; try contradiction; [|exact IH].
    destruct IH as (w & Ew & Gw). exists w. split; [exact Ew|]. intros k. rewrite Gw. apply Y.
  Qed.
End Hist.

(** * C95: Sparse vectors along every history of calls *)
Lemma c95_refinement : forall (K : Type) (E : EqDecision K) (C : Countable K) (S R : Type) (so : scalar_ops S R)
    (os : list ((gmap K S -> list (K * S)) * hop (gmap K S) K S R)) (x : gmap K S),
  Forall (fun e => any_order (fst e)) os ->
  match steps so (fun k => x !! k) (map snd os) with
  | Some f => exists z, hcalls so x os = Ret z
      /\ forall k iter, any_order iter -> vr_get (sparse_ops so iter) z k = Ret (f k)
           /\ forall v, In (k, v) (sv_into_iter iter z) <-> f k = Some v
  | None => hcalls so x os = Panic
  end.
Proof.
  intros K E C S R so os x Ho. pose proof (steps_ok so os Ho x) as X.
  destruct (steps so (fun k => x !! k) (map snd os)) as [f|]; [|exact X]. destruct X as (z & Ez & G). exists z. split; [exact Ez|].
  intros k iter Hi. split; [cbn; unfold sv_get; rewrite G; reflexivity|]. intros v.
  destruct (c40_iteration K E C S R so iter z Hi) as [_ X]. rewrite X. cbn. unfold sv_get. rewrite G.
  split; [intros Q; injection Q as ->; reflexivity|intros ->; reflexivity].
Qed.
(** the same calls give the same vector, whatever the iteration orders *)
Lemma c95_order_independent : forall (K : Type) (E : EqDecision K) (C : Countable K) (S R : Type) (so : scalar_ops S R)
    (os os' : list ((gmap K S -> list (K * S)) * hop (gmap K S) K S R)) (x : gmap K S),
  Forall (fun e => any_order (fst e)) os -> Forall (fun e => any_order (fst e)) os' -> map snd os = map snd os' ->
  hcalls so x os = hcalls so x os'.
Proof.
  intros K E C S R so os os' x Ho Ho' Q. pose proof (steps_ok so os Ho x) as X. pose proof (steps_ok so os' Ho' x) as X'.
  rewrite <- Q in X'. destruct (steps so (fun k => x !! k) (map snd os)) as [f|]; [|congruence].
  destruct X as (z & -> & G), X' as (z' & -> & G'). f_equal. apply map_eq. intros k. rewrite G, G'. reflexivity.
Qed.
(** a history panics exactly if one of its calls is to one of the unimplemented methods or to a default method that uses one *)
Lemma c95_panics : forall (K : Type) (E : EqDecision K) (C : Countable K) (S R : Type) (so : scalar_ops S R)
    (os : list ((gmap K S -> list (K * S)) * hop (gmap K S) K S R)) (x : gmap K S),
  Forall (fun e => any_order (fst e)) os ->
  let unimplemented (o : hop (gmap K S) K S R) := match o with
    | HErase _ | HInsert _ | HSwap _ | HAddRmul _ _ | HAddLmul _ _ | HSubRmul _ _ | HSubLmul _ _
    | HAddRdiv _ _ | HAddLdiv _ _ | HSubRdiv _ _ | HSubLdiv _ _ => True
    | _ => False
    end in
  (hcalls so x os = Panic <-> exists e, In e os /\ unimplemented (snd e))
  /\ (hcalls so x os <> Panic -> returns (hcalls so x os)).
Proof.
  intros K E C S R so os x Ho bad. pose proof (steps_ok so os Ho x) as X. split.
  - assert (Y : forall os' (f : pfun), steps so f os' = None <-> exists o, In o os' /\ bad o).
    { induction os' as [|o os' IH]; intros f; [split; [discriminate|intros (? & [] & _)]|]. cbn [steps].
      assert (Z : bad o /\ step so f o = None \/ ~ bad o /\ exists g, step so f o = Some g).
      { destruct o; cbn [step bad]; first [left; split; [exact I|reflexivity]|right; split; [intros []|eexists; reflexivity]]. }
      destruct Z as [[B ->]|[B (g & ->)]].
      - split; [intros _; exists o; split; [left; reflexivity|exact B]|reflexivity].
      - rewrite IH. split; intros (o' & Hin & B'); exists o'; (split; [|exact B']); [right; exact Hin|].
        destruct Hin as [->|Hin]; [contradiction|exact Hin]. }
    assert (W : (exists e, In e os /\ bad (snd e)) <-> exists o, In o (map snd os) /\ bad o).
    { split; [intros (e & He & B); exists (snd e); split; [apply in_map, He|exact B]|].
      intros (o & Hin & B). apply in_map_iff in Hin. destruct Hin as (e & <- & He). exists e. split; assumption. }
    rewrite W, <- (Y _ (fun k => x !! k)).
    destruct (steps so (fun k => x !! k) (map snd os)); [|split; [reflexivity|intros _; exact X]].
    destruct X as (z & -> & _). split; discriminate.
  - intros N. destruct (steps so (fun k => x !! k) (map snd os)); [|contradiction]. destruct X as (z & -> & _). eexists. reflexivity.
Qed.
Example c95_example : let up := (fun m : gmap N Qc => map_to_list m) in let down := (fun m : gmap N Qc => rev (map_to_list m)) in
  let y : gmap N Qc := {[ 1 := q 2; 2 := q 5 ]} in
  let os := [(up, HKeyAddMul 1 (q (-2))); (down, HAdd y); (down, HInsertSingle 7 (q 0)); (up, HLmul (q 3)); (up, HSet 7 (q 4));
             (up, HSet 8 (q 4)); (down, HSub y); (up, HKeySubDiv 7 (q 1)); (up, HUminus)] in
  Forall (fun e => any_order (fst e)) os
  /\ (z <- hcalls qc_ops ∅ os ;; Ret (map (fun k => option_map this (z !! k)) [1; 2; 7; 8]))
     = Ret [Some 2%Q; Some (-10 # 1)%Q; Some (-5 # 1)%Q; None]
  /\ hcalls qc_ops ∅ (os ++ [(up, HErase 1)]) = Panic.
Proof.
  cbv zeta. split; [|split; vm_compute; reflexivity].
  repeat (apply Forall_cons; [first [intros m; reflexivity|intros m; symmetry; apply Permutation_rev]|]). apply Forall_nil.
Qed.
