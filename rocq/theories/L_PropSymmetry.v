(** Property lemmas C122 (restated as theorems in P_Symmetry.v). *)
From Coq Require Import QArith Qcanon Ring_theory Ring.
From Verif Require Import Machine MachineLemmas S_Words M_TensorKey M_TensorBasis M_Scalar M_Vector M_Dense M_Algebra S_Vector S_Tensor I_Scalars
  S_TensorProg S_Borrow L_PropBorrow M_Float S_Float S_ProgSteps L_Dense L_Algebra L_PropDense L_PropFloat L_Ring L_Conv L_PropProducts L_PropTensorProg L_PropProgFloat S_Symmetry.
Local Open Scope N_scope.

(** * Relabelling *)
Section Rename.
  Context {S R : Type} (so : scalar_ops S R) (s : N -> N) (n m : N) (Hs : injects s n m).
  Notation ms := (map s).
  Lemma ms_ok w : word_ok n w -> word_ok m (ms w).
  Proof. intros H. unfold word_ok. rewrite Forall_map. revert H. apply Forall_impl. exact (proj1 Hs). Qed.
  Lemma ms_inj u : forall w, word_ok n u -> word_ok n w -> ms u = ms w -> u = w.
  Proof.
    induction u as [|a u IH]; intros [|b w] Hu Hw E; try discriminate E; [reflexivity|]. cbn in E. injection E as E1 E2.
    inversion_clear Hu as [|? ? Ha Hu']. inversion_clear Hw as [|? ? Hb Hw']. f_equal; [exact (proj2 Hs a b Ha Hb E1)|apply IH; assumption].
  Qed.
  Lemma ms_eqb u w : word_ok n u -> word_ok n w -> word_eqb (ms u) (ms w) = word_eqb u w.
  Proof.
    intros Hu Hw. unfold word_eqb. destruct (list_eq_dec N.eq_dec u w) as [->|Ne]; destruct (list_eq_dec N.eq_dec _ _) as [E|E]; try reflexivity.
    - contradiction E. reflexivity.
    - contradiction Ne. apply ms_inj; assumption.
  Qed.
  Lemma ms_len w : len (ms w) = len w.
  Proof. apply len_map. Qed.
  Lemma ms_splits w : splits (ms w) = map (fun uv => (ms (fst uv), ms (snd uv))) (splits w).
  Proof.
    induction w as [|a w IH]; [reflexivity|]. cbn [map splits fst snd]. f_equal. rewrite IH, !map_map. apply map_ext. intros [u v]. reflexivity.
  Qed.
  Lemma ms_terms l r (f g f' g' : word -> S) w : word_ok n w ->
    (forall u, word_ok n u -> f' (ms u) = f u) -> (forall u, word_ok n u -> g' (ms u) = g u) ->
    terms so l r f' g' (ms w) = terms so l r f g w.
  Proof.
    intros Hw Hf Hg. unfold terms. rewrite ms_splits, <- map_rev.
    assert (A : forall uv, List.In uv (rev (splits w)) -> word_ok n (fst uv) /\ word_ok n (snd uv)).
    { intros [u v] I. apply in_rev in I. apply splits_in in I. subst w. apply word_ok_app in Hw. exact Hw. }
    change (list N) with word. revert A. generalize (rev (splits w)). intros L A. induction L as [|[u v] l0 IH]; [reflexivity|]. cbn [map filter fst snd]. rewrite !ms_len.
    destruct (A (u, v) (or_introl eq_refl)) as [Hu Hv]. cbn [fst snd] in Hu, Hv.
    destruct ((len u <=? l) && (len v <=? r)); cbn [map fst snd]; [rewrite (Hf u Hu), (Hg v Hv); f_equal|]; apply IH; intros uv I; apply A; right; exact I.
  Qed.

  Definition ren (a a' : atensor S) : Prop := t_deg a = t_deg a' /\ forall w, word_ok n w -> t_fun a' (ms w) = t_fun a w.
  Lemma ren_set (st st' : nat -> atensor S) d v v' : (forall i, ren (st i) (st' i)) -> ren v v' -> forall i, ren (set_var st d v i) (set_var st' d v' i).
  Proof. intros H V i. unfold set_var. destruct (Nat.eqb i d); auto. Qed.
  Lemma ren_stores a a' w : ren a a' -> stores a' (ms w) = stores a w.
  Proof. intros [E _]. unfold stores. rewrite E, ms_len. reflexivity. Qed.
  Lemma ren_map a a' h : ren a a' -> ren (r_map so a h) (r_map so a' h).
  Proof. intros H. split; [exact (proj1 H)|]. intros w Hw. cbn. rewrite (ren_stores a a' w H). rewrite (proj2 H w Hw). reflexivity. Qed.
  Lemma ren_zip a a' b b' h : ren a a' -> ren b b' -> ren (r_zip a b h) (r_zip a' b' h).
  Proof.
    intros H G. split; [cbn; rewrite (proj1 H), (proj1 G); reflexivity|]. intros w Hw. cbn. rewrite (ren_stores b b' w G).
    rewrite (proj2 H w Hw), (proj2 G w Hw). reflexivity.
  Qed.
  Lemma ren_at a a' u h : word_ok n u -> ren a a' -> ren (t_at a u h) (t_at a' (ms u) h).
  Proof.
    intros Hu H. split; [exact (proj1 H)|]. intros w Hw. cbn. rewrite (ren_stores a a' u H), (ms_eqb w u Hw Hu), (proj2 H w Hw), (proj2 H u Hu). reflexivity.
  Qed.
  Lemma ren_product x x' a a' b b' f t : ren x x' -> ren a a' -> ren b b' ->
    same_outcome ren (r_product so x a b f t) (r_product so x' a' b' f t).
  Proof.
    intros X A B. unfold r_product. destruct t as [t|]; [|exact I]. rewrite <- (proj1 A), <- (proj1 B), <- (proj1 X).
    destruct (t_deg a) as [l|]; [|exact I]. destruct (t_deg b) as [r|]; [|exact I].
    destruct (d_product (t_deg x) (Some l) (Some r) (Some t)) as [d| | |]; cbn [bind same_outcome]; try exact I.
    split; [reflexivity|]. intros w Hw. cbn [t_fun]. rewrite ms_len.
    rewrite (ms_terms l r (t_fun a) (t_fun b) (t_fun a') (t_fun b') w Hw (proj2 A) (proj2 B)), (proj2 X w Hw). reflexivity.
  Qed.
  Lemma ren_zero : ren (t_zero so) (t_zero so).
  Proof. split; [reflexivity|]. intros w _. reflexivity. Qed.
  Lemma ren_cmd D st st' (c : tcmd S R) : (forall i, ren (st i) (st' i)) -> cmd_within n D c ->
    same_outcome (fun z z' => forall i, ren (z i) (z' i)) (step_cmd so st c) (step_cmd so st' (rename ms c)).
  Proof.
    intros H C.
    assert (P : forall x x' a a' b b' f t d, ren x x' -> ren a a' -> ren b b' ->
      same_outcome (fun z z' => forall i, ren (z i) (z' i)) (v <- r_product so x a b f t ;; Ret (set_var st d v)) (v <- r_product so x' a' b' f t ;; Ret (set_var st' d v))).
    { intros x x' a a' b b' f t d X A B. apply (same_bind ren); [apply ren_product; assumption|]. intros v v' V. cbn. apply ren_set; assumption. }
    destruct c; cbn [rename step_cmd]; cbn [cmd_within] in C; try (cbn [same_outcome]; apply ren_set; [exact H|]);
      try (apply P; auto using ren_zero); auto using ren_zero, ren_map, ren_zip.
    - split; cbn [t_deg t_fun]; [rewrite ms_len; reflexivity|]. intros u Hu. rewrite (ms_eqb u w Hu (proj1 C)). reflexivity.
    - split; cbn [t_deg t_fun]; [apply H|]. intros u Hu. rewrite (ms_eqb u w Hu (proj1 C)), (proj2 (H d) u Hu). reflexivity.
    - apply (same_bind ren); [apply ren_product; auto using ren_zero|]. intros u u' U. apply P; auto.
    - split; [reflexivity|]. intros u Hu. reflexivity.
    - split; cbn [t_deg t_fun].
      + clear. unfold deg_pairs. induction l as [|e l IH]; [reflexivity|]. cbn [map fold_right fst]. rewrite ms_len, IH. reflexivity.
      + intros u Hu. f_equal. unfold given. induction C as [|e l Ce _ IH]; [reflexivity|]. cbn [map filter fst snd].
        rewrite (ms_eqb u (fst e) Hu (proj1 Ce)). destruct (word_eqb u (fst e)); cbn [map snd]; rewrite IH; reflexivity.
    - apply ren_at; [exact (proj1 C)|apply H].
    - apply ren_at; [exact (proj1 C)|apply H].
    - apply ren_at; [exact (proj1 C)|apply H].
  Qed.
  Lemma ren_prog D cs : forall st st', (forall i, ren (st i) (st' i)) -> Forall (cmd_within n D) cs ->
    same_outcome (fun z z' => forall i, ren (z i) (z' i)) (step_prog so st cs) (step_prog so st' (map (rename ms) cs)).
  Proof.
    induction cs as [|c cs IH]; intros st st' H C; [exact H|]. inversion_clear C as [|? ? Cc Ccs]. cbn [map step_prog].
    apply (same_bind (fun z z' => forall i, ren (z i) (z' i))); [exact (ren_cmd D st st' c H Cc)|]. intros z z' Z. apply IH; assumption.
  Qed.
End Rename.
(** the degree up to which a tensor has storage *)
Definition shape {S} (p : profile) (n : N) (v : dvec S) : option N :=
  if dv_size v =? 0 then None else Some (match dv_degree (tensor_basis p n) v with Ret d => d | _ => 0 end).
Lemma shape_ok {S} p n D (v : dvec S) d : 2 <= n < 2 ^ 32 -> n ^ (D + 1) < 2 ^ 64 -> shaped n D v d -> shape p n v = d.
Proof.
  intros Hn PD [K Hd]. unfold shape. destruct d as [d|]; [|rewrite Hd; reflexivity]. destruct Hd as [Hd Hf].
  destruct (N.eqb_spec (dv_size v) 0) as [E|E].
  - exfalso. unfold filled in Hf. cbn [count_below] in Hf. pose proof (N.pow_nonzero n (N.of_nat (N.to_nat d)) ltac:(lia)). lia.
  - rewrite (degree_ok p n (proj1 Hn) v d (filled_degree n (proj1 Hn) _ _ Hf) (pow_mono_fits n (proj1 Hn) d D Hd PD)). reflexivity.
Qed.
Lemma c122_relabel : forall (S R : Type) (so : scalar_ops S R) (p p' : profile) (n m D : N) (s : N -> N) (cs : list (tcmd S R)) (st st' : nat -> dvec S),
  2 <= n < 2 ^ 32 -> n ^ (D + 1) < 2 ^ 64 -> 2 <= m < 2 ^ 32 -> m ^ (D + 1) < 2 ^ 64 -> injects s n m ->
  Forall (cmd_within n D) cs -> Forall (cmd_within m D) (map (rename (map s)) cs) ->
  (forall i, renamed so n m D (map s) (st i) (st' i)) ->
  same_outcome (fun z z' => forall i, renamed so n m D (map s) (z i) (z' i))
    (run_prog so p n st cs) (run_prog so p' m st' (map (rename (map s)) cs)).
Proof.
  intros S R so p p' n m D s cs st st' Hn PD Hm PM Hs C C' H.
  set (a := fun i => itself so n (st i) (shape p n (st i))). set (a' := fun i => itself so m (st' i) (shape p n (st i))).
  assert (A : forall i, stands_for so n D (st i) (a i) /\ stands_for so m D (st' i) (a' i) /\ ren s n (a i) (a' i)).
  { intros i. destruct (H i) as (d & X & X' & E). pose proof (shape_ok p n D (st i) d Hn PD X) as Sh. unfold a, a'. rewrite Sh.
    split; [apply itself_stands; exact X|]. split; [apply itself_stands; exact X'|]. split; [reflexivity|exact E]. }
  pose proof (c114_steps S R so p n D cs st a Hn PD (fun i => proj1 (A i)) C) as M.
  pose proof (c114_steps S R so p' m D _ st' a' Hm PM (fun i => proj1 (proj2 (A i))) C') as M'.
  pose proof (ren_prog so s n m Hs D cs a a' (fun i => proj2 (proj2 (A i))) C) as E.
  destruct (step_prog so a cs) as [b| | |], (step_prog so a' _) as [b'| | |]; cbn [same_outcome] in E; try contradiction.
  - destruct M as (z & -> & Z), M' as (z' & -> & Z'). cbn [same_outcome]. intros i. destruct (Z i) as (K & Hd & Hf), (Z' i) as (K' & Hd' & Hf'), (E i) as (Ed & Ef).
    exists (t_deg (b i)). split; [split; assumption|]. rewrite Ed. split; [split; assumption|]. intros w Hw.
    rewrite (Hf w Hw), (Hf' _ (ms_ok s n m Hs w Hw)). exact (Ef w Hw).
  - rewrite M, M'. exact I.
  - rewrite M, M'. exact I.
Qed.

(** * Words changed and coefficients weighted *)
Section Twist.
  Context {S R : Type} (so : scalar_ops S R) (FL : field_laws so).
  Let RL := l_ring so FL.
  Let RT := ring_of so RL.
  Add Ring scalars : RT.
  Infix "[*]" := (s_mul so) (at level 40, left associativity).
  Context (tr : word -> word) (mu : word -> S) (sw : bool) (n : N).
  Context (tr_ok : forall w, word_ok n w -> word_ok n (tr w)) (tr_inj : forall u w, tr u = tr w -> u = w) (tr_len : forall w, len (tr w) = len w).
  Context (cv_ok : forall (f g f' g' : word -> S) w, word_ok n w -> (forall u, word_ok n u -> f' (tr u) = mu u [*] f u) ->
             (forall u, word_ok n u -> g' (tr u) = mu u [*] g u) ->
             conv so (if sw then g' else f') (if sw then f' else g') (tr w) = mu w [*] conv so f g w).
  Definition twist (c : tcmd S R) : tcmd S R :=
    match c with
    | CKey d w c => CKey d (tr w) (mu w [*] c) | CErase d w => CErase d (tr w) | CSet d w c => CSet d (tr w) (mu w [*] c)
    | CKeyAdd d w c => CKeyAdd d (tr w) (mu w [*] c) | CKeySub d w c => CKeySub d (tr w) (mu w [*] c)
    | CPairs d l => CPairs d (map (fun e => (tr (fst e), mu (fst e) [*] snd e)) l)
    | CMul d a b t => if sw then CMul d b a t else CMul d a b t
    | CComm d a b t => if sw then CComm d b a t else CComm d a b t
    | CAddMul d a b t => if sw then CAddMul d b a t else CAddMul d a b t
    | CSubMul d a b t => if sw then CSubMul d b a t else CSubMul d a b t
    | c => c
    end.
  Definition tw (a a' : atensor S) : Prop := t_deg a = t_deg a' /\ forall w, word_ok n w -> t_fun a' (tr w) = mu w [*] t_fun a w.

  Lemma tr_eqb u w : word_eqb (tr u) (tr w) = word_eqb u w.
  Proof.
    unfold word_eqb. destruct (list_eq_dec N.eq_dec u w) as [->|Ne]; destruct (list_eq_dec N.eq_dec _ _) as [E|E]; try reflexivity.
    - contradiction E. reflexivity.
    - contradiction Ne. apply tr_inj. exact E.
  Qed.
  Lemma tw_set (st st' : nat -> atensor S) d v v' : (forall i, tw (st i) (st' i)) -> tw v v' -> forall i, tw (set_var st d v i) (set_var st' d v' i).
  Proof. intros H V i. unfold set_var. destruct (Nat.eqb i d); auto. Qed.
  Lemma tw_zero : tw (t_zero so) (t_zero so).
  Proof. split; [reflexivity|]. intros w _. cbn. ring. Qed.
  Lemma tw_map a a' h : (forall c x, h (c [*] x) = c [*] h x) -> tw a a' -> tw (t_map a h) (t_map a' h).
  Proof. intros Hh H. split; [exact (proj1 H)|]. intros w Hw. cbn. rewrite (proj2 H w Hw). apply Hh. Qed.
  Lemma tw_zip a a' b b' h : (forall c x y, h (c [*] x) (c [*] y) = c [*] h x y) -> tw a a' -> tw b b' -> tw (t_zip a b h) (t_zip a' b' h).
  Proof.
    intros Hh H G. split; [cbn; rewrite (proj1 H), (proj1 G); reflexivity|]. intros w Hw. cbn. rewrite (proj2 H w Hw), (proj2 G w Hw). apply Hh.
  Qed.
  Lemma tw_at a a' u h h' : word_ok n u -> (forall x, h' (mu u [*] x) = mu u [*] h x) -> tw a a' -> tw (t_at a u h) (t_at a' (tr u) h').
  Proof.
    intros Hu Hh H. split; [exact (proj1 H)|]. intros w Hw. cbn. rewrite tr_eqb.
    replace (stores a' (tr u)) with (stores a u) by (unfold stores; rewrite (proj1 H), tr_len; reflexivity).
    destruct (word_eqb w u && stores a u) eqn:E.
    - apply andb_true_iff in E. destruct E as [E _]. unfold word_eqb in E. destruct (list_eq_dec N.eq_dec w u) as [->|]; [|discriminate].
      rewrite (proj2 H u Hu). apply Hh.
    - apply (proj2 H w Hw).
  Qed.
  Lemma tw_product x x' a a' b b' h t : (forall c x y, h (c [*] x) (c [*] y) = c [*] h x y) -> tw x x' -> tw a a' -> tw b b' ->
    same_outcome tw (t_product so x a b h t) (t_product so x' (if sw then b' else a') (if sw then a' else b') h t).
  Proof.
    intros Hh X A B. unfold t_product. destruct t as [t|]; [|exact I].
    assert (C : forall w, word_ok n w -> h (t_fun x' (tr w)) (tconv so t (t_fun (if sw then b' else a')) (t_fun (if sw then a' else b')) (tr w))
                                       = mu w [*] h (t_fun x w) (tconv so t (t_fun a) (t_fun b) w)).
    { intros w Hw. rewrite (proj2 X w Hw). rewrite <- Hh. f_equal. unfold tconv. rewrite tr_len. destruct (len w <=? t); [|ring].
      rewrite <- (cv_ok (t_fun a) (t_fun b) (t_fun a') (t_fun b') w Hw (proj2 A) (proj2 B)). destruct sw; reflexivity. }
    rewrite <- (proj1 X). pose proof (proj1 A) as Ea. pose proof (proj1 B) as Eb.
    assert (D : exists o o', t_deg (if sw then b' else a') = o /\ t_deg (if sw then a' else b') = o'
                /\ (sw = true -> o = t_deg b /\ o' = t_deg a) /\ (sw = false -> o = t_deg a /\ o' = t_deg b)).
    { eexists. eexists. split; [reflexivity|]. split; [reflexivity|]. rewrite Ea, Eb. destruct sw; split; intros Y; try discriminate Y; auto. }
    destruct D as (o & o' & -> & -> & D1 & D2).
    destruct (sw) eqn:Esw; [destruct (D1 eq_refl) as [-> ->]|destruct (D2 eq_refl) as [-> ->]]; clear D1 D2;
      destruct (t_deg a) as [l|], (t_deg b) as [r|]; try exact I.
    - rewrite (N.add_comm r l). destruct (t_deg x) as [d|]; [split; [reflexivity|exact C]|].
      destruct (N.min t (l + r) =? 0); [exact I|split; [reflexivity|exact C]].
    - destruct (t_deg x) as [d|]; [split; [reflexivity|exact C]|].
      destruct (N.min t (l + r) =? 0); [exact I|split; [reflexivity|exact C]].
  Qed.
  Lemma div_lin c x r : s_div so (c [*] x) r = c [*] s_div so x r.
  Proof. rewrite !(l_div so FL). ring. Qed.
  Lemma fold_given u l : forall z, fold_left (s_add so) (given (word_eqb (tr u)) (map (fun e => (tr (fst e), mu (fst e) [*] snd e)) l)) (mu u [*] z)
    = mu u [*] fold_left (s_add so) (given (word_eqb u) l) z.
  Proof.
    unfold given. induction l as [|e l IH]; intros z; [reflexivity|]. cbn [map filter fst snd]. rewrite tr_eqb.
    destruct (word_eqb u (fst e)) eqn:E; cbn [map snd fold_left]; [|apply IH]. rewrite <- IH. f_equal.
    unfold word_eqb in E. destruct (list_eq_dec N.eq_dec u (fst e)) as [Eu|]; [|discriminate E]. rewrite Eu. ring.
  Qed.
  Lemma tw_cmd D st st' c : (forall i, tw (st i) (st' i)) -> cmd_within n D c ->
    same_outcome (fun z z' => forall i, tw (z i) (z' i)) (mean_cmd so st c) (mean_cmd so st' (twist c)).
  Proof.
    intros H C.
    assert (Pl : forall c x y, s_add so (c [*] x) (c [*] y) = c [*] s_add so x y) by (intros; ring).
    assert (Mi : forall c x y, s_sub so (c [*] x) (c [*] y) = c [*] s_sub so x y) by (intros; ring).
    assert (Pr : forall x x' a a' b b' h t d, (forall c x y, h (c [*] x) (c [*] y) = c [*] h x y) -> tw x x' -> tw a a' -> tw b b' ->
      same_outcome (fun z z' => forall i, tw (z i) (z' i)) (v <- t_product so x a b h t ;; Ret (set_var st d v))
        (v <- t_product so x' (if sw then b' else a') (if sw then a' else b') h t ;; Ret (set_var st' d v))).
    { intros x x' a a' b b' h t d Hh X A B. apply (same_bind tw); [apply tw_product; assumption|]. intros v v' V. cbn. apply tw_set; assumption. }
    destruct c; cbn [twist]; cbn [cmd_within] in C; cbn [mean_cmd]; try (cbn [same_outcome]; apply tw_set; [exact H|]);
      auto using tw_zero.
    - split; cbn [t_deg t_fun]; [rewrite tr_len; reflexivity|]. intros u Hu. rewrite tr_eqb. unfold word_eqb.
      destruct (list_eq_dec N.eq_dec u w) as [->|]; ring.
    - split; cbn [t_deg t_fun]; [apply H|]. intros u Hu. rewrite tr_eqb, (proj2 (H d) u Hu). destruct (word_eqb u w); [ring|reflexivity].
    - apply tw_map; [intros; ring|apply H].
    - apply tw_map; [intros; ring|apply H].
    - apply tw_map; [intros; apply div_lin|apply H].
    - apply tw_zip; auto.
    - apply tw_zip; auto.
    - apply tw_zip; auto. intros; ring.
    - apply tw_zip; auto. intros; rewrite div_lin; ring.
    - pose proof (Pr (t_zero so) (t_zero so) (st a) (st' a) (st b) (st' b) (s_add so) t d Pl tw_zero (H a) (H b)) as X.
      destruct sw; exact X.
    - assert (X : same_outcome (fun z z' => forall i, tw (z i) (z' i))
        (u <- t_product so (t_zero so) (st a) (st b) (s_add so) t ;; v <- t_product so u (st b) (st a) (s_sub so) t ;; Ret (set_var st d v))
        (u <- t_product so (t_zero so) (if sw then st' b else st' a) (if sw then st' a else st' b) (s_add so) t ;;
         v <- t_product so u (if sw then st' a else st' b) (if sw then st' b else st' a) (s_sub so) t ;; Ret (set_var st' d v))).
      { apply (same_bind tw); [apply tw_product; auto using tw_zero|]. intros u u' U. apply Pr; auto. }
      destruct sw; exact X.
    - pose proof (Pr (st d) (st' d) (st a) (st' a) (st b) (st' b) (s_add so) t d Pl (H d) (H a) (H b)) as X. destruct sw; exact X.
    - pose proof (Pr (st d) (st' d) (st a) (st' a) (st b) (st' b) (s_sub so) t d Mi (H d) (H a) (H b)) as X. destruct sw; exact X.
    - apply tw_zip; auto. intros; ring.
    - apply tw_zip; auto. intros; rewrite div_lin; ring.
    - split; [reflexivity|]. intros u Hu. cbn. ring.
    - split; cbn [t_deg t_fun].
      + clear - tr_len. unfold deg_pairs. induction l as [|e l IH]; [reflexivity|]. cbn [map fold_right fst]. rewrite tr_len, IH. reflexivity.
      + intros u Hu. unfold sum_from_zero. rewrite <- fold_given. f_equal. ring.
    - apply tw_at; [exact (proj1 C)|reflexivity|apply H].
    - apply tw_at; [exact (proj1 C)|intros; ring|apply H].
    - apply tw_at; [exact (proj1 C)|intros; ring|apply H].
  Qed.
  Lemma tw_prog D cs : forall st st', (forall i, tw (st i) (st' i)) -> Forall (cmd_within n D) cs ->
    same_outcome (fun z z' => forall i, tw (z i) (z' i)) (mean_prog so st cs) (mean_prog so st' (map twist cs)).
  Proof.
    induction cs as [|c cs IH]; intros st st' H C; [exact H|]. inversion_clear C as [|? ? Cc Ccs]. cbn [map mean_prog].
    apply (same_bind (fun z z' => forall i, tw (z i) (z' i))); [exact (tw_cmd D st st' c H Cc)|]. intros z z' Z. apply IH; assumption.
  Qed.
  Lemma twist_within D cs : Forall (cmd_within n D) cs -> Forall (cmd_within n D) (map twist cs).
  Proof.
    intros H. rewrite Forall_map. revert H. apply Forall_impl. intros c.
    destruct c; cbn [cmd_within twist]; auto; try (intros (X & Y & Z); rewrite tr_len; auto; fail); try (intros (X & Y); rewrite tr_len; auto; fail);
      try (destruct sw; auto; fail).
    intros H. rewrite Forall_map. revert H. apply Forall_impl. intros e (X & Y & Z). cbn [fst]. rewrite tr_len. auto.
  Qed.
  Definition twisted (D : N) (v v' : dvec S) : Prop :=
    exists d, shaped n D v d /\ shaped n D v' d /\ forall w, word_ok n w -> wcoef so n v' (tr w) = mu w [*] wcoef so n v w.
  Lemma twisted_run p p' D cs st st' : 2 <= n < 2 ^ 32 -> n ^ (D + 1) < 2 ^ 64 -> Forall (cmd_within n D) cs ->
    (forall i, twisted D (st i) (st' i)) ->
    same_outcome (fun z z' => forall i, twisted D (z i) (z' i)) (run_prog so p n st cs) (run_prog so p' n st' (map twist cs)).
  Proof.
    intros Hn PD C H.
    set (a := fun i => itself so n (st i) (shape p n (st i))). set (a' := fun i => itself so n (st' i) (shape p n (st i))).
    assert (A : forall i, stands_for so n D (st i) (a i) /\ stands_for so n D (st' i) (a' i) /\ tw (a i) (a' i)).
    { intros i. destruct (H i) as (d & X & X' & E). pose proof (shape_ok p n D (st i) d Hn PD X) as Sh. unfold a, a'. rewrite Sh.
      split; [apply itself_stands; exact X|]. split; [apply itself_stands; exact X'|]. split; [reflexivity|exact E]. }
    pose proof (c111_refinement S R so p n D cs st a FL Hn PD (fun i => proj1 (A i)) C) as M.
    pose proof (c111_refinement S R so p' n D _ st' a' FL Hn PD (fun i => proj1 (proj2 (A i))) (twist_within D cs C)) as M'.
    pose proof (tw_prog D cs a a' (fun i => proj2 (proj2 (A i))) C) as E.
    destruct (mean_prog so a cs) as [b| | |], (mean_prog so a' _) as [b'| | |]; cbn [same_outcome] in E; try contradiction.
    - destruct M as (z & -> & Z), M' as (z' & -> & Z'). cbn [same_outcome]. intros i. destruct (Z i) as (K & Hd & Hf), (Z' i) as (K' & Hd' & Hf'), (E i) as (Ed & Ef).
      exists (t_deg (b i)). split; [split; assumption|]. rewrite Ed. split; [split; assumption|]. intros w Hw.
      rewrite (Hf w Hw), (Hf' _ (tr_ok w Hw)). exact (Ef w Hw).
    - rewrite M, M'. exact I.
    - rewrite M, M'. exact I.
  Qed.
End Twist.

Section Laws.
  Context {S R : Type} (so : scalar_ops S R) (FL : field_laws so).
  Let RL := l_ring so FL.
  Let RT := ring_of so RL.
  Add Ring scalars2 : RT.
  Infix "[*]" := (s_mul so) (at level 40, left associativity).
  Notation sum := (fold_right (s_add so) (s_zero so)).
  Lemma weight_app x u v : weight so x (u ++ v) = weight so x u [*] weight so x v.
  Proof. unfold weight. induction u as [|a u IH]; cbn [app fold_right]; [ring|]. rewrite IH. ring. Qed.
  Lemma sum_scal c (h h' : word * word -> S) (l : list (word * word)) : (forall uv, List.In uv l -> h' uv = c [*] h uv) -> sum (map h' l) = c [*] sum (map h l).
  Proof.
    induction l as [|e l IH]; intros H; cbn [map fold_right]; [ring|]. rewrite IH by (intros uv I; apply H; right; exact I).
    rewrite (H e (or_introl eq_refl)). ring.
  Qed.
  Lemma weight_conv x n (f g f' g' : word -> S) w : word_ok n w -> (forall u, word_ok n u -> f' u = weight so x u [*] f u) ->
    (forall u, word_ok n u -> g' u = weight so x u [*] g u) -> conv so f' g' w = weight so x w [*] conv so f g w.
  Proof.
    intros Hw Hf Hg. unfold conv. apply sum_scal. intros [u v] I. apply splits_in in I. cbn [fst snd]. subst w. apply word_ok_app in Hw. destruct Hw as [Hu Hv].
    rewrite (Hf u Hu), (Hg v Hv), weight_app. ring.
  Qed.
  Lemma splits_snoc a w : splits (w ++ [a]) = map (fun uv => (fst uv, snd uv ++ [a])) (splits w) ++ [(w ++ [a], [])].
  Proof.
    induction w as [|b w IH]; [reflexivity|]. cbn [app splits map fst snd]. f_equal. rewrite IH, map_app, !map_map. cbn [map fst snd]. reflexivity.
  Qed.
  Lemma splits_rev (w : word) : splits (rev w) = rev (map (fun uv => (rev (snd uv), rev (fst uv))) (splits w)).
  Proof.
    induction w as [|a w IH]; [reflexivity|]. cbn [rev splits map fst snd]. rewrite splits_snoc, IH, map_rev, !map_map. reflexivity.
  Qed.
  Lemma sum_rev l : sum (rev l) = sum l.
  Proof. induction l as [|x l IH]; [reflexivity|]. cbn [rev fold_right]. rewrite (sum_app so RL), IH. cbn [fold_right]. ring. Qed.
  Lemma rev_ok n (w : word) : word_ok n w -> word_ok n (rev w).
  Proof. apply Forall_rev. Qed.
  Lemma rev_conv n (f g f' g' : word -> S) w : word_ok n w -> (forall u, word_ok n u -> f' (rev u) = s_one so [*] f u) ->
    (forall u, word_ok n u -> g' (rev u) = s_one so [*] g u) -> conv so g' f' (rev w) = s_one so [*] conv so f g w.
  Proof.
    intros Hw Hf Hg. unfold conv. rewrite splits_rev, map_rev, sum_rev, map_map. apply sum_scal. intros [u v] I. apply splits_in in I. cbn [fst snd].
    subst w. apply word_ok_app in Hw. destruct Hw as [Hu Hv]. rewrite (Hf u Hu), (Hg v Hv). ring.
  Qed.
  Lemma twist_weigh x (c : tcmd S R) : twist so (fun w => w) (weight so x) false c = weigh so x c.
  Proof. destruct c; reflexivity. Qed.
  Lemma twist_rev (c : tcmd S R) : twist so (@rev N) (fun _ => s_one so) true c = backwards c.
  Proof.
    destruct c; cbn [twist backwards rename]; try reflexivity; rewrite ?(l_mul_1_l so RL); try reflexivity. f_equal. apply map_ext. intros e.
    rewrite (l_mul_1_l so RL). reflexivity.
  Qed.
End Laws.
Lemma rev_inj (u w : word) : rev u = rev w -> u = w.
Proof. intros E. rewrite <- (rev_involutive u), E. apply rev_involutive. Qed.
Lemma rev_len (w : word) : len (rev w) = len w.
Proof. unfold len. rewrite rev_length. reflexivity. Qed.

(** weights *)
Lemma c122_weights : forall (S R : Type) (so : scalar_ops S R) (p p' : profile) (n D : N) (x : N -> S) (cs : list (tcmd S R)) (st st' : nat -> dvec S),
  field_laws so -> 2 <= n < 2 ^ 32 -> n ^ (D + 1) < 2 ^ 64 -> Forall (cmd_within n D) cs ->
  (forall i, weighted so n D x (st i) (st' i)) ->
  same_outcome (fun z z' => forall i, weighted so n D x (z i) (z' i)) (run_prog so p n st cs) (run_prog so p' n st' (map (weigh so x) cs)).
Proof.
  intros S R so p p' n D x cs st st' FL Hn PD C H.
  pose proof (twisted_run so FL (fun w => w) (weight so x) false n (fun _ X => X) (fun _ _ X => X) (fun _ => eq_refl) (weight_conv so FL x n)
                p p' D cs st st' Hn PD C H) as X.
  rewrite (map_ext _ _ (twist_weigh so x)) in X. exact X.
Qed.
(** reversal *)
Lemma c122_backwards : forall (S R : Type) (so : scalar_ops S R) (p p' : profile) (n D : N) (cs : list (tcmd S R)) (st st' : nat -> dvec S),
  field_laws so -> 2 <= n < 2 ^ 32 -> n ^ (D + 1) < 2 ^ 64 -> Forall (cmd_within n D) cs ->
  (forall i, renamed so n n D (@rev N) (st i) (st' i)) ->
  same_outcome (fun z z' => forall i, renamed so n n D (@rev N) (z i) (z' i)) (run_prog so p n st cs) (run_prog so p' n st' (map backwards cs)).
Proof.
  intros S R so p p' n D cs st st' FL Hn PD C H.
  assert (E : forall v v', renamed so n n D (@rev N) v v' <-> twisted so (@rev N) (fun _ => s_one so) n D v v').
  { intros v v'. split; intros (d & X & X' & Y); exists d; (split; [exact X|]); (split; [exact X'|]); intros w Hw; specialize (Y w Hw);
      rewrite (l_mul_1_l so (l_ring so FL)) in *; exact Y. }
  pose proof (twisted_run so FL (@rev N) (fun _ => s_one so) true n (rev_ok n) rev_inj rev_len (rev_conv so FL n)
                p p' D cs st st' Hn PD C (fun i => proj1 (E _ _) (H i))) as X.
  rewrite (map_ext _ _ (twist_rev so FL)) in X.
  destruct (run_prog so p n st cs), (run_prog so p' n st' _); cbn [same_outcome] in *; auto. intros i. apply E. apply X.
Qed.
Example c122_example :
  let s := fun a => if a =? 1 then 3 else 1 in
  let x := fun a => if a =? 1 then q 2 else q 3 in
  let start := fun _ : nat => @dv_new Qc in
  let cs := [CPairs 0 [([], q 4); ([1], q 2); ([2; 1], q 3)]; CKey 1 [2] (q 5); CMul 2 0 1 (Some 3); CSubMul 2 1 0 (Some 2); CErase 2 [2; 1]] in
  let coefs := fun n ws r => z <- r ;; Ret (map (fun w => this (wcoef qc_ops n (z 2%nat) w)) ws) in
  injects s 2 3
  /\ coefs 2 [[1]; [2]; [1; 2]; [2; 1]; [2; 1; 2]] (run_prog qc_ops dev 2 start cs) = Ret (qz [0; 0; 10; 0; 15]%Z)
  /\ coefs 3 [[3]; [1]; [3; 1]; [1; 3]; [1; 3; 1]; [2; 1; 2]] (run_prog qc_ops dev 3 start (map (rename (map s)) cs)) = Ret (qz [0; 0; 10; 0; 15; 0]%Z)
  /\ coefs 2 [[1]; [2]; [1; 2]; [2; 1]; [2; 1; 2]] (run_prog qc_ops dev 2 start (map (weigh qc_ops x) cs)) = Ret (qz [0; 0; 60; 0; 270]%Z)
  /\ coefs 2 [[1]; [2]; [2; 1]; [1; 2]; [2; 1; 2]] (run_prog qc_ops dev 2 start (map backwards cs)) = Ret (qz [0; 0; 10; 0; 15]%Z).
Proof.
  cbn zeta. split.
  - split; intros a; [|intros b].
    + intros H. destruct (N.eqb_spec a 1); lia.
    + intros Ha Hb. destruct (N.eqb_spec a 1), (N.eqb_spec b 1); lia.
  - split; [vm_compute; reflexivity|]. split; [vm_compute; reflexivity|]. split; vm_compute; reflexivity.
Qed.
