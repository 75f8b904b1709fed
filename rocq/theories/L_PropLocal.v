(** Property lemmas C124 (restated as theorems in P_Local.v). *)
From Coq Require Import QArith Qcanon.
From Verif Require Import Machine MachineLemmas S_Words M_TensorKey M_TensorBasis M_Scalar M_Vector M_Dense M_Algebra S_Vector S_Tensor I_Scalars
  S_TensorProg S_Borrow L_PropBorrow M_Float S_Float S_ProgSteps L_Dense L_Algebra L_PropDense L_PropFloat L_Conv L_PropProducts L_PropTensorProg L_PropProgFloat
  L_PropSymmetry S_Local.
Local Open Scope N_scope.

Lemma word_eqb_eq u w : word_eqb u w = true -> u = w.
Proof. unfold word_eqb. destruct (list_eq_dec N.eq_dec u w) as [E|_]; [intros _; exact E|discriminate]. Qed.
Lemma leb_upto e k m m' : k <= e -> N.min e m = N.min e m' -> (k <=? m) = (k <=? m').
Proof. intros H E. destruct (N.leb_spec k m), (N.leb_spec k m'); try reflexivity; lia. Qed.
Lemma upto_max e s s' m m' : N.min e s = N.min e s' -> N.min e m = N.min e m' -> N.min e (N.max s m) = N.min e (N.max s' m').
Proof. lia. Qed.
Lemma upto_sum e l l' r r' : N.min e l = N.min e l' -> N.min e r = N.min e r' -> N.min e (l + r) = N.min e (l' + r').
Proof. lia. Qed.
Lemma upto_min e t t' m m' : N.min e t = N.min e t' -> N.min e m = N.min e m' -> N.min e (N.min t m) = N.min e (N.min t' m').
Proof. lia. Qed.
Lemma upto_zero e m m' : 1 <= e -> N.min e m = N.min e m' -> (m =? 0) = (m' =? 0).
Proof. intros H E. destruct (N.eqb_spec m 0), (N.eqb_spec m' 0); try reflexivity; lia. Qed.

Section Local.
  Context {S R : Type} (so : scalar_ops S R) (W : word -> Prop) (e n : N) (F : factor_closed W) (E1 : 1 <= e) (Le : forall w, W w -> len w <= e).
  Definition loc (a a' : atensor S) : Prop := upto e (t_deg a) = upto e (t_deg a') /\ forall w, word_ok n w -> W w -> t_fun a w = t_fun a' w.
  Lemma loc_set (st st' : nat -> atensor S) d v v' : (forall i, loc (st i) (st' i)) -> loc v v' -> forall i, loc (set_var st d v i) (set_var st' d v' i).
  Proof. intros H V i. unfold set_var. destruct (Nat.eqb i d); auto. Qed.
  Lemma loc_stores a a' w : loc a a' -> W w -> stores a w = stores a' w.
  Proof.
    intros [E _] Hw. unfold stores. destruct (t_deg a) as [d|], (t_deg a') as [d'|]; cbn in E; try discriminate; [|reflexivity].
    apply (leb_upto e); [auto|congruence].
  Qed.
  Lemma loc_zero : loc (t_zero so) (t_zero so).
  Proof. split; reflexivity. Qed.
  Lemma loc_map a a' h : loc a a' -> loc (r_map so a h) (r_map so a' h).
  Proof. intros H. split; [exact (proj1 H)|]. intros w Ow Hw. cbn. rewrite (loc_stores a a' w H Hw), (proj2 H w Ow Hw). reflexivity. Qed.
  Lemma upto_join a a' b b' : upto e a = upto e a' -> upto e b = upto e b' -> upto e (join a b) = upto e (join a' b').
  Proof.
    destruct a, a', b, b'; cbn; intros H G; try discriminate; try assumption. injection H as H. injection G as G. f_equal. apply upto_max; assumption.
  Qed.
  Lemma loc_zip a a' b b' h : loc a a' -> loc b b' -> loc (r_zip a b h) (r_zip a' b' h).
  Proof.
    intros H G. split; [apply upto_join; [apply H|apply G]|]. intros w Ow Hw. cbn. rewrite (loc_stores b b' w G Hw), (proj2 H w Ow Hw), (proj2 G w Ow Hw). reflexivity.
  Qed.
  Lemma loc_at a a' u u' (c c' : S) (h : S -> S -> S) : at_same W u u' c c' -> loc a a' -> loc (t_at a u (h c)) (t_at a' u' (h c')).
  Proof.
    intros A H. split; [exact (proj1 H)|]. intros w Ow Hw. cbn. destruct A as [[<- <-]|[Nu Nu']].
    - destruct (word_eqb w u) eqn:Q; cbn [andb]; [|apply H; assumption]. apply word_eqb_eq in Q. subst u. rewrite (loc_stores a a' w H Hw).
      destruct (stores a' w); [f_equal|]; apply H; assumption.
    - destruct (word_eqb w u) eqn:Q; [apply word_eqb_eq in Q; subst u; contradiction|]. destruct (word_eqb w u') eqn:Q'; [apply word_eqb_eq in Q'; subst u'; contradiction|].
      apply H; assumption.
  Qed.
  Lemma loc_terms l l' r r' (f f' g g' : word -> S) w : word_ok n w -> W w -> N.min e l = N.min e l' -> N.min e r = N.min e r' ->
    (forall u, word_ok n u -> W u -> f u = f' u) -> (forall u, word_ok n u -> W u -> g u = g' u) ->
    terms so l r f g w = terms so l' r' f' g' w.
  Proof.
    intros Ow Hw El Er Hf Hg. unfold terms.
    assert (A : forall uv, List.In uv (rev (splits w)) -> (word_ok n (fst uv) /\ W (fst uv)) /\ (word_ok n (snd uv) /\ W (snd uv))).
    { intros [u v] I. apply in_rev in I. apply splits_in in I. subst w. apply word_ok_app in Ow. apply F in Hw. cbn. tauto. }
    change (list N) with word. revert A. generalize (rev (splits w)). intros L A. induction L as [|[u v] L IH]; [reflexivity|]. cbn [filter fst snd].
    destruct (A (u, v) (or_introl eq_refl)) as [[Ou Hu] [Ov Hv]]. cbn [fst snd] in *.
    rewrite (leb_upto e (len u) l l' (Le u Hu) El), (leb_upto e (len v) r r' (Le v Hv) Er).
    destruct ((len u <=? l') && (len v <=? r')); cbn [map fst snd]; [rewrite (Hf u Ou Hu), (Hg v Ov Hv); f_equal|]; apply IH; intros uv I; apply A; right; exact I.
  Qed.
  Lemma loc_product x x' a a' b b' f t t' : upto e t = upto e t' -> loc x x' -> loc a a' -> loc b b' ->
    same_outcome loc (r_product so x a b f t) (r_product so x' a' b' f t').
  Proof.
    intros T X A B. unfold r_product. destruct t as [t|], t' as [t'|]; try discriminate T; [|exact I]. injection T as T.
    destruct A as [Ea Fa], B as [Eb Fb], X as [Ex Fx].
    destruct (t_deg a) as [l|], (t_deg a') as [l'|]; try discriminate Ea; [|exact I]. injection Ea as Ea.
    destruct (t_deg b) as [r|], (t_deg b') as [r'|]; try discriminate Eb; [|exact I]. injection Eb as Eb.
    assert (M : N.min e (N.min t (l + r)) = N.min e (N.min t' (l' + r'))) by (apply upto_min; [exact T|apply upto_sum; assumption]).
    set (m := N.min t (l + r)) in *. set (m' := N.min t' (l' + r')) in *.
    assert (D : same_outcome (fun d d' => upto e d = upto e d') (d_product (t_deg x) (Some l) (Some r) (Some t)) (d_product (t_deg x') (Some l') (Some r') (Some t'))).
    { unfold d_product. fold m m'. destruct (t_deg x) as [s|], (t_deg x') as [s'|]; try discriminate Ex.
      - injection Ex as Ex. cbn. f_equal. apply upto_max; assumption.
      - rewrite (upto_zero e m m' E1 M). destruct (m' =? 0); [exact I|]. cbn. f_equal. exact M. }
    apply (same_bind (fun d d' => upto e d = upto e d')); [exact D|]. intros d d' Ed. cbn [same_outcome]. split; [exact Ed|]. intros w Ow Hw. cbn [t_fun].
    rewrite (leb_upto e (len w) m m' (Le w Hw) M), (loc_terms l l' r r' (t_fun a) (t_fun a') (t_fun b) (t_fun b') w Ow Hw Ea Eb Fa Fb), (Fx w Ow Hw). reflexivity.
  Qed.
  Lemma loc_cmd st st' (c c' : tcmd S R) : (forall i, loc (st i) (st' i)) -> alike W e c c' ->
    same_outcome (fun z z' => forall i, loc (z i) (z' i)) (step_cmd so st c) (step_cmd so st' c').
  Proof.
    intros H C.
    assert (P : forall x x' a a' b b' f t t' d, upto e t = upto e t' -> loc x x' -> loc a a' -> loc b b' ->
      same_outcome (fun z z' => forall i, loc (z i) (z' i)) (v <- r_product so x a b f t ;; Ret (set_var st d v)) (v <- r_product so x' a' b' f t' ;; Ret (set_var st' d v))).
    { intros x x' a a' b b' f t t' d T X A B. apply (same_bind loc); [apply loc_product; assumption|]. intros v v' V. cbn. apply loc_set; assumption. }
    destruct c, c'; cbn [alike] in C; try contradiction;
      repeat match goal with H : _ /\ _ |- _ => destruct H end; subst; cbn [step_cmd];
      try (cbn [same_outcome]; apply loc_set; [exact H|]); try (apply P; auto using loc_zero); auto using loc_zero, loc_map, loc_zip.
    - split; cbn [t_deg t_fun upto option_map]; [f_equal; assumption|]. intros u Ou Hu.
      match goal with A : at_same _ _ _ _ _ |- _ => destruct A as [[<- <-]|[Nu Nu']] end; [reflexivity|].
      destruct (word_eqb u w) eqn:Q; [apply word_eqb_eq in Q; subst; contradiction|]. destruct (word_eqb u w0) eqn:Q'; [apply word_eqb_eq in Q'; subst; contradiction|]. reflexivity.
    - split; cbn [t_deg t_fun]; [apply H|]. intros u Ou Hu. match goal with A : _ \/ _ |- _ => destruct A as [<-|[Nu Nu']] end.
      + destruct (word_eqb u w); [reflexivity|apply H; assumption].
      + destruct (word_eqb u w) eqn:Q; [apply word_eqb_eq in Q; subst; contradiction|]. destruct (word_eqb u w0) eqn:Q'; [apply word_eqb_eq in Q'; subst; contradiction|]. apply H; assumption.
    - apply (same_bind loc); [apply loc_product; auto using loc_zero|]. intros u u' U. apply P; auto.
    - split; cbn [t_deg t_fun]; [|reflexivity]. unfold deg_below. destruct (N.eqb_spec e0 0), (N.eqb_spec e1 0); cbn; try reflexivity; try lia. f_equal. lia.
    - split; cbn [t_deg t_fun]; [assumption|]. intros u Ou Hu. f_equal. auto.
    - apply (loc_at _ _ _ _ _ _ (fun c _ => c)); auto.
    - apply (loc_at _ _ _ _ _ _ (fun c x => s_add so x c)); auto.
    - apply (loc_at _ _ _ _ _ _ (fun c x => s_sub so x c)); auto.
  Qed.
  Lemma loc_prog cs cs' : Forall2 (alike W e) cs cs' -> forall st st', (forall i, loc (st i) (st' i)) ->
    same_outcome (fun z z' => forall i, loc (z i) (z' i)) (step_prog so st cs) (step_prog so st' cs').
  Proof.
    induction 1 as [|c c' cs cs' C _ IH]; intros st st' H; [exact H|]. cbn [step_prog].
    apply (same_bind (fun z z' => forall i, loc (z i) (z' i))); [exact (loc_cmd st st' c c' H C)|]. intros z z' Z. apply IH; assumption.
  Qed.
End Local.

(** What a program computes at the words of a factor-closed set depends only on what is given there, bit for bit. *)
Lemma c124_local : forall (S R : Type) (so : scalar_ops S R) (p p' : profile) (n D D' e : N) (W : word -> Prop) (cs cs' : list (tcmd S R)) (st st' : nat -> dvec S),
  2 <= n < 2 ^ 32 -> n ^ (D + 1) < 2 ^ 64 -> n ^ (D' + 1) < 2 ^ 64 -> 1 <= e -> factor_closed W -> (forall w, W w -> len w <= e) ->
  Forall (cmd_within n D) cs -> Forall (cmd_within n D') cs' -> Forall2 (alike W e) cs cs' ->
  (forall i, agree_on W e so n D D' (st i) (st' i)) ->
  same_outcome (fun z z' => forall i, agree_on W e so n D D' (z i) (z' i)) (run_prog so p n st cs) (run_prog so p' n st' cs').
Proof.
  intros S R so p p' n D D' e W cs cs' st st' Hn PD PD' He F Le C C' A H.
  set (a := fun i => itself so n (st i) (shape p n (st i))). set (a' := fun i => itself so n (st' i) (shape p n (st' i))).
  assert (B : forall i, stands_for so n D (st i) (a i) /\ stands_for so n D' (st' i) (a' i) /\ loc W e n (a i) (a' i)).
  { intros i. destruct (H i) as (d & d' & X & X' & Ed & E). pose proof (shape_ok p n D (st i) d Hn PD X) as Sh. pose proof (shape_ok p n D' (st' i) d' Hn PD' X') as Sh'.
    unfold a, a'. rewrite Sh, Sh'. split; [apply itself_stands; exact X|]. split; [apply itself_stands; exact X'|]. split; [exact Ed|exact E]. }
  pose proof (c114_steps S R so p n D cs st a Hn PD (fun i => proj1 (B i)) C) as M.
  pose proof (c114_steps S R so p' n D' cs' st' a' Hn PD' (fun i => proj1 (proj2 (B i))) C') as M'.
  pose proof (loc_prog so W e n F He Le cs cs' A a a' (fun i => proj2 (proj2 (B i)))) as E.
  destruct (step_prog so a cs) as [b| | |], (step_prog so a' _) as [b'| | |]; cbn [same_outcome] in E; try contradiction.
  - destruct M as (z & -> & Z), M' as (z' & -> & Z'). cbn [same_outcome]. intros i. destruct (Z i) as (K & Hd & Hf), (Z' i) as (K' & Hd' & Hf'), (E i) as (Ed & Ef).
    exists (t_deg (b i)), (t_deg (b' i)). split; [split; assumption|]. split; [split; assumption|]. split; [exact Ed|]. intros w Ow Hw.
    rewrite (Hf w Ow), (Hf' w Ow). exact (Ef w Ow Hw).
  - rewrite M, M'. exact I.
  - rewrite M, M'. exact I.
Qed.
(** Truncating products early changes no coefficient up to the degree of the truncation. *)
Lemma c124_truncation : forall (S R : Type) (so : scalar_ops S R) (p p' : profile) (n D e : N) (cs : list (tcmd S R)) (st : nat -> dvec S),
  2 <= n < 2 ^ 32 -> n ^ (D + 1) < 2 ^ 64 -> 1 <= e -> Forall (cmd_within n D) cs -> (forall i, exists d, shaped n D (st i) d) ->
  same_outcome (fun z z' => forall i w, word_ok n w -> len w <= e -> wcoef so n (z i) w = wcoef so n (z' i) w)
    (run_prog so p n st cs) (run_prog so p' n st (map (lower e) cs)).
Proof.
  intros S R so p p' n D e cs st Hn PD He C H.
  assert (X : same_outcome (fun z z' => forall i, agree_on (fun w => len w <= e) e so n D D (z i) (z' i)) (run_prog so p n st cs) (run_prog so p' n st (map (lower e) cs))).
  { apply c124_local; auto.
    - intros u v L. rewrite len_app in L. lia.
    - apply Forall_map. revert C. apply Forall_impl. intros c Cc. destruct c; cbn in *; try exact Cc; destruct t; cbn; try exact I; lia.
    - clear. induction cs as [|c cs IH]; constructor; [|exact IH]. unfold at_same.
      destruct c; cbn; repeat split; auto; try (left; split; reflexivity); unfold same_degree, upto; destruct t; cbn; try reflexivity; f_equal; lia.
    - intros i. destruct (H i) as (d & Hd). exists d, d. repeat split; auto; apply Hd. }
  destruct (run_prog so p n st cs), (run_prog so p' n st _); cbn in *; try assumption. intros i w Ow Lw. destruct (X i) as (d & d' & _ & _ & _ & E). auto.
Qed.
(** One coefficient depends only on the coefficients of the factors of its word. *)
Lemma c124_factors : forall (S R : Type) (so : scalar_ops S R) (p : profile) (n D : N) (w : word) (cs : list (tcmd S R)) (st st' z : nat -> dvec S) (i : nat),
  2 <= n < 2 ^ 32 -> n ^ (D + 1) < 2 ^ 64 -> Forall (cmd_within n D) cs -> word_ok n w ->
  (forall i, exists d, shaped n D (st i) d /\ shaped n D (st' i) d) ->
  (forall i u, word_ok n u -> factor w u -> wcoef so n (st i) u = wcoef so n (st' i) u) ->
  run_prog so p n st cs = Ret z ->
  exists z', run_prog so p n st' cs = Ret z' /\ wcoef so n (z i) w = wcoef so n (z' i) w.
Proof.
  intros S R so p n D w cs st st' z i Hn PD C Ow H E Rn.
  assert (X : same_outcome (fun z z' => forall i, agree_on (factor w) (N.max 1 (len w)) so n D D (z i) (z' i)) (run_prog so p n st cs) (run_prog so p n st' cs)).
  { apply c124_local; auto.
    - lia.
    - intros u v (a & b & ->). split; [exists a, (v ++ b)|exists (a ++ u), b]; rewrite <- !app_assoc; reflexivity.
    - intros u (a & b & ->). rewrite !len_app. lia.
    - clear. induction cs as [|c cs IH]; constructor; [|exact IH]. destruct c; cbn; repeat split; auto; left; split; reflexivity.
    - intros j. destruct (H j) as (d & X & X'). exists d, d. repeat split; auto; try apply X; apply X'. }
  rewrite Rn in X. destruct (run_prog so p n st' cs) as [z'| | |]; cbn in X; try contradiction. exists z'. split; [reflexivity|].
  destruct (X i) as (d & d' & _ & _ & _ & Q). apply Q; [exact Ow|]. exists [], []. rewrite app_nil_r. reflexivity.
Qed.
Example c124_example :
  let start := fun _ : nat => @dv_new Qc in
  let prog := fun (x : Z) (t : N) => [CPairs 0 [([], q 4); ([1], q 2); ([2], q 3); ([1; 2], q 6); ([2; 1], q x)]; CKey 1 [2; 2] (q x); CKeyAdd 1 [2] (q 5); CMul 2 0 1 (Some t);
                                      CComm 3 0 2 (Some t); CAddMul 2 3 0 (Some t)] in
  let show := fun v : dvec Qc => map this (dv_elems v) in
  (** up to degree 1 nothing depends on what stands at words of length 2 or on what is computed there *)
  (z <- run_prog qc_ops dev 2 start (prog 7%Z 4) ;; Ret (firstn 3 (show (z 2%nat)), len (show (z 2%nat)))) = Ret ([0; 0; 20]%Q, 31)
  /\ (z <- run_prog qc_ops dev 2 start (map (lower 1) (prog (-1)%Z 4)) ;; Ret (firstn 3 (show (z 2%nat)), len (show (z 2%nat)))) = Ret ([0; 0; 20]%Q, 3)
  (** the coefficient of [1; 2] depends on those of [], [1], [2] and [1; 2], but not on those of [2; 1] and [2; 2] *)
  /\ (z <- run_prog qc_ops dev 2 start (prog 7%Z 4) ;; Ret (nth 4 (show (z 2%nat)) 0%Q)) = Ret 170%Q
  /\ (z <- run_prog qc_ops dev 2 start (prog (-1)%Z 4) ;; Ret (nth 4 (show (z 2%nat)) 0%Q)) = Ret 170%Q.
Proof. cbn zeta. repeat split; vm_compute; reflexivity. Qed.
