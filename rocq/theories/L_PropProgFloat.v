(** Property lemmas C114-C116 (restated as theorems in P_ProgFloat.v). *)
From Coq Require Import ZArith QArith Qabs Lqa SpecFloat.
From Verif Require Import Machine MachineLemmas S_Words L_Words M_TensorKey L_TensorKey M_TensorBasis L_TensorBasis
  M_Scalar M_Vector M_Dense M_Algebra S_Vector S_Tensor L_Dense L_PropDense L_Conv M_Float S_Float L_Float L_FloatInt L_FloatOps L_FloatSum L_PropFloat L_PropRound
  L_PropCommFloat L_Algebra L_PropAlgebra L_PropProducts S_TensorProg L_PropTensorProg S_ProgSteps L_ProgSteps L_ProgRel L_ProgError L_ProgInt.
Local Open Scope N_scope.

(** ** C114: the scalar operations of a program *)
Lemma c114_steps : forall (S R : Type) (so : scalar_ops S R) (p : profile) (n D : N) (cs : list (tcmd S R))
    (st : nat -> dvec S) (a : nat -> atensor S),
  2 <= n < 2 ^ 32 -> n ^ (D + 1) < 2 ^ 64 ->
  (forall i, stands_for so n D (st i) (a i)) -> Forall (cmd_within n D) cs ->
  match step_prog so a cs with
  | Ret a' => exists st', run_prog so p n st cs = Ret st' /\ forall i, stands_for so n D (st' i) (a' i)
  | Panic => run_prog so p n st cs = Panic
  | UB => run_prog so p n st cs = UB
  | Diverge => False
  end.
Proof. intros S R so p n D cs st a Hn PD H F. exact (step_prog_ok so p n D Hn PD cs st a H F). Qed.

(** every tensor with storage of a whole number of degrees stands for its own coefficients *)
Definition itself {S R} (so : scalar_ops S R) (n : N) (v : dvec S) (d : option N) : atensor S := mk_atensor d (wcoef so n v).
Lemma itself_stands {S R} (so : scalar_ops S R) n D v d : shaped n D v d -> stands_for so n D v (itself so n v d).
Proof. intros [K Hd]. split; [exact K|]. split; [exact Hd|]. reflexivity. Qed.

(** all builds leave the same scalars, whatever the laws of the scalars are *)
Lemma c114_same_in_every_build : forall (S R : Type) (so : scalar_ops S R) (p p' : profile) (n D : N)
    (cs : list (tcmd S R)) (st z : nat -> dvec S),
  2 <= n < 2 ^ 32 -> n ^ (D + 1) < 2 ^ 64 ->
  (forall i, exists d, shaped n D (st i) d) -> Forall (cmd_within n D) cs ->
  run_prog so p n st cs = Ret z ->
  exists z', run_prog so p' n st cs = Ret z' /\ forall i, dv_as_slice (z i) = dv_as_slice (z' i).
Proof.
  intros S R so p p' n D cs st z Hn PD H F E.
  set (d := fun i => if dv_size (st i) =? 0 then None
                     else Some (match dv_degree (tensor_basis p n) (st i) with Ret d => d | _ => 0 end)).
  assert (A : forall i, shaped n D (st i) (d i)).
  { intros i. destruct (H i) as (o & K & Ho). split; [exact K|]. unfold d. destruct o as [o|].
    - destruct Ho as [Ho Hf].
      destruct (N.eqb_spec (dv_size (st i)) 0) as [E0|E0].
      + exact E0.
      + rewrite (degree_ok p n (proj1 Hn) (st i) o (filled_degree n (proj1 Hn) _ _ Hf) (pow_mono_fits n (proj1 Hn) o D Ho PD)).
        split; assumption.
    - rewrite Ho. reflexivity. }
  set (a := fun i => itself so n (st i) (d i)).
  assert (B : forall i, stands_for so n D (st i) (a i)) by (intros i; apply itself_stands, A).
  pose proof (c114_steps S R so p n D cs st a Hn PD B F) as M. pose proof (c114_steps S R so p' n D cs st a Hn PD B F) as M'.
  destruct (step_prog so a cs) as [a'| | |]; [|congruence|congruence|contradiction].
  destruct M as (z1 & E1 & H1), M' as (z' & E2 & H2). rewrite E in E1. injection E1 as <-.
  exists z'. split; [exact E2|]. intros i. exact (stands_same so n D _ _ _ _ (proj1 Hn) (H1 i) (H2 i) eq_refl (fun _ _ => eq_refl)).
Qed.

(** ** C115: rounding errors of a program *)
Section Errors.
  Context (f : fmt) (Hf : f = f32 \/ f = f64) (p : profile) (n D : N) (Hn : 2 <= n < 2 ^ 32) (PD : n ^ (D + 1) < 2 ^ 64).
  Notation so := (fl_ops f).
  Let G : (1 < f_prec f < f_emax f)%Z := proj1 (two_good f Hf).
  Local Open Scope Q_scope.

  Lemma inflated_infl k j m : inflated f k j m == infl f (N.to_nat k) (N.to_nat j) m.
  Proof. unfold inflated, infl, num, grow, Q_of_N. rewrite !N_nat_Z. reflexivity. Qed.

  Notation rstF F := (rst n (close f F)).
  Notation state F a k := (rstF F a (v_exact k) (sizes (v_exact k)) (largest k)).
  Lemma cmd_errors F a k c : state F a k -> cmd_finite f c -> (F -> no_overflow f n k [c]) ->
    match step_cmd so a c with
    | Ret a' => exists k', know_cmd f k c = Ret k' /\ mean_cmd q_ops (v_exact k) (exact_cmd c) = Ret (v_exact k') /\ state F a' k'
    | Panic => mean_cmd q_ops (v_exact k) (exact_cmd c) = Panic
    | UB => mean_cmd q_ops (v_exact k) (exact_cmd c) = UB
    | Diverge => False
    end.
  Proof.
    intros H Hc Hov.
    assert (Hok : cmd_ok (fun c => is_float f c /\ finite c) (divisor f) c) by (destruct c; exact Hc).
    pose proof (cmd_rel f n (close f F) _ _ (close_compat f F) (close_mono f F) (close_zero f F) (close_add f G F)
      (close_addz f F) (close_zadd f F) (close_opp f F) (close_oppz f F) (close_mul f G F) (close_mulz f F) (close_const f F)
      (close_div f G F) (close_divz f F) c a _ _ _ H Hok) as M.
    destruct (step_cmd so a c) as [a'| | |]; cbn [follows] in M; try exact M.
    destruct M as (v' & s' & m' & Ev & Es & Em & Oth & E1 & E2 & E3 & Z & R).
    unfold know_cmd. rewrite Ev, Es, Em. cbn [bind]. eexists. split; [reflexivity|]. split; [reflexivity|].
    cbn [v_exact v_error]. intros i. destruct (Nat.eq_dec i (target c)) as [->|Ni].
    - unfold sizes, largest. cbn [v_exact v_error]. do 3 (split; [assumption|]). split; [exact Z|]. cbn [t_fun].
      intros w Hw. rewrite set_same. specialize (R w Hw). pose proof (inflated_infl (roundings c w) (products c w) (t_fun (m' (target c)) w)) as I.
      pose proof (close_pos f F _ _ _ _ _ _ R) as [P1 P2].
      pose proof (infl_mono f 0 0 (N.to_nat (roundings c w)) (N.to_nat (products c w)) _ _ (Nat.le_0_l _) (Nat.le_0_l _) P2 (Qle_refl _)) as X.
      rewrite infl_0 in X.
      assert (Fin : F -> finite (t_fun (a' (target c)) w)).
      { intros HF. destruct (stores (a' (target c)) w) eqn:Es'; [|rewrite (Z w Hw Es'); apply zero_finite].
        destruct R as (_ & _ & _ & _ & R). apply R; [exact HF|]. right. rewrite <- I.
        destruct (Hov HF) as [Hov1 _]. apply (Hov1 m' w Em Hw). unfold stores in *. rewrite E3. exact Es'. }
      destruct R as (V & R1 & R2 & R3 & _). split; [exact V|]. split; [apply Qle_refl|]. split; [|split].
      + rewrite I. lra.
      + intros x Hx. rewrite infl_0. rewrite I. pose proof (R3 x Hx). lra.
      + intros HF _. exact (Fin HF).
    - destruct (Oth i Ni) as (Ea & Ev' & _). unfold sizes, largest. cbn [v_exact v_error]. rewrite set_other by exact Ni.
      rewrite Ea, Ev'. exact (H i).
  Qed.
  Lemma prog_errors F cs : forall a k, state F a k -> Forall (cmd_finite f) cs -> (F -> no_overflow f n k cs) ->
    match step_prog so a cs with
    | Ret a' => exists k', know_prog f k cs = Ret k' /\ mean_prog q_ops (v_exact k) (map exact_cmd cs) = Ret (v_exact k') /\ state F a' k'
    | Panic => mean_prog q_ops (v_exact k) (map exact_cmd cs) = Panic
    | UB => mean_prog q_ops (v_exact k) (map exact_cmd cs) = UB
    | Diverge => False
    end.
  Proof.
    induction cs as [|c cs IH]; intros a k H Hc Hov.
    - exists k. split; [reflexivity|]. split; [reflexivity|exact H].
    - inversion_clear Hc. cbn [step_prog know_prog mean_prog map].
      assert (Hone : F -> no_overflow f n k [c]) by (intros HF; split; [exact (proj1 (Hov HF))|intros; exact I]).
      pose proof (cmd_errors F a k c H H0 Hone) as M.
      destruct (step_cmd so a c) as [a1| | |]; cbn [bind]; try (rewrite M; reflexivity); [|contradiction].
      destruct M as (k1 & E1 & E2 & H'). rewrite E1, E2. cbn [bind]. apply IH; [exact H'|assumption|].
      intros HF. exact (proj2 (Hov HF) k1 E1).
  Qed.
  Notation wc := (wcoef so n).
  Lemma initial (F : Prop) st v e : (forall i, knows f n D (st i) (v i) (e i)) ->
    (F -> forall i w, word_ok n w -> finite (wc (st i) w)) ->
    state F (fun i => itself so n (st i) (t_deg (v i))) (mk_known v e).
  Proof.
    intros H HF i. destruct (H i) as [Sh X]. unfold sizes, largest. cbn [v_exact v_error]. do 3 (split; [reflexivity|]).
    cbn [itself t_fun]. split.
    - intros w Hw. exact (std_unstored so n D Hn PD _ _ w (itself_stands so n D _ _ Sh) Hw).
    - intros w Hw. destruct (X w Hw) as (V & Pe & Er). split; [exact V|]. split; [apply Qle_refl|].
      split; [lra|]. split.
      + intros c Hc. rewrite infl_0. pose proof (Er c Hc). lra.
      + intros HF' _. exact (HF HF' i w Hw).
  Qed.
  Lemma final F st a k : (forall i, stands_for so n D (st i) (a i)) -> state F a k ->
    (forall i, knows f n D (st i) (v_exact k i) (v_error k i))
    /\ (F -> forall i w, word_ok n w -> finite (wc (st i) w)).
  Proof.
    intros Hs H. split.
    - intros i. destruct (Hs i) as (K & Hd & Hw). destruct (H i) as (E1 & _ & _ & _ & R). split; [split; [exact K|rewrite E1; exact Hd]|].
      intros w Hwo. rewrite (Hw w Hwo). destruct (R w Hwo) as (V & _ & R2 & R3 & _).
      unfold sizes, largest in R2, R3. cbn [t_fun] in R2, R3. split; [exact V|]. split; [lra|].
      intros c Hc. pose proof (R3 c Hc) as X. rewrite infl_0 in X. lra.
    - intros HF i w Hwo. destruct (Hs i) as (_ & _ & Hw). rewrite (Hw w Hwo). destruct (H i) as (_ & _ & _ & _ & R).
      destruct (R w Hwo) as (_ & _ & _ & _ & R4). apply R4; [exact HF|left; reflexivity].
  Qed.
End Errors.

Lemma c115_error : forall (f : fmt) (p : profile) (n D : N) (cs : list (tcmd spec_float spec_float))
    (st : nat -> dvec spec_float) (v : nat -> atensor Q) (e : nat -> word -> Q),
  f = f32 \/ f = f64 -> 2 <= n < 2 ^ 32 -> n ^ (D + 1) < 2 ^ 64 ->
  (forall i, knows f n D (st i) (v i) (e i)) ->
  Forall (cmd_within n D) cs -> Forall (cmd_finite f) cs ->
  match mean_prog q_ops v (map exact_cmd cs) with
  | Ret v' => exists st' k', run_prog (fl_ops f) p n st cs = Ret st'
      /\ know_prog f (mk_known v e) cs = Ret k' /\ v_exact k' = v'
      /\ forall i, knows f n D (st' i) (v' i) (v_error k' i)
  | Panic => run_prog (fl_ops f) p n st cs = Panic
  | UB => run_prog (fl_ops f) p n st cs = UB
  | Diverge => False
  end.
Proof.
  intros f p n D cs st v e Hf Hn PD H W Fc.
  pose proof (initial f n D Hn PD False st v e H (False_ind _)) as I0.
  pose proof (prog_errors f Hf n False cs _ _ I0 Fc (False_ind _)) as M. cbn [v_exact] in M.
  pose proof (step_prog_ok (fl_ops f) p n D Hn PD cs st _ (fun i => itself_stands (fl_ops f) n D _ _ (proj1 (H i))) W) as X.
  destruct (step_prog (fl_ops f) _ cs) as [a'| | |]; cbn [means_all] in X; try (rewrite M; exact X); [|contradiction].
  destruct M as (k' & E1 & E2 & H'), X as (st' & E3 & Hs). rewrite E2. exists st', k'. do 2 (split; [assumption|]).
  split; [reflexivity|]. exact (proj1 (final f n D False st' a' k' Hs H')).
Qed.

(** no overflow: every coefficient stays a number *)
Lemma c115_finite : forall (f : fmt) (p : profile) (n D : N) (cs : list (tcmd spec_float spec_float))
    (st st' : nat -> dvec spec_float) (v : nat -> atensor Q) (e : nat -> word -> Q),
  f = f32 \/ f = f64 -> 2 <= n < 2 ^ 32 -> n ^ (D + 1) < 2 ^ 64 ->
  (forall i, knows f n D (st i) (v i) (e i)) ->
  (forall i w, word_ok n w -> finite (wcoef (fl_ops f) n (st i) w)) ->
  Forall (cmd_within n D) cs -> Forall (cmd_finite f) cs -> no_overflow f n (mk_known v e) cs ->
  run_prog (fl_ops f) p n st cs = Ret st' ->
  forall i w, word_ok n w -> finite (wcoef (fl_ops f) n (st' i) w).
Proof.
  intros f p n D cs st st' v e Hf Hn PD H Fi W Fc Hov E.
  pose proof (initial f n D Hn PD True st v e H (fun _ => Fi)) as I0.
  pose proof (prog_errors f Hf n True cs _ _ I0 Fc (fun _ => Hov)) as M. cbn [v_exact] in M.
  pose proof (step_prog_ok (fl_ops f) p n D Hn PD cs st _ (fun i => itself_stands (fl_ops f) n D _ _ (proj1 (H i))) W) as X.
  destruct (step_prog (fl_ops f) _ cs) as [a'| | |]; cbn [means_all] in X; try congruence; [|contradiction].
  destruct M as (k' & E1 & E2 & H'), X as (st1 & E3 & Hs). rewrite E in E3. injection E3 as <-.
  exact (proj2 (final f n D True st' a' k' Hs H') I).
Qed.

(** ** C116: programs on integers *)
(** no coefficient outside of the storage *)
Section Supported.
  Context (n : N).
  Local Open Scope Q_scope.
  Definition supported (a : atensor Q) : Prop := forall w, word_ok n w -> stores a w = false -> t_fun a w == 0.
  Lemma conv_none (A B : word -> Q) w : (forall u v, w = (u ++ v)%list -> A u * B v == 0) -> conv q_ops A B w == 0.
  Proof.
    intros H. unfold conv. assert (X : forall uv, List.In uv (splits w) -> A (fst uv) * B (snd uv) == 0).
    { intros [u v] Hi. apply H. exact (splits_in w u v Hi). }
    clear H. induction (splits w) as [|x l IH]; [reflexivity|]. cbn [map fold_right]. rewrite IH by (intros; apply X; right; assumption).
    rewrite (X x (or_introl eq_refl)). reflexivity.
  Qed.
  Lemma supported_product neg x a b t r : supported x -> supported a -> supported b ->
    t_product q_ops x a b (if neg : bool then Qminus else Qplus) t = Ret r -> supported r.
  Proof.
    intros Hx Ha Hb E. rewrite t_product_eq in E. destruct t as [t|]; [|discriminate].
    destruct (t_deg a) as [l|] eqn:Ea; [|discriminate]. destruct (t_deg b) as [k|] eqn:Eb; [|destruct (t_deg x); discriminate].
    destruct (d_product (t_deg x) (Some l) (Some k) (Some t)) as [d| | |] eqn:Ed; try discriminate.
    cbn [bind] in E. injection E as <-. destruct (product_degree _ _ _ _ _ Ed) as (e & -> & He & Hs).
    intros w Hw. unfold stores. cbn [t_deg t_fun]. intros El. apply N.leb_gt in El.
    assert (X : t_fun x w == 0).
    { apply (Hx w Hw). unfold stores. destruct (t_deg x); [apply N.leb_gt; lia|reflexivity]. }
    assert (C : tconv q_ops t (t_fun a) (t_fun b) w == 0).
    { unfold tconv. destruct (N.leb_spec (len w) t) as [Lt|Lt]; [|reflexivity]. apply conv_none. intros u v Ew.
      pose proof (len_prefix w u v Ew) as Lw. rewrite Ew in Hw. apply word_ok_app in Hw. destruct Hw as [Hu Hv].
      destruct (N.lt_ge_cases l (len u)) as [H1|H1].
      - rewrite (Ha u Hu) by (unfold stores; rewrite Ea; apply N.leb_gt; exact H1). ring.
      - rewrite (Hb v Hv) by (unfold stores; rewrite Eb; apply N.leb_gt; lia). ring. }
    destruct neg; rewrite X, C; reflexivity.
  Qed.
  Lemma supported_zip a b h : supported a -> supported b -> (forall x y, x == 0 -> y == 0 -> h x y == 0) ->
    supported (t_zip a b h).
  Proof.
    intros Ha Hb Hh w Hw E. unfold stores in E. cbn [t_zip t_deg t_fun] in *. apply Hh; [apply (Ha w Hw)|apply (Hb w Hw)]; unfold stores;
      destruct (t_deg a), (t_deg b); cbn [join] in E; try reflexivity; apply N.leb_gt in E; apply N.leb_gt; lia.
  Qed.
  Lemma supported_map a h : supported a -> (forall x, x == 0 -> h x == 0) -> supported (t_map a h).
  Proof. intros Ha Hh w Hw E. apply Hh, (Ha w Hw), E. Qed.
  Lemma supported_zero : supported (t_zero q_ops).
  Proof. intros w _ _. reflexivity. Qed.
  Lemma supported_set v d x : (forall i, supported (v i)) -> supported x -> forall i, supported (set_var v d x i).
  Proof. intros H Hx i. unfold set_var. destruct (Nat.eqb i d); [exact Hx|apply H]. Qed.
  Lemma supported_at a w h : supported a -> supported (t_at a w h).
  Proof.
    intros H u Hu E. change (stores a u = false) in E. unfold t_at. cbn [t_fun].
    destruct (word_eqb_spec u w) as [->|_]; [rewrite E|]; exact (H _ Hu E).
  Qed.
  Lemma supported_cmd v c v' : (forall i, supported (v i)) -> mean_cmd q_ops v c = Ret v' -> forall i, supported (v' i).
  Proof.
    intros H E. destruct c as [d|d w c|d y|d|d w|d|d c|d r|d y|d y|d y c|d y r|d y z t|d y z t|d y z t|d y z t
      |d y c|d y r|d e|d l|d w c|d w c|d w c]; cbn [mean_cmd] in E;
      try (injection E as <-; apply supported_set; [exact H|]).
    - exact supported_zero.
    - intros u Hu. unfold stores. cbn [t_deg t_fun]. intros E. apply N.leb_gt in E. destruct (word_eqb_spec u w) as [->|_]; [lia|reflexivity].
    - apply H.
    - exact supported_zero.
    - intros u Hu E. cbn [t_fun]. destruct (word_eqb u w); [reflexivity|exact (H d u Hu E)].
    - apply supported_map; [apply H|]. intros x Hx. cbn. rewrite Hx. reflexivity.
    - apply supported_map; [apply H|]. intros x Hx. cbn. rewrite Hx. ring.
    - apply supported_map; [apply H|]. intros x Hx. cbn. rewrite Hx. unfold Qdiv. ring.
    - apply supported_zip; [apply H|apply H|]. intros x y' Hx Hy. cbn. rewrite Hx, Hy. reflexivity.
    - apply supported_zip; [apply H|apply H|]. intros x y' Hx Hy. cbn. rewrite Hx, Hy. reflexivity.
    - apply supported_zip; [apply H|apply H|]. intros x y' Hx Hy. cbn. rewrite Hx, Hy. ring.
    - apply supported_zip; [apply H|apply H|]. intros x y' Hx Hy. cbn. rewrite Hx, Hy. unfold Qdiv. ring.
    - destruct (t_product q_ops _ (v y) (v z) _ t) as [u| | |] eqn:Eu; try discriminate. injection E as <-.
      apply supported_set; [exact H|]. exact (supported_product false _ _ _ _ _ supported_zero (H y) (H z) Eu).
    - destruct (t_product q_ops _ (v y) (v z) _ t) as [u| | |] eqn:Eu; try discriminate. cbn [bind] in E.
      pose proof (supported_product false _ _ _ _ _ supported_zero (H y) (H z) Eu) as Hu.
      destruct (t_product q_ops u (v z) (v y) _ t) as [u'| | |] eqn:Eu'; try discriminate. injection E as <-.
      apply supported_set; [exact H|]. exact (supported_product true _ _ _ _ _ Hu (H z) (H y) Eu').
    - destruct (t_product q_ops _ (v y) (v z) _ t) as [u| | |] eqn:Eu; try discriminate. injection E as <-.
      apply supported_set; [exact H|]. exact (supported_product false _ _ _ _ _ (H d) (H y) (H z) Eu).
    - destruct (t_product q_ops _ (v y) (v z) _ t) as [u| | |] eqn:Eu; try discriminate. injection E as <-.
      apply supported_set; [exact H|]. exact (supported_product true _ _ _ _ _ (H d) (H y) (H z) Eu).
    - apply supported_zip; [apply H|apply H|]. intros x y' Hx Hy. cbn. rewrite Hx, Hy. ring.
    - apply supported_zip; [apply H|apply H|]. intros x y' Hx Hy. cbn. rewrite Hx, Hy. unfold Qdiv. ring.
    - intros w _ _. reflexivity.
    - intros w Hw E. cbn [t_fun]. rewrite (given_none w l E). reflexivity.
    - apply supported_at, H.
    - apply supported_at, H.
    - apply supported_at, H.
  Qed.
End Supported.
Section Integers.
  Context (f : fmt) (Hf : f = f32 \/ f = f64) (n D : N) (Hn : 2 <= n < 2 ^ 32) (PD : n ^ (D + 1) < 2 ^ 64).
  Notation so := (fl_ops f).
  Let G := two_good f Hf.
  Notation state a v := (rst n (whole f) a v (sizes v) (sizes v)).
  Lemma cmd_integers a v c : state a v -> cmd_integer f c -> sizes_fit f n v [c] ->
    match step_cmd so a c with
    | Ret a' => exists v', mean_cmd q_ops v (exact_cmd c) = Ret v' /\ state a' v'
    | Panic => mean_cmd q_ops v (exact_cmd c) = Panic
    | UB => mean_cmd q_ops v (exact_cmd c) = UB
    | Diverge => False
    end.
  Proof.
    intros H Hc [Fit _].
    assert (Sup : forall i, supported n (v i)).
    { intros i w Hw Hs. destruct (H i) as (E1 & _ & _ & Z & R). assert (Hs' : stores (a i) w = false) by (unfold stores in *; rewrite <- E1; exact Hs).
      pose proof (R w Hw) as X. rewrite (Z w Hw Hs') in X. exact (whole_z f _ _ _ X). }
    assert (Hok : cmd_ok (fun c => exists z, fl_int f c z) (fun _ => False) c) by (destruct c; exact Hc).
    pose proof (cmd_rel f n (whole f) (fun c => exists z, fl_int f c z) (fun _ => False) (whole_compat f) (whole_mono f) (whole_zero f) (whole_add f G)
      (whole_addz f) (whole_zadd f) (whole_opp f) (whole_oppz f) (whole_mul f G) (whole_mulz f) (whole_const f)
      (fun _ _ _ _ _ _ => False_ind _) (fun _ _ _ _ _ => False_ind _) c a _ _ _ H Hok) as M.
    destruct (step_cmd so a c) as [a'| | |]; cbn [follows] in M; try exact M.
    destruct M as (v' & s' & m' & Ev & Es & Em & Oth & E1 & E2 & E3 & Z & R).
    exists v'. split; [exact Ev|]. intros i. destruct (Nat.eq_dec i (target c)) as [->|Ni].
    - unfold sizes. do 3 (split; [assumption|]). split; [exact Z|]. cbn [t_fun].
      intros w Hw. destruct (R w Hw) as (V & R1 & z & Ez & Hz). split; [exact V|]. split; [apply Qle_refl|].
      exists z. split; [exact Ez|]. intros _. destruct (stores (a' (target c)) w) eqn:Es'.
      + apply Hz. right. apply (Fit s' w Es Hw). unfold stores in *. rewrite E2. exact Es'.
      + rewrite (Z w Hw Es'). apply (fl_int_zero f z). apply inject_Z_injective. rewrite <- Ez.
        apply (supported_cmd n v _ v' Sup Ev (target c) w Hw). unfold stores in *. rewrite E1. exact Es'.
    - destruct (Oth i Ni) as (Ea & Ev' & _). unfold sizes. rewrite Ea, Ev'. exact (H i).
  Qed.
  Lemma prog_integers cs : forall a v, state a v -> Forall (cmd_integer f) cs -> sizes_fit f n v cs ->
    match step_prog so a cs with
    | Ret a' => exists v', mean_prog q_ops v (map exact_cmd cs) = Ret v' /\ state a' v'
    | Panic => mean_prog q_ops v (map exact_cmd cs) = Panic
    | UB => mean_prog q_ops v (map exact_cmd cs) = UB
    | Diverge => False
    end.
  Proof.
    induction cs as [|c cs IH]; intros a v H Hc Fit.
    - exists v. split; [reflexivity|exact H].
    - inversion_clear Hc. cbn [step_prog mean_prog map].
      assert (Hone : sizes_fit f n v [c]) by (split; [exact (proj1 Fit)|intros; exact I]).
      pose proof (cmd_integers a v c H H0 Hone) as M.
      destruct (step_cmd so a c) as [a1| | |]; cbn [bind]; try (rewrite M; reflexivity); [|contradiction].
      destruct M as (v1 & E1 & H'). rewrite E1. cbn [bind]. apply IH; [exact H'|assumption|]. exact (proj2 Fit v1 E1).
  Qed.
End Integers.
Lemma c116_integers : forall (f : fmt) (p : profile) (n D : N) (cs : list (tcmd spec_float spec_float))
    (st : nat -> dvec spec_float) (v : nat -> atensor Q),
  f = f32 \/ f = f64 -> 2 <= n < 2 ^ 32 -> n ^ (D + 1) < 2 ^ 64 ->
  (forall i, is_exactly f n D (st i) (v i)) ->
  Forall (cmd_within n D) cs -> Forall (cmd_integer f) cs -> sizes_fit f n v cs ->
  match mean_prog q_ops v (map exact_cmd cs) with
  | Ret v' => exists st', run_prog (fl_ops f) p n st cs = Ret st' /\ forall i, is_exactly f n D (st' i) (v' i)
  | Panic => run_prog (fl_ops f) p n st cs = Panic
  | UB => run_prog (fl_ops f) p n st cs = UB
  | Diverge => False
  end.
Proof.
  intros f p n D cs st v Hf Hn PD H W Hc Fit.
  set (a := fun i => itself (fl_ops f) n (st i) (t_deg (v i))).
  assert (I0 : rst n (whole f) a v (sizes v) (sizes v)).
  { intros i. destruct (H i) as [Sh X]. do 3 (split; [reflexivity|]). split.
    - intros w Hw. exact (std_unstored (fl_ops f) n D Hn PD _ _ w (itself_stands (fl_ops f) n D _ _ Sh) Hw).
    - intros w Hw. destruct (X w Hw) as (z & Ez & Hz). split; [exact (proj1 Hz)|]. split; [apply Qle_refl|].
      exists z. split; [exact Ez|]. intros _. exact Hz. }
  pose proof (prog_integers f Hf n cs a v I0 Hc Fit) as M.
  pose proof (step_prog_ok (fl_ops f) p n D Hn PD cs st a (fun i => itself_stands (fl_ops f) n D _ _ (proj1 (H i))) W) as X.
  destruct (step_prog (fl_ops f) a cs) as [a'| | |]; cbn [means_all] in X; try (rewrite M; exact X); [|contradiction].
  destruct M as (v' & -> & H'), X as (st' & E3 & Hs). exists st'. split; [exact E3|].
  intros i. destruct (Hs i) as (K & Hd & Hw). destruct (H' i) as (E1 & _ & _ & _ & R).
  split; [split; [exact K|rewrite E1; exact Hd]|]. intros w Hwo. rewrite (Hw w Hwo).
  destruct (R w Hwo) as (_ & _ & z & Ez & Hz). exists z. split; [exact Ez|]. apply Hz. left. reflexivity.
Qed.

(** ** Examples *)
(** for all words of a length up to [d]: a computation *)
Lemma all_words n d (P : word -> bool) : forallb P (words_below n (Datatypes.S (N.to_nat d))) = true ->
  forall w, word_ok n w -> (len w <=? d) = true -> P w = true.
Proof.
  intros H w Hw Hl. apply N.leb_le in Hl. rewrite forallb_forall in H. apply H, in_words_below. split; [exact Hw|]. unfold len in Hl. lia.
Qed.
Lemma below_bool x y : negb (Qle_bool y x) = true -> (x < y)%Q.
Proof. intros H. apply Qnot_le_lt. intros L. apply Qle_bool_iff in L. rewrite L in H. discriminate. Qed.
(** programs whose possible sizes are computed *)
Fixpoint no_overflowb (f : fmt) (n : N) (k : known) (cs : list (tcmd spec_float spec_float)) : bool :=
  match cs with
  | [] => true
  | c :: cs =>
      match mean_cmd size_ops (largest k) (size_cmd c) with
      | Ret m => match t_deg (m (target c)) with
                 | Some d => forallb (fun w => negb (Qle_bool (fl_limit f) (inflated f (roundings c w) (products c w) (t_fun (m (target c)) w))))
                               (words_below n (Datatypes.S (N.to_nat d)))
                 | None => true
                 end
      | _ => true
      end && match know_cmd f k c with Ret k' => no_overflowb f n k' cs | _ => true end
  end.
Lemma no_overflow_check f n cs : forall k, no_overflowb f n k cs = true -> no_overflow f n k cs.
Proof.
  induction cs as [|c cs IH]; intros k H; [exact I|]. cbn [no_overflowb no_overflow] in *. apply andb_prop in H.
  destruct H as [H1 H2]. split.
  - intros m w Em Hw Hs. rewrite Em in H1. unfold stores in Hs. destruct (t_deg (m (target c))) as [d|]; [|discriminate].
    apply below_bool. exact (all_words n d _ H1 w Hw Hs).
  - intros k' E. rewrite E in H2. apply IH, H2.
Qed.
Fixpoint sizes_fitb (f : fmt) (n : N) (v : nat -> atensor Q) (cs : list (tcmd spec_float spec_float)) : bool :=
  match cs with
  | [] => true
  | c :: cs =>
      match mean_cmd size_ops (sizes v) (size_cmd c) with
      | Ret s => match t_deg (s (target c)) with
                 | Some d => forallb (fun w => negb (Qle_bool (inject_Z (2 ^ f_prec f)) (t_fun (s (target c)) w)))
                               (words_below n (Datatypes.S (N.to_nat d)))
                 | None => true
                 end
      | _ => true
      end && match mean_cmd q_ops v (exact_cmd c) with Ret v' => sizes_fitb f n v' cs | _ => true end
  end.
Lemma sizes_fit_check f n cs : forall v, sizes_fitb f n v cs = true -> sizes_fit f n v cs.
Proof.
  induction cs as [|c cs IH]; intros v H; [exact I|]. cbn [sizes_fitb sizes_fit] in *. apply andb_prop in H.
  destruct H as [H1 H2]. split.
  - intros m w Em Hw Hs. rewrite Em in H1. unfold stores in Hs. destruct (t_deg (m (target c))) as [d|]; [|discriminate].
    apply below_bool. exact (all_words n d _ H1 w Hw Hs).
  - intros v' E. rewrite E in H2. apply IH, H2.
Qed.
(** before anything is stored *)
Lemma new_coef f n w : wcoef (fl_ops f) n dv_new w = S754_zero false.
Proof. unfold wcoef, coef, dv_as_slice, dv_new, dv_from, slice_get. cbn [dv_elems]. destruct (N.to_nat (windex n w)); reflexivity. Qed.
Lemma nothing_known f n D : knows f n D dv_new (t_zero q_ops) (fun _ => 0%Q).
Proof.
  split; [split; reflexivity|]. intros w _.
  rewrite new_coef. split; [reflexivity|]. split; [apply Qle_refl|]. intros c Hc. apply value_zero in Hc. cbn [t_zero t_fun q_ops s_zero].
  rewrite (Qabs_wd (c - 0) 0) by (rewrite Hc; reflexivity). apply Qle_refl.
Qed.
Lemma nothing_integer f n D : is_exactly f n D dv_new (t_zero q_ops).
Proof.
  split; [split; reflexivity|]. intros w _. exists 0%Z. split; [reflexivity|].
  rewrite new_coef. apply (fl_int_zero f 0%Z). reflexivity.
Qed.

(** The order of additions matters with floats: 2^53 + 1 - 2^53 is 0, -2^53 + 1 + 2^53 is 1; the same terms make
    the coefficient of 1 1 in the products a b and b a. *)
Example c114_example :
  let so := fl_ops f64 in let z := fl_of_Z f64 in
  let st := fun i : nat => dv_from (map z (if Nat.eqb i 0 then [1; 1; 0; 9007199254740992; 0; 0; 0] else [1; 1; 0; -9007199254740992; 0; 0; 0])%Z) in
  let a := fun i => mk_atensor (Some 2) (wcoef so 2 (st i)) in
  let cs := [CMul 2 0 1 (Some 2); CMul 3 1 0 (Some 2); CSubMul 2 1 0 (Some 2)] in
  (forall i, stands_for so 2 4 (st i) (a i)) /\ Forall (cmd_within 2 4) cs
  /\ (x <- run_prog so release 2 st (firstn 2 cs) ;; Ret (map (fun i => wcoef so 2 (x i) [1; 1]) [2; 3]%nat)) = Ret (map z [0; 1]%Z)
  /\ (x <- step_prog so a (firstn 2 cs) ;; Ret (map (fun i => t_fun (x i) [1; 1]) [2; 3]%nat)) = Ret (map z [0; 1]%Z)
  /\ (x <- run_prog so dev 2 st cs ;; Ret (dv_elems (x 2%nat)))
     = (x <- step_prog so a cs ;; Ret (map (t_fun (x 2%nat)) (words_below 2 3))).
Proof.
  cbv zeta. split; [intros i; split; [destruct (Nat.eqb i 0); reflexivity|split; [|reflexivity]]|].
  { cbn [t_deg]. split; [lia|]. destruct (Nat.eqb i 0); reflexivity. }
  split; [repeat constructor; cbn; try lia; vm_compute; congruence|].
  repeat split; vm_compute; reflexivity.
Qed.
Definition third (f : fmt) : spec_float := s_div (fl_ops f) (fl_of_Z f 1) (fl_of_Z f 3).
Definition some_prog (f : fmt) : list (tcmd spec_float spec_float) :=
  [CKey 0 [1] (third f); CKey 1 [2] (fl_of_Z f 7); CDivide 1 (fl_of_Z f 10); CComm 2 0 1 (Some 2);
   CAddScaled 2 0 (third f); CPairs 3 [([1; 2], third f); ([2], fl_of_Z f 1); ([1; 2], third f); ([1; 2], fl_of_Z f 5)];
   CAddDivided 2 3 (fl_of_Z f 3); CSubScaled 2 3 (fl_of_Z f 2); CDegree 4 3; CSet 4 [1; 2] (third f); CAdd 2 4;
   CKeyAdd 2 [1] (third f); CKeySub 2 [1; 2] (fl_of_Z f 1)].
Example c115_example :
  let f := f32 in let so := fl_ops f in let st := fun _ : nat => @dv_new spec_float in
  let k := mk_known (fun _ => t_zero q_ops) (fun _ _ => 0%Q) in let cs := some_prog f in
  (forall i, knows f 2 4 (st i) (v_exact k i) (v_error k i)) /\ Forall (cmd_within 2 4) cs /\ Forall (cmd_finite f) cs
  /\ no_overflow f 2 k cs
  (* the coefficient of 1 2 is not exact, but the bound for the error is small *)
  /\ (z <- run_prog so release 2 st cs ;; k' <- know_prog f k cs ;;
      Ret (Qeq_bool (fl_val (wcoef so 2 (z 2%nat) [1; 2])) (t_fun (v_exact k' 2%nat) [1; 2]),
           Qle_bool (v_error k' 2%nat [1; 2]) (1 # 100000))) = Ret (false, true).
Proof.
  cbv zeta. split; [intros i; apply nothing_known|]. split; [repeat constructor; cbn; try lia; vm_compute; congruence|].
  assert (Fin : forall x, match fl_value x with Some _ => True | None => False end -> finite x).
  { intros x H. unfold finite, has_value. destruct (fl_value x) as [v|]; [exists v, v; split; reflexivity|contradiction]. }
  split.
  { unfold some_prog. repeat (apply Forall_cons; [cbn [cmd_finite]; repeat (apply Forall_cons; [cbn [snd]|]); try apply Forall_nil;
      repeat split; try reflexivity; try (apply Fin; vm_compute; exact I); vm_compute; discriminate|]). apply Forall_nil. }
  split; [apply no_overflow_check; vm_compute; reflexivity|]. vm_compute. reflexivity.
Qed.
Definition int_prog (f : fmt) : list (tcmd spec_float spec_float) :=
  [CKey 0 [1] (fl_of_Z f 1000); CKey 1 [2; 1] (fl_of_Z f (-7)); CAdd 1 0; CComm 2 0 1 (Some 3);
   CSubMul 2 0 0 (Some 2); CAddScaled 2 1 (fl_of_Z f 2); CNeg 2;
   CPairs 3 [([1; 2], fl_of_Z f 4); ([2], fl_of_Z f 1); ([1; 2], fl_of_Z f (-9))]; CSubScaled 2 3 (fl_of_Z f 3);
   CDegree 4 3; CSet 4 [1; 2] (fl_of_Z f 2); CSet 4 [1; 2; 1] (fl_of_Z f 2); CAdd 2 4; CKeyAdd 2 [1] (fl_of_Z f 77);
   CKeySub 2 [1; 2] (fl_of_Z f 1)].
Example c116_example :
  let f := f32 in let so := fl_ops f in let st := fun _ : nat => @dv_new spec_float in
  let v := fun _ : nat => t_zero q_ops in let cs := int_prog f in
  (forall i, is_exactly f 2 4 (st i) (v i)) /\ Forall (cmd_within 2 4) cs /\ Forall (cmd_integer f) cs
  /\ sizes_fit f 2 v cs
  /\ (z <- run_prog so release 2 st cs ;; Ret (map (fl_value) (dv_elems (z 2%nat))))
     = (x <- mean_prog q_ops v (map exact_cmd cs) ;; Ret (map (fun w => fl_value (fl_of_Z f (Qnum (Qred (t_fun (x 2%nat) w))))) (words_below 2 4)))
  (* squares of 5000 do not fit *)
  /\ exists z, run_prog so release 2 st [CKey 0 [1] (fl_of_Z f 5001); CMul 1 0 0 (Some 2)] = Ret z
       /\ wcoef so 2 (z 1%nat) [1; 1] = fl_of_Z f 25010000.
Proof.
  cbv zeta. split; [intros i; apply nothing_integer|]. split; [repeat constructor; cbn; try lia; vm_compute; congruence|].
  assert (I : forall z m, fl_value (fl_of_Z f32 z) = Some m -> valid_binary 24 128 (fl_of_Z f32 z) = true -> (m == inject_Z z)%Q ->
    fl_int f32 (fl_of_Z f32 z) z).
  { intros z m H1 H2 H3. split; [exact H2|]. exists m. split; assumption. }
  split.
  { unfold int_prog. repeat (apply Forall_cons; [cbn [cmd_integer]; repeat (apply Forall_cons; [cbn [snd]|]); try apply Forall_nil;
      try exact Logic.I; eexists; (eapply I; [vm_compute; reflexivity|reflexivity|reflexivity])|]). apply Forall_nil. }
  split; [apply sizes_fit_check; vm_compute; reflexivity|].
  split; [vm_compute; reflexivity|]. eexists. split; vm_compute; reflexivity.
Qed.
