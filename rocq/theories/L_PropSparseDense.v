(** Property lemmas C117 (restated as theorems in P_SparseDense.v). *)
From Coq Require Import QArith Qpower SpecFloat.
From stdpp Require Import gmap.
From Verif Require Import Machine MachineLemmas M_Scalar M_Vector M_Dense S_Vector L_Dense M_Sparse S_Sparse L_Sparse L_PropSparse
  S_SparseHist L_PropSparseHist M_Float S_Float L_Float L_PropHistory S_SparseDense.
Local Open Scope N_scope.

(** ** zeros *)
Definition zero_b (x : spec_float) : bool := match x with S754_zero _ => true | _ => false end.
Lemma zero_b_value x : zero_b x = true <-> has_value x 0.
Proof.
  unfold has_value. destruct x as [s|s| |s m e]; cbn [zero_b fl_value]; split; try discriminate; try (intros (w & E & _); discriminate).
  - intros _. exists 0%Q. split; reflexivity.
  - reflexivity.
  - intros (w & E & Hw). injection E as <-. exfalso.
    assert (P : ~ (2 ^ e == 0)%Q) by (apply Qpower_not_0; intros X; discriminate X).
    apply Qmult_integral in Hw. destruct Hw as [Hw|Hw]; [destruct s; discriminate Hw|contradiction].
Qed.
Lemma same_iff x y : fl_same x y <-> x = y \/ (zero_b x = true /\ zero_b y = true).
Proof. unfold fl_same. rewrite <- !zero_b_value. reflexivity. Qed.
Lemma finite_iff x : finite x <-> match x with S754_infinity _ | S754_nan => False | _ => True end.
Proof.
  unfold finite, has_value. destruct x; cbn [fl_value]; split; try (intros (v & w & E & _); discriminate); try contradiction; intros _;
    try exact I; do 2 eexists; (split; [reflexivity|reflexivity]).
Qed.
Ltac zs := rewrite ?same_iff in *; repeat match goal with
  | H : zero_b ?x = true |- _ => is_var x; destruct x; try discriminate H; clear H
  | H : _ \/ _ |- _ => destruct H
  | H : _ /\ _ |- _ => destruct H
  end; try subst.
Section Zeros.
  Context (fm : fmt).
  Notation so := (fl_ops fm).
  Lemma same_add x y x' y' : fl_same x y -> fl_same x' y' -> fl_same (s_add so x x') (s_add so y y').
  Proof.
    rewrite !same_iff. change (s_add so) with (SFadd (f_prec fm) (f_emax fm)). intros [->|[A B]] [->|[C D]]; [left; reflexivity|..].
    - destruct x' as [s| | |]; try discriminate C. destruct y' as [s0| | |]; try discriminate D.
      destruct y as [[]|[]| |[] m e], s, s0; cbn; auto.
    - destruct x as [s| | |]; try discriminate A. destruct y as [s0| | |]; try discriminate B.
      destruct y' as [[]|[]| |[] m e], s, s0; cbn; auto.
    - destruct x as [[]| | |]; try discriminate A; destruct y as [[]| | |]; try discriminate B;
        destruct x' as [[]| | |]; try discriminate C; destruct y' as [[]| | |]; try discriminate D; cbn; auto.
  Qed.
  Lemma same_opp x y : fl_same x y -> fl_same (SFopp x) (SFopp y).
  Proof. intros H. zs; [left; reflexivity|right; split; reflexivity]. Qed.
  Lemma same_sub x y x' y' : fl_same x y -> fl_same x' y' -> fl_same (s_sub so x x') (s_sub so y y').
  Proof.
    intros H1 H2. change (s_sub so) with (SFsub (f_prec fm) (f_emax fm)). rewrite !L_Float.sub_opp.
    exact (same_add _ _ _ _ H1 (same_opp _ _ H2)).
  Qed.
  Lemma add_zero x z : zero_b z = true -> fl_same (s_add so x z) x.
  Proof. intros H. zs. cbn [fl_ops s_add]. destruct x as [[]|[]| |[] m e], s; cbn; auto. Qed.
  Lemma zero_add x z : zero_b z = true -> fl_same (s_add so z x) x.
  Proof. intros H. zs. cbn [fl_ops s_add]. destruct x as [[]|[]| |[] m e], s; cbn; auto. Qed.
  Lemma same_refl x : fl_same x x.
  Proof. left. reflexivity. Qed.
  Lemma same_sym x y : fl_same x y -> fl_same y x.
  Proof. intros H. zs; [left; reflexivity|right; split; reflexivity]. Qed.
  Lemma same_trans x y z : fl_same x y -> fl_same y z -> fl_same x z.
  Proof. intros H1 H2. rewrite !same_iff in *. intuition (subst; auto). Qed.
  Lemma same_zero x y : fl_same x y -> zero_b x = zero_b y.
  Proof. intros H. zs; reflexivity. Qed.
  Lemma mul_zero z s : zero_b z = true -> finite s -> zero_b (s_mul so z s) = true.
  Proof. intros H Hs. rewrite finite_iff in Hs. zs. destruct s; try contradiction; reflexivity. Qed.
  Lemma div_zero z r : zero_b z = true -> r <> S754_nan -> ~ has_value r 0 -> zero_b (s_div so z r) = true.
  Proof. intros H Hn Hr. rewrite <- zero_b_value in Hr. zs. destruct r; [exfalso; exact (Hr eq_refl)|reflexivity|congruence|reflexivity]. Qed.
  Lemma same_map h x y : (forall z, zero_b z = true -> zero_b (h z) = true) -> fl_same x y -> fl_same (h x) (h y).
  Proof.
    intros Hh H. rewrite !same_iff in *. destruct H as [->|[H1 H2]]; [left; reflexivity|right; split; apply Hh; assumption].
  Qed.
  Lemma eqb_zero x : s_eqb so x (s_zero so) = zero_b x.
  Proof. destruct x as [[]|[]| |[] m e]; reflexivity. Qed.
End Zeros.

Section Agree.
  Context {K : Type} `{Countable K} (fm : fmt) (ob : obasis K) (ok : K -> Prop) (f : K -> N).
  Notation so := (fl_ops fm).
  Notation zero := (S754_zero false).
  Notation agree := (fl_agree fm ok f).
  Notation at_key d k := (coef so d (f k)).
  Definition pval (g : option spec_float) : spec_float := match g with Some v => v | None => zero end.

  Lemma coef_outside (d : dvec spec_float) i : (i <? dv_size d) = false -> coef so d i = zero.
  Proof. intros E. unfold coef, dv_as_slice. rewrite slice_get_none; [reflexivity|]. apply N.ltb_ge, E. Qed.
  Lemma mapped h d m k : agree d m -> ok k -> (forall z, zero_b z = true -> zero_b (h z) = true) ->
    fl_same (if f k <? dv_size d then h (at_key d k) else at_key d k) (pval (pmap h (fun k => m !! k) k)).
  Proof.
    intros Ha Hk Hh. specialize (Ha k Hk). unfold sv_coef in Ha. unfold pmap, pval.
    assert (Hz : forall x, zero_b x = true -> fl_same x zero) by (intros x Hx; apply same_iff; right; split; [exact Hx|reflexivity]).
    destruct (m !! k) as [c|].
    - destruct (f k <? dv_size d) eqn:E; [apply same_map; assumption|]. rewrite (coef_outside d _ E) in *.
      apply same_sym, Hz, Hh. rewrite <- (same_zero _ _ Ha). reflexivity.
    - pose proof (same_zero _ _ Ha) as Z. destruct (f k <? dv_size d); apply Hz; [apply Hh|]; exact Z.
  Qed.
  Lemma one_agree (d : dvec spec_float) m o h iter : dv_wf d -> any_order iter -> agree d m -> fl_same_op fm ok f o h ->
    exists d' m', call so ob d o = Ret d' /\ hcall so (sparse_ops so iter) m h = Ret m' /\ dv_wf d' /\ agree d' m'.
  Proof.
    intros Wd Hi Ha Ho.
    assert (Hk : op_key_ok ob f o) by (destruct o, h; try contradiction; exact I).
    assert (Hs : match o with OSwap w => dv_wf w | _ => True end) by (destruct o, h; try contradiction; exact I).
    destruct (call_refines so ob f d o Wd Hk) as (d' & Ed & _ & _ & Fd).
    pose proof (step_ok so iter Hi m h) as Hm.
    destruct (step so (fun k => m !! k) h) as [g|] eqn:Eg; [|destruct o, h; try contradiction; discriminate].
    destruct Hm as (m' & Em & Gm). exists d', m'. split; [exact Ed|]. split; [exact Em|].
    split; [exact (call_wf so ob f d o d' Wd Hs Hk Ed)|].
    intros k Ok. change (sv_coef so m' k) with (pval (m' !! k)). rewrite Gm. specialize (Fd (f k)). cbn [avec_of a_fun] in Fd. rewrite Fd.
    pose proof (Ha k Ok) as Hak. unfold sv_coef in Hak.
    assert (Ng : forall s, ~ has_value s 0 -> s_eqb so s (s_zero so) = false).
    { intros s Hs0. rewrite eqb_zero. rewrite <- zero_b_value in Hs0. destruct (zero_b s); [exfalso; auto|reflexivity]. }
    assert (Zk : forall x, zero_b x = true -> fl_same x zero) by (intros x Hx; apply same_iff; right; split; [exact Hx|reflexivity]).
    destruct o, h; try contradiction; cbn [fl_same_op] in Ho; cbn [step] in Eg; injection Eg as <-;
      cbn [a_call a_clear a_map a_combine avec_of a_fun a_dim];
      try change (SFadd (f_prec fm) (f_emax fm)) with (s_add so); try change (SFsub (f_prec fm) (f_emax fm)) with (s_sub so);
      try change (SFmul (f_prec fm) (f_emax fm)) with (s_mul so); try change (SFdiv (f_prec fm) (f_emax fm)) with (s_div so);
      try change (SFeqb ?s zero) with (s_eqb so s (s_zero so)).
    - exact (same_refl _).
    - apply mapped; [assumption..|]. intros z Hz. destruct z; try discriminate Hz. reflexivity.
    - pose proof (Ho k Ok) as Hy. unfold sv_coef in Hy. destruct (f k <? dv_size y) eqn:Ey.
      + destruct (m !! k) as [c|], (y0 !! k) as [c0|]; cbn [pval].
        * unfold keep. rewrite eqb_zero. pose proof (same_add fm _ _ _ _ Hak Hy) as X.
          destruct (zero_b (s_add so c c0)) eqn:Ez; [|exact X]. apply Zk. rewrite (same_zero _ _ X). exact Ez.
        * eapply same_trans; [|exact Hak]. apply add_zero. exact (same_zero _ _ Hy).
        * eapply same_trans; [|exact Hy]. apply zero_add. exact (same_zero _ _ Hak).
        * apply (same_trans _ _ _ (same_add fm _ _ _ _ Hak Hy)). apply Zk. reflexivity.
      + rewrite (coef_outside y _ Ey) in Hy. destruct (m !! k) as [c|], (y0 !! k) as [c0|]; cbn [pval]; try exact Hak.
        * unfold keep. rewrite eqb_zero. apply same_zero in Hy as Hz. cbn in Hz. symmetry in Hz.
          pose proof (add_zero fm c c0 Hz) as X.
          destruct (zero_b (s_add so c c0)) eqn:Ez; cbn [pval].
          -- apply Zk. rewrite (same_zero _ _ Hak), <- (same_zero _ _ X). exact Ez.
          -- apply (same_trans _ _ _ Hak). apply same_sym. exact X.
        * apply (same_trans _ _ _ Hak). exact Hy.
    - pose proof (Ho k Ok) as Hy. unfold sv_coef in Hy. destruct (f k <? dv_size y) eqn:Ey.
      + destruct (m !! k) as [c|], (y0 !! k) as [c0|]; cbn [pval].
        * unfold keep. rewrite eqb_zero. pose proof (same_sub fm _ _ _ _ Hak Hy) as X.
          destruct (zero_b (s_sub so c c0)) eqn:Ez; [|exact X]. apply Zk. rewrite (same_zero _ _ X). exact Ez.
        * eapply same_trans; [exact (same_sub fm _ _ _ _ Hak Hy)|]. change (s_sub so) with (SFsub (f_prec fm) (f_emax fm)).
          rewrite L_Float.sub_opp. apply (add_zero fm). reflexivity.
        * eapply same_trans; [exact (same_sub fm _ _ _ _ Hak Hy)|]. change (s_sub so) with (SFsub (f_prec fm) (f_emax fm)).
          rewrite L_Float.sub_opp. apply (zero_add fm). reflexivity.
        * apply (same_trans _ _ _ (same_sub fm _ _ _ _ Hak Hy)). apply Zk. reflexivity.
      + rewrite (coef_outside y _ Ey) in Hy. destruct (m !! k) as [c|], (y0 !! k) as [c0|]; cbn [pval]; try exact Hak.
        * unfold keep. rewrite eqb_zero. apply same_zero in Hy as Hz. cbn in Hz. symmetry in Hz.
          assert (X : fl_same (s_sub so c c0) c).
          { change (s_sub so) with (SFsub (f_prec fm) (f_emax fm)). rewrite L_Float.sub_opp. apply (add_zero fm).
            destruct c0; try discriminate. reflexivity. }
          destruct (zero_b (s_sub so c c0)) eqn:Ez; cbn [pval].
          -- apply Zk. rewrite (same_zero _ _ Hak), <- (same_zero _ _ X). exact Ez.
          -- apply (same_trans _ _ _ Hak). apply same_sym. exact X.
        * apply (same_trans _ _ _ Hak). apply same_sym, Zk. apply same_zero in Hy. destruct c0; try discriminate Hy. reflexivity.
    - destruct Ho as (<- & Fs & Ns). rewrite (Ng _ Ns).
      exact (mapped (fun c => s_mul so c s) d m k Ha Ok (fun z Hz => mul_zero fm z s Hz Fs)).
    - destruct Ho as (<- & Fs & Ns). rewrite (Ng _ Ns).
      exact (mapped (fun c => s_mul so c s) d m k Ha Ok (fun z Hz => mul_zero fm z s Hz Fs)).
    - destruct Ho as (<- & Fs & Ns). rewrite (Ng _ Ns).
      exact (mapped (fun c => s_mul so c s) d m k Ha Ok (fun z Hz => mul_zero fm z s Hz Fs)).
    - destruct Ho as (<- & Fs & Ns). rewrite (Ng _ Ns).
      exact (mapped (fun c => s_mul so c s) d m k Ha Ok (fun z Hz => mul_zero fm z s Hz Fs)).
    - destruct Ho as (<- & Fs & Ns).
      exact (mapped (fun c => s_div so c r) d m k Ha Ok (fun z Hz => div_zero fm z r Hz Fs Ns)).
    - destruct Ho as (<- & Fs & Ns).
      exact (mapped (fun c => s_div so c r) d m k Ha Ok (fun z Hz => div_zero fm z r Hz Fs Ns)).
    - destruct Ho as (<- & Fs & Ns).
      exact (mapped (fun c => s_div so c r) d m k Ha Ok (fun z Hz => div_zero fm z r Hz Fs Ns)).
    - destruct Ho as (<- & Fs & Ns).
      exact (mapped (fun c => s_div so c r) d m k Ha Ok (fun z Hz => div_zero fm z r Hz Fs Ns)).
  Qed.
End Agree.

(** * C117: Sparse and dense vectors of floats agree *)
Lemma c117_agree : forall (K : Type) (E : EqDecision K) (C : Countable K) (fm : fmt) (ob : obasis K) (ok : K -> Prop) (f : K -> N)
    (os : list (vop K spec_float spec_float))
    (hs : list ((gmap K spec_float -> list (K * spec_float)) * hop (gmap K spec_float) K spec_float spec_float))
    (d : dvec spec_float) (m : gmap K spec_float),
  dv_wf d -> fl_agree fm ok f d m ->
  List.Forall2 (fun o e => any_order (fst e) /\ fl_same_op fm ok f o (snd e)) os hs ->
  exists d' m', calls (fl_ops fm) ob d os = Ret d' /\ hcalls (fl_ops fm) m hs = Ret m' /\ fl_agree fm ok f d' m'.
Proof.
  intros K E C fm ob ok f os hs d m Wd Ha HF. revert d m Wd Ha.
  induction HF as [|o [iter h] os hs [Hi Ho] HF IH]; intros d m Wd Ha.
  - exists d, m. repeat split; assumption.
  - destruct (one_agree fm ob ok f d m o h iter Wd Hi Ha Ho) as (d1 & m1 & Ed & Em & W1 & A1).
    destruct (IH d1 m1 W1 A1) as (d2 & m2 & Ed2 & Em2 & A2). exists d2, m2.
    split; [|split; [|exact A2]].
    + unfold calls in *. cbn [for_each]. rewrite Ed. exact Ed2.
    + unfold hcalls in *. cbn [for_each fst snd]. cbn [fst snd] in Em. rewrite Em. exact Em2.
Qed.

Section Exact.
  Context {K : Type} `{Countable K} (fm : fmt) (ob : obasis K) (ok : K -> Prop) (f : K -> N).
  Notation so := (fl_ops fm).
  Lemma scaled_dense d o s : dv_wf d -> o = OLmul s \/ o = ORmul s ->
    exists d', call so ob d o = Ret d' /\ forall i, coef so d' i = if i <? dv_size d then s_mul so (coef so d i) s else coef so d i.
  Proof.
    intros Wd Ho. assert (Hk : op_key_ok ob f o) by (destruct Ho as [-> | ->]; exact I).
    destruct (call_refines so ob f d o Wd Hk) as (d' & Ed & _ & _ & Fd). exists d'. split; [exact Ed|]. intros i.
    specialize (Fd i). destruct Ho as [-> | ->]; exact Fd.
  Qed.
  Lemma divided_dense d o r : dv_wf d -> o = ORdiv r \/ o = OLdiv r ->
    exists d', call so ob d o = Ret d' /\ forall i, coef so d' i = if i <? dv_size d then s_div so (coef so d i) r else coef so d i.
  Proof.
    intros Wd Ho. assert (Hk : op_key_ok ob f o) by (destruct Ho as [-> | ->]; exact I).
    destruct (call_refines so ob f d o Wd Hk) as (d' & Ed & _ & _ & Fd). exists d'. split; [exact Ed|]. intros i.
    specialize (Fd i). destruct Ho as [-> | ->]; exact Fd.
  Qed.
  Lemma stored_iff (g : spec_float -> spec_float) (d : dvec spec_float) (m : gmap K spec_float) k :
    (forall z, zero_b z = true -> g z = S754_nan) -> ok k -> fl_agree fm ok f d m ->
    fl_same (if f k <? dv_size d then g (coef so d (f k)) else coef so d (f k)) (pval (pmap g (fun k => m !! k) k))
    <-> (is_Some (m !! k) <-> f k < dv_size d).
  Proof.
    intros Hg Hk Ha. specialize (Ha k Hk). unfold sv_coef in Ha. unfold pmap, pval. rewrite (reflect_iff _ _ (N.ltb_spec0 (f k) (dv_size d))).
    destruct (f k <? dv_size d) eqn:E.
    - destruct (m !! k) as [c|].
      + split; [split; [reflexivity|intros _; eexists; reflexivity]|]. intros _. apply same_iff in Ha.
        destruct Ha as [->|[A B]]; [left; reflexivity|]. rewrite (Hg _ A), (Hg _ B). left. reflexivity.
      + apply same_zero in Ha. rewrite (Hg _ Ha). split; [|intros [_ X]; destruct (X eq_refl); discriminate].
        intros X. apply same_zero in X. discriminate X.
    - rewrite (coef_outside fm d _ E) in *. destruct (m !! k) as [c|].
      + apply same_zero in Ha. symmetry in Ha. rewrite (Hg _ Ha). split; [|intros [X _]; discriminate X; eexists; reflexivity].
        intros X. apply same_zero in X. discriminate X.
      + split; [|intros _; left; reflexivity]. intros _. split; [intros [? X]; discriminate X|discriminate].
  Qed.
End Exact.
(** multiplication by zero: a sparse vector drops its entries, so an infinity or a NaN of the dense one shows *)
Lemma c117_zero : forall (K : Type) (E : EqDecision K) (C : Countable K) (fm : fmt) (ob : obasis K) (ok : K -> Prop) (f : K -> N)
    (iter : gmap K spec_float -> list (K * spec_float)) (d : dvec spec_float) (m : gmap K spec_float) (s : spec_float)
    (o : vop K spec_float spec_float) (h : hop (gmap K spec_float) K spec_float spec_float),
  dv_wf d -> any_order iter -> fl_agree fm ok f d m -> has_value s 0 ->
  o = OLmul s \/ o = ORmul s -> h = HLmul s \/ h = HRmul s ->
  exists d' m', call (fl_ops fm) ob d o = Ret d' /\ hcall (fl_ops fm) (sparse_ops (fl_ops fm) iter) m h = Ret m'
    /\ forall k, ok k -> (fl_same (coef (fl_ops fm) d' (f k)) (sv_coef (fl_ops fm) m' k) <-> finite (coef (fl_ops fm) d (f k))).
Proof.
  intros K E C fm ob ok f iter d m s o h Wd Hi Ha Hs Ho Hh.
  destruct (scaled_dense fm ob f d o s Wd Ho) as (d' & Ed & Fd). rewrite <- zero_b_value in Hs.
  pose proof (step_ok (fl_ops fm) iter Hi m h) as Hm.
  assert (Q : step (fl_ops fm) (fun k => m !! k) h = Some (fun _ => None)).
  { destruct Hh as [-> | ->]; cbn [step]; rewrite eqb_zero, Hs; reflexivity. }
  rewrite Q in Hm. destruct Hm as (m' & Em & Gm). exists d', m'. split; [exact Ed|]. split; [exact Em|].
  intros k Hk. unfold sv_coef. rewrite Gm, Fd, finite_iff. destruct (f k <? dv_size d) eqn:Es.
  - rewrite same_iff. destruct s as [sz| | |]; try discriminate Hs.
    destruct (coef (fl_ops fm) d (f k)) as [[]|[]| |[] mm ee]; cbn; split; try tauto; try (intros [X|[X _]]; discriminate X);
      intros _; right; split; reflexivity.
  - rewrite (coef_outside fm d _ Es). split; [exact (fun _ => I)|intros _; left; reflexivity].
Qed.
(** multiplication by an infinity or a NaN and division by zero or a NaN turn a stored zero into a NaN: only the stored
    coefficients of each kind of vector change *)
Lemma c117_storage : forall (K : Type) (E : EqDecision K) (C : Countable K) (fm : fmt) (ob : obasis K) (ok : K -> Prop) (f : K -> N)
    (iter : gmap K spec_float -> list (K * spec_float)) (d : dvec spec_float) (m : gmap K spec_float) (s : spec_float)
    (o : vop K spec_float spec_float) (h : hop (gmap K spec_float) K spec_float spec_float),
  dv_wf d -> any_order iter -> fl_agree fm ok f d m ->
  (~ finite s /\ (o = OLmul s \/ o = ORmul s) /\ (h = HLmul s \/ h = HRmul s)
   \/ (has_value s 0 \/ s = S754_nan) /\ (o = ORdiv s \/ o = OLdiv s) /\ (h = HRdiv s \/ h = HLdiv s)) ->
  exists d' m', call (fl_ops fm) ob d o = Ret d' /\ hcall (fl_ops fm) (sparse_ops (fl_ops fm) iter) m h = Ret m'
    /\ forall k, ok k -> (fl_same (coef (fl_ops fm) d' (f k)) (sv_coef (fl_ops fm) m' k)
                          <-> (is_Some (m !! k) <-> (f k < dv_size d)%N)).
Proof.
  intros K E C fm ob ok f iter d m s o h Wd Hi Ha [(Hs & Ho & Hh)|(Hs & Ho & Hh)].
  - destruct (scaled_dense fm ob f d o s Wd Ho) as (d' & Ed & Fd).
    pose proof (step_ok (fl_ops fm) iter Hi m h) as Hm. rewrite finite_iff in Hs.
    assert (Q : step (fl_ops fm) (fun k => m !! k) h = Some (pmap (fun c => s_mul (fl_ops fm) c s) (fun k => m !! k))).
    { destruct Hh as [-> | ->]; cbn [step]; rewrite eqb_zero; destruct s as [| [] | |]; try (exfalso; exact (Hs I)); reflexivity. }
    rewrite Q in Hm. destruct Hm as (m' & Em & Gm). exists d', m'. split; [exact Ed|]. split; [exact Em|].
    intros k Hk. change (sv_coef (fl_ops fm) m' k) with (pval (m' !! k)). rewrite Gm, Fd.
    apply (stored_iff fm ok f (fun c => s_mul (fl_ops fm) c s)); [|assumption..].
    intros z Hz. destruct z; try discriminate Hz. destruct s; try (exfalso; exact (Hs I)); reflexivity.
  - destruct (divided_dense fm ob f d o s Wd Ho) as (d' & Ed & Fd).
    pose proof (step_ok (fl_ops fm) iter Hi m h) as Hm. rewrite <- zero_b_value in Hs.
    assert (Q : step (fl_ops fm) (fun k => m !! k) h = Some (pmap (fun c => s_div (fl_ops fm) c s) (fun k => m !! k))).
    { destruct Hh as [-> | ->]; reflexivity. }
    rewrite Q in Hm. destruct Hm as (m' & Em & Gm). exists d', m'. split; [exact Ed|]. split; [exact Em|].
    intros k Hk. change (sv_coef (fl_ops fm) m' k) with (pval (m' !! k)). rewrite Gm, Fd.
    apply (stored_iff fm ok f (fun c => s_div (fl_ops fm) c s)); [|assumption..].
    intros z Hz. destruct z; try discriminate Hz. destruct s; try reflexivity; destruct Hs as [X|X]; discriminate X.
Qed.
Lemma fl_given {K} `{Countable K} (fm : fmt) (ok : K -> Prop) (f : K -> N) (items : list (K * spec_float)) k :
  (forall k k', ok k -> ok k' -> f k = f k' -> k = k') -> ok k -> Forall (fun e => ok (fst e)) items ->
  List.NoDup (map fst items) ->
  fl_same (sum_from_zero (fl_ops fm) (given (fun k' => f k =? f k') items))
    (match last_value k items with Some v => v | None => s_zero (fl_ops fm) end).
Proof.
  intros Hj Hk HF. induction HF as [|[k' v] items Hk' HF IH]; intros Hn; [left; reflexivity|]. cbn [map fst] in Hn.
  apply NoDup_cons_iff in Hn. destruct Hn as [Hn Hd]. cbn [last_value]. cbn [fst] in Hk'.
  destruct (decide (k = k')) as [->|Hne].
  - rewrite given_cons, N.eqb_refl. rewrite (given_none ok f items k' Hj Hk HF Hn). unfold sum_from_zero. cbn [fold_left].
    assert (N : forall (l : list (K * spec_float)), ~ In k' (map fst l) -> last_value k' l = None).
    { induction l as [|[a b] l IHl]; [reflexivity|]. cbn. intros Hx. rewrite IHl by tauto. destruct (decide (k' = a)); [subst; tauto|reflexivity]. }
    rewrite (N items Hn). apply zero_add. reflexivity.
  - rewrite given_cons. destruct (N.eqb_spec (f k) (f k')) as [Q|Q]; [apply Hj in Q; [contradiction|assumption..]|].
    specialize (IH Hd). destruct (last_value k items); exact IH.
Qed.
Lemma c117_constructors : forall (K : Type) (E : EqDecision K) (C : Countable K) (fm : fmt) (ob : obasis K) (ok : K -> Prop) (f : K -> N)
    (iter : gmap K spec_float -> list (K * spec_float)) (items : list (K * spec_float)) (k : K) (s : spec_float),
  good_basis ob ok f -> ok k -> List.Forall (fun e => ok (fst e)) items -> List.NoDup (map fst items) ->
  (exists d m, vr_from_key_scalar (dense_ops (fl_ops fm) ob) k s = Ret d /\ vr_from_key_scalar (sparse_ops (fl_ops fm) iter) k s = Ret m
     /\ dv_wf d /\ fl_agree fm ok f d m)
  /\ (exists d m, vr_from_iterator (dense_ops (fl_ops fm) ob) items = Ret d /\ vr_from_iterator (sparse_ops (fl_ops fm) iter) items = Ret m
     /\ dv_wf d /\ fl_agree fm ok f d m).
Proof.
  intros K E C fm ob ok f iter items k s G Hk HF Hn. pose (so := fl_ops fm). split.
  - destruct (gb_dim_key ob ok f G k Hk) as (dim & Ed & Hdim).
    exists (dv_from (list_set (repeat (s_zero so) (N.to_nat dim)) (N.to_nat (f k)) s)), (<[k := s]> ∅). split.
    { cbn. unfold dv_from_key_scalar. rewrite Ed, (gb_index ob ok f G k Hk). cbn [bind]. cbn.
      unfold set_unchecked, len. rewrite !repeat_length, !N2Nat.id.
      destruct (N.ltb_spec (f k) dim); [|lia]. reflexivity. }
    split; [reflexivity|]. split; [exact I|]. intros j Hj. left. unfold coef, sv_coef, dv_as_slice. cbn [dv_from dv_elems].
    rewrite slice_get_list_set by (unfold len; rewrite repeat_length; lia).
    destruct (N.eqb_spec (f j) (f k)) as [Q|Q].
    + apply (gb_inj ob ok f G) in Q; [|assumption..]. subst j. rewrite lookup_insert. reflexivity.
    + rewrite lookup_insert_ne, lookup_empty by congruence. rewrite slice_get_repeat. destruct (f j <? _); reflexivity.
  - destruct (L_Sparse.from_iterator_ok items) as (m & Em & Gm).
    destruct (L_Dense.from_iterator_ok so ob items f) as [[-> Ed]|(k0 & s0 & Hin & Hmax & Hd)].
    + revert HF. apply List.Forall_impl. intros e He. apply (gb_index ob ok f G). exact He.
    + do 2 eexists. split; [exact Ed|]. split; [exact Em|]. split; [exact I|]. intros j Hj. unfold coef, sv_coef, dv_as_slice. rewrite Gm.
      cbn [dv_from dv_elems last_value]. rewrite slice_get_none by (apply N.le_0_l). left. reflexivity.
    + assert (Hk0 : ok k0). { rewrite List.Forall_forall in HF. apply (HF (k0, s0)). exact Hin. }
      destruct (gb_dim_index ob ok f G k0 Hk0) as (dim & Edim & Hdim).
      destruct (Hd dim Edim Hdim) as (l & El & Hl & Gl). exists (dv_from l), m. split; [exact El|]. split; [exact Em|].
      split; [exact I|]. intros j Hj. unfold coef, sv_coef, dv_as_slice. rewrite Gm. cbn [dv_from dv_elems].
      pose proof (fl_given fm ok f items j (gb_inj ob ok f G) Hj HF Hn) as X. fold so in X.
      eapply same_trans; [|exact X].
      destruct (N.lt_ge_cases (f j) dim) as [Hlt|Hge]; [rewrite Gl by exact Hlt; left; reflexivity|].
      rewrite slice_get_none by lia.
      rewrite (given_none ok f items j (gb_inj ob ok f G) Hj HF); [left; reflexivity|].
      intros Hin'. apply in_map_iff in Hin'. destruct Hin' as (e & <- & He). specialize (Hmax e He). lia.
Qed.
Example c117_example :
  let so := fl_ops f32 in let i := fl_of_Z f32 in let big := i (2 ^ 127)%Z in let inf := S754_infinity false in
  let up := fun m : gmap N spec_float => map_to_list m in let down := fun m : gmap N spec_float => rev (map_to_list m) in
  let d := dv_from [S754_zero true; i 3%Z; i (-2)%Z; big] in
  let m : gmap N spec_float := {[ 1 := i 3%Z; 2 := i (-2)%Z; 3 := big ]} in
  let y : gmap N spec_float := {[ 2 := i (-2)%Z; 3 := big ]} in
  let both o h := d' <- calls so nat_basis d o ;; m' <- hcalls so m h ;;
    Ret (map (coef so d') [0; 1; 2; 3; 4], map (sv_coef so m') [0; 1; 2; 3; 4]) in
  good_basis nat_basis (fun _ => True) (fun k => k)
  (* the entry 3 overflows; the entry 2 is removed from the sparse vector and becomes 0 in the dense one *)
  /\ both [OAdd (dv_from [i 0%Z; i 0%Z; i 0%Z; big]); OSub (dv_from [i 0%Z; i 0%Z; i (-2)%Z; big]); OUminus; ORdiv (i 7%Z)]
          [(up, HAdd {[ 3 := big ]}); (down, HSub y); (up, HUminus); (up, HRdiv (i 7%Z))]
     = Ret ([S754_zero true; s_div so (i (-3)%Z) (i 7%Z); S754_zero true; S754_infinity true; S754_zero false],
            [S754_zero false; s_div so (i (-3)%Z) (i 7%Z); S754_zero false; S754_infinity true; S754_zero false])
  (* multiplication by infinity, then by zero *)
  /\ both [OLmul inf] [(up, HLmul inf)]
     = Ret ([S754_nan; inf; S754_infinity true; inf; S754_zero false],
            [S754_zero false; inf; S754_infinity true; inf; S754_zero false])
  /\ both [OLmul big; OLmul (i 0%Z)] [(up, HLmul big); (down, HLmul (i 0%Z))]
     = Ret ([S754_zero true; S754_nan; S754_nan; S754_nan; S754_zero false],
            [S754_zero false; S754_zero false; S754_zero false; S754_zero false; S754_zero false]).
Proof.
  cbv zeta. split; [exact nat_basis_good|]. split; [vm_compute; reflexivity|]. split; [vm_compute; reflexivity|].
  vm_compute. reflexivity.
Qed.
