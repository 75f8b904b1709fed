(** The in-place tensor product for a right operand of degree >= 1: every outcome, in builds with and without overflow
    checks (L_Inplace.v has the rounds that do not depend on the checks). *)
From Verif Require Import Machine MachineLemmas S_Words L_Words M_Scalar M_Vector M_Dense M_TensorKey M_TensorBasis
  S_TensorApi S_Vector S_Tensor L_TensorKey L_TensorBasis L_Dense M_Algebra L_Algebra L_Inplace.

Lemma usub_wrap w p a b : overflow_checks p = false -> a < b -> b < 2 ^ w -> usub w p a b = Ret (a + 2 ^ w - b).
Proof.
  intros Hp H Hb. unfold usub, overflowed. rewrite Hp. destruct (N.leb_spec b a); [lia|].
  rewrite N.mod_small by lia. reflexivity.
Qed.
(** without overflow checks start_of_degree always gives some number *)
Lemma start_of_degree_some p n d : overflow_checks p = false -> 2 <= n -> exists a, tb_start_of_degree p n d = Ret a.
Proof.
  intros Hp Hn. unfold tb_start_of_degree.
  assert (U : forall w a e, exists z, upow w p a e = Ret z).
  { intros. unfold upow, overflowed. rewrite Hp. destruct (_ <? _); eauto. }
  assert (B : forall w a e, exists z, usub w p a e = Ret z).
  { intros. unfold usub, overflowed. rewrite Hp. destruct (_ <=? _); eauto. }
  destruct (U 64 n d) as [w ->]. cbn [bind]. destruct (B 64 w 1) as [a ->]. cbn [bind]. rewrite usub_ok by lia. cbn [bind].
  unfold udiv. destruct (N.eqb_spec (n - 1) 0); [lia|]. eauto.
Qed.

Section Wrap.
  Context {S R : Type} (so : scalar_ops S R) (p : profile) (n : N) (Hn : 2 <= n) (func : S -> S).
  Notation zero := (s_zero so).
  Notation cb d := (count_below n (N.to_nat d)).
  Notation cbS d := (count_below n (Datatypes.S (N.to_nat d))).
  Notation scan := (scan so n func).
  Notation body := (mul_into_body so p n).

  (** rounds in which the least degree of the left factor underflows *)
  Lemma body_zero_wrap y l r self out : overflow_checks p = false -> out < r -> r < 2 ^ 32 -> 1 <= out -> n ^ (out + 1) < 2 ^ 64 ->
    stored_to n self out -> body y func l r 1 true self out = UB.
  Proof.
    intros Hp Hr Hr2 Ho P Hs. unfold mul_into_body. rewrite (usub_wrap 32 p out r) by assumption. cbn [bind].
    rewrite (usub_ok 32 p out 1) by lia. cbn [bind]. rewrite usub_ok by lia. cbn [bind].
    rewrite !degree_range_ok; try exact Hn; try exact P; try (apply (pow_fits n Hn _ (out + 1)); [lia|exact P]).
    cbn [bind N.eqb Pos.eqb]. rewrite (split_UB so p n Hn func); [reflexivity| | |].
    - apply (pow_fits n Hn _ (out + 1)); [lia|exact P].
    - unfold stored_to in Hs. pose proof (cb_le n Hn (N.min (out - 1) l) (out + 1) ltac:(lia)).
      rewrite <- (cbS_as_cb n Hn) in *. lia.
    - left. lia.
  Qed.
  Lemma body_one_wrap y l r self out : overflow_checks p = false -> out < r -> r < 2 ^ 31 -> 1 <= out ->
    body y func l r 1 false self out = Ret self.
  Proof.
    intros Hp Hr Hr2 Ho. unfold mul_into_body. rewrite (usub_wrap 32 p out r) by (assumption || lia). cbn [bind].
    rewrite (usub_ok 32 p out 1) by lia. cbn [bind]. rewrite usub_ok by lia. cbn [bind].
    rewrite rev_range_incl_nil by lia. reflexivity.
  Qed.
  Lemma body_other_wrap y l r self out : overflow_checks p = false -> out < r -> r < 2 ^ 31 -> 1 <= out -> 1 <= l ->
    n ^ (out + 1) < 2 ^ 64 -> stored_to n self out -> stored_to n y r ->
    exists e, len e = dv_size self
      /\ (forall i, slice_get e i = if (cb out <=? i) && (i <? cbS out)
                                    then option_map (scan y (out - l)) (slice_get (dv_elems self) i)
                                    else slice_get (dv_elems self) i)
      /\ body y func l r 0 true self out = Ret (after self false e).
  Proof.
    intros Hp Hr Hr2 Ho Hl P Hs Hy.
    destruct (assign_ok so n Hn func self y out (out - l) Hs) as (e & E & He & Hg).
    { apply (stored_mono n Hn y _ r); [lia|exact Hy]. }
    exists e. split; [exact He|]. split; [exact Hg|]. unfold mul_into_body.
    rewrite (usub_wrap 32 p out r) by (assumption || lia). cbn [bind]. rewrite (usub_ok 32 p out 0) by lia. cbn [bind].
    rewrite N.sub_0_r. rewrite usub_ok by lia. cbn [bind].
    rewrite !degree_range_ok; try exact Hn; try (apply (pow_fits n Hn _ (out + 1)); [lia|exact P]). cbn [bind fst snd].
    change (0 =? 1) with false. cbv iota. replace (out - N.min out l) with (out - l) by lia.
    cbv zeta in E |- *. rewrite E. cbn [bind]. rewrite usub_ok by lia. cbn [bind]. rewrite rev_range_incl_nil by lia. reflexivity.
  Qed.
  (** with overflow checks such a round panics *)
  Lemma body_panic y l r off asg self out : overflow_checks p = true -> out < r -> body y func l r off asg self out = Panic.
  Proof. intros Hp Hr. unfold mul_into_body. rewrite usub_panic by assumption. reflexivity. Qed.
  (** left operand of degree 0: the greatest degree of the left factor underflows *)
  Lemma body_low_panic y l r self out : l = 0 -> overflow_checks p = true -> r <= out -> out <= r -> 1 <= out -> n ^ (out + 1) < 2 ^ 64 ->
    stored_to n self out -> stored_to n y r -> body y func l r 0 true self out = Panic.
  Proof.
    intros -> Hp Hr Hor Ho P Hs Hy. unfold mul_into_body. rewrite !usub_ok by lia. cbn [bind]. rewrite N.sub_0_r.
    rewrite usub_ok by lia. cbn [bind]. replace (N.min out 0) with 0 by lia. rewrite N.sub_0_r.
    rewrite !degree_range_ok; try exact Hn; try (apply (pow_fits n Hn _ (out + 1)); [lia|exact P]). cbn [bind fst snd]. change (0 =? 1) with false. cbv iota.
    destruct (assign_ok so n Hn func self y out out Hs) as (e & E & _ & _).
    { apply (stored_mono n Hn y _ r); [lia|exact Hy]. }
    cbv zeta in E |- *. rewrite E. cbn [bind]. rewrite usub_panic by (assumption || lia). reflexivity.
  Qed.
  Lemma body_low_wrap y l r self out : l = 0 -> overflow_checks p = false -> out <= r -> 1 <= out -> r < 2 ^ 31 -> n ^ (out + 2) < 2 ^ 64 ->
    filled n self out -> stored_to n y r -> body y func l r 0 true self out = UB.
  Proof.
    intros -> Hp Hor Ho Hr2 P Hs Hy.
    assert (P1 : n ^ (out + 1) < 2 ^ 64) by (apply (pow_fits n Hn _ (out + 2)); [lia|exact P]).
    assert (Hmin : exists mn, usub 32 p out r = Ret mn /\ mn <= 2 ^ 32 - 1).
    { destruct (N.le_gt_cases r out); [exists (out - r); rewrite usub_ok by lia; split; [reflexivity|lia]|].
      exists (out + 2 ^ 32 - r). rewrite usub_wrap by (assumption || lia). split; [reflexivity|lia]. }
    destruct Hmin as (mn & Emn & Hmn).
    unfold mul_into_body. rewrite Emn. cbn [bind]. rewrite (usub_ok 32 p out 0) by lia. cbn [bind]. rewrite N.sub_0_r.
    replace (N.min out 0) with 0 by lia. rewrite usub_ok by lia. cbn [bind]. rewrite N.sub_0_r.
    rewrite !degree_range_ok; try exact Hn; try (apply (pow_fits n Hn _ (out + 1)); [lia|exact P1]). cbn [bind fst snd]. change (0 =? 1) with false. cbv iota.
    destruct (assign_ok so n Hn func self y out out) as (e & E & He & _).
    { unfold stored_to. rewrite Hs. apply N.le_refl. }
    { apply (stored_mono n Hn y _ r); [lia|exact Hy]. }
    cbv zeta in E |- *. rewrite E. cbn [bind]. rewrite usub_wrap by (assumption || lia). cbn [bind].
    replace (0 + 2 ^ 32 - 1) with (2 ^ 32 - 1) by lia.
    destruct (rev_range_incl_head mn (2 ^ 32 - 1) Hmn) as [tl Etl]. rewrite Etl. cbn [for_each]. clear Etl.
    unfold mul_into_inner. rewrite usub_wrap by (assumption || lia). cbn [bind].
    replace (out + 2 ^ 32 - (2 ^ 32 - 1)) with (out + 1) by lia.
    rewrite degree_range_ok; [|exact Hn|replace (out + 1 + 1) with (out + 2) by lia; exact P]. cbn [bind].
    unfold tb_degree_range. destruct (start_of_degree_some p n (2 ^ 32 - 1) Hp Hn) as [a ->]. cbn [bind].
    assert (U : uadd 32 p (2 ^ 32 - 1) 1 = Ret 0).
    { unfold uadd, overflowed. rewrite Hp. reflexivity. }
    rewrite U. cbn [bind].
    rewrite start_of_degree_ok; [|exact Hn|rewrite N.pow_0_r; reflexivity]. cbn [bind]. unfold mul_split.
    rewrite start_of_degree_ok; [|exact Hn|rewrite N.pow_0_r; reflexivity]. change (cb 0) with 0. cbn [bind fst snd].
    rewrite as_mut_elems. unfold split_at_mut. destruct (N.leb_spec 0 (len (dv_elems (after self false e)))); [|lia]. cbn [bind].
    rewrite slice_unchecked_UB; [reflexivity|]. right. change (N.to_nat 0) with 0%nat. cbn [skipn].
    change (len e < cbS (out + 1)). rewrite He, Hs, !(cbS_as_cb n Hn). apply (cb_strict n Hn). lia.
  Qed.

  (** the rounds k, k-1, ..., 1 below the degree of y *)
  Lemma loop_one_wrap y l r self k : overflow_checks p = false -> k < r -> r < 2 ^ 31 ->
    for_each (rev_range_incl 1 k) (body y func l r 1 false) self = Ret self.
  Proof.
    intros Hp Hk Hr. induction k as [|k IH] using N.peano_ind; [reflexivity|].
    rewrite <- N.add_1_r in *. rewrite rev_range_incl_cons by lia. cbn [for_each].
    rewrite body_one_wrap by (assumption || lia). cbn [bind]. apply IH. lia.
  Qed.
  (** the new coefficient of a word of length d >= 1: multiplied by every coefficient of one degree of y *)
  Lemma coef_assigned self e out d y w : word_ok n w ->
    stored_to n self out -> len e = dv_size self ->
    (forall i, slice_get e i = if (cb out <=? i) && (i <? cbS out)
                               then option_map (scan y d) (slice_get (dv_elems self) i) else slice_get (dv_elems self) i) ->
    wcoef so n (after self false e) w = if len w =? out then scan y d (wcoef so n self w) else wcoef so n self w.
  Proof.
    intros Hw Hs He Hg. unfold wcoef, coef, dv_as_slice. cbn [after dv_elems]. rewrite Hg.
    pose proof (below_iff n w (N.to_nat out) ltac:(lia) Hw) as B0.
    pose proof (below_iff n w (Datatypes.S (N.to_nat out)) ltac:(lia) Hw) as B1.
    unfold len. unfold stored_to, dv_size in Hs.
    destruct (N.eqb_spec (N.of_nat (length w)) out) as [E|E].
    - destruct (N.leb_spec (cb out) (windex n w)); [|lia]. destruct (N.ltb_spec (windex n w) (cbS out)); [|lia]. cbn [andb].
      destruct (slice_get_some (dv_elems self) (windex n w)) as [v Ev]; [lia|]. rewrite Ev. reflexivity.
    - destruct (N.leb_spec (cb out) (windex n w)), (N.ltb_spec (windex n w) (cbS out)); cbn [andb]; try reflexivity. lia.
  Qed.
  Lemma loop_other_wrap y l r k : overflow_checks p = false -> k < r -> r < 2 ^ 31 -> 1 <= l -> n ^ (k + 1) < 2 ^ 64 ->
    stored_to n y r -> forall self, stored_to n self k ->
    exists z, for_each (rev_range_incl 1 k) (body y func l r 0 true) self = Ret z /\ dv_size z = dv_size self
      /\ forall w, word_ok n w -> wcoef so n z w =
           if (1 <=? len w) && (len w <=? k) then scan y (len w - l) (wcoef so n self w) else wcoef so n self w.
  Proof.
    intros Hp Hk Hr Hl P Hy. induction k as [|k IH] using N.peano_ind; intros self Hs.
    - exists self. split; [reflexivity|]. split; [reflexivity|]. intros w _.
      destruct (N.leb_spec 1 (len w)), (N.leb_spec (len w) 0); cbn [andb]; reflexivity || lia.
    - rewrite <- N.add_1_r in *. rewrite rev_range_incl_cons by lia. cbn [for_each].
      destruct (body_other_wrap y l r self (k + 1)) as (e & He & Hg & ->); try assumption; [lia|]. cbn [bind].
      destruct (IH ltac:(lia)) with (self := after self false e) as (z & -> & Hz & Gz).
      { apply (pow_fits n Hn _ (k + 1 + 1)); [lia|exact P]. }
      { unfold stored_to in *. change (cbS k <= len e). rewrite He. pose proof (cbS_mono n Hn k (k + 1) ltac:(lia)). lia. }
      exists z. split; [reflexivity|]. split; [rewrite Hz; exact He|]. intros w Hw. rewrite (Gz w Hw).
      rewrite (coef_assigned self e (k + 1) (k + 1 - l) y w Hw Hs He Hg).
      destruct (N.leb_spec 1 (len w)), (N.leb_spec (len w) k), (N.eqb_spec (len w) (k + 1)), (N.leb_spec (len w) (k + 1));
        cbn [andb]; try lia; try reflexivity. replace (k + 1) with (len w) by assumption. reflexivity.
  Qed.

  (** ** The whole product *)
  Context (x y : dvec S) (l r t : N).
  Notation m := (N.min t (l + r)).
  Notation c := (coef so y 0).
  Context (Hy : filled n y r) (Hx : filled n x l).
  Context (Pl : n ^ (l + 1) < 2 ^ 64) (Pr : n ^ (r + 1) < 2 ^ 64) (Pm : n ^ (m + 1) < 2 ^ 64).
  Context (Hr1 : 1 <= r) (Hm1 : 1 <= m).
  Notation run := (multiply_into_impl so p n x y func (Some t)).
  Notation is0 := (s_eqb so c zero).
  Notation is1 := (s_eqb so c (s_one so)).
  Notation start := (run_start so p n Hn func x y l r t Hy Hx Pl Pr Pm).

  Lemma r_small : r < 2 ^ 31. Proof. pose proof (pow_u64_exp n _ Hn Pr). lia. Qed.
  Lemma y_stored d : d <= r -> stored_to n y d. Proof. apply (stored_y n Hn y r Hy). Qed.
  Lemma offset_eq : offset_assign so y = if is0 then (1, true) else if is1 then (1, false) else (0, true).
  Proof. apply (offset_assign_eq so n Hn y r Hy). Qed.

  Lemma wrap_checked : overflow_checks p = true -> m < r -> run = Panic.
  Proof.
    intros Hp Hmr. destruct start as (self1 & -> & _). destruct (rev_range_incl_head 1 m Hm1) as [tl ->]. cbn [for_each].
    rewrite body_panic by assumption. reflexivity.
  Qed.
  Lemma wrap_zero : overflow_checks p = false -> m < r -> is0 = true -> run = UB.
  Proof.
    intros Hp Hmr H0. destruct start as (self1 & -> & Hs & _). rewrite offset_eq, H0. cbn [fst snd].
    destruct (rev_range_incl_head 1 m Hm1) as [tl ->]. cbn [for_each].
    rewrite body_zero_wrap; [reflexivity|assumption|assumption|pose proof r_small; lia|assumption|exact Pm|].
    unfold stored_to. rewrite Hs. lia.
  Qed.
  Lemma max_filled (v : dvec S) : dv_size v = N.max (cbS l) (cbS m) -> filled n v (N.max l m).
  Proof.
    intros H. unfold filled. rewrite H. destruct (N.le_ge_cases l m) as [L|L].
    - rewrite (N.max_r l m) by exact L. apply N.max_r, (cbS_mono n Hn), L.
    - rewrite (N.max_l l m) by exact L. apply N.max_l, (cbS_mono n Hn), L.
  Qed.
  Lemma wrap_one : overflow_checks p = false -> m < r -> is0 = false -> is1 = true ->
    exists z, run = Ret z /\ filled n z (N.max l m) /\ forall i, coef so z i = coef so x i.
  Proof.
    intros Hp Hmr H0 H1. destruct start as (self1 & -> & Hs & Hc & _). rewrite offset_eq, H0, H1. cbn [fst snd].
    exists self1. rewrite loop_one_wrap by (assumption || apply r_small). split; [reflexivity|]. split; [|exact Hc].
    apply max_filled, Hs.
  Qed.
  Lemma wrap_other : overflow_checks p = false -> m < r -> 1 <= l -> is0 = false -> is1 = false ->
    exists z, run = Ret z /\ filled n z (N.max l m)
      /\ forall w, word_ok n w -> wcoef so n z w =
           if (1 <=? len w) && (len w <=? m) then scan y (len w - l) (wcoef so n x w) else wcoef so n x w.
  Proof.
    intros Hp Hmr Hl H0 H1. destruct start as (self1 & -> & Hs & Hc & _). rewrite offset_eq, H0, H1. cbn [fst snd].
    destruct (loop_other_wrap y l r m Hp Hmr r_small Hl Pm (y_stored r (N.le_refl r)) self1) as (z & E & Hz & Gz).
    { unfold stored_to. rewrite Hs. lia. }
    exists z. split; [exact E|]. split; [apply max_filled; rewrite Hz; exact Hs|]. intros w Hw. rewrite (Gz w Hw).
    unfold wcoef. rewrite Hc. reflexivity.
  Qed.
  (** left operand of degree 0 *)
  Lemma low_panic : overflow_checks p = true -> l = 0 -> r <= m -> is0 = false -> is1 = false -> run = Panic.
  Proof.
    intros Hp Hl Hmr H0 H1. destruct start as (self1 & -> & Hs & _). rewrite offset_eq, H0, H1. cbn [fst snd].
    destruct (rev_range_incl_head 1 m Hm1) as [tl ->]. cbn [for_each].
    rewrite body_low_panic; [reflexivity|assumption|assumption|assumption|lia|assumption|exact Pm| |apply y_stored; lia].
    unfold stored_to. rewrite Hs. lia.
  Qed.
  Lemma low_wrap : overflow_checks p = false -> l = 0 -> n ^ (m + 2) < 2 ^ 64 -> is0 = false -> is1 = false -> run = UB.
  Proof.
    intros Hp Hl P2 H0 H1. destruct start as (self1 & -> & Hs & _). rewrite offset_eq, H0, H1. cbn [fst snd].
    destruct (rev_range_incl_head 1 m Hm1) as [tl ->]. cbn [for_each].
    pose proof (max_filled self1 Hs) as F. rewrite N.max_r in F by lia.
    rewrite body_low_wrap; [reflexivity|assumption|assumption|lia|assumption|apply r_small|exact P2|exact F|apply y_stored; lia].
  Qed.

  (** r <= m, 1 <= l, a leading coefficient other than 0 and 1: everything but two cases is undefined *)
  Lemma high_UB : r <= m -> 1 <= l -> is0 = false -> is1 = false -> ~ (l = 1 /\ m = r + 1) -> ~ (r = 1 /\ 2 <= l /\ m = 1) ->
    run = UB.
  Proof.
    intros Hmr Hl H0 H1 N1 N2. destruct start as (self1 & -> & Hs & _). rewrite offset_eq, H0, H1. cbn [fst snd].
    (* a round with a left factor of degree >= 1 is undefined *)
    assert (B : forall self out, dv_size self = dv_size self1 -> r <= out -> out < l + r -> out <= m -> 2 <= N.min out l ->
      body y func l r 0 true self out = UB).
    { intros self out Hself Hro Hol Hom H2.
      destruct (body_other so p n Hn func y l r self out) as (e & He & _ & ->); [lia|lia|lia|lia| | |apply y_stored; lia|].
      { apply (pow_fits n Hn _ (m + 1)); [lia|exact Pm]. }
      { unfold stored_to. rewrite Hself, Hs. pose proof (cbS_mono n Hn out m Hom). lia. }
      destruct (rev_range_incl_head (out - r) (N.min out l - 1)) as [tl ->]; [lia|]. cbn [for_each].
      rewrite (inner_UB so p n Hn func); [reflexivity|lia|lia|lia|apply (pow_fits n Hn _ (m + 1)); [lia|exact Pm]|].
      change (cb (N.min out l) <= len e). rewrite He, Hself, Hs. pose proof (cb_le n Hn (N.min out l) (m + 1) ltac:(lia)) as H.
      rewrite <- (cbS_as_cb n Hn) in H. lia. }
    destruct (N.eq_dec m (l + r)) as [Em|Em].
    - assert (2 <= l) by lia. rewrite Em in *. replace (l + r) with ((l + r - 1) + 1) at 1 by lia.
      rewrite rev_range_incl_cons by lia. replace (l + r - 1 + 1) with (l + r) by lia. cbn [for_each].
      destruct (body_other so p n Hn func y l r self1 (l + r)) as (e & He & _ & ->); [lia|lia|lia|lia|exact Pm| |apply y_stored; lia|].
      { unfold stored_to. rewrite Hs. lia. }
      rewrite rev_range_incl_nil by lia. cbn [for_each bind].
      destruct (rev_range_incl_head 1 (l + r - 1)) as [tl ->]; [lia|]. cbn [for_each].
      rewrite B; [reflexivity|exact He|lia|lia|lia|lia].
    - destruct (N.le_gt_cases 2 (N.min m l)) as [H2|H2].
      + destruct (rev_range_incl_head 1 m Hm1) as [tl ->]. cbn [for_each]. rewrite B; [reflexivity|reflexivity|lia|lia|lia|exact H2].
      + assert (El : l = 1) by lia. assert (Er : m = r) by lia.
        destruct (rev_range_incl_head 1 m Hm1) as [tl ->]. cbn [for_each].
        destruct (body_other so p n Hn func y l r self1 m) as (e & He & _ & ->); [lia|lia|lia|lia|exact Pm| |apply y_stored; lia|].
        { unfold stored_to. rewrite Hs. lia. }
        replace (m - r) with 0 by lia. replace (N.min m l) with 1 by lia. change (1 - 1) with 0. rewrite rev_range_incl_one.
        cbn [for_each]. rewrite (inner_unit so p n Hn func) by (assumption || lia).
        rewrite (split_short so p n Hn func); [reflexivity|apply (pow_fits n Hn _ (m + 1)); [lia|exact Pm]| |].
        * change (cb 1 <= len e). rewrite He, Hs. pose proof (cb_le n Hn 1 (m + 1) ltac:(lia)) as H.
          rewrite <- (cbS_as_cb n Hn) in H. lia.
        * change (len e < cb 1 + cbS m). rewrite He, Hs. pose proof (cbS_mono n Hn l m ltac:(lia)). change (cb 1) with 1. lia.
  Qed.
  (** l = 1, m = r + 1: the two rounds of degrees r + 1 and r *)
  Lemma grown_rounds : l = 1 -> m = r + 1 -> is0 = false -> is1 = false ->
    exists s2, run = for_each (rev_range_incl 1 (r - 1)) (body y func l r 0 true) s2
      /\ dv_size s2 = cbS (r + 1)
      /\ forall w, word_ok n w -> wcoef so n s2 w =
           let v := if (len w =? r) || (len w =? r + 1) then scan y (len w - l) (wcoef so n x w) else wcoef so n x w in
           let i := windex n w in
           if (cb r <? i) && (i <=? cbS r) then s_add so v (func (s_mul so (wcoef so n x []) (coef so y (i - 1)))) else v.
  Proof.
    intros El Em H0 H1. destruct start as (self1 & -> & Hs & Hc & _). rewrite offset_eq, H0, H1. cbn [fst snd].
    pose proof (max_filled self1 Hs) as F. rewrite N.max_r in F by lia. rewrite Em in *. unfold filled in F.
    rewrite rev_range_incl_cons by lia. cbn [for_each].
    assert (S1 : stored_to n self1 (r + 1)) by (unfold stored_to; lia).
    destruct (body_other so p n Hn func y l r self1 (r + 1)) as (e & He & Hg & ->); [lia|lia|lia|lia|exact Pm|exact S1|apply y_stored; lia|].
    rewrite rev_range_incl_nil by lia. cbn [for_each bind].
    assert (RR : rev_range_incl 1 r = r :: rev_range_incl 1 (r - 1)).
    { pose proof (rev_range_incl_cons 1 (r - 1)) as E. replace (r - 1 + 1) with r in E by lia. apply E. lia. }
    rewrite RR. cbn [for_each].
    assert (S2 : stored_to n (after self1 false e) r).
    { unfold stored_to. change (cbS r <= len e). rewrite He, F. apply (cbS_mono n Hn). lia. }
    assert (Pr1 : n ^ (r + 1) < 2 ^ 64) by exact Pr.
    destruct (body_other so p n Hn func y l r (after self1 false e) r) as (f & Hf & Hg2 & ->); [lia|lia|lia|lia|exact Pr1|exact S2|apply y_stored; lia|].
    replace (r - r) with 0 by lia. replace (N.min r l) with 1 in * by lia. change (1 - 1) with 0. rewrite rev_range_incl_one.
    cbn [for_each]. rewrite (inner_unit so p n Hn func) by (assumption || lia).
    assert (Lf : len f = cbS (r + 1)) by (rewrite Hf; change (len e = cbS (r + 1)); rewrite He; exact F).
    destruct (split_ok so p n Hn func (after (after self1 false e) false f) y 1 r) as (z & -> & Lz & Gz).
    { apply (pow_fits n Hn _ (r + 1)); [lia|exact Pr]. }
    { lia. }
    { change (cb 1 + cbS r <= len f). rewrite Lf. pose proof (cbS_cb n (r + 1)) as E. change (cb 1) with 1.
      rewrite <- (cbS_as_cb n Hn r) in E. pose proof (pow_pos n (r + 1) ltac:(lia)). lia. }
    { apply y_stored. lia. }
    cbn [bind]. exists (after (after (after self1 false e) false f) false z).
    split; [reflexivity|]. split; [change (len z = cbS (r + 1)); rewrite Lz; exact Lf|].
    replace (r + 1 - N.min (r + 1) l) with (r + 1 - l) in Hg by lia.
    replace (r - 1) with (r - l) in Hg2 by lia.
    assert (Gf : forall w, word_ok n w -> wcoef so n (after (after self1 false e) false f) w =
             if (len w =? r) || (len w =? r + 1) then scan y (len w - l) (wcoef so n x w) else wcoef so n x w).
    { intros w Hw. rewrite (coef_assigned _ f r (r - l) y w Hw S2 Hf Hg2), (coef_assigned _ e (r + 1) (r + 1 - l) y w Hw S1 He Hg).
      assert (E : wcoef so n self1 w = wcoef so n x w) by apply Hc. rewrite E.
      destruct (N.eqb_spec (len w) r) as [Ew|], (N.eqb_spec (len w) (r + 1)) as [Ew'|]; cbn [orb]; try lia; try reflexivity.
      - rewrite Ew. reflexivity.
      - rewrite Ew'. reflexivity. }
    intros w Hw. cbv zeta. rewrite <- (Gf w Hw).
    unfold wcoef at 1, coef at 1, dv_as_slice. cbn [after dv_elems]. rewrite Gz. change (cb 1) with 1.
    assert (E0 : coef so (after (after self1 false e) false f) 0 = wcoef so n x []).
    { change (wcoef so n (after (after self1 false e) false f) [] = wcoef so n x []). rewrite Gf by constructor.
      change (len (@nil N)) with 0. destruct (N.eqb_spec 0 r), (N.eqb_spec 0 (r + 1)); cbn [orb]; reflexivity || lia. }
    rewrite E0.
    destruct (N.leb_spec (1 + cb r) (windex n w)), (N.ltb_spec (cb r) (windex n w)); try lia; cbn [andb]; [|reflexivity].
    destruct (N.ltb_spec (windex n w) (1 + cbS r)), (N.leb_spec (windex n w) (cbS r)); try lia; reflexivity.
  Qed.
  Lemma grown_panic : overflow_checks p = true -> l = 1 -> m = r + 1 -> 2 <= r -> is0 = false -> is1 = false -> run = Panic.
  Proof.
    intros Hp El Em Hr H0 H1. destruct (grown_rounds El Em H0 H1) as (s2 & -> & _).
    destruct (rev_range_incl_head 1 (r - 1)) as [tl ->]; [lia|]. cbn [for_each]. rewrite body_panic by (assumption || lia). reflexivity.
  Qed.
  Lemma grown_ok : overflow_checks p = false \/ r = 1 -> l = 1 -> m = r + 1 -> is0 = false -> is1 = false ->
    exists z, run = Ret z /\ filled n z (r + 1)
      /\ forall w, word_ok n w -> wcoef so n z w =
           let v := if 1 <=? len w then scan y (len w - l) (wcoef so n x w) else wcoef so n x w in
           let i := windex n w in
           if len w <=? r + 1 then
             if (cb r <? i) && (i <=? cbS r) then s_add so v (func (s_mul so (wcoef so n x []) (coef so y (i - 1)))) else v
           else zero.
  Proof.
    intros Hp El Em H0 H1. destruct (grown_rounds El Em H0 H1) as (s2 & -> & Hs & G).
    assert (Z : exists z, for_each (rev_range_incl 1 (r - 1)) (body y func l r 0 true) s2 = Ret z /\ dv_size z = dv_size s2
      /\ forall w, word_ok n w -> wcoef so n z w =
           if (1 <=? len w) && (len w <=? r - 1) then scan y (len w - l) (wcoef so n s2 w) else wcoef so n s2 w).
    { destruct Hp as [Hp|Hr].
      - apply loop_other_wrap; [exact Hp|lia|apply r_small|lia|apply (pow_fits n Hn _ (r + 1)); [lia|exact Pr]|apply y_stored; lia|].
        unfold stored_to. rewrite Hs. apply (cbS_mono n Hn). lia.
      - rewrite Hr. exists s2. split; [reflexivity|]. split; [reflexivity|]. intros w _.
        destruct (N.leb_spec 1 (len w)), (N.leb_spec (len w) (1 - 1)); cbn [andb]; reflexivity || lia. }
    destruct Z as (z & -> & Hz & Gz). exists z. split; [reflexivity|]. split; [unfold filled; congruence|].
    intros w Hw. rewrite (Gz w Hw), (G w Hw). cbv zeta.
    pose proof (below_iff n w (N.to_nat r) ltac:(lia) Hw) as B0. fold (len w) in *.
    pose proof (below_iff n w (Datatypes.S (N.to_nat r)) ltac:(lia) Hw) as B1.
    pose proof (below_iff n w (Datatypes.S (N.to_nat (r + 1))) ltac:(lia) Hw) as B2.
    assert (Lw : N.of_nat (length w) = len w) by reflexivity.
    destruct (N.leb_spec (len w) (r + 1)) as [Hlw|Hlw].
    - destruct (N.leb_spec 1 (len w)), (N.leb_spec (len w) (r - 1)), (N.eqb_spec (len w) r), (N.eqb_spec (len w) (r + 1));
        cbn [andb orb]; try lia; try reflexivity.
      all: destruct (N.ltb_spec (cb r) (windex n w)), (N.leb_spec (windex n w) (cbS r)); cbn [andb]; try lia; reflexivity.
    - destruct (N.leb_spec (len w) (r - 1)), (N.eqb_spec (len w) r), (N.eqb_spec (len w) (r + 1)); try lia.
      rewrite andb_false_r. cbn [orb].
      pose proof (cb_strict n Hn (r + 1) (r + 1 + 1) ltac:(lia)) as C. rewrite <- !(cbS_as_cb n Hn) in C.
      destruct (N.leb_spec (windex n w) (cbS r)); [lia|]. rewrite andb_false_r.
      unfold wcoef. apply coef_out. rewrite Hx, El. pose proof (cbS_mono n Hn 1 (r + 1) ltac:(lia)). lia.
  Qed.
End Wrap.
