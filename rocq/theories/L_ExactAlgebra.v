(** exp, fmexp and log of the trait FreeTensor over an exact implementation of the algebra. *)
From Coq Require Import Ring_theory Ring.
From Verif Require Import Machine MachineLemmas S_Words L_Words M_Scalar M_Vector M_TensorKey M_Dense S_Vector S_Tensor S_Series
  S_FreeTensor M_FreeTensor L_Ring L_Algebra L_Conv L_Series.

Lemma for_each_snoc {St A} (l : list A) a (f : St -> A -> outcome St) s :
  for_each (l ++ [a]) f s = (s1 <- for_each l f s ;; f s1 a).
Proof.
  revert s. induction l as [|b l IH]; intros s; cbn [app for_each].
  - cbn [bind]. destruct (f s a); reflexivity.
  - destruct (f s b); cbn [bind]; [apply IH|reflexivity|reflexivity|reflexivity].
Qed.

Section Exact.
  Context {V S R : Type} (so : scalar_ops S R) (p : profile) (n : N) (vo : vec_ops V tkey S R)
    (mulr : V -> V -> S -> option N -> outcome V) (mul : V -> V -> option N -> outcome V) (val : V -> word -> S)
    (L : ring_laws so) (X : exact_algebra so n vo mulr mul val).
  Let RT := ring_of so L.
  Add Ring scalars : RT.
  Notation zero := (s_zero so).
  Notation one := (s_one so).
  Infix "[+]" := (s_add so) (at level 50, left associativity).
  Infix "[*]" := (s_mul so) (at level 40, left associativity).
  Notation inv i := (s_inv so (r_from_degree so i)).

  (** 1/(j(j+1)..(j+k-1)) *)
  Fixpoint rising (j : N) (k : nat) : S :=
    match k with O => one | Datatypes.S k => inv j [*] rising (j + 1) k end.
  Lemma rising_S k : forall j, rising j (Datatypes.S k) = rising j k [*] inv (j + N.of_nat k).
  Proof.
    induction k as [|k IH]; intros j.
    - cbn [rising]. change (N.of_nat 0) with 0. rewrite N.add_0_r. ring.
    - change (rising j (Datatypes.S (Datatypes.S k))) with (inv j [*] rising (j + 1) (Datatypes.S k)). rewrite IH.
      change (rising j (Datatypes.S k)) with (inv j [*] rising (j + 1) k).
      replace (j + 1 + N.of_nat k) with (j + N.of_nat (Datatypes.S k)) by lia. ring.
  Qed.
  Lemma rising_1 k : rising 1 k = inv_fact so k.
  Proof.
    induction k as [|k IH]; [reflexivity|]. rewrite rising_S, IH. cbn [inv_fact].
    replace (1 + N.of_nat k) with (N.of_nat (Datatypes.S k)) by lia. reflexivity.
  Qed.
  Lemma horner t j f m w :
    inv j [*] tconv so t (series so t (rising (j + 1)) f m) f w [+] unit_fun so w
    = series so t (rising j) f (Datatypes.S m) w.
  Proof.
    rewrite (series_ext so t (rising j) (fun k => match k with O => one | Datatypes.S k1 => inv j [*] rising (j + 1) k1 end))
      by (intros [|k] _; reflexivity).
    rewrite (series_shift so L t (fun k => inv j [*] rising (j + 1) k)).
    rewrite (tconv_ext so t (series so t (fun k => inv j [*] rising (j + 1) k) f m)
               (fun u => inv j [*] series so t (rising (j + 1)) f m u) f f).
    - rewrite tconv_scal_l by exact L. ring.
    - intros u v _. apply series_scal. exact L.
    - reflexivity.
  Qed.
  Lemma ok_l (w u v : word) : word_ok n w -> w = u ++ v -> word_ok n u.
  Proof. intros H E. rewrite E in H. apply word_ok_app in H. apply H. Qed.
  Lemma ok_r (w u v : word) : word_ok n w -> w = u ++ v -> word_ok n v.
  Proof. intros H E. rewrite E in H. apply word_ok_app in H. apply H. Qed.

  Lemma exp_loop md (x u r0 : V) m : (forall w, word_ok n w -> val u w = unit_fun so w) ->
    (forall w, word_ok n w -> val r0 w = unit_fun so w) -> N.of_nat m < md ->
    exists z, for_each (rev (seqN (md - N.of_nat m) m)) (fun r i =>
      r1 <- mulr r x (s_from_degree so i) (Some md) ;; vr_add_inplace vo r1 u) r0 = Ret z
    /\ forall w, word_ok n w -> val z w = series so md (rising (md - N.of_nat m)) (val x) m w.
  Proof.
    intros Hu H0. induction m as [|m IH]; intros Hm.
    - exists r0. split; [reflexivity|]. intros w Hw. rewrite (H0 w Hw). cbn [series rising tpow]. ring.
    - destruct IH as (z & E & G); [lia|]. set (j := md - N.of_nat (Datatypes.S m)) in *.
      replace (md - N.of_nat m) with (j + 1) in * by lia. cbn [seqN rev]. replace (N.succ j) with (j + 1) by lia.
      rewrite for_each_snoc, E. cbn [bind].
      destruct (ea_mul_div _ _ _ _ _ _ X z x j md ltac:(lia)) as (r1 & -> & G1). cbn [bind].
      destruct (ea_add _ _ _ _ _ _ X r1 u) as (r2 & -> & G2). exists r2. split; [reflexivity|].
      intros w Hw. rewrite (G2 w Hw), (G1 w Hw), (Hu w Hw).
      rewrite (tconv_ext so md (val z) (series so md (rising (j + 1)) (val x) m) (val x) (val x)).
      + apply horner.
      + intros a b Eab. apply G. exact (ok_l w a b Hw Eab).
      + reflexivity.
  Qed.
  Lemma countdown_seq md : countdown md = rev (seqN (md - N.of_nat (N.to_nat (md - 1))) (N.to_nat (md - 1))).
  Proof.
    unfold countdown, range. destruct (N.le_gt_cases 1 md).
    - replace (md - N.of_nat (N.to_nat (md - 1))) with 1 by lia. reflexivity.
    - replace (N.to_nat (md - 1)) with 0%nat by lia. reflexivity.
  Qed.
  Lemma exact_exp md (x : V) : exists z, trait_exp so md vo mulr x = Ret z
    /\ forall w, word_ok n w -> val z w = exp_upto so md (val x) (N.to_nat (md - 1)) w.
  Proof.
    unfold trait_exp. destruct (ea_unit _ _ _ _ _ _ X) as (u & -> & Hu). cbn [bind]. rewrite countdown_seq.
    destruct (N.eq_dec md 0) as [->|H0].
    { exists u. split; [reflexivity|]. intros w Hw. rewrite (Hu w Hw). unfold exp_upto. cbn. ring. }
    destruct (exp_loop md x u u (N.to_nat (md - 1)) Hu Hu ltac:(lia)) as (z & E & G). exists z. split; [exact E|].
    intros w Hw. rewrite (G w Hw). replace (md - N.of_nat (N.to_nat (md - 1))) with 1 by lia.
    apply series_ext. intros k _. apply rising_1.
  Qed.

  (** fmexp *)
  Lemma clear_ok x : exists z, trait_clear_unit so vo x = Ret z /\ forall w, word_ok n w -> val z w = no_unit so (val x) w.
  Proof.
    unfold trait_clear_unit. destruct (ea_get_mut _ _ _ _ _ _ X x) as (x1 & ref & -> & G). cbn [bind].
    destruct ref as [[v write]|]; eexists; (split; [reflexivity|exact G]).
  Qed.
  Notation powers md m x := (series so md (rising (md - N.of_nat m)) x m).
  Lemma conv_tconv t f g w : len w <= t -> tconv so t f g w = conv so f g w.
  Proof. intros H. unfold tconv. destruct (N.leb_spec (len w) t); [reflexivity|lia]. Qed.
  Lemma fmexp_loop md (self x old : V) f g m :
    (forall w, word_ok n w -> val self w = f w) -> (forall w, word_ok n w -> val old w = f w) ->
    (forall w, word_ok n w -> val x w = g w) -> g [] = zero -> N.of_nat m < md < 2 ^ 32 ->
    exists z, for_each (rev (seqN (md - N.of_nat m) m)) (fun r i =>
      t0 <- usub 32 p md i ;; t <- uadd 32 p t0 1 ;;
      r1 <- mulr r x (s_from_degree so i) (Some t) ;; vr_add_inplace vo r1 old) self = Ret z
    /\ forall w, word_ok n w -> val z w = if len w <=? N.of_nat m + 1 then conv so f (powers md m g) w else f w.
  Proof.
    intros Hs Ho Hx G0. induction m as [|m IH]; intros Hm.
    - exists self. split; [reflexivity|]. intros w Hw. rewrite (Hs w Hw).
      destruct (len w <=? N.of_nat 0 + 1); [|reflexivity].
      rewrite (conv_ext so f f (powers md 0 g) (unit_fun so)).
      + symmetry. apply conv_unit_r. exact L.
      + reflexivity.
      + intros u v _. cbn [series rising tpow]. ring.
    - destruct IH as (z & E & G); [lia|]. set (j := md - N.of_nat (Datatypes.S m)) in *.
      assert (Ej : md - N.of_nat m = j + 1) by lia. rewrite Ej in E, G.
      cbn [seqN rev]. replace (N.succ j) with (j + 1) by lia. rewrite for_each_snoc, E. cbn [bind].
      rewrite usub_ok by lia. cbn [bind]. rewrite uadd_ok by lia. cbn [bind].
      destruct (ea_mul_div _ _ _ _ _ _ X z x j (md - j + 1) ltac:(lia)) as (r1 & -> & G1). cbn [bind].
      destruct (ea_add _ _ _ _ _ _ X r1 old) as (r2 & -> & G2). exists r2. split; [reflexivity|].
      intros w Hw. rewrite (G2 w Hw), (G1 w Hw), (Ho w Hw). replace (md - j + 1) with (N.of_nat (Datatypes.S m) + 1) by lia.
      unfold tconv. destruct (N.leb_spec (len w) (N.of_nat (Datatypes.S m) + 1)) as [Hl|Hl]; [|ring].
      (* the product with x only uses proper prefixes *)
      assert (E1 : conv so (val z) (val x) w = conv so f (tconv so md (series so md (rising (j + 1)) g m) g) w).
      { transitivity (conv so (conv so f (series so md (rising (j + 1)) g m)) g w).
        - assert (Hz : forall u v, w = u ++ v -> v <> [] -> val z u = conv so f (series so md (rising (j + 1)) g m) u).
          { intros u v Euv Hv. rewrite (G u (ok_l w u v Hw Euv)). apply len_prefix in Euv. destruct v as [|a v]; [congruence|].
            rewrite len_cons in Euv. destruct (N.leb_spec (len u) (N.of_nat m + 1)); [reflexivity|lia]. }
          unfold conv at 1 2. f_equal. apply map_ext_in. intros [u v] Hi. apply in_splits in Hi. cbn [fst snd].
          rewrite (Hx v (ok_r w u v Hw Hi)). destruct v as [|a v]; [rewrite G0; ring|].
          rewrite (Hz u (a :: v) Hi ltac:(discriminate)). reflexivity.
        - rewrite conv_assoc by exact L. apply conv_ext; [reflexivity|]. intros u v Euv. symmetry. apply conv_tconv.
          apply len_prefix in Euv. lia. }
      rewrite E1.
      rewrite (conv_ext so f f (series so md (rising j) g (Datatypes.S m))
                 (fun v => inv j [*] tconv so md (series so md (rising (j + 1)) g m) g v [+] unit_fun so v)).
      + rewrite conv_add_r by exact L. rewrite conv_scal_r by exact L. rewrite conv_unit_r by exact L. ring.
      + reflexivity.
      + intros u v _. symmetry. apply horner.
  Qed.
  Lemma exact_fmexp md (self arg : V) : md < 2 ^ 32 -> exists z, trait_fmexp so p md vo mulr self arg = Ret z
    /\ forall w, word_ok n w -> val z w =
         if len w <=? md then conv so (val self) (exp_upto so md (no_unit so (val arg)) (N.to_nat (md - 1))) w
         else val self w.
  Proof.
    intros Hmd. unfold trait_fmexp. destruct (ea_owned _ _ _ _ _ _ X self) as (old & -> & Ho). cbn [bind].
    destruct (ea_owned _ _ _ _ _ _ X arg) as (x0 & -> & Hx0). cbn [bind].
    destruct (clear_ok x0) as (x & -> & Hx). cbn [bind]. rewrite countdown_seq.
    assert (Hx' : forall w, word_ok n w -> val x w = no_unit so (val arg) w).
    { intros [|a w] Hw; rewrite (Hx _ Hw); [reflexivity|]. exact (Hx0 _ Hw). }
    destruct (N.eq_dec md 0) as [->|H0].
    { exists self. split; [reflexivity|]. intros w Hw. destruct (len w <=? 0); [|reflexivity].
      rewrite (conv_ext so (val self) (val self) (exp_upto so 0 (no_unit so (val arg)) (N.to_nat (0 - 1))) (unit_fun so)).
      - symmetry. apply conv_unit_r. exact L.
      - reflexivity.
      - intros u v _. unfold exp_upto. cbn. ring. }
    destruct (fmexp_loop md self x old (val self) (no_unit so (val arg)) (N.to_nat (md - 1)))
      as (z & E & G); try assumption; try reflexivity; [lia|].
    exists z. split; [exact E|]. intros w Hw. rewrite (G w Hw). replace (N.of_nat (N.to_nat (md - 1)) + 1) with md by lia.
    destruct (len w <=? md); [|reflexivity]. apply conv_ext; [reflexivity|]. intros u v _.
    replace (md - N.of_nat (N.to_nat (md - 1))) with 1 by lia. apply series_ext. intros k _. apply rising_1.
  Qed.

  (** log *)
  Definition log_const (is : list N) (a : S) : S :=
    fold_left (fun a i => if i mod 2 =? 0 then s_sub so a (inv i) else a [+] inv i) is a.
  Lemma log_loop md (x u rv : V) a is : (forall w, word_ok n w -> val u w = unit_fun so w) ->
    (forall w, word_ok n w -> val rv w = a [*] unit_fun so w) ->
    exists z, for_each is (fun rv i =>
      rv1 <- (if i mod 2 =? 0 then vd_sub_scalar_rdivide vo rv u (r_from_degree so i)
              else vd_add_scalar_rdivide vo rv u (r_from_degree so i)) ;;
      _ <- mul rv1 x (Some md) ;; Ret rv1) rv = Ret z
    /\ forall w, word_ok n w -> val z w = log_const is a [*] unit_fun so w.
  Proof.
    intros Hu. revert rv a. induction is as [|i is IH]; intros rv a Hr.
    - exists rv. split; [reflexivity|exact Hr].
    - cbn [for_each]. unfold log_const. cbn [fold_left]. destruct (i mod 2 =? 0).
      + destruct (ea_sub_div _ _ _ _ _ _ X rv u (r_from_degree so i)) as (r1 & -> & G1). cbn [bind].
        destruct (ea_mul _ _ _ _ _ _ X r1 x md) as (r2 & -> & _). cbn [bind]. apply IH.
        intros w Hw. rewrite (G1 w Hw), (Hr w Hw), (Hu w Hw). ring.
      + destruct (ea_add_div _ _ _ _ _ _ X rv u (r_from_degree so i)) as (r1 & -> & G1). cbn [bind].
        destruct (ea_mul _ _ _ _ _ _ X r1 x md) as (r2 & -> & _). cbn [bind]. apply IH.
        intros w Hw. rewrite (G1 w Hw), (Hr w Hw), (Hu w Hw). ring.
  Qed.
  Lemma exact_log md (x : V) : exists z, trait_log so md vo mul x = Ret z
    /\ forall w, word_ok n w -> val z w = log_const (countdown md) zero [*] unit_fun so w.
  Proof.
    unfold trait_log. destruct (ea_unit _ _ _ _ _ _ X) as (u & -> & Hu). cbn [bind].
    destruct (ea_owned _ _ _ _ _ _ X x) as (x0 & -> & Hx0). cbn [bind].
    destruct (clear_ok x0) as (x' & -> & Hx). cbn [bind]. apply log_loop; [exact Hu|].
    intros w Hw. rewrite (ea_new _ _ _ _ _ _ X w Hw). ring.
  Qed.
End Exact.
