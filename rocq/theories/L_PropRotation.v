(** Proofs about rotation sums: products do not depend on the order of their factors, sums of commutators. *)
From Coq Require Import QArith Qcanon Ring_theory Ring.
From Verif Require Import Machine MachineLemmas S_Words L_Words M_TensorKey L_TensorKey M_TensorBasis L_TensorBasis M_Scalar M_Vector
  M_Dense S_Vector S_Tensor S_Series I_Scalars L_Dense L_Ring L_PropKey L_PropDense M_Algebra L_Algebra L_Conv
  L_PropAlgebra L_PropProducts L_Shuffle L_ExpGroup L_Units S_Lie L_PropShuffle S_Dynkin L_Dynkin L_PropUnits L_PropDynkin S_Rotation L_Rotation.
Local Open Scope N_scope.

Section Dense.
  Context {S R : Type} (so : scalar_ops S R) (L : ring_laws so) (p : profile) (n : N) (Hn : 2 <= n).
  Let RT := ring_of so L.
  Add Ring scalars : RT.
  Notation wc := (wcoef so n).
  Notation zero := (s_zero so).
  Infix "[+]" := (s_add so) (at level 50, left associativity).
  Infix "[*]" := (s_mul so) (at level 40, left associativity).
  Notation sum := (fold_right (s_add so) zero).

  Lemma rs_on f g w : word_ok n w -> (forall v, word_ok n v -> len v = len w -> f v = g v) -> rotation_sum so f w = rotation_sum so g w.
  Proof.
    intros Hw H. apply (rs_ext so). intros v Hv. apply H; [apply (rotations_ok n w); assumption|].
    apply rotations_length in Hv. unfold len. rewrite Hv. reflexivity.
  Qed.
  Lemma rs_tconv t f g w : rotation_sum so (tconv so t f g) w = if len w <=? t then rotation_sum so (conv so f g) w else zero.
  Proof.
    assert (E : forall v, In v (rotations_of w) -> len v = len w) by (intros v Hv; unfold len; rewrite (rotations_length w v Hv); reflexivity).
    destruct (len w <=? t) eqn:Et; [apply (rs_ext so)|apply (rs_zero so L)]; intros v Hv; unfold tconv; rewrite (E v Hv), Et; reflexivity.
  Qed.
  Lemma scal_sub i a b : s_sub so (i [*] a) (i [*] b) = i [*] s_sub so a b.
  Proof. rewrite !(l_sub_def so L). ring. Qed.
  (** a pair whose commutator exists *)
  Definition good_pair (t : N) (xy : dvec S * dvec S) : Prop :=
    exists a b, filled n (fst xy) a /\ filled n (snd xy) b /\ a <= t /\ b <= t /\ 1 <= a + b.
  Lemma commutators_ok t l : 1 <= t -> n ^ (t + 1) < 2 ^ 64 -> Forall (good_pair t) l ->
    exists z, commutator_sum so p n t l = Ret z
      /\ forall w, word_ok n w -> wc z w = sum (map (fun xy => if len w <=? t then brk so (wc (fst xy)) (wc (snd xy)) w else zero) l).
  Proof.
    intros Ht Pt G. induction G as [|[x y] l (a & b & Fx & Fy & Ha & Hb & Hab) G IH]; cbn [commutator_sum map fold_right fst snd] in *.
    - exists dv_new. split; [reflexivity|]. intros w Hw. unfold wcoef, coef, slice_get, dv_as_slice. cbn [dv_new dv_from dv_elems]. destruct (N.to_nat (windex n w)); reflexivity.
    - destruct IH as (z & E & W).
      destruct (commutator_conv so L p n Hn x y a b t Fx Fy) as (e & Ec & _ & Wc); try lia.
      1-3: apply (pow_mono_fits n Hn _ t); [lia|exact Pt].
      rewrite Ec, E. cbn [bind]. rewrite add_elems. eexists. split; [reflexivity|]. intros w Hw. rewrite wc_add by exact L.
      transitivity (wc (dv_from e) w [+] wc z w); [reflexivity|]. rewrite (W w Hw), (Wc w Hw). f_equal.
      unfold L_Conv.bracket, tconv, brk. destruct (len w <=? t); [reflexivity|rewrite (l_sub_def so L); ring].
  Qed.
End Dense.

Lemma c130_cyclic : forall (S R : Type) (so : scalar_ops S R) (p : profile) (n a b t : N) (x y : dvec S),
  ring_laws so -> 2 <= n -> filled n x a -> filled n y b -> 1 <= N.min t (a + b) ->
  n ^ (a + 1) < 2 ^ 64 -> n ^ (b + 1) < 2 ^ 64 -> n ^ (N.min t (a + b) + 1) < 2 ^ 64 ->
  exists z z', alg_multiply so p n x y (Some t) = Ret z /\ alg_multiply so p n y x (Some t) = Ret z'
    /\ forall w, word_ok n w -> rotation_sum so (wcoef so n z) w = rotation_sum so (wcoef so n z') w.
Proof.
  intros S R so p n a b t x y L Hn Hx Hy Hm Pa Pb Pm.
  destruct (multiply_conv so L p n Hn x y a b t Hx Hy Hm Pa Pb Pm) as (e & E & _ & W).
  rewrite (N.add_comm a b) in Hm, Pm.
  destruct (multiply_conv so L p n Hn y x b a t Hy Hx Hm Pb Pa Pm) as (e' & E' & _ & W').
  eexists _, _. split; [exact E|]. split; [exact E'|]. intros w Hw.
  rewrite (rs_on so n _ _ w Hw (fun v Hv _ => W v Hv)), (rs_on so n _ _ w Hw (fun v Hv _ => W' v Hv)), !(rs_tconv so L).
  destruct (len w <=? t); [apply (rs_conv so L)|reflexivity].
Qed.
Lemma c130_conjugate : forall (S R : Type) (so : scalar_ops S R) (p : profile) (n a b c t : N) (x y x' u z z' : dvec S),
  ring_laws so -> 2 <= n -> filled n x a -> filled n y b -> filled n x' c ->
  1 <= N.min t (a + b) -> 1 <= c + a -> n ^ (a + b + c + 1) < 2 ^ 64 ->
  alg_multiply so p n x' x (Some t) = Ret u -> (forall w, word_ok n w -> len w <= t -> wcoef so n u w = unit_fun so w) ->
  alg_multiply so p n x y (Some t) = Ret z -> alg_multiply so p n z x' (Some t) = Ret z' ->
  forall w, word_ok n w -> len w <= t -> rotation_sum so (wcoef so n z') w = rotation_sum so (wcoef so n y) w.
Proof.
  intros S R so p n a b c t x y x' u z z' L Hn Hx Hy Hx' Hm Hc P Eu U Ez Ez' w Hw Hl.
  assert (Q : forall m, m <= a + b + c -> n ^ (m + 1) < 2 ^ 64) by (intros m H; apply (pow_mono_fits n Hn _ (a + b + c)); assumption).
  destruct (multiply_conv so L p n Hn x' x c a t Hx' Hx) as (e1 & E1 & _ & W1); try (apply Q; lia); [lia|].
  destruct (multiply_conv so L p n Hn x y a b t Hx Hy Hm) as (e2 & E2 & F2 & W2); try (apply Q; lia).
  rewrite E1 in Eu. injection Eu as <-. rewrite E2 in Ez. injection Ez as <-.
  destruct (multiply_conv so L p n Hn (dv_from e2) x' (N.min t (a + b)) c t) as (e3 & E3 & _ & W3); try (apply Q; lia); try assumption; [lia|].
  rewrite E3 in Ez'. injection Ez' as <-.
  rewrite (rs_on so n _ _ w Hw (fun v Hv _ => W3 v Hv)), (rs_tconv so L). destruct (N.leb_spec (len w) t); [|lia].
  rewrite (rs_conv so L). apply (rs_on so n); [exact Hw|]. intros v Hv Lv.
  transitivity (conv so (wcoef so n x') (conv so (wcoef so n x) (wcoef so n y)) v).
  { apply (conv_ext so); intros r s E; subst v; apply word_ok_app in Hv; rewrite len_app in Lv; [reflexivity|].
    rewrite (W2 s (proj2 Hv)). unfold tconv. destruct (N.leb_spec (len s) t); [reflexivity|lia]. }
  rewrite <- (conv_assoc so L), <- (conv_unit_l so L (wcoef so n y) v).
  apply (conv_ext so); intros r s E; subst v; apply word_ok_app in Hv; rewrite len_app in Lv; [|reflexivity].
  rewrite <- (U r (proj1 Hv)) by lia. rewrite (W1 r (proj1 Hv)). unfold tconv. destruct (N.leb_spec (len r) t); [reflexivity|lia].
Qed.
Lemma c130_lie : forall (S R : Type) (so : scalar_ops S R) (p : profile) (n t : N) (e : lie S),
  ring_laws so -> 2 <= n < 2 ^ 32 -> 1 <= t -> n ^ (t + 1) < 2 ^ 64 -> letters_ok n e ->
  exists z, lie_eval so p n t e = Ret z
    /\ forall w, word_ok n w -> 2 <= len w -> rotation_sum so (wcoef so n z) w = s_zero so.
Proof.
  intros S R so p n t e L Hn Ht Pt Hl.
  destruct (lie_value so L p n (proj1 Hn) e t (proj2 Hn) Ht Pt Hl) as (z & d & E & _ & _ & W).
  exists z. split; [exact E|]. intros w Hw H2. destruct (N.leb_spec (len w) t) as [Hle|Hgt].
  - rewrite <- (rs_lie so L e w) by (unfold len in H2; lia). apply (rs_on so n); [exact Hw|]. intros v Hv Lv.
    rewrite (W v Hv), Lv. destruct (N.leb_spec (len w) t); [reflexivity|lia].
  - apply (rs_zero so L). intros v Hv. rewrite (W v (rotations_ok n w v Hw Hv)).
    apply rotations_length in Hv. unfold len in *. rewrite Hv. destruct (N.leb_spec (N.of_nat (length w)) t); [lia|reflexivity].
Qed.
Lemma c130_commutators : forall (S R : Type) (so : scalar_ops S R) (p : profile) (n t : N) (l : list (dvec S * dvec S)),
  ring_laws so -> 2 <= n -> 1 <= t -> n ^ (t + 1) < 2 ^ 64 ->
  Forall (fun xy => exists a b, filled n (fst xy) a /\ filled n (snd xy) b /\ a <= t /\ b <= t /\ 1 <= a + b) l ->
  exists z, commutator_sum so p n t l = Ret z /\ wcoef so n z [] = s_zero so
    /\ forall w, word_ok n w -> rotation_sum so (wcoef so n z) w = s_zero so.
Proof.
  intros S R so p n t l L Hn Ht Pt G. assert (RT := ring_of so L).
  destruct (commutators_ok so L p n Hn t l Ht Pt G) as (z & E & W). exists z. split; [exact E|]. split.
  - rewrite W by constructor. apply (sum_zero so L). intros [x y] _. cbn [fst snd]. destruct (len (@nil N) <=? t); [|reflexivity].
    unfold brk. rewrite !(conv_nil so L), (l_sub_def so L).
    rewrite (Rmul_comm RT (wcoef so n y [])). apply (Ropp_def RT).
  - intros w Hw. rewrite (rs_on so n _ _ w Hw (fun v Hv _ => W v Hv)). unfold rotation_sum.
    rewrite (sum_swap so L (fun v xy => if len v <=? t then brk so (wcoef so n (fst xy)) (wcoef so n (snd xy)) v else s_zero so)).
    apply (sum_zero so L). intros [x y] _. cbn [fst snd]. destruct (len w <=? t) eqn:Et.
    + etransitivity; [|apply (rs_brk so L (wcoef so n x) (wcoef so n y) w)]. apply (sum_ext so). intros v Hv. apply rotations_length in Hv.
      unfold len in *. rewrite Hv, Et. reflexivity.
    + apply (sum_zero so L). intros v Hv. apply rotations_length in Hv. unfold len in *. rewrite Hv, Et. reflexivity.
Qed.
Lemma c130_letters : forall (S R : Type) (so : scalar_ops S R) (p : profile) (n t d : N) (x : dvec S),
  field_laws so -> 2 <= n < 2 ^ 32 -> 1 <= t -> d <= t -> n ^ (t + 1) < 2 ^ 64 -> filled n x d ->
  wcoef so n x [] = s_zero so -> (forall w, word_ok n w -> rotation_sum so (wcoef so n x) w = s_zero so) ->
  exists es ys z,
    mapM (fun a => k <- tk_from_letter p a ;; vr_from_key (dense_ops so (tensor_basis p n)) k) (letters n) = Ret es
    /\ length ys = length es /\ Forall (fun y => filled n y t) ys
    /\ commutator_sum so p n t (List.combine es ys) = Ret z
    /\ forall w, word_ok n w -> wcoef so n z w = wcoef so n x w.
Proof.
  intros S R so p n t d x F [Hn Hn32] Ht Hd Pt Fx X0 X. pose proof (l_ring so F) as L. assert (RT := ring_of so L).
  set (f := wcoef so n x) in *.
  set (c := fun v => s_mul so (s_inv so (r_from_degree so (len v))) (ramp so f v)).
  assert (ES : forall l, (forall a, In a l -> 1 <= a <= n) -> exists es,
    mapM (fun a => k <- tk_from_letter p a ;; vr_from_key (dense_ops so (tensor_basis p n)) k) l = Ret es
    /\ Forall2 (fun a e => filled n e 1 /\ forall w, word_ok n w -> wcoef so n e w = delta so [a] w) l es).
  { induction l as [|a l IH]; intros Hl; [exists []; split; [reflexivity|constructor]|].
    destruct IH as (es & E & A); [intros; apply Hl; right; assumption|].
    destruct (letter_vec so p n Hn a Hn32) as (e & Ee & Fe & We); [apply Hl; left; reflexivity|].
    exists (e :: es). cbn [mapM]. rewrite Ee, E. split; [reflexivity|]. constructor; [split; assumption|exact A]. }
  assert (HL : forall a, In a (letters n) -> 1 <= a <= n).
  { intros a Ha. unfold letters, range_incl in Ha. apply in_seqN in Ha. lia. }
  destruct (ES (letters n) HL) as (es & E & A). clear ES.
  set (ys := map (fun a => tabulate n t (der a c)) (letters n)).
  assert (Ly : length ys = length es) by (unfold ys; rewrite map_length; clear - A; induction A; cbn [length]; [reflexivity|f_equal; assumption]).
  assert (G : Forall (good_pair n t) (List.combine es ys)).
  { unfold ys. clear - A Ht. induction A as [|a e l es [Fe _] A IH]; [constructor|]. cbn [map List.combine]. constructor; [|exact IH].
    exists 1, t. cbn [fst snd]. split; [exact Fe|]. split; [apply tabulate_filled|lia]. }
  destruct (commutators_ok so L p n Hn t _ Ht Pt G) as (z & Ez & W).
  exists es, ys, z. split; [exact E|]. split; [exact Ly|]. split; [|split; [exact Ez|]].
  { apply Forall_map, Forall_forall. intros a _. apply tabulate_filled. }
  intros w Hw. rewrite (W w Hw). destruct (N.leb_spec (len w) t) as [Hl|Hg].
  - transitivity (fold_right (s_add so) (s_zero so) (map (fun a => brk so (delta so [a]) (der a c) w) (letters n))).
    { unfold ys. clear - A Hw Hl L. induction A as [|a e l es [_ We] A IH]; [reflexivity|]. cbn [map List.combine fold_right fst snd].
      f_equal; [|exact IH]. unfold brk. f_equal; apply (conv_ext so); intros u v Eu; subst w; apply word_ok_app in Hw; rewrite len_app in Hl.
      all: first [apply We; apply Hw|apply tabulate_coef; [apply Hw|lia]]. }
    destruct w as [|b w] using rev_ind; [|clear IHw].
    { fold f. rewrite X0. apply (sum_zero so L). intros a _. unfold brk. rewrite !(conv_nil so L), (l_sub_def so L).
      rewrite (Rmul_comm RT (der a c [])). apply (Ropp_def RT). }
    assert (Hv : word_ok n (b :: w)).
    { apply Forall_app in Hw. destruct Hw as [Hw Hb]. inversion Hb; subst. constructor; assumption. }
    change (w ++ [b]) with (turn (b :: w)). rewrite (letter_brackets so L n c (b :: w) Hv ltac:(discriminate)).
    unfold c. replace (len (turn (b :: w))) with (len (b :: w)) by (unfold len; rewrite turn_length; reflexivity).
    set (i := s_inv so (r_from_degree so (len (b :: w)))).
    transitivity (s_mul so i (s_sub so (ramp so f (turn (b :: w))) (ramp so f (b :: w)))).
    { apply (scal_sub so L). }
    rewrite (ramp_step so L f (b :: w) (X _ Hv) ltac:(discriminate)), (num_degree so F).
    rewrite (Rmul_assoc RT), (Rmul_comm RT i). change (N.of_nat (length (b :: w))) with (len (b :: w)).
    unfold i. rewrite (l_degree_inv so F) by (unfold len; cbn [length]; lia). apply (Rmul_1_l RT).
  - rewrite (sum_zero so L) by reflexivity. symmetry.
    apply (wcoef_beyond so n Hn x d); [apply (filled_degree n Hn); exact Fx|exact Hw|lia].
Qed.

(** (1 + 2 x1 + x1x2)(x2 + 3 x2x1), both orders: the rotation sums of x1x2, x1x2x1 and x1x2x2x1 agree, the coefficients do not *)
Example c130_example :
  let q z := Q2Qc (inject_Z z) in
  let x := dv_from (map q [1; 2; 0; 0; 1; 0; 0]%Z) in
  let y := dv_from (map q [0; 0; 1; 0; 0; 3; 0]%Z) in
  let ws := [[1; 2]; [1; 2; 1]; [1; 2; 2]; [1; 2; 2; 1]] in
  (z <- alg_multiply qc_ops dev 2 x y (Some 4) ;; Ret (map (fun w => this (rotation_sum qc_ops (wcoef qc_ops 2 z) w)) ws))
    = Ret (map inject_Z [5; 6; 1; 3]%Z)
  /\ (z <- alg_multiply qc_ops dev 2 y x (Some 4) ;; Ret (map (fun w => this (rotation_sum qc_ops (wcoef qc_ops 2 z) w)) ws))
    = Ret (map inject_Z [5; 6; 1; 3]%Z)
  /\ (z <- alg_multiply qc_ops dev 2 x y (Some 4) ;; Ret (map (fun w => this (wcoef qc_ops 2 z w)) ws)) = Ret (map inject_Z [2; 6; 1; 3]%Z)
  /\ (z <- alg_multiply qc_ops dev 2 y x (Some 4) ;; Ret (map (fun w => this (wcoef qc_ops 2 z w)) ws)) = Ret (map inject_Z [0; 0; 0; 0]%Z)
  /\ rotations_of [1; 2; 3] = [[1; 2; 3]; [2; 3; 1]; [3; 1; 2]].
Proof. vm_compute. repeat split. Qed.
