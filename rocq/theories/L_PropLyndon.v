(** Proofs about the dimension of the Lie polynomials: Lyndon words, their brackets, and hall_set_size. *)
From Coq Require Import QArith Qcanon Ring_theory Ring.
From Verif Require Import Machine MachineLemmas S_Words L_Words M_TensorKey L_TensorKey M_TensorBasis L_TensorBasis M_Scalar M_Vector
  M_Dense S_Vector S_Tensor S_Series I_Scalars L_Dense L_Ring L_PropKey L_PropDense M_Algebra L_Algebra L_Conv
  L_PropAlgebra L_PropProducts S_Shuffle L_Shuffle S_Lie L_PropShuffle S_Dynkin L_Dynkin L_PropDynkin
  S_Hall M_DegreeRange L_HallSize L_HallSums L_PropHallSize S_Lyndon L_Lyndon L_LyndonLie L_LyndonBasis L_LyndonCount.
Local Open Scope N_scope.

Lemma eval_ok {S R} (so : scalar_ops S R) (p : profile) (n t : N) (e : lie S) :
  ring_laws so -> 2 <= n < 2 ^ 32 -> 1 <= t -> n ^ (t + 1) < 2 ^ 64 -> letters_ok n e ->
  exists z, lie_eval so p n t e = Ret z
    /\ forall w, word_ok n w -> wcoef so n z w = if len w <=? t then lie_fun so e w else s_zero so.
Proof.
  intros L Hn Ht Pt He. destruct (lie_value so L p n (proj1 Hn) e t (proj2 Hn) Ht Pt He) as (z & d & E & _ & _ & W). exists z. auto.
Qed.
Lemma below_len (t : N) (w : word) : (len w <=? t) = true <-> (length w <= N.to_nat t)%nat.
Proof. unfold len. rewrite N.leb_le. lia. Qed.

Lemma c129_bracket : forall (S R : Type) (so : scalar_ops S R) (p : profile) (n t : N) (l : word),
  ring_laws so -> 2 <= n < 2 ^ 32 -> n ^ (t + 1) < 2 ^ 64 -> word_ok n l -> lyndon l = true -> len l <= t ->
  exists z, lie_eval so p n t (lyndon_bracket so l) = Ret z /\ wcoef so n z l = s_one so
    /\ forall w, word_ok n w -> len w <> len l \/ lex w l = Lt -> wcoef so n z w = s_zero so.
Proof.
  intros S R so p n t l L Hn Pt Ol Ll Hl.
  assert (Ht : 1 <= t). { pose proof (lyndon_nil l Ll). destruct l; [contradiction|]. unfold len in Hl. cbn [length] in Hl. lia. }
  destruct (eval_ok so p n t (lyndon_bracket so l) L Hn Ht Pt (lyndon_bracket_ok so n l Ll Ol)) as (z & E & W).
  change (lie_fun so (lyndon_bracket so l)) with (bf so l) in W.
  exists z. split; [exact E|]. destruct (bf_triangular so L l Ll) as [T1 T0]. split.
  - rewrite (W l Ol). apply N.leb_le in Hl. rewrite Hl. exact T1.
  - intros w Hw Hc. rewrite (W w Hw). destruct (len w <=? t); [|reflexivity].
    destruct (Nat.eq_dec (length w) (length l)) as [El|Nl]; [|apply (bf_homog so L l Ll); exact Nl].
    destruct Hc as [Hc|Hc]; [unfold len in Hc; lia|]. apply T0; assumption.
Qed.
Lemma c129_basis : forall (S R : Type) (so : scalar_ops S R) (p : profile) (n t : N) (e : lie S),
  ring_laws so -> 2 <= n < 2 ^ 32 -> 1 <= t -> n ^ (t + 1) < 2 ^ 64 -> letters_ok n e ->
  exists x c, lie_eval so p n t e = Ret x
    /\ (exists z, lie_eval so p n t (lyndon_sum so c (lyndon_upto n (N.to_nat t))) = Ret z
          /\ forall w, word_ok n w -> wcoef so n z w = wcoef so n x w)
    /\ forall c', (exists z, lie_eval so p n t (lyndon_sum so c' (lyndon_upto n (N.to_nat t))) = Ret z
                     /\ forall w, word_ok n w -> wcoef so n z w = wcoef so n x w) ->
         forall l, In l (lyndon_upto n (N.to_nat t)) -> c' l = c l.
Proof.
  intros S R so p n t e L Hn Ht Pt He.
  destruct (eval_ok so p n t e L Hn Ht Pt He) as (x & Ex & Wx).
  destruct (lie_basis so L n e (N.to_nat t) He) as (c & Hc). exists x, c. split; [exact Ex|].
  pose proof (fun c => eval_ok so p n t _ L Hn Ht Pt (lyndon_sum_ok so n c (N.to_nat t) ltac:(lia))) as V. split.
  - destruct (V c) as (z & E & W). exists z. split; [exact E|]. intros w Hw. rewrite (W w Hw), (Wx w Hw).
    destruct (len w <=? t) eqn:B; [|reflexivity]. symmetry. apply Hc; [exact Hw|]. now apply below_len.
  - intros c' (z & E & Wz). destruct (V c') as (z' & E' & W). rewrite E in E'. injection E' as <-.
    apply (lie_basis_unique so L n). intros w Hw Hl. rewrite <- (Hc w Hw Hl). apply below_len in Hl.
    specialize (W w Hw). rewrite Hl in W. rewrite <- W, (Wz w Hw), (Wx w Hw), Hl. reflexivity.
Qed.
Lemma c129_determined : forall (S R : Type) (so : scalar_ops S R) (p : profile) (n t : N) (e e' : lie S) (x x' : dvec S),
  ring_laws so -> 2 <= n < 2 ^ 32 -> 1 <= t -> n ^ (t + 1) < 2 ^ 64 -> letters_ok n e -> letters_ok n e' ->
  lie_eval so p n t e = Ret x -> lie_eval so p n t e' = Ret x' ->
  (forall l, In l (lyndon_upto n (N.to_nat t)) -> wcoef so n x l = wcoef so n x' l) ->
  forall w, word_ok n w -> wcoef so n x w = wcoef so n x' w.
Proof.
  intros S R so p n t e e' x x' L Hn Ht Pt He He' Ex Ex' H w Hw.
  destruct (eval_ok so p n t e L Hn Ht Pt He) as (z & E & W). rewrite Ex in E. injection E as <-.
  destruct (eval_ok so p n t e' L Hn Ht Pt He') as (z & E & W'). rewrite Ex' in E. injection E as <-.
  rewrite (W w Hw), (W' w Hw). destruct (len w <=? t) eqn:B; [|reflexivity].
  apply (lie_determined so L n e e' (N.to_nat t) He He'); [|exact Hw|now apply below_len].
  intros l Hl. specialize (H l Hl). apply in_upto in Hl. destruct Hl as (_ & Ol & Hl). apply below_len in Hl.
  rewrite (W l Ol), (W' l Ol), Hl in H. exact H.
Qed.
Lemma c129_prescribed : forall (S R : Type) (so : scalar_ops S R) (p : profile) (n t : N) (g : word -> S),
  ring_laws so -> 2 <= n < 2 ^ 32 -> 1 <= t -> n ^ (t + 1) < 2 ^ 64 ->
  exists e z, letters_ok n e /\ lie_eval so p n t e = Ret z
    /\ forall l, In l (lyndon_upto n (N.to_nat t)) -> wcoef so n z l = g l.
Proof.
  intros S R so p n t g L Hn Ht Pt. destruct (lie_prescribed so L n g (N.to_nat t)) as (c & Hc).
  pose proof (lyndon_sum_ok so n c (N.to_nat t) ltac:(lia)) as Ok.
  destruct (eval_ok so p n t _ L Hn Ht Pt Ok) as (z & E & W). eexists _, z. split; [exact Ok|]. split; [exact E|].
  intros l Hl. rewrite <- (Hc l Hl). apply in_upto in Hl. destruct Hl as (_ & Ol & Hl). apply below_len in Hl. rewrite (W l Ol), Hl. reflexivity.
Qed.

(** ** the number of Lyndon words *)
Lemma lyndon_level (w : N) (l : N) : 1 <= l <= 5 -> Z.of_N (len (lyndon_words w (N.to_nat l))) = level_value l (Z.of_N w).
Proof.
  intros Hl.
  assert (C : forall k, (1 <= k)%nat -> Z.of_nat (list_sum (map (fun d => d * length (lyndon_words w d))%nat (divisors k))) = (Z.of_N w ^ Z.of_nat k)%Z).
  { intros k Hk. rewrite (lyndon_count_words w k Hk). rewrite N_nat_Z, N2Z.inj_pow. f_equal. apply nat_N_Z. }
  assert (L1 : Z.of_N (len (lyndon_words w 1)) = Z.of_N w).
  { specialize (C 1%nat (le_n _)). change (divisors 1) with [1%nat] in C. cbn [map list_sum fold_right] in C. unfold len.
    change (Z.of_nat 1) with 1%Z in C. rewrite Z.pow_1_r in C. lia. }
  destruct (N.eq_dec l 1) as [->|N1]; [exact L1|].
  assert (L2 : (2 * Z.of_N (len (lyndon_words w 2)) = Z.of_N w ^ 2 - Z.of_N w)%Z).
  { specialize (C 2%nat ltac:(lia)). change (divisors 2) with [1; 2]%nat in C. cbn [map list_sum fold_right] in C. unfold len in *.
    change (Z.of_nat 2) with 2%Z in C. lia. }
  pose proof (level_value_eq l (Z.of_N w) ltac:(lia) ltac:(lia)) as V. apply (Z.mul_reg_l _ _ (Z.of_N l)); [lia|]. rewrite V.
  destruct (five l) as [->|[->|[->|[->| ->]]]]; [lia|lia| | | |]; cbn [N.eqb Pos.eqb].
  - exact L2.
  - specialize (C 3%nat ltac:(lia)). change (divisors 3) with [1; 3]%nat in C. cbn [map list_sum fold_right] in C. unfold len in *.
    change (N.to_nat 3) with 3%nat. change (Z.of_nat 3) with 3%Z in C. change (Z.of_N 3) with 3%Z. lia.
  - specialize (C 4%nat ltac:(lia)). change (divisors 4) with [1; 2; 4]%nat in C. cbn [map list_sum fold_right] in C. unfold len in *.
    change (N.to_nat 4) with 4%nat. change (Z.of_nat 4) with 4%Z in C. change (Z.of_N 4) with 4%Z. lia.
  - specialize (C 5%nat ltac:(lia)). change (divisors 5) with [1; 5]%nat in C. cbn [map list_sum fold_right] in C. unfold len in *.
    change (N.to_nat 5) with 5%nat. change (Z.of_nat 5) with 5%Z in C. change (Z.of_N 5) with 5%Z. lia.
Qed.
Lemma upto_S n t : lyndon_upto n (S t) = lyndon_upto n t ++ lyndon_words n (S t).
Proof.
  unfold lyndon_upto. rewrite seq_S, map_app, concat_app. cbn [map concat]. rewrite app_nil_r. cbn [Nat.add].
  rewrite Nat.add_1_r. reflexivity.
Qed.
Lemma lyndon_levels (w : N) (d : nat) : (d <= 5)%nat -> Z.of_N (len (lyndon_upto w d)) = levels (Z.of_N w) 1 (N.of_nat d).
Proof.
  induction d as [|d IH]; intros Hd; [reflexivity|]. rewrite upto_S, len_app, N2Z.inj_add, IH by lia.
  replace (lyndon_words w (S d)) with (lyndon_words w (N.to_nat (N.of_nat (S d)))) by (rewrite Nat2N.id; reflexivity).
  rewrite lyndon_level by lia. unfold levels, range_incl.
  replace (N.to_nat (N.of_nat (S d) + 1 - 1)) with (S d) by lia. replace (N.to_nat (N.of_nat d + 1 - 1)) with d by lia.
  assert (Q : forall k a, seqN a (S k) = seqN a k ++ [a + N.of_nat k]).
  { induction k as [|k IHk]; intros a; [cbn; f_equal; lia|]. change (seqN a (S (S k))) with (a :: seqN (a + 1) (S k)). rewrite IHk.
    cbn [seqN app]. do 2 f_equal. f_equal. lia. }
  rewrite Q, map_app. unfold zsum. rewrite fold_right_app. cbn [map fold_right].
  replace (1 + N.of_nat d) with (N.of_nat (S d)) by lia.
  generalize (level_value (N.of_nat (S d)) (Z.of_N w)) as v. generalize (map (fun l => level_value l (Z.of_N w)) (seqN 1 d)) as zs.
  clear. intros zs v. induction zs as [|z zs IH]; cbn [fold_right]; [lia|]. rewrite <- IH. lia.
Qed.
Lemma c129_hall_set_size : forall (p : profile) (w d : N),
  w < 2 ^ 32 -> d <= 5 -> (Z.of_N w ^ Z.of_N d < 2 ^ 63)%Z ->
  converges (fun f => hall_set_size p f w d) (Ret (len (lyndon_upto w (N.to_nat d)))).
Proof.
  intros p w d Hw Hd Hp. exists 30%nat. intros f Hf. cbv beta. rewrite (size_ok p f w d) by assumption. f_equal.
  pose proof (lyndon_levels w (N.to_nat d) ltac:(lia)) as E. rewrite N2Nat.id in E. rewrite <- E. apply N2Z.id.
Qed.

Example c129_example :
  lyndon_upto 2 4 = [[1]; [2]; [1; 2]; [1; 1; 2]; [1; 2; 2]; [1; 1; 1; 2]; [1; 1; 2; 2]; [1; 2; 2; 2]]
  /\ hall_set_size dev 40 2 4 = Ret 8 /\ hall_set_size release 40 3 5 = Ret 80 /\ len (lyndon_upto 3 5) = 80
  /\ lyndon_bracket qc_ops [1; 1; 2; 2] = Bracket (Letter 1) (Bracket (Bracket (Letter 1) (Letter 2)) (Letter 2))
  /\ (z <- lie_eval qc_ops dev 2 3 (lyndon_bracket qc_ops [1; 2; 2]) ;; Ret (map this (dv_elems z)))
     = Ret (map inject_Z [0; 0; 0; 0; 0; 0; 0; 0; 0; 0; 1; 0; -2; 1; 0]%Z).
Proof. vm_compute. repeat split. Qed.
