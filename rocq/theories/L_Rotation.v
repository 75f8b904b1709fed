(** Sums over the rotations of a word. *)
From Coq Require Import Permutation Ring_theory Ring.
From Verif Require Import Machine MachineLemmas S_Words L_Words M_Scalar M_Vector M_Dense S_Vector S_Tensor L_Ring L_Algebra L_Conv
  L_Shuffle L_Units S_Lie S_Dynkin L_Dynkin S_Rotation.

Definition turn (w : word) : word := match w with [] => [] | a :: w' => w' ++ [a] end.
Definition turns (i : nat) (w : word) : word := Nat.iter i turn w.
Lemma turn_length w : length (turn w) = length w.
Proof. destruct w; [reflexivity|]. cbn. rewrite app_length. cbn. lia. Qed.
Lemma turns_length i w : length (turns i w) = length w.
Proof. induction i as [|i IH]; [reflexivity|]. cbn. rewrite turn_length. exact IH. Qed.
Lemma turn_ok n w : word_ok n w -> word_ok n (turn w).
Proof. destruct w as [|a w]; [auto|]. cbn. intros H. inversion H; subst. apply Forall_app. split; [assumption|constructor; [assumption|constructor]]. Qed.
Lemma turns_ok n i w : word_ok n w -> word_ok n (turns i w).
Proof. intros H. induction i as [|i IH]; [exact H|]. cbn. apply turn_ok. exact IH. Qed.
Lemma turns_eq i w : (i <= length w)%nat -> turns i w = skipn i w ++ firstn i w.
Proof.
  induction i as [|i IH]; intros H; [cbn; rewrite app_nil_r; reflexivity|]. change (turns (S i) w) with (turn (turns i w)).
  rewrite IH by lia. clear IH. revert w H. induction i as [|i IH]; intros [|a w] H; cbn [length] in H; try lia.
  - cbn. rewrite app_nil_r. reflexivity.
  - specialize (IH w ltac:(lia)). cbn [skipn firstn].
    destruct (skipn i w) as [|b m] eqn:Es.
    { pose proof (f_equal (@length N) Es) as E. rewrite skipn_length in E. cbn in E. lia. }
    cbn [app turn] in *. change (firstn (S (S i)) (a :: w)) with (a :: firstn (S i) w).
    change (skipn (S (S i)) (a :: w)) with (skipn (S i) w).
    assert (Em : skipn (S i) w = m).
    { clear IH. revert w H Es. induction i as [|i IHi]; intros [|c w] H Es; cbn [length] in H; try lia.
      - cbn in Es |- *. injection Es as _ ->. reflexivity.
      - cbn [skipn] in Es |- *. apply (IHi w); [lia|exact Es]. }
    rewrite Em in *. rewrite <- !app_assoc in IH. apply app_inv_head in IH.
    rewrite <- app_assoc. cbn [app]. rewrite IH. transitivity (skipn (S i) w ++ a :: firstn (S i) w); [rewrite Em; reflexivity|reflexivity].
Qed.
Lemma turns_all w : turns (length w) w = w.
Proof. rewrite turns_eq by lia. rewrite skipn_all, firstn_all. reflexivity. Qed.
Lemma rotations_turns w : rotations_of w = map (fun i => turns i w) (seq 0 (length w)).
Proof. apply map_ext_in. intros i Hi. apply in_seq in Hi. symmetry. apply turns_eq. lia. Qed.
Lemma rotations_length w v : In v (rotations_of w) -> length v = length w.
Proof. rewrite rotations_turns. intros H. apply in_map_iff in H. destruct H as (i & <- & _). apply turns_length. Qed.
Lemma rotations_ok n w v : word_ok n w -> In v (rotations_of w) -> word_ok n v.
Proof. rewrite rotations_turns. intros Hw H. apply in_map_iff in H. destruct H as (i & <- & _). apply turns_ok. exact Hw. Qed.
Lemma rotations_turn w : Permutation (map turn (rotations_of w)) (rotations_of w).
Proof.
  rewrite rotations_turns, map_map. change (fun x => turn (turns x w)) with (fun x => turns (S x) w).
  rewrite <- (map_map S (fun i => turns i w)), seq_shift.
  destruct (length w) as [|k] eqn:E; [reflexivity|].
  replace (seq 1 (S k)) with (seq 1 k ++ [S k]) by (symmetry; apply seq_S).
  rewrite map_app. cbn [seq map]. replace (turns (S k) w) with (turns 0 w) by (rewrite <- E, turns_all; reflexivity).
  symmetry. apply Permutation_cons_append.
Qed.
Lemma rotations_perm i w : Permutation (map (turns i) (rotations_of w)) (rotations_of w).
Proof.
  induction i as [|i IH]; [rewrite (map_ext _ (fun x => x)), map_id by reflexivity; reflexivity|].
  change (turns (S i)) with (fun x => turn (turns i x)). rewrite <- (map_map (turns i) turn).
  rewrite IH. apply rotations_turn.
Qed.
Lemma splits_seq w : splits w = map (fun i => (firstn i w, skipn i w)) (seq 0 (S (length w))).
Proof.
  induction w as [|a w IH]; [reflexivity|]. cbn [splits length]. rewrite IH, map_map. cbn [fst snd].
  change (seq 0 (S (S (length w)))) with (0%nat :: seq 1 (S (length w))). rewrite <- seq_shift, map_cons, map_map. reflexivity.
Qed.
Lemma seq_flip k : Permutation (map (fun i => k - i)%nat (seq 0 (S k))) (seq 0 (S k)).
Proof.
  apply NoDup_Permutation.
  - assert (G : forall l, (forall i, In i l -> (i <= k)%nat) -> NoDup l -> NoDup (map (fun i => k - i)%nat l)).
    { induction l as [|i l IH]; intros B D; [constructor|]. inversion D as [|i' l' Ni Dl]; subst. cbn [map]. constructor.
      - intros H. apply in_map_iff in H. destruct H as (j & E & Hj). apply Ni. replace i with j; [exact Hj|].
        pose proof (B i (or_introl eq_refl)). pose proof (B j (or_intror Hj)). lia.
      - apply IH; [|exact Dl]. intros j Hj. apply B. right. exact Hj. }
    apply G; [|apply seq_NoDup]. intros i Hi. apply in_seq in Hi. lia.
  - apply seq_NoDup.
  - intros i. rewrite in_map_iff, in_seq. split.
    + intros (j & <- & Hj). lia.
    + intros Hi. exists (k - i)%nat. rewrite in_seq. lia.
Qed.

Section Sums.
  Context {S R : Type} (so : scalar_ops S R) (L : ring_laws so).
  Let RT := ring_of so L.
  Add Ring scalars : RT.
  Notation zero := (s_zero so).
  Notation one := (s_one so).
  Infix "[+]" := (s_add so) (at level 50, left associativity).
  Infix "[*]" := (s_mul so) (at level 40, left associativity).
  Notation sum := (fold_right (s_add so) zero).
  Notation cv := (conv so).
  Notation rs := (rotation_sum so).

  Lemma sum_perm l l' : Permutation l l' -> sum l = sum l'.
  Proof. induction 1; cbn [fold_right]; [reflexivity|rewrite IHPermutation; reflexivity|ring|congruence]. Qed.
  Lemma sum_swap {A B} (h : A -> B -> S) l m : sum (map (fun x => sum (map (h x) m)) l) = sum (map (fun y => sum (map (fun x => h x y) l)) m).
  Proof.
    induction l as [|x l IH]; cbn [map fold_right]; [symmetry; apply (sum_zero so L); reflexivity|].
    rewrite IH. rewrite <- (sum_map_add so L). reflexivity.
  Qed.
  Lemma rs_turns i f w : rs (fun v => f (turns i v)) w = rs f w.
  Proof. unfold rotation_sum. rewrite <- (map_map (turns i) f). apply sum_perm, Permutation_map, rotations_perm. Qed.
  Lemma rs_ext f g w : (forall v, In v (rotations_of w) -> f v = g v) -> rs f w = rs g w.
  Proof. apply (sum_ext so). Qed.
  Lemma rs_zero f w : (forall v, In v (rotations_of w) -> f v = zero) -> rs f w = zero.
  Proof. apply (sum_zero so L). Qed.

  (** the trace property of the product *)
  Lemma rs_conv f g w : rs (cv f g) w = rs (cv g f) w.
  Proof.
    set (k := length w).
    assert (C : forall f g, rs (cv f g) w = sum (map (fun i => rs (fun v => f (firstn i v) [*] g (skipn i v)) w) (seq 0 (Datatypes.S k)))).
    { clear f g. intros f g. unfold rotation_sum at 2.
      rewrite <- (sum_swap (fun v i => f (firstn i v) [*] g (skipn i v)) (rotations_of w)).
      apply rs_ext. intros v Hv. unfold conv. rewrite splits_seq, map_map. cbn [fst snd].
      rewrite (rotations_length w v Hv). reflexivity. }
    rewrite !C. rewrite <- (sum_perm _ _ (Permutation_map (fun i => rs (fun v => g (firstn i v) [*] f (skipn i v)) w) (seq_flip k))), map_map.
    apply (sum_ext so). intros i Hi. apply in_seq in Hi.
    rewrite <- (rs_turns i (fun v => g (firstn (k - i) v) [*] f (skipn (k - i) v)) w).
    apply rs_ext. intros v Hv. apply rotations_length in Hv. fold k in Hv. rewrite turns_eq by lia.
    replace (k - i)%nat with (length (skipn i v)) by (rewrite skipn_length; lia).
    rewrite firstn_app, skipn_app, Nat.sub_diag, firstn_all, skipn_all. cbn [firstn skipn app]. rewrite app_nil_r. ring.
  Qed.
  Lemma rs_sub f g w : rs (fun v => s_sub so (f v) (g v)) w = s_sub so (rs f w) (rs g w).
  Proof.
    unfold rotation_sum. induction (rotations_of w) as [|v l IH]; cbn [map fold_right]; rewrite ?IH, !(l_sub_def so L); ring.
  Qed.
  Lemma rs_add f g w : rs (fun v => f v [+] g v) w = rs f w [+] rs g w.
  Proof. apply (sum_map_add so L). Qed.
  Lemma rs_scal c f w : rs (fun v => c [*] f v) w = c [*] rs f w.
  Proof. apply (sum_map_scal so L). Qed.
  Lemma rs_brk f g w : rs (brk so f g) w = zero.
  Proof. unfold brk. rewrite rs_sub, rs_conv, (l_sub_def so L). ring. Qed.
  Lemma rs_lie e w : (2 <= length w)%nat -> rs (lie_fun so e) w = zero.
  Proof.
    intros Hw. induction e as [a|e IH e' IH'|e IH e' IH'|e IH|c e IH|e IH e' IH']; cbn [lie_fun].
    - apply rs_zero. intros v Hv. apply rotations_length in Hv. apply (delta_other so). cbn [length]. lia.
    - rewrite rs_add, IH, IH'. ring.
    - rewrite rs_sub, IH, IH', (l_sub_def so L). ring.
    - transitivity (rs (fun v => (s_uminus so one) [*] lie_fun so e v) w); [apply rs_ext; intros; ring|].
      rewrite rs_scal, IH. ring.
    - rewrite rs_scal, IH. ring.
    - apply rs_brk.
  Qed.

  (** ** the converse: a function whose rotation sums are zero is the difference of a function and its rotation *)
  Definition ramp (f : word -> S) (v : word) : S := sum (map (fun s => num so s [*] f (turns (Datatypes.S s) v)) (seq 0 (length v))).
  Lemma ramp_step f v : rs f v = zero -> v <> [] ->
    s_sub so (ramp f (turn v)) (ramp f v) = num so (length v) [*] f (turn v).
  Proof.
    intros Z Nv. unfold ramp. rewrite turn_length.
    assert (T : forall s, turns s (turn v) = turns (Datatypes.S s) v).
    { induction s as [|s IH]; [reflexivity|]. cbn. f_equal. exact IH. }
    set (h := fun s => f (turns (Datatypes.S s) v)).
    assert (G : forall m, s_sub so (sum (map (fun s => num so s [*] h (Datatypes.S s)) (seq 0 m))) (sum (map (fun s => num so s [*] h s) (seq 0 m)))
      [+] sum (map h (seq 0 m)) = h 0%nat [+] num so m [*] h m [+] s_uminus so (h m)).
    { induction m as [|m IH]; [cbn; rewrite (l_sub_def so L); ring|].
      rewrite seq_S. cbn [plus]. rewrite !map_app, !(sum_app so L). cbn [map fold_right num].
      rewrite (l_sub_def so L) in IH |- *.
      match type of IH with ?a [+] ?b [+] ?c = _ => transitivity ((a [+] b [+] c) [+] num so m [*] h (Datatypes.S m) [+] (h m [+] s_uminus so (num so m [*] h m))); [ring|] end.
      rewrite IH. ring. }
    specialize (G (length v)).
    assert (Zh : sum (map h (seq 0 (length v))) = zero).
    { etransitivity; [|exact Z]. rewrite <- (rs_turns 1 f v). unfold rotation_sum. rewrite rotations_turns, map_map. reflexivity. }
    assert (E : h (length v) = h 0%nat).
    { unfold h. change (turns (Datatypes.S (length v)) v) with (turn (turns (length v) v)). rewrite turns_all. reflexivity. }
    rewrite Zh, E in G.
    rewrite (sum_ext so (fun s => num so s [*] f (turns (Datatypes.S s) (turn v))) (fun s => num so s [*] h (Datatypes.S s)))
      by (intros s _; rewrite T; reflexivity).
    change (f (turn v)) with (h 0%nat).
    match goal with |- ?a = _ => transitivity (a [+] zero); [ring|] end. etransitivity; [exact G|]. ring.
  Qed.

  (** the sum of the commutators of the letters with g(a _) *)
  Context (n : N).
  Lemma letter_brackets (g : word -> S) v : word_ok n v -> v <> [] ->
    sum (map (fun a => brk so (delta so [a]) (der a g) (turn v)) (letters n)) = s_sub so (g (turn v)) (g v).
  Proof.
    intros Hv Nv. destruct v as [|d u]; [contradiction|]. cbn [turn].
    assert (W : word_ok n (u ++ [d])) by (apply (turn_ok n (d :: u)); exact Hv).
    destruct (u ++ [d]) as [|b m] eqn:E; [destruct u; discriminate E|].
    rewrite (sum_ext so _ (fun a => (if a =? b then g (a :: m) else zero) [+] s_uminus so one [*] (if a =? d then g (a :: u) else zero))).
    - rewrite (sum_map_add so L), (sum_map_scal so L).
      rewrite (sum_pick so L (fun a => g (a :: m)) _ b), (sum_pick so L (fun a => g (a :: u)) _ d), (l_sub_def so L); [ring|..].
      + apply letters_nodup.
      + apply in_letters. inversion Hv; assumption.
      + apply letters_nodup.
      + apply in_letters. inversion W; assumption.
    - intros a _. unfold brk. rewrite (letter_l so L). rewrite <- E, (letter_r so L), (l_sub_def so L). unfold der.
      destruct (a =? b), (a =? d); ring.
  Qed.
End Sums.
