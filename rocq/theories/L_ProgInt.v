(** The relation of L_ProgRel for integers: a float that is an integer, and a size. *)
From Coq Require Import ZArith QArith Qabs Qpower Lqa Lia SpecFloat.
From Verif Require Import Machine M_Scalar M_Float S_Float L_Float L_FloatInt L_FloatOps L_FloatSum L_PropFloat L_PropCommFloat
  L_ProgError.
Local Open Scope Q_scope.

Section Integers.
  Context (f : fmt) (Hf : good_fmt f).
  Notation so := (fl_ops f).
  Notation zero := (S754_zero false).
  Notation top := (inject_Z (2 ^ f_prec f)).
  Definition whole (k j : nat) (x : spec_float) (v s m : Q) : Prop :=
    is_float f x /\ Qabs v <= s /\ exists z, v == inject_Z z /\ (k = O \/ s < top -> fl_int f x z).

  Lemma whole_compat k j x v s m v' s' m' : v == v' -> s == s' -> m == m' -> whole k j x v s m -> whole k j x v' s' m'.
  Proof.
    intros E1 E2 _ (V & H & z & Ez & Hz). split; [exact V|]. split; [rewrite <- (Qabs_wd _ _ E1), <- E2; exact H|].
    exists z. split; [rewrite <- E1; exact Ez|]. intros K. apply Hz. rewrite E2. exact K.
  Qed.
  Lemma whole_mono k j k' j' x v s m : (k <= k')%nat -> (j <= j')%nat -> whole k j x v s m -> whole k' j' x v s m.
  Proof.
    intros Hk _ (V & H & z & Ez & Hz). split; [exact V|]. split; [exact H|]. exists z. split; [exact Ez|].
    intros [K|K]; apply Hz; [left; lia|right; exact K].
  Qed.
  Lemma int_zero : fl_int f zero 0. Proof. apply (fl_int_zero f 0). reflexivity. Qed.
  Lemma whole_zero : whole 0 0 zero 0 0 0.
  Proof. split; [reflexivity|]. split; [apply Qle_refl|]. exists 0%Z. split; [reflexivity|]. intros _. exact int_zero. Qed.
  Lemma abs_int z : Qabs (inject_Z z) == inject_Z (Z.abs z).
  Proof. reflexivity. Qed.
  Lemma int_below v s z : v == inject_Z z -> Qabs v <= s -> s < top -> (Z.abs z < 2 ^ f_prec f)%Z.
  Proof.
    intros E H L. rewrite (Qabs_wd _ _ E), abs_int in H. rewrite Zlt_Qlt. lra.
  Qed.
  Lemma whole_add k j x v s m k' j' y v' s' m' : whole k j x v s m -> whole k' j' y v' s' m' ->
    whole (S (Nat.max k k')) (j + j') (s_add so x y) (v + v') (s + s') (m + m').
  Proof.
    intros (V & H & z & Ez & Hz) (V' & H' & z' & Ez' & Hz'). pose proof (Qabs_nonneg v). pose proof (Qabs_nonneg v').
    assert (B : Qabs (v + v') <= s + s') by (pose proof (abs_tri v v'); lra). split.
    - apply add_valid; [destruct Hf; lia|exact V|exact V'].
    - split; [exact B|]. exists (z + z')%Z. split; [rewrite inject_Z_plus, Ez, Ez'; reflexivity|].
      intros [K|K]; [discriminate|]. apply fl_int_add; [exact Hf|apply Hz; right; lra|apply Hz'; right; lra|].
      apply (int_below (v + v') (s + s')); [rewrite inject_Z_plus, Ez, Ez'; reflexivity|exact B|exact K].
  Qed.
  Lemma whole_z v s m : whole 0 0 zero v s m -> v == 0.
  Proof. intros (_ & _ & z & Ez & Hz). rewrite Ez. rewrite (proj1 (fl_int_zero f z) (Hz (or_introl eq_refl))). reflexivity. Qed.
  Lemma whole_size k j x v s m : whole k j x v s m -> 0 <= s.
  Proof. intros (_ & H & _). pose proof (Qabs_nonneg v). lra. Qed.
  Lemma whole_addz k j x v s m v' s' m' : whole k j x v s m -> whole 0 0 zero v' s' m' -> whole k j x (v + v') (s + s') (m + m').
  Proof.
    intros H1 H2. pose proof (whole_z _ _ _ H2) as Z. pose proof (whole_size _ _ _ _ _ _ H2) as P.
    destruct H1 as (V & H & z & Ez & Hz). split; [exact V|]. split.
    - rewrite (Qabs_wd (v + v') v) by (rewrite Z; ring). lra.
    - exists z. split; [rewrite Z, Ez; ring|]. intros [K|K]; apply Hz; [left; exact K|right; lra].
  Qed.
  Lemma whole_zadd v s m k j y v' s' m' : whole 0 0 zero v s m -> whole k j y v' s' m' ->
    whole k j (s_add so zero y) (v + v') (s + s') (m + m').
  Proof.
    intros H H'. apply (whole_compat k j _ (v' + v) (s' + s) (m' + m)); try apply Qplus_comm.
    pose proof (whole_addz _ _ _ _ _ _ _ _ _ H' H) as (V & H1 & z & Ez & Hz). split; [apply zero_add_float, V|].
    split; [exact H1|]. exists z. split; [exact Ez|]. intros K. destruct (Hz K) as [V' X].
    split; [apply zero_add_float, V'|apply zero_add_value, X].
  Qed.
  Lemma whole_opp k j x v s m : whole k j x v s m -> whole k j (SFopp x) (- v) s m.
  Proof.
    intros (V & H & z & Ez & Hz). split; [apply opp_valid, V|]. split; [rewrite Qabs_opp; exact H|].
    exists (- z)%Z. split; [rewrite inject_Z_opp, Ez; reflexivity|]. intros K. apply fl_int_opp, Hz, K.
  Qed.
  Lemma whole_zero_of v s m : v == 0 -> 0 <= s -> whole 0 0 zero v s m.
  Proof.
    intros E P. split; [reflexivity|]. split; [rewrite (Qabs_wd _ _ E); exact P|]. exists 0%Z. split; [exact E|].
    intros _. exact int_zero.
  Qed.
  Lemma whole_oppz v s m : whole 0 0 zero v s m -> whole 0 0 zero (- v) s m.
  Proof. intros H. apply whole_zero_of; [rewrite (whole_z _ _ _ H); reflexivity|exact (whole_size _ _ _ _ _ _ H)]. Qed.
  Lemma whole_mul x v s m y v' s' m' : whole 0 0 x v s m -> whole 0 0 y v' s' m' ->
    whole 1 1 (s_mul so x y) (v * v') (s * s') (m * m').
  Proof.
    intros (V & H & z & Ez & Hz) (V' & H' & z' & Ez' & Hz').
    assert (B : Qabs (v * v') <= s * s') by (rewrite Qabs_Qmult; apply mul2; try apply Qabs_nonneg; assumption). split.
    - apply mul_valid; [destruct Hf; lia|exact V|exact V'].
    - split; [exact B|]. exists (z * z')%Z. split; [rewrite inject_Z_mult, Ez, Ez'; reflexivity|].
      intros [K|K]; [discriminate|]. apply fl_int_mul; [exact Hf|apply Hz; left; reflexivity|apply Hz'; left; reflexivity|].
      apply (int_below (v * v') (s * s')); [rewrite inject_Z_mult, Ez, Ez'; reflexivity|exact B|exact K].
  Qed.
  Lemma whole_mulz v s m y v' s' m' : whole 0 0 zero v s m -> whole 0 0 y v' s' m' -> whole 0 0 zero (v * v') (s * s') (m * m').
  Proof.
    intros H H'. apply whole_zero_of; [rewrite (whole_z _ _ _ H); ring|].
    apply Qmult_le_0_compat; eapply whole_size; eassumption.
  Qed.
  Lemma whole_const c : (exists z, fl_int f c z) -> whole 0 0 c (fl_val c) (Qabs (fl_val c)) (Qabs (fl_val c)).
  Proof.
    intros [z Hz]. split; [exact (proj1 Hz)|]. split; [apply Qle_refl|]. exists z.
    split; [exact (val_of _ _ (proj2 Hz))|]. intros _. exact Hz.
  Qed.
End Integers.
