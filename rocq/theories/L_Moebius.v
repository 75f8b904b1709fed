(** Elementary facts on primes and the Moebius function as specified in S_Hall.v. *)
From Coq Require Import Permutation.
From Verif Require Import Machine S_Hall.
Local Open Scope N_scope.

Lemma prime_divisor n : 2 <= n -> exists p, nprime p /\ (p | n).
Proof.
  intros Hn. induction n as [n IH] using (well_founded_induction N.lt_wf_0).
  destruct (existsb (fun d => (2 <=? d) && (n mod d =? 0)) (range 2 n)) eqn:E.
  - apply existsb_exists in E. destruct E as (d & Hd & Hm).
    assert (In_range : forall l a x, In x (seqN a l) -> a <= x < a + N.of_nat l).
    { induction l as [|l IHl]; intros a x; cbn; [intros []|]. intros [->|H]; [lia|]. apply IHl in H. lia. }
    apply In_range in Hd. destruct (IH d) as (p & Hp & Hpd); [lia|lia|]. exists p. split; [exact Hp|].
    apply (N.divide_trans p d n Hpd). apply N.mod_divide; lia.
  - exists n. split; [|apply N.divide_refl]. split; [exact Hn|]. intros d Hd.
    assert (d <> 0). { intros ->. apply N.divide_0_l in Hd. lia. }
    assert (d <= n) by (apply N.divide_pos_le; [lia|exact Hd]).
    destruct (N.eq_dec d 1) as [|H1]; [auto|]. destruct (N.eq_dec d n) as [|H2]; [auto|]. exfalso.
    assert (In_seq : forall l a x, a <= x < a + N.of_nat l -> In x (seqN a l)).
    { induction l as [|l IHl]; intros a x Hx; [lia|]. cbn. destruct (N.eq_dec a x); [auto|]. right. apply IHl. lia. }
    assert (existsb (fun d => (2 <=? d) && (n mod d =? 0)) (range 2 n) = true); [|congruence].
    apply existsb_exists. exists d. split; [apply In_seq; lia|]. apply andb_true_intro. split; [lia|].
    apply N.eqb_eq. apply N.mod_divide; assumption.
Qed.
Lemma prime_gcd p m : nprime p -> (p | m) \/ N.gcd p m = 1.
Proof.
  intros [Hp H]. destruct (H (N.gcd p m)) as [E|E]; [apply N.gcd_divide_l|auto|].
  left. rewrite <- E. apply N.gcd_divide_r.
Qed.
Lemma prime_mul p a b : nprime p -> (p | a * b) -> (p | a) \/ (p | b).
Proof. intros Hp H. destruct (prime_gcd p a Hp) as [D|G]; [auto|]. right. exact (N.gauss p a b H G). Qed.
Lemma prime_in_product p ps : nprime p -> Forall nprime ps -> (p | nproduct ps) -> In p ps.
Proof.
  intros Hp HF. induction HF as [|q ps Hq HF IH]; cbn; intros H.
  - apply N.divide_1_r in H. destruct Hp. lia.
  - apply prime_mul in H; [|exact Hp]. destruct H as [H|H]; [|auto]. left.
    destruct Hq as [Hq Hd]. destruct (Hd p H) as [->|E]; [destruct Hp; lia|congruence].
Qed.
Lemma in_divides p ps : In p ps -> (p | nproduct ps).
Proof.
  induction ps as [|q ps IH]; cbn; [intros []|]. intros [->|H]; [apply N.divide_factor_l|]. apply N.divide_mul_r. auto.
Qed.
Lemma product_squarefree ps : NoDup ps -> Forall nprime ps -> squarefree (nproduct ps).
Proof.
  intros Hn HF b Hb Hd. destruct (prime_divisor b Hb) as (p & Hp & Hpb).
  assert (Hpp : (p * p | nproduct ps)).
  { destruct Hpb as [c ->]. destruct Hd as [e E]. exists (e * c * c). rewrite E. ring. }
  clear b Hb Hd Hpb. revert Hn HF Hpp. induction ps as [|q ps IH]; intros Hn HF Hpp.
  - cbn in Hpp. apply N.divide_1_r in Hpp. destruct Hp as [? _]. nia.
  - apply NoDup_cons_iff in Hn. destruct Hn as [Hq Hn]. apply Forall_cons_iff in HF. destruct HF as [Pq HF]. cbn in Hpp.
    destruct (prime_gcd p q Hp) as [D|G].
    + destruct Pq as [Hq2 Hqd]. destruct (Hqd p D) as [->|E]; [destruct Hp; lia|]. subst q. apply Hq.
      apply prime_in_product; [exact Hp|exact HF|]. apply (N.mul_divide_cancel_l p (nproduct ps) p); [destruct Hp; lia|exact Hpp].
    + apply IH; [assumption..|]. apply (N.gauss (p * p) q); [exact Hpp|].
      destruct (prime_gcd q (p * p) Pq) as [D|G']; [|rewrite N.gcd_comm; exact G'].
      apply prime_mul in D; [|exact Pq]. assert (E : N.gcd p q = q).
      { rewrite N.gcd_comm. apply N.divide_gcd_iff'. destruct D; assumption. }
      destruct Pq. lia.
Qed.
Lemma mobius_unique n z z' : is_mobius n z -> is_mobius n z' -> z = z'.
Proof.
  intros [[H ->]|(ps & Hn & HF & -> & ->)] [[H' ->]|(qs & Hn' & HF' & E & ->)]; [reflexivity| | |].
  - exfalso. apply H. rewrite E. apply product_squarefree; assumption.
  - exfalso. apply H'. apply product_squarefree; assumption.
  - enough (length ps = length qs) as -> by reflexivity. apply Nat.le_antisymm; apply NoDup_incl_length; try assumption; intros p Hp.
    + apply prime_in_product; [|exact HF'|]; [rewrite Forall_forall in HF; auto|]. rewrite <- E. apply in_divides, Hp.
    + apply prime_in_product; [|exact HF|]; [rewrite Forall_forall in HF'; auto|]. rewrite E. apply in_divides, Hp.
Qed.
Lemma squarefree_factors n : 0 < n -> squarefree n -> exists ps, NoDup ps /\ Forall nprime ps /\ n = nproduct ps.
Proof.
  induction n as [n IH] using (well_founded_induction N.lt_wf_0). intros Hn Hs.
  destruct (N.eq_dec n 1) as [->|H1]; [exists []; repeat constructor|].
  destruct (prime_divisor n) as (p & Hp & [m ->]); [lia|]. assert (2 <= p) by apply Hp.
  destruct (IH m) as (ps & Hd & HF & E); [nia|nia| |].
  - intros b Hb Hbb. apply (Hs b Hb). apply N.divide_mul_l. exact Hbb.
  - exists (p :: ps). split; [|split; [constructor; assumption|rewrite E; apply N.mul_comm]].
    constructor; [|exact Hd]. intros Hin. apply (Hs p); [lia|]. apply in_divides in Hin. rewrite <- E in Hin.
    destruct Hin as [c ->]. exists c. ring.
Qed.
Lemma mobius_exists n : 0 < n -> squarefree n \/ ~ squarefree n -> exists z, is_mobius n z.
Proof.
  intros Hn [Hs|Hs]; [|exists 0%Z; left; auto]. destruct (squarefree_factors n Hn Hs) as (ps & Hd & HF & E).
  exists ((-1) ^ Z.of_nat (length ps))%Z. right. exists ps. auto.
Qed.
Lemma squarefree_dec n : 0 < n -> squarefree n \/ ~ squarefree n.
Proof.
  intros Hn. destruct (existsb (fun b => (2 <=? b) && (n mod (b * b) =? 0)) (range_incl 0 n)) eqn:E.
  - right. apply existsb_exists in E. destruct E as (b & _ & Hb). intros Hs. apply (Hs b); [lia|]. apply N.mod_divide; lia.
  - left. intros b Hb Hd. assert (b * b <= n) by (apply N.divide_pos_le; [lia|exact Hd]).
    assert (In_seq : forall l a x, a <= x < a + N.of_nat l -> In x (seqN a l)).
    { induction l as [|l IHl]; intros a x Hx; [lia|]. cbn. destruct (N.eq_dec a x); [auto|]. right. apply IHl. lia. }
    assert (existsb (fun b => (2 <=? b) && (n mod (b * b) =? 0)) (range_incl 0 n) = true); [|congruence].
    apply existsb_exists. exists b. split; [apply In_seq; nia|]. apply andb_true_intro. split; [lia|].
    apply N.eqb_eq. apply N.mod_divide; [nia|assumption].
Qed.
Lemma mobius_total n : 0 < n -> exists z, is_mobius n z.
Proof. intros Hn. apply mobius_exists; [exact Hn|apply squarefree_dec, Hn]. Qed.

Lemma mobius_1 : is_mobius 1 1.
Proof. right. exists []. repeat constructor. Qed.
Lemma mobius_prime p : nprime p -> is_mobius p (-1).
Proof.
  intros Hp. right. exists [p]. split; [constructor; [intros []|constructor]|]. split; [constructor; [exact Hp|constructor]|].
  split; [cbn; lia|reflexivity].
Qed.
Lemma prime_squarefree p : nprime p -> squarefree p.
Proof.
  intros Hp. replace p with (nproduct [p]) by (cbn; lia). apply product_squarefree; [constructor; [intros []|constructor]|].
  constructor; [exact Hp|constructor].
Qed.
(** a number from 2 on that is not prime has a proper divisor *)
Lemma not_prime_divisor n : 2 <= n -> ~ nprime n -> exists d, 2 <= d < n /\ (d | n).
Proof.
  intros Hn Hp. destruct (prime_divisor n Hn) as (p & Pp & Hd). exists p. split; [|exact Hd].
  assert (p <= n) by (apply N.divide_pos_le; [lia|exact Hd]). destruct (N.eq_dec p n) as [->|]; [contradiction|].
  destruct Pp. lia.
Qed.
Lemma prime_decide p : 2 <= p -> forallb (fun d => negb (p mod d =? 0)) (range 2 p) = true -> nprime p.
Proof.
  intros Hp H. split; [exact Hp|]. intros d Hd. assert (d <= p) by (apply N.divide_pos_le; [lia|exact Hd]).
  assert (d <> 0). { intros ->. apply N.divide_0_l in Hd. lia. }
  destruct (N.eq_dec d 1); [auto|]. destruct (N.eq_dec d p); [auto|]. exfalso. rewrite forallb_forall in H.
  assert (In_seq : forall l a x, a <= x < a + N.of_nat l -> In x (seqN a l)).
  { induction l as [|l IHl]; intros a x Hx; [lia|]. cbn. destruct (N.eq_dec a x); [auto|]. right. apply IHl. lia. }
  specialize (H d (In_seq (N.to_nat (p - 2)) 2 d ltac:(lia))). apply N.mod_divide in Hd; [|assumption]. rewrite Hd in H. discriminate.
Qed.

(** ** A computable Moebius function *)
Definition sqf_b (n : N) : bool := negb (existsb (fun b => (2 <=? b) && (n mod (b * b) =? 0)) (range_incl 0 n)).
Definition prime_b (q : N) : bool := (2 <=? q) && forallb (fun d => negb (q mod d =? 0)) (range 2 q).
Definition mu_fun (n : N) : Z :=
  if sqf_b n then Z.pow (-1) (Z.of_nat (length (filter (fun q => prime_b q && (n mod q =? 0)) (range_incl 2 n)))) else 0%Z.
Lemma in_seq a k x : In x (seqN a k) <-> a <= x < a + N.of_nat k.
Proof. revert a; induction k as [|k IH]; intros a; cbn [seqN In]; [lia|]. rewrite IH. lia. Qed.
Lemma seq_nodup a k : NoDup (seqN a k).
Proof. revert a; induction k as [|k IH]; intros a; constructor; [rewrite in_seq; lia|apply IH]. Qed.
Lemma sqf_b_spec n : 0 < n -> sqf_b n = true <-> squarefree n.
Proof.
  intros Hn. unfold sqf_b. rewrite negb_true_iff. split.
  - intros E b Hb Hd. rewrite <- not_true_iff_false in E. apply E. apply existsb_exists. exists b. split.
    + unfold range_incl. apply in_seq. apply N.divide_pos_le in Hd; [nia|exact Hn].
    + rewrite andb_true_iff, N.leb_le, N.eqb_eq. split; [exact Hb|]. apply N.mod_divide; [nia|exact Hd].
  - intros Hs. rewrite <- not_true_iff_false. intros E. apply existsb_exists in E. destruct E as (b & _ & Hb).
    rewrite andb_true_iff, N.leb_le, N.eqb_eq in Hb. apply (Hs b); [lia|]. apply N.mod_divide; [nia|lia].
Qed.
Lemma prime_b_spec q : prime_b q = true <-> nprime q.
Proof.
  unfold prime_b. rewrite andb_true_iff, N.leb_le. split.
  - intros [H1 H2]. apply prime_decide; assumption.
  - intros [H1 H2]. split; [exact H1|]. apply forallb_forall. intros d Hd. unfold range in Hd. apply in_seq in Hd.
    rewrite negb_true_iff, N.eqb_neq. intros E. destruct (H2 d); [apply N.mod_divide; lia|lia|lia].
Qed.
Lemma mu_fun_mobius n : 0 < n -> is_mobius n (mu_fun n).
Proof.
  intros Hn. unfold mu_fun. destruct (sqf_b n) eqn:E.
  - apply (sqf_b_spec n Hn) in E. destruct (squarefree_factors n Hn E) as (ps & Hd & HF & Ep). right. exists ps.
    split; [exact Hd|]. split; [exact HF|]. split; [exact Ep|]. do 2 f_equal. apply Permutation_length.
    apply NoDup_Permutation; [apply NoDup_filter, seq_nodup|exact Hd|]. intros q. rewrite filter_In, andb_true_iff, N.eqb_eq, prime_b_spec.
    unfold range_incl. rewrite in_seq. rewrite Forall_forall in HF. split.
    + intros (Hr & Hq & Hm). apply prime_in_product; [exact Hq|apply Forall_forall; exact HF|]. rewrite <- Ep. apply N.mod_divide; [lia|exact Hm].
    + intros Hq. pose proof (HF q Hq) as Pq. pose proof (in_divides q ps Hq) as Dq. rewrite <- Ep in Dq. destruct Pq as [P1 P2].
      pose proof (N.divide_pos_le q n Hn Dq). split; [lia|]. split; [split; assumption|]. apply N.mod_divide; [lia|exact Dq].
  - left. split; [|reflexivity]. intros Hs. apply (sqf_b_spec n Hn) in Hs. congruence.
Qed.
