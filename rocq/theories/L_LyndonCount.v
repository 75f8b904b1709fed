(** Counting Lyndon words: every word is a rotation of a power of one Lyndon word. *)
From Coq Require Import Permutation.
From Verif Require Import Machine MachineLemmas S_Words L_Words S_Tensor L_Algebra L_AlgebraFn S_Lyndon L_Lyndon.

Definition power (m : nat) (l : word) : word := concat (repeat l m).
Definition rot (i : nat) (w : word) : word := skipn i w ++ firstn i w.
Definition conj_words (x y : word) : Prop := exists u v, x = u ++ v /\ y = v ++ u.

Lemma power_S m l : power (S m) l = l ++ power m l.
Proof. reflexivity. Qed.
Lemma power_add p q l : power (p + q) l = power p l ++ power q l.
Proof. unfold power. now rewrite repeat_app, concat_app. Qed.
Lemma power_length m l : length (power m l) = (m * length l)%nat.
Proof. induction m as [|m IH]; [reflexivity|]. rewrite power_S, app_length, IH. lia. Qed.
Lemma power_mul m p l : power m (power p l) = power (m * p) l.
Proof. induction m as [|m IH]; [reflexivity|]. rewrite power_S, IH. cbn [Nat.mul]. now rewrite power_add. Qed.
Lemma power_1 l : power 1 l = l.
Proof. unfold power. cbn. apply app_nil_r. Qed.
Lemma power_end m l : power (S m) l = power m l ++ l.
Proof. replace (S m) with (m + 1)%nat by lia. now rewrite power_add, power_1. Qed.
Lemma power_shift m u v : v ++ power m (u ++ v) = power m (v ++ u) ++ v.
Proof.
  induction m as [|m IH]; [cbn; now rewrite app_nil_r|]. rewrite !power_S, <- !app_assoc. f_equal. f_equal. exact IH.
Qed.
Lemma power_ok n m l : word_ok n l -> word_ok n (power m l).
Proof. intros H. induction m as [|m IH]; [constructor|]. rewrite power_S. apply word_ok_app. auto. Qed.
(** where a power is cut *)
Lemma power_cut l : forall m x y, x ++ y = power (S m) l ->
  exists q u v r, l = u ++ v /\ x = power q l ++ u /\ y = v ++ power r l /\ m = (q + r)%nat.
Proof.
  induction m as [|m IH]; intros x y E.
  - rewrite power_1 in E. exists 0%nat, x, y, 0%nat. split; [now symmetry|]. split; [reflexivity|]. split; [cbn; now rewrite app_nil_r|reflexivity].
  - rewrite power_S in E. symmetry in E. destruct (cut_cases _ _ _ _ E) as [(s & E1 & E2)|(s & E1 & E2)].
    + exists 0%nat, x, s, (S m). split; [exact E1|]. split; [reflexivity|]. split; [exact E2|reflexivity].
    + destruct (IH s y (eq_sym E2)) as (q & u & v & r & A & B & C & D). exists (S q), u, v, r. split; [exact A|].
      split; [rewrite E1, B, power_S; apply app_assoc|]. split; [exact C|lia].
Qed.
Lemma power_conj m u v : conj_words (power (S m) (u ++ v)) (power (S m) (v ++ u)).
Proof.
  exists u, (v ++ power m (u ++ v)). split; [rewrite power_S; now rewrite <- app_assoc|].
  rewrite power_shift, <- app_assoc. now rewrite power_end.
Qed.
Lemma conj_sym x y : conj_words x y -> conj_words y x.
Proof. intros (u & v & -> & ->). exists v, u. auto. Qed.
Lemma conj_trans x y z : conj_words x y -> conj_words y z -> conj_words x z.
Proof.
  intros (u & v & -> & ->) (a & b & E & ->). destruct (cut_cases _ _ _ _ E) as [(s & -> & ->)|(s & -> & ->)].
  - exists (u ++ a), s. rewrite <- !app_assoc. auto.
  - exists s, (b ++ v). rewrite <- !app_assoc. auto.
Qed.
Lemma conj_refl x : conj_words x x.
Proof. exists [], x. rewrite app_nil_r. auto. Qed.
Lemma conj_rot i x : conj_words x (rot i x).
Proof. exists (firstn i x), (skipn i x). rewrite firstn_skipn. auto. Qed.
Lemma conj_length x y : conj_words x y -> length x = length y.
Proof. intros (u & v & -> & ->). rewrite !app_length. lia. Qed.
Lemma conj_power m l y : conj_words (power (S m) l) y -> exists u v, l = u ++ v /\ y = power (S m) (v ++ u).
Proof.
  intros (x & x' & E & ->). symmetry in E. destruct (power_cut l m x x' E) as (q & u & v & r & A & B & C & D).
  exists u, v. split; [exact A|]. rewrite B, C. rewrite <- app_assoc, (app_assoc (power r l)), <- power_add.
  rewrite A, app_assoc, power_shift, <- app_assoc, <- power_end. f_equal. lia.
Qed.
(** a power of a Lyndon word is the first of its rotations *)
Lemma power_first l m y : lyndon l = true -> conj_words (power (S m) l) y -> y = power (S m) l \/ lt (power (S m) l) y.
Proof.
  intros Ll H. destruct (conj_power m l y H) as (u & v & -> & ->). destruct u as [|a u]; [left; now rewrite app_nil_r|].
  destruct v as [|b v]; [left; now rewrite app_nil_r|]. right. rewrite !power_S, <- (app_assoc (b :: v)).
  apply ahead_lt. apply lyndon_suffix; [exact Ll|discriminate|discriminate].
Qed.
(** a Lyndon word is not longer than another root of its powers *)
Lemma power_root l z m p : lyndon l = true -> z <> [] -> power (S m) l = power (S p) z -> (length l <= length z)%nat.
Proof.
  intros Ll Hz E. destruct (le_lt_dec (length l) (length z)) as [H|H]; [exact H|exfalso].
  rewrite power_S in E. destruct (power_cut z p _ _ E) as (q & u & v & r & A & B & _ & _).
  assert (Lz : length z = (length u + length v)%nat) by (rewrite A; apply app_length).
  assert (Ll' : length l = (q * length z + length u)%nat) by (rewrite B, app_length, power_length; reflexivity).
  destruct q as [|q]; [lia|].
  assert (Q : forall s t, l = s ++ t -> s <> [] -> t <> [] -> lt l t) by (intros s t; apply lyndon_spec; exact Ll).
  destruct u as [|a u].
  - rewrite app_nil_r in B. destruct q as [|q]; [cbn [length] in *; lia|].
    assert (D : lt l (power (S q) z)).
    { apply (Q z); [rewrite B; reflexivity|exact Hz|]. rewrite power_S. destruct z; [contradiction|discriminate]. }
    apply (lt_irrefl l). eapply lt_trans; [exact D|]. rewrite B, (power_end (S q) z). now apply lt_more.
  - assert (D : lt l (a :: u)).
    { apply (Q (power (S q) z)); [exact B| |discriminate]. rewrite power_S. destruct z; [contradiction|discriminate]. }
    apply (lt_irrefl l). eapply lt_trans; [exact D|]. rewrite B, power_S, A at 1. rewrite <- !app_assoc. apply lt_more.
    intros F. apply app_eq_nil in F. destruct F as [F1 F]. apply app_eq_nil in F. destruct F as [_ F]. discriminate F.
Qed.
Lemma power_inj l l' m m' : lyndon l = true -> lyndon l' = true -> power (S m) l = power (S m') l' -> l = l'.
Proof.
  intros A B E. pose proof (power_root l l' m m' A (lyndon_nil _ B) E). pose proof (power_root l' l m' m B (lyndon_nil _ A) (eq_sym E)).
  rewrite !power_S in E. assert (F : firstn (length l) (l ++ power m l) = firstn (length l') (l' ++ power m' l')) by (rewrite E; f_equal; lia).
  rewrite !firstn_app, !firstn_all, !Nat.sub_diag in F. cbn in F. now rewrite !app_nil_r in F.
Qed.
(** words that commute are powers of one word *)
Lemma commute k : forall b d : word, (length b + length d <= k)%nat -> b ++ d = d ++ b -> exists t p q, b = power p t /\ d = power q t.
Proof.
  induction k as [|k IH]; intros b d Hk E.
  - exists [], 0%nat, 0%nat. destruct b; [|cbn in Hk; lia]. destruct d; [|cbn in Hk; lia]. auto.
  - destruct b as [|a b]; [exists d, 0%nat, 1%nat; rewrite power_1; auto|]. destruct d as [|c d]; [exists (a :: b), 1%nat, 0%nat; rewrite power_1; auto|].
    destruct (cut_cases _ _ _ _ E) as [(s & E1 & E2)|(s & E1 & E2)].
    + destruct (IH (c :: d) s) as (t & p & q & P & Q).
      * apply (f_equal (@length N)) in E1. rewrite app_length in E1. cbn [length] in *. lia.
      * now rewrite <- E1, <- E2.
      * exists t, (p + q)%nat, p. split; [rewrite E1, power_add; congruence|exact P].
    + destruct (IH (a :: b) s) as (t & p & q & P & Q).
      * apply (f_equal (@length N)) in E1. rewrite app_length in E1. cbn [length] in *. lia.
      * now rewrite <- E1, <- E2.
      * exists t, p, (p + q)%nat. split; [exact P|rewrite E1, power_add; congruence].
Qed.
(** different rotations of a power of a Lyndon word *)
Lemma rot_split i (w : word) : (i <= length w)%nat -> exists u v, w = u ++ v /\ length u = i /\ rot i w = v ++ u.
Proof.
  intros H. exists (firstn i w), (skipn i w). rewrite firstn_skipn, firstn_length. repeat split. lia.
Qed.
Lemma rot_lt_inj l m i j : lyndon l = true -> (i < j < length l)%nat -> rot i (power (S m) l) <> rot j (power (S m) l).
Proof.
  intros Ll Hij E. set (P := power (S m) l) in *.
  assert (LP : (length l <= length P)%nat) by (unfold P; rewrite power_S, app_length; lia).
  destruct (rot_split i P) as (a & bc & EP & La & Ri); [lia|]. destruct (rot_split j P) as (ab & c & EP' & Lab & Rj); [lia|].
  rewrite Ri, Rj in E. rewrite EP in EP'. destruct (cut_cases _ _ _ _ EP') as [(s & E1 & E2)|(b & E1 & E2)].
  { apply (f_equal (@length N)) in E1. rewrite app_length in E1. lia. }
  subst ab bc. rewrite <- !app_assoc, (app_assoc c) in E. rewrite app_length in Lab.
  destruct (commute _ b (c ++ a) (le_n _) E) as (t & p & q & Hb & Hd).
  assert (C : conj_words (power (p + q) t) P).
  { exists (b ++ c), a. rewrite power_add, <- Hb, <- Hd, EP, <- !app_assoc. auto. }
  assert (Lt : (length b = p * length t)%nat) by (rewrite Hb; apply power_length).
  destruct p as [|p]; [cbn in Lt; lia|].
  apply conj_power in C. destruct C as (u & v & -> & C). fold (Nat.add p q) in C.
  rewrite app_length in Lt.
  assert (H : (length l <= length (v ++ u))%nat).
  { apply (power_root l (v ++ u) m (p + q) Ll); [|exact C]. intros F. apply (f_equal (@length N)) in F. rewrite app_length in F. cbn in F. lia. }
  rewrite app_length in H. nia.
Qed.
Lemma rot_inj l m i j : lyndon l = true -> (i < length l)%nat -> (j < length l)%nat -> rot i (power (S m) l) = rot j (power (S m) l) -> i = j.
Proof.
  intros Ll Hi Hj E. destruct (Nat.lt_trichotomy i j) as [H|[H|H]]; [|exact H|]; exfalso.
  - apply (rot_lt_inj l m i j Ll); [lia|exact E].
  - apply (rot_lt_inj l m j i Ll); [lia|now symmetry].
Qed.
Lemma rot_power_inj l l' m m' i j : lyndon l = true -> lyndon l' = true ->
  rot i (power (S m) l) = rot j (power (S m') l') -> l = l'.
Proof.
  intros A B E. apply (power_inj l l' m m' A B).
  assert (C : conj_words (power (S m) l) (power (S m') l')).
  { eapply conj_trans; [apply (conj_rot i)|]. rewrite E. apply conj_sym, conj_rot. }
  destruct (power_first l m _ A C) as [D|D]; [now symmetry|].
  destruct (power_first l' m' _ B (conj_sym _ _ C)) as [D'|D']; [exact D'|].
  exfalso. apply (lt_irrefl (power (S m) l)). eapply lt_trans; eassumption.
Qed.

(** ** every word is one of these rotations *)
Lemma least_conj n k : forall x, word_ok n x -> rank n x < k -> exists y, conj_words x y /\ forall z, conj_words y z -> ~ lt z y.
Proof.
  induction k as [|k IH] using N.peano_ind; intros x Hx Hk; [lia|].
  destruct (Exists_dec (fun uv => before (snd uv ++ fst uv) x = true) (splits x) (fun uv => Bool.bool_dec _ _)) as [E|E].
  - apply Exists_exists in E. destruct E as ([u v] & Hs & B). apply in_splits in Hs. cbn [fst snd] in B. apply before_lt in B. subst x.
    assert (Hy : word_ok n (v ++ u)) by (apply word_ok_app in Hx; apply word_ok_app; tauto).
    destruct (IH (v ++ u) Hy) as (y & C & M).
    + unfold lt in B. rewrite <- (rank_lex n _ _ Hy Hx) in B by (rewrite !len_app; lia).
      change (rank n (v ++ u) < rank n (u ++ v)) in B. lia.
    + exists y. split; [|exact M]. eapply conj_trans; [|exact C]. exists u, v. auto.
  - exists x. split; [apply conj_refl|]. intros z (u & v & -> & ->) B. apply E. apply Exists_exists. exists (u, v).
    split; [now apply in_splits|]. now apply before_lt.
Qed.
Lemma not_lyndon z : z <> [] -> lyndon z = false -> exists u v, z = u ++ v /\ u <> [] /\ v <> [] /\ ~ lt z v.
Proof.
  intros Hz H. destruct z as [|a w]; [contradiction|]. cbn [lyndon] in H.
  assert (G : exists s, In s (suffixes w) /\ before (a :: w) s = false).
  { revert H. generalize (suffixes w) as l. induction l as [|s l IH]; [discriminate|]. cbn [forallb]. intros H.
    destruct (before (a :: w) s) eqn:B; [|exists s; split; [now left|exact B]]. destruct (IH H) as (s' & I & B'). exists s'. split; [now right|exact B']. }
  destruct G as (s & I & B). apply in_suffixes in I. destruct I as (Hs & u & ->). exists (a :: u), s.
  split; [reflexivity|]. split; [discriminate|]. split; [exact Hs|]. intros C. apply before_lt in C. congruence.
Qed.
Lemma lyndon_root y k : (forall z, conj_words y z -> ~ lt z y) -> forall z m, (length z <= k)%nat -> z <> [] -> y = power (S m) z ->
  exists l m', lyndon l = true /\ y = power (S m') l.
Proof.
  intros M. induction k as [|k IH]; intros z m Hk Hz E; [destruct z; [contradiction|cbn in Hk; lia]|].
  destruct (lyndon z) eqn:Lz; [exists z, m; auto|].
  destruct (not_lyndon z Hz Lz) as (u & v & -> & Hu & Hv & Nlt).
  (* no rotation of the root comes before it *)
  assert (Q : forall a b, u ++ v = a ++ b -> ~ lt (b ++ a) (a ++ b)).
  { intros a b Eab Hlt. apply (M (power (S m) (b ++ a))).
    - rewrite E, Eab. apply power_conj.
    - rewrite E, Eab, !power_S. apply ahead_lt, lt_long; [rewrite !app_length; lia|exact Hlt]. }
  assert (C : u ++ v = v ++ u).
  { destruct (lt_total (u ++ v) (v ++ u)) as [H|[H|H]]; [exfalso|exact H|exfalso; exact (Q u v eq_refl H)].
    destruct (lt_total v (u ++ v)) as [H'|[H'|H']]; [|apply Hu; apply (app_inv_tail v); now symmetry|contradiction].
    destruct (lt_cases _ _ H') as [(s & Hs & Es)|A].
    - rewrite Es in H. apply lt_app in H.
      assert (Ls : length s = length u) by (apply (f_equal (@length N)) in Es; rewrite !app_length in Es; lia).
      apply (Q v s Es). rewrite <- Es. apply ahead_lt, lt_long; [lia|exact H].
    - apply (lt_irrefl (u ++ v)). eapply lt_trans; [exact H|]. rewrite <- (app_nil_r (u ++ v)). now apply ahead_lt. }
  destruct (commute _ u v (le_n _) C) as (t & p & q & Pu & Pv).
  assert (Lu : length u = (p * length t)%nat) by (rewrite Pu; apply power_length).
  assert (Lv : length v = (q * length t)%nat) by (rewrite Pv; apply power_length).
  rewrite app_length in Hk.
  assert (1 <= length u)%nat by (destruct u; [contradiction|cbn; lia]). assert (1 <= length v)%nat by (destruct v; [contradiction|cbn; lia]).
  assert (1 <= length t)%nat by nia. assert (1 <= q)%nat by nia.
  apply (IH t (S m * (p + q) - 1)%nat).
  - nia.
  - intros ->. cbn in *. lia.
  - replace (S (S m * (p + q) - 1)) with (S m * (p + q))%nat by nia. rewrite <- power_mul, power_add, <- Pu, <- Pv. exact E.
Qed.
Lemma word_rotation n x : word_ok n x -> x <> [] ->
  exists l m i, lyndon l = true /\ word_ok n l /\ (i < length l)%nat /\ x = rot i (power (S m) l).
Proof.
  intros Hx Nx. destruct (least_conj n (rank n x + 1) x Hx ltac:(lia)) as (y & C & M).
  assert (Hy : word_ok n y) by (destruct C as (u & v & -> & ->); apply word_ok_app in Hx; apply word_ok_app; tauto).
  assert (Ny : y <> []) by (intros ->; apply conj_length in C; destruct x; [contradiction|discriminate C]).
  destruct (lyndon_root y (length y) M y 0 (le_n _) Ny (eq_sym (power_1 y))) as (l & m & Ll & E).
  assert (Ol : word_ok n l) by (rewrite E, power_S in Hy; apply word_ok_app in Hy; apply Hy).
  pose proof (lyndon_nil l Ll) as Nl. assert (1 <= length l)%nat by (destruct l; [contradiction|cbn; lia]).
  apply conj_sym in C. rewrite E in C. destruct C as (a & b & Eab & Ex).
  destruct (power_cut l m a b (eq_sym Eab)) as (q & u & v & r & A & B & D & F).
  destruct v as [|c v].
  - exists l, m, 0%nat. split; [exact Ll|]. split; [exact Ol|]. split; [lia|]. unfold rot. cbn [skipn firstn]. rewrite app_nil_r.
    rewrite Ex, D, B. cbn [app]. rewrite app_nil_r in A. subst u. rewrite <- power_end, <- power_add. f_equal. lia.
  - exists l, m, (length u). split; [exact Ll|]. split; [exact Ol|]. split; [rewrite A, app_length; cbn; lia|].
    unfold rot. rewrite power_S. rewrite A at 1 3. rewrite <- !app_assoc, skipn_app, firstn_app, !Nat.sub_diag, skipn_all, firstn_all. cbn [app skipn firstn].
    rewrite Ex, D, B, F, Nat.add_comm, power_add. rewrite app_nil_r, <- !app_assoc. reflexivity.
Qed.

(** ** the count *)
Definition divides_b (k d : nat) : bool := (k mod d =? 0)%nat.
Definition rotations (n : N) (k d : nat) : list word :=
  flat_map (fun l => map (fun i => rot i (power (k / d) l)) (seq 0 d)) (lyndon_words n d).
Lemma NoDup_flat {A B} (f : A -> list B) l : NoDup l -> (forall x, In x l -> NoDup (f x)) ->
  (forall x y b, In x l -> In y l -> In b (f x) -> In b (f y) -> x = y) -> NoDup (flat_map f l).
Proof.
  induction 1 as [|x l Nx Nl IH]; intros F D; [constructor|]. cbn [flat_map].
  assert (P : NoDup (flat_map f l)). { apply IH; [intros y Hy; apply F; now right|]. intros y z b Hy Hz. apply D; now right. }
  assert (Q : forall b, In b (f x) -> ~ In b (flat_map f l)).
  { intros b Hb Hi. apply in_flat_map in Hi. destruct Hi as (y & Hy & Hb'). apply Nx. rewrite (D x y b (or_introl eq_refl) (or_intror Hy) Hb Hb'). exact Hy. }
  specialize (F x (or_introl eq_refl)). revert F Q. generalize (f x) as m. induction m as [|b m IHm]; intros F Q; [exact P|].
  inversion F as [|b' m' Nb Nm]; subst. cbn [app]. constructor.
  - intros Hi. apply in_app_or in Hi. destruct Hi as [Hi|Hi]; [contradiction|]. apply (Q b (or_introl eq_refl) Hi).
  - apply IHm; [exact Nm|]. intros c Hc. apply Q. now right.
Qed.
Lemma NoDup_map_on {A B} (f : A -> B) l : (forall x y, In x l -> In y l -> f x = f y -> x = y) -> NoDup l -> NoDup (map f l).
Proof.
  intros I. induction 1 as [|x l Nx Nl IH]; [constructor|]. cbn [map]. constructor.
  - intros H. apply in_map_iff in H. destruct H as (y & E & Hy). apply Nx. rewrite (I x y); [exact Hy|now left|now right|now symmetry].
  - apply IH. intros y z Hy Hz. apply I; now right.
Qed.
Lemma in_lyndon n k l : In l (lyndon_words n k) <-> lyndon l = true /\ word_ok n l /\ length l = k.
Proof. unfold lyndon_words. rewrite filter_In, in_words_of_length. tauto. Qed.
Definition divisors (k : nat) : list nat := filter (divides_b k) (seq 1 k).
Lemma in_divisors k d : In d (divisors k) -> exists m, k = (S m * d)%nat /\ (k / d = S m)%nat /\ (1 <= d)%nat.
Proof.
  intros H. apply filter_In in H. destruct H as [H1 H2]. apply in_seq in H1. apply Nat.eqb_eq in H2. exists (k / d - 1)%nat.
  pose proof (Nat.div_mod k d ltac:(lia)) as E. assert (1 <= k / d)%nat by (apply Nat.div_le_lower_bound; lia).
  split; [|lia]. replace (S (k / d - 1)) with (k / d)%nat by lia. lia.
Qed.
Lemma in_rotations n k d x : In d (divisors k) -> In x (rotations n k d) ->
  exists l m i, lyndon l = true /\ word_ok n l /\ length l = d /\ (i < d)%nat /\ (k / d = S m)%nat /\ x = rot i (power (S m) l) /\ length x = k.
Proof.
  intros Hd Hx. destruct (in_divisors k d Hd) as (m & Ek & Em & _). apply in_flat_map in Hx. destruct Hx as (l & Hl & Hx).
  apply in_lyndon in Hl. destruct Hl as (A & B & C). apply in_map_iff in Hx. destruct Hx as (i & <- & Hi). apply in_seq in Hi.
  exists l, m, i. rewrite Em. repeat split; try assumption; [lia|].
  rewrite <- (conj_length _ _ (conj_rot i (power (S m) l))), power_length, C. now symmetry.
Qed.
Lemma rotations_all n k : (1 <= k)%nat -> Permutation (flat_map (rotations n k) (divisors k)) (words_of_length n k).
Proof.
  intros Hk. apply NoDup_Permutation.
  - apply NoDup_flat; [apply NoDup_filter, seq_NoDup| |].
    + intros d Hd. destruct (in_divisors k d Hd) as (m & Ek & Em & _). unfold rotations. rewrite Em. apply NoDup_flat; [apply NoDup_filter, words_nodup| |].
      * intros l Hl. apply in_lyndon in Hl. destruct Hl as (A & B & C). apply NoDup_map_on; [|apply seq_NoDup].
        intros i j Hi Hj. apply in_seq in Hi, Hj. apply rot_inj; [exact A|lia|lia].
      * intros l l' b Hl Hl' Hb Hb'. apply in_lyndon in Hl, Hl'. apply in_map_iff in Hb, Hb'.
        destruct Hb as (i & <- & _), Hb' as (j & E & _). symmetry. now apply (rot_power_inj l' l m m j i).
    + intros d d' b Hd Hd' Hb Hb'. destruct (in_rotations n k d b Hd Hb) as (l & m & i & A & _ & C & _ & _ & E & _).
      destruct (in_rotations n k d' b Hd' Hb') as (l' & m' & j & A' & _ & C' & _ & _ & E' & _). rewrite E in E'.
      apply (rot_power_inj l l' m m' i j A A') in E'. subst. reflexivity.
  - apply words_nodup.
  - intros x. rewrite in_words_of_length. split.
    + intros H. apply in_flat_map in H. destruct H as (d & Hd & Hx).
      destruct (in_rotations n k d x Hd Hx) as (l & m & i & A & B & C & D & _ & E & F). split; [|exact F].
      assert (W : word_ok n (power (S m) l)) by now apply power_ok. rewrite E. unfold rot. apply word_ok_app.
      rewrite <- (firstn_skipn i (power (S m) l)) in W. apply word_ok_app in W. tauto.
    + intros [Hx Lx]. destruct (word_rotation n x Hx) as (l & m & i & A & B & C & E); [intros ->; cbn in Lx; lia|].
      assert (Ek : k = (S m * length l)%nat). { rewrite <- Lx, E, <- (conj_length _ _ (conj_rot i (power (S m) l))). apply power_length. }
      apply in_flat_map. exists (length l). split.
      * apply filter_In. split; [apply in_seq; nia|]. apply Nat.eqb_eq. rewrite Ek. apply Nat.mod_mul. lia.
      * apply in_flat_map. exists l. split; [apply in_lyndon; auto|]. apply in_map_iff. exists i. split; [|apply in_seq; lia].
        rewrite E. do 2 f_equal. rewrite Ek. apply Nat.div_mul. lia.
Qed.
Lemma rotations_length n k d : length (rotations n k d) = (d * length (lyndon_words n d))%nat.
Proof.
  unfold rotations. generalize (lyndon_words n d) as ls. induction ls as [|l ls IH]; [cbn; lia|]. cbn [flat_map length].
  rewrite app_length, map_length, seq_length, IH. lia.
Qed.
(** every word of length k is counted once *)
Lemma lyndon_count_words n k : (1 <= k)%nat ->
  list_sum (map (fun d => d * length (lyndon_words n d))%nat (divisors k)) = N.to_nat (n ^ N.of_nat k).
Proof.
  intros Hk. rewrite <- words_of_length_length, <- (Permutation_length (rotations_all n k Hk)).
  generalize (divisors k) as ds. induction ds as [|d ds IH]; [reflexivity|]. cbn [map list_sum fold_right flat_map].
  rewrite app_length, rotations_length. unfold list_sum in IH. rewrite IH. reflexivity.
Qed.
