(** Lemmas on the model of degree_range_map.rs. *)
From Coq Require Import Zpow_facts.
From Verif Require Import Machine MachineLemmas S_Hall L_Moebius M_DegreeRange.
Local Open Scope N_scope.

(** ** More fuel never changes an answer *)
Definition le_out {A} (a b : outcome A) : Prop := a = Diverge \/ a = b.
Definition mono {A} (m : nat -> outcome A) : Prop := forall f, le_out (m f) (m (S f)).
Lemma le_refl {A} (a : outcome A) : le_out a a.
Proof. right; reflexivity. Qed.
Lemma le_bind {A B} (a b : outcome A) (g h : A -> outcome B) :
  le_out a b -> (forall x, le_out (g x) (h x)) -> le_out (bind a g) (bind b h).
Proof. intros [->| ->] H; [left; reflexivity|]. destruct b; cbn; [apply H|right; reflexivity..]. Qed.
Lemma mono_le {A} (m : nat -> outcome A) f f' : mono m -> (f <= f')%nat -> le_out (m f) (m f').
Proof.
  intros Hm. induction 1 as [|f' H IH]; [apply le_refl|].
  destruct IH as [E|E]; [left; exact E|]. destruct (Hm f') as [E'|E']; [left; congruence|right; congruence].
Qed.
Lemma mono_converges {A} (m : nat -> outcome A) f r : mono m -> m f = r -> r <> Diverge -> converges m r.
Proof.
  intros Hm E Hr. exists f. intros f' Hf. destruct (mono_le m f f' Hm Hf) as [D|D]; congruence.
Qed.
Lemma converges_unique {A} (m : nat -> outcome A) r s : converges m r -> converges m s -> r = s.
Proof. intros [f H] [g H']. rewrite <- (H (f + g)%nat), <- (H' (f + g)%nat) by lia. reflexivity. Qed.

Section Mono.
  Context (p : profile).
  Lemma sqf_impl_mono n base : mono (fun f => is_squarefree_impl p f n base).
  Proof.
    intros f. revert base; induction f as [|f IH]; intros base; [left; reflexivity|].
    change (is_squarefree_impl p (S (S f)) n base) with
      (sq <- umul 64 p base base ;; r <- urem n sq ;; if r =? 0 then Ret false else if n <=? sq then Ret true
        else base1 <- uadd 64 p base 1 ;; is_squarefree_impl p (S f) n base1).
    cbn [is_squarefree_impl]. repeat (apply le_bind; [apply le_refl|intros ?]).
    destruct (_ =? 0); [apply le_refl|]. destruct (_ <=? _); [apply le_refl|].
    apply le_bind; [apply le_refl|]. intros b. apply IH.
  Qed.
  Lemma sqf_mono n : mono (fun f => is_squarefree p f n).
  Proof. apply sqf_impl_mono. Qed.
  Lemma mobius_both_mono f : (forall n d, le_out (mobius_impl p f n d) (mobius_impl p (S f) n d))
    /\ (forall n, le_out (mobius p f n) (mobius p (S f) n)).
  Proof.
    induction f as [|f [IH1 IH2]]; [split; intros; left; reflexivity|]. split.
    - intros n d.
      change (mobius_impl p (S (S f)) n d) with (if d =? n then Ret (-1)%Z else
          r <- urem n d ;; if r =? 0 then a <- mobius p (S f) n ;; m <- udiv n d ;; b <- mobius p (S f) m ;; isize p (a * b)
          else divisor1 <- uadd 64 p d 1 ;; mobius_impl p (S f) n divisor1).
      cbn [mobius_impl]. destruct (d =? n); [apply le_refl|]. apply le_bind; [apply le_refl|]. intros r.
      destruct (r =? 0).
      + apply le_bind; [apply IH2|]. intros a. apply le_bind; [apply le_refl|]. intros m. apply le_bind; [apply IH2|]. intros b. apply le_refl.
      + apply le_bind; [apply le_refl|]. intros d1. apply IH1.
    - intros n.
      change (mobius p (S (S f)) n) with (if n =? 1 then Ret 1%Z else
          s <- is_squarefree p (S f) n ;; if negb s then Ret 0%Z else mobius_impl p (S f) n 2).
      cbn [mobius]. destruct (n =? 1); [apply le_refl|]. apply le_bind; [apply sqf_mono|]. intros s. destruct (negb s); [apply le_refl|apply IH1].
  Qed.
  Lemma mobius_mono n : mono (fun f => mobius p f n).
  Proof. intros f. apply mobius_both_mono. Qed.
  Lemma term_mono w l d : mono (fun f => hall_set_level_term p f w l d).
  Proof. intros f. unfold hall_set_level_term. apply le_bind; [apply mobius_mono|]. intros m. apply le_refl. Qed.
  Lemma level_impl_S f w l d : hall_set_level_size_impl p (S f) w l d =
    (r <- urem l d ;; a <- (if r =? 0 then hall_set_level_term p f w l d else Ret 0%Z) ;;
     b <- (if d <? l then d1 <- uadd 64 p d 1 ;; hall_set_level_size_impl p f w l d1 else Ret 0%Z) ;; isize p (a + b)).
  Proof. reflexivity. Qed.
  Lemma level_impl_mono w l d : mono (fun f => hall_set_level_size_impl p f w l d).
  Proof.
    intros f. revert d; induction f as [|f IH]; intros d; [left; reflexivity|].
    rewrite !level_impl_S. apply le_bind; [apply le_refl|]. intros r.
    apply le_bind; [destruct (r =? 0); [apply term_mono|apply le_refl]|]. intros a.
    apply le_bind; [|intros b; apply le_refl]. destruct (d <? l); [|apply le_refl]. apply le_bind; [apply le_refl|]. intros d1. apply IH.
  Qed.
  Lemma level_mono w l : mono (fun f => hall_set_level_size p f w l).
  Proof. intros f. unfold hall_set_level_size. apply le_bind; [apply level_impl_mono|]. intros z. apply le_refl. Qed.
  Lemma size_impl_S f w d l : hall_set_size_impl p (S f) w d l =
    (a <- hall_set_level_size p f w l ;;
     b <- (if l <? d then l1 <- uadd 64 p l 1 ;; hall_set_size_impl p f w d l1 else Ret 0) ;; uadd 64 p a b).
  Proof. reflexivity. Qed.
  Lemma size_impl_mono w d l : mono (fun f => hall_set_size_impl p f w d l).
  Proof.
    intros f. revert l; induction f as [|f IH]; intros l; [left; reflexivity|].
    rewrite !size_impl_S. apply le_bind; [apply level_mono|]. intros a.
    apply le_bind; [|intros b; apply le_refl]. destruct (l <? d); [|apply le_refl]. apply le_bind; [apply le_refl|]. intros d1. apply IH.
  Qed.
  Lemma size_mono w d : mono (fun f => hall_set_size p f w d).
  Proof. intros f. unfold hall_set_size. destruct (d =? 0); [apply le_refl|apply size_impl_mono]. Qed.
  Lemma for_each_mono {X St} (xs : list X) (b : nat -> St -> X -> outcome St) s :
    (forall s x, mono (fun f => b f s x)) -> mono (fun f => for_each xs (b f) s).
  Proof.
    intros Hb f. revert s; induction xs as [|x xs IH]; intros s; [apply le_refl|].
    cbn [for_each]. apply le_bind; [apply Hb|]. intros s'. apply IH.
  Qed.
  Lemma new_mono n d : mono (fun f => drm_new p f n d).
  Proof.
    apply (for_each_mono _ (fun f inner i => s <- hall_set_size p f n i ;; Ret (inner ++ [s]))).
    intros s x f. apply le_bind; [apply size_mono|]. intros v. apply le_refl.
  Qed.
  Lemma grow_mono n m r : mono (fun f => drm_grow p f n m r).
  Proof.
    intros f. unfold drm_grow. destruct (r <? len m); [apply le_refl|].
    apply (for_each_mono _ (fun f inner i => s <- hall_set_size p f n i ;; Ret (inner ++ [s]))).
    intros s x g. apply le_bind; [apply size_mono|]. intros v. apply le_refl.
  Qed.
End Mono.

(** ** Square-freeness *)
Section Values.
  Context (p : profile).
  Lemma sqf_step f n base : base * base < 2 ^ 64 -> 0 < base -> is_squarefree_impl p (S f) n base =
    if n mod (base * base) =? 0 then Ret false else if n <=? base * base then Ret true
    else base1 <- uadd 64 p base 1 ;; is_squarefree_impl p f n base1.
  Proof.
    intros Hlt Hb. cbn [is_squarefree_impl]. unfold umul. rewrite (proj2 (N.ltb_lt _ _) Hlt). cbn [bind].
    unfold urem. rewrite (proj2 (N.eqb_neq (base * base) 0)) by nia. reflexivity.
  Qed.
  Lemma sqf_end f n base : base * base = 2 ^ 64 -> is_squarefree_impl p (S f) n base = Panic.
  Proof.
    intros E. cbn [is_squarefree_impl]. unfold umul, overflowed. rewrite E, N.ltb_irrefl, N.mod_same by discriminate.
    destruct (overflow_checks p); reflexivity.
  Qed.
  Lemma sqf_spec f n base (M := 2 ^ 32) : M * M = 2 ^ 64 -> 2 < M -> 2 <= base <= M -> n < 2 ^ 64 ->
    (forall b, 2 <= b < base -> ~ (b * b | n)) -> (base = 2 \/ (base - 1) * (base - 1) < n) ->
    match is_squarefree_impl p f n base with
    | Ret true => squarefree n /\ n <= (M - 1) * (M - 1)
    | Ret false => ~ squarefree n
    | Panic => squarefree n /\ (M - 1) * (M - 1) < n
    | UB => False
    | Diverge => (f <= N.to_nat (M - base))%nat
    end.
  Proof.
    clearbody M. intros HM M2.
    revert base; induction f as [|f IH]; intros base Hb Hn Hno Hpre; [apply Nat.le_0_l|].
    destruct (N.eq_dec base M) as [->|Hne].
    - rewrite sqf_end by exact HM. assert (Hpre' : (M - 1) * (M - 1) < n) by (destruct Hpre; [lia|assumption]).
      split; [|exact Hpre'].
      intros b H2 Hd. destruct (N.lt_ge_cases b M) as [Hlt|Hge]; [exact (Hno b (conj H2 Hlt) Hd)|].
      assert (b * b <= n) by (apply N.divide_pos_le; [lia|exact Hd]). nia.
    - rewrite sqf_step by nia.
      destruct (N.eqb_spec (n mod (base * base)) 0) as [E|E].
      + intros Hsq. apply (Hsq base); [lia|]. apply N.mod_divide; [nia|exact E].
      + assert (Hd0 : ~ (base * base | n)) by (intros Hd; apply N.mod_divide in Hd; [contradiction|nia]).
        destruct (N.leb_spec n (base * base)) as [Hle|Hgt].
        * split; [|etransitivity; [exact Hle|]; apply N.mul_le_mono; lia]. intros b H2 Hd. destruct (N.lt_ge_cases b base) as [Hb1|Hb1]; [exact (Hno b (conj H2 Hb1) Hd)|].
          destruct (N.eq_dec b base) as [->|Hb2]; [contradiction|].
          assert (n <> 0). { intros ->. apply E. apply N.mod_0_l. nia. }
          assert (b * b <= n) by (apply N.divide_pos_le; [lia|exact Hd]).
          assert (base * base < b * b) by (apply N.mul_lt_mono; lia). lia.
        * unfold uadd. rewrite (proj2 (N.ltb_lt (base + 1) (2 ^ 64))) by (assert (M * 2 <= M * M) by (apply N.mul_le_mono_l; lia); lia). cbn [bind].
          assert (G : base + 1 = 2 \/ (base + 1 - 1) * (base + 1 - 1) < n) by (right; replace (base + 1 - 1) with base by lia; exact Hgt).
          assert (G' : forall b, 2 <= b < base + 1 -> ~ (b * b | n)).
          { intros b Hb' Hd. destruct (N.eq_dec b base) as [->|]; [contradiction|]. apply (Hno b); [lia|exact Hd]. }
          specialize (IH (base + 1) ltac:(lia) Hn G' G).
          destruct (is_squarefree_impl p f n (base + 1)) as [[]| | |]; try exact IH. lia.
  Qed.
  Lemma sqf_cases f n : n < 2 ^ 64 ->
    match is_squarefree p f n with
    | Ret true => squarefree n /\ n <= (2 ^ 32 - 1) * (2 ^ 32 - 1)
    | Ret false => ~ squarefree n
    | Panic => squarefree n /\ (2 ^ 32 - 1) * (2 ^ 32 - 1) < n
    | UB => False
    | Diverge => (f <= N.to_nat (2 ^ 32 - 2))%nat
    end.
  Proof. intros Hn. apply sqf_spec; [reflexivity|reflexivity|lia|exact Hn|intros b Hb; lia|left; reflexivity]. Qed.
  Lemma sqf_true n : squarefree n -> n <= (2 ^ 32 - 1) * (2 ^ 32 - 1) -> converges (fun f => is_squarefree p f n) (Ret true).
  Proof.
    intros Hs Hn. assert (B : (2 ^ 32 - 1) * (2 ^ 32 - 1) < 2 ^ 64) by reflexivity.
    exists (S (N.to_nat (2 ^ 32 - 2))). intros f Hf. pose proof (sqf_cases f n ltac:(lia)) as H.
    destruct (is_squarefree p f n) as [[]| | |]; [reflexivity|contradiction|lia|contradiction|lia].
  Qed.
  Lemma sqf_false n : n < 2 ^ 64 -> ~ squarefree n -> converges (fun f => is_squarefree p f n) (Ret false).
  Proof.
    intros Hn Hs. exists (S (N.to_nat (2 ^ 32 - 2))). intros f Hf. pose proof (sqf_cases f n Hn) as H.
    destruct (is_squarefree p f n) as [[]| | |]; [tauto|reflexivity|tauto|contradiction|lia].
  Qed.
  Lemma sqf_panic n : n < 2 ^ 64 -> squarefree n -> (2 ^ 32 - 1) * (2 ^ 32 - 1) < n -> converges (fun f => is_squarefree p f n) Panic.
  Proof.
    intros Hn Hs Hb. exists (S (N.to_nat (2 ^ 32 - 2))). intros f Hf. pose proof (sqf_cases f n Hn) as H.
    destruct (is_squarefree p f n) as [[]| | |]; [lia|contradiction|reflexivity|contradiction|lia].
  Qed.

  (** ** mobius *)
  Lemma mobius_S f n : mobius p (S f) n =
    if n =? 1 then Ret 1%Z else s <- is_squarefree p f n ;; if negb s then Ret 0%Z else mobius_impl p f n 2.
  Proof. reflexivity. Qed.
  Lemma mobius_impl_S f n d : mobius_impl p (S f) n d = if d =? n then Ret (-1)%Z else
          r <- urem n d ;; if r =? 0 then a <- mobius p f n ;; m <- udiv n d ;; b <- mobius p f m ;; isize p (a * b)
          else divisor1 <- uadd 64 p d 1 ;; mobius_impl p f n divisor1.
  Proof. reflexivity. Qed.
  Lemma mobius_one : converges (fun f => mobius p f 1) (Ret 1%Z).
  Proof. exists 1%nat. intros [|f] Hf; [lia|]. reflexivity. Qed.
  Lemma mobius_squareful n : n < 2 ^ 64 -> n <> 1 -> ~ squarefree n -> converges (fun f => mobius p f n) (Ret 0%Z).
  Proof.
    intros Hn H1 Hs. destruct (sqf_false n Hn Hs) as [f0 H]. exists (S f0). intros [|f] Hf; [lia|].
    rewrite mobius_S, (proj2 (N.eqb_neq n 1) H1), (H f) by lia. reflexivity.
  Qed.
  Lemma mobius_big n : n < 2 ^ 64 -> squarefree n -> (2 ^ 32 - 1) * (2 ^ 32 - 1) < n -> converges (fun f => mobius p f n) Panic.
  Proof.
    intros Hn Hs Hb. destruct (sqf_panic n Hn Hs Hb) as [f0 H]. exists (S f0). intros [|f] Hf; [lia|].
    assert (E : n <> 1) by (intros ->; vm_compute in Hb; discriminate).
    rewrite mobius_S, (proj2 (N.eqb_neq n 1) E), (H f) by lia. reflexivity.
  Qed.
  Lemma mobius_impl_prime n f d : n < 2 ^ 64 -> nprime n -> 2 <= d <= n -> (N.to_nat (n - d) < f)%nat ->
    mobius_impl p f n d = Ret (-1)%Z.
  Proof.
    intros Hn Hp. revert d; induction f as [|f IH]; intros d Hd Hf; [lia|]. rewrite mobius_impl_S.
    destruct (N.eqb_spec d n) as [|Hne]; [reflexivity|].
    unfold urem. destruct (N.eqb_spec d 0); [lia|]. cbn [bind].
    destruct (N.eqb_spec (n mod d) 0) as [E|E].
    { apply N.mod_divide in E; [|assumption]. destruct Hp as [_ Hp]. destruct (Hp d E); lia. }
    unfold uadd. replace (d + 1 <? 2 ^ 64) with true by (symmetry; apply N.ltb_lt; lia). cbn [bind]. apply IH; lia.
  Qed.
  Lemma mobius_of_prime n : nprime n -> n <= (2 ^ 32 - 1) * (2 ^ 32 - 1) -> converges (fun f => mobius p f n) (Ret (-1)%Z).
  Proof.
    intros Hp Hn. assert (B : (2 ^ 32 - 1) * (2 ^ 32 - 1) < 2 ^ 64) by reflexivity.
    destruct (sqf_true n (prime_squarefree n Hp) Hn) as [f0 H].
    exists (S (f0 + S (N.to_nat (n - 2))))%nat. intros [|f] Hf; [lia|]. assert (2 <= n) by apply Hp.
    rewrite mobius_S, (H f) by lia. destruct (N.eqb_spec n 1); [lia|]. cbn [bind negb].
    apply mobius_impl_prime; [lia|exact Hp|lia|lia].
  Qed.
  Lemma mobius_composite n f : squarefree n -> n <= (2 ^ 32 - 1) * (2 ^ 32 - 1) -> 2 <= n -> ~ nprime n ->
    mobius p f n = Diverge.
  Proof.
    intros Hs Hn H2 Hp. assert (B : (2 ^ 32 - 1) * (2 ^ 32 - 1) < 2 ^ 64) by reflexivity.
    destruct (not_prime_divisor n H2 Hp) as (q & Hq & Hqn).
    enough (G : (forall d, 2 <= d <= q -> mobius_impl p f n d = Diverge) /\ mobius p f n = Diverge) by apply G.
    induction f as [|f [IH1 IH2]]; [split; reflexivity|]. split.
    - intros d Hd. rewrite mobius_impl_S. destruct (N.eqb_spec d n); [lia|].
      unfold urem. destruct (N.eqb_spec d 0); [lia|]. cbn [bind].
      destruct (N.eqb_spec (n mod d) 0) as [E|E]; [rewrite IH2; reflexivity|].
      unfold uadd. replace (d + 1 <? 2 ^ 64) with true by (symmetry; apply N.ltb_lt; lia). cbn [bind]. apply IH1.
      destruct (N.eq_dec d q) as [->|]; [|lia]. exfalso. apply E. apply N.mod_divide; assumption.
    - rewrite mobius_S. destruct (N.eqb_spec n 1); [lia|].
      pose proof (sqf_cases f n ltac:(lia)) as H. destruct (is_squarefree p f n) as [[]| | |]; cbn [bind negb].
      + apply IH1. lia.
      + contradiction.
      + lia.
      + contradiction.
      + reflexivity.
  Qed.
End Values.

(** ** Sizes *)
Section Sizes.
  Context (p : profile).
  Lemma isize_ok z : (- 2 ^ 63 <= z < 2 ^ 63)%Z -> isize p z = Ret z.
  Proof. intros H. unfold isize. destruct (Z.leb_spec (- 2 ^ 63) z), (Z.ltb_spec z (2 ^ 63)); try lia. reflexivity. Qed.
  Lemma as_isize_ok w : w < 2 ^ 63 -> as_isize w = Z.of_N w.
  Proof. intros H. unfold as_isize. rewrite Z.mod_small; lia. Qed.
  Lemma as_usize_ok z : (0 <= z < 2 ^ 64)%Z -> as_usize z = Z.to_N z.
  Proof. intros H. unfold as_usize. rewrite Z.mod_small by lia. reflexivity. Qed.

  Lemma small_mobius f k m : (10 <= f)%nat ->
    In (k, m) [(1, 1%Z); (2, (-1)%Z); (3, (-1)%Z); (4, 0%Z); (5, (-1)%Z)] -> mobius p f k = Ret m.
  Proof.
    intros Hf. do 10 (destruct f as [|f]; [lia|]). cbn [In].
    intros H; repeat (destruct H as [H|H]; [injection H as <- <-; reflexivity|]); contradiction.
  Qed.
  Lemma term_ok f w l k m : mobius p f k = Ret m -> (Z.abs m <= 1)%Z -> 0 < k <= l -> l < 2 ^ 32 -> w < 2 ^ 32 ->
    (Z.of_N w ^ Z.of_N (l / k) < 2 ^ 63)%Z ->
    hall_set_level_term p f w l k = Ret (Z.quot (m * Z.of_N w ^ Z.of_N (l / k)) (Z.of_N l)).
  Proof.
    intros Hm Hm1 Hk Hl Hw Hp. unfold hall_set_level_term. rewrite Hm. cbn [bind].
    unfold udiv. destruct (N.eqb_spec k 0); [lia|]. cbn [bind].
    assert (H63 : 2 ^ 32 < 2 ^ 63) by reflexivity.
    assert (l / k <= l) by (apply N.div_le_upper_bound; nia).
    unfold trunc. rewrite N.mod_small by lia. rewrite !as_isize_ok by lia.
    assert (P0 : (0 <= Z.of_N w ^ Z.of_N (l / k))%Z) by (apply Z.pow_nonneg; lia).
    rewrite isize_ok by lia. cbn [bind]. rewrite isize_ok by nia. cbn [bind].
    unfold isize_div. destruct (Z.eqb_spec (Z.of_N l) 0); [lia|]. destruct (Z.eqb_spec (Z.of_N l) (-1)); [lia|].
    rewrite andb_false_r. reflexivity.
  Qed.
  Lemma level_step f w l d : 0 < d < 2 ^ 32 -> hall_set_level_size_impl p (S f) w l d =
    (a <- (if l mod d =? 0 then hall_set_level_term p f w l d else Ret 0%Z) ;;
     b <- (if d <? l then hall_set_level_size_impl p f w l (d + 1) else Ret 0%Z) ;; isize p (a + b)).
  Proof.
    intros Hd. rewrite level_impl_S. unfold urem. destruct (N.eqb_spec d 0); [lia|]. cbn [bind].
    unfold uadd. assert (2 ^ 32 < 2 ^ 64) by reflexivity. rewrite (proj2 (N.ltb_lt (d + 1) (2 ^ 64))) by lia. reflexivity.
  Qed.

  (** division by a level of a power *)
  Lemma quot_pos a l : (0 <= a)%Z -> (0 < l)%Z -> Z.quot (1 * a) l = (a / l)%Z.
  Proof. intros. rewrite Z.mul_1_l. apply Z.quot_div_nonneg; lia. Qed.
  Lemma quot_neg a l : (0 <= a)%Z -> (0 < l)%Z -> Z.quot (-1 * a) l = (- (a / l))%Z.
  Proof. intros. replace (-1 * a)%Z with (- a)%Z by lia. rewrite Z.quot_opp_l by lia. f_equal. apply Z.quot_div_nonneg; lia. Qed.
  Lemma divides_pow W l (k j : Z) : (0 < l)%Z ->
    (forall r, 0 <= r < l -> (r ^ k - r ^ j) mod l = 0)%Z -> (0 <= k)%Z -> (0 <= j)%Z ->
    ((W ^ k) / l - (W ^ j) / l = (W ^ k - W ^ j) / l /\ l * ((W ^ k - W ^ j) / l) = W ^ k - W ^ j)%Z.
  Proof.
    intros Hl Hr Hk Hj.
    assert (E : ((W ^ k - W ^ j) mod l = 0)%Z).
    { rewrite Zminus_mod, (Zpower_mod W k l), (Zpower_mod W j l), <- Zminus_mod by exact Hl.
      apply Hr. apply Z.mod_pos_bound. exact Hl. }
    apply Z.div_exact in E; [|lia]. split; [|lia].
    set (t := ((W ^ k - W ^ j) / l)%Z) in *. replace (W ^ k)%Z with (W ^ j + t * l)%Z by lia.
    rewrite Z.div_add by lia. lia.
  Qed.

  (** the size of each level up to 5 *)
  Definition level_value (l : N) (W : Z) : Z :=
    match l with
    | 1 => W
    | 2 => ((W ^ 2 - W ^ 1) / 2)%Z
    | 3 => ((W ^ 3 - W ^ 1) / 3)%Z
    | 4 => ((W ^ 4 - W ^ 2) / 4)%Z
    | 5 => ((W ^ 5 - W ^ 1) / 5)%Z
    | _ => 0%Z
    end.
  Section Level.
    Context (w l : N).
    Context (Hw : w < 2 ^ 32) (Hl : 0 < l < 2 ^ 32).
    Let W := Z.of_N w.
    Lemma level_take f d m b : mobius p f d = Ret m -> (Z.abs m <= 1)%Z -> 0 < d < l -> l mod d = 0 ->
      (W ^ Z.of_N (l / d) < 2 ^ 63)%Z -> hall_set_level_size_impl p f w l (d + 1) = Ret b ->
      (- 2 ^ 63 <= Z.quot (m * W ^ Z.of_N (l / d)) (Z.of_N l) + b < 2 ^ 63)%Z ->
      hall_set_level_size_impl p (S f) w l d = Ret (Z.quot (m * W ^ Z.of_N (l / d)) (Z.of_N l) + b)%Z.
    Proof.
      intros Hm Hm1 Hd Hmod Hp Hb Hr. rewrite level_step by lia. rewrite Hmod. cbn [N.eqb].
      rewrite (term_ok f w l d m) by (assumption || lia). cbn [bind].
      rewrite (proj2 (N.ltb_lt d l)) by lia. rewrite Hb. cbn [bind]. apply isize_ok. exact Hr.
    Qed.
    Lemma level_skip f d b : 0 < d < l -> l mod d <> 0 -> hall_set_level_size_impl p f w l (d + 1) = Ret b ->
      (- 2 ^ 63 <= b < 2 ^ 63)%Z -> hall_set_level_size_impl p (S f) w l d = Ret b.
    Proof.
      intros Hd Hmod Hb Hr. rewrite level_step by lia. rewrite (proj2 (N.eqb_neq _ 0) Hmod). cbn [bind].
      rewrite (proj2 (N.ltb_lt d l)) by lia. rewrite Hb. cbn [bind]. rewrite Z.add_0_l. apply isize_ok. exact Hr.
    Qed.
    Lemma level_last f m : mobius p f l = Ret m -> (Z.abs m <= 1)%Z -> (W < 2 ^ 63)%Z ->
      (- 2 ^ 63 <= Z.quot (m * W) (Z.of_N l) < 2 ^ 63)%Z ->
      hall_set_level_size_impl p (S f) w l l = Ret (Z.quot (m * W) (Z.of_N l)).
    Proof.
      intros Hm Hm1 Hp Hr. rewrite level_step by lia. rewrite N.mod_same by lia. cbn [N.eqb].
      rewrite (term_ok f w l l m) by (try assumption; try lia; rewrite N.div_same by lia; rewrite Z.pow_1_r; exact Hp).
      cbn [bind]. rewrite N.ltb_irrefl. cbn [bind]. rewrite N.div_same by lia. rewrite Z.pow_1_r, Z.add_0_r. apply isize_ok. exact Hr.
    Qed.
  End Level.
  Lemma quot_range (W l m : Z) : (0 <= W < 2 ^ 63)%Z -> (0 < l)%Z -> (m = 1 \/ m = -1 \/ m = 0)%Z ->
    exists t, (0 <= t <= W)%Z /\ Z.quot (m * W) l = (m * t)%Z /\ t = (W / l)%Z.
  Proof.
    intros HW Hl Hm. exists (W / l)%Z. assert (0 <= W / l <= W)%Z.
    { split; [apply Z.div_pos; lia|]. apply Z.div_le_upper_bound; nia. }
    split; [assumption|]. split; [|reflexivity].
    destruct Hm as [->|[->| ->]]; [rewrite quot_pos by lia; lia|rewrite quot_neg by lia; lia|rewrite Z.quot_0_l by lia; lia].
  Qed.
  Lemma pow_le (W : Z) (a b : Z) : (0 <= W)%Z -> (0 < a <= b)%Z -> (0 <= W ^ a <= W ^ b)%Z.
  Proof.
    intros HW H. split; [apply Z.pow_nonneg; lia|]. destruct (Z.eq_dec W 0) as [->|].
    - rewrite !Z.pow_0_l by lia. lia.
    - apply Z.pow_le_mono_r; lia.
  Qed.
  Lemma level_values f w l : (20 <= f)%nat -> 1 <= l <= 5 -> w < 2 ^ 32 -> (Z.of_N w ^ Z.of_N l < 2 ^ 63)%Z ->
    hall_set_level_size_impl p f w l 1 = Ret (level_value l (Z.of_N w))
    /\ (0 <= level_value l (Z.of_N w) <= Z.of_N w ^ Z.of_N l)%Z.
  Proof.
    intros Hf Hl Hw Hp.
    assert (M1 : forall f, (10 <= f)%nat -> mobius p f 1 = Ret 1%Z) by (intros; apply small_mobius; cbn; auto).
    assert (M2 : forall f, (10 <= f)%nat -> mobius p f 2 = Ret (-1)%Z) by (intros; apply small_mobius; cbn; auto).
    assert (M3 : forall f, (10 <= f)%nat -> mobius p f 3 = Ret (-1)%Z) by (intros; apply small_mobius; cbn; auto).
    assert (M4 : forall f, (10 <= f)%nat -> mobius p f 4 = Ret 0%Z) by (intros; apply small_mobius; cbn; auto 6).
    assert (M5 : forall f, (10 <= f)%nat -> mobius p f 5 = Ret (-1)%Z) by (intros; apply small_mobius; cbn; auto 7).
    set (W := Z.of_N w) in *. assert (HW : (0 <= W < 2 ^ 32)%Z) by lia.
    assert (P1 : (W ^ 1 = W)%Z) by apply Z.pow_1_r.
    do 6 (destruct f as [|f]; [lia|]).
    assert (R0 : forall b, (- W <= b <= W -> - 2 ^ 63 <= b < 2 ^ 63)%Z) by lia.
    assert (E : l = 1 \/ l = 2 \/ l = 3 \/ l = 4 \/ l = 5) by lia.
    destruct E as [E|[E|[E|[E|E]]]]; subst l; cbn [level_value] in *;
      match type of Hp with (_ ^ Z.of_N ?k < _)%Z => let v := eval vm_compute in (Z.of_N k) in change (Z.of_N k) with v in Hp |- * end.
    - pose proof (level_last w 1 Hw ltac:(lia) (5 + f)%nat 1%Z (M1 (5 + f)%nat ltac:(lia)) ltac:(lia) ltac:(lia)) as L.
      rewrite Z.mul_1_l, Z.quot_1_r in L. split; [apply L; fold W; lia|lia].
    - destruct (quot_range W 2 (-1)) as (t & Ht & Et & Dt); [lia..|].
      pose proof (pow_le W 1 2 ltac:(lia) ltac:(lia)) as Hpw.
      destruct (quot_range (W ^ 2) 2 1) as (u & Hu & Eu & Du); [lia..|].
      pose proof (level_last w 2 Hw ltac:(lia) (4 + f)%nat  (-1)%Z (M2 (4 + f)%nat ltac:(lia)) ltac:(lia) ltac:(lia)) as L2.
      change (Z.of_N 2) with 2%Z in L2. fold W in L2. rewrite Et in L2. specialize (L2 ltac:(lia)).
      pose proof (level_take w 2 Hw ltac:(lia) (5 + f)%nat 1 1%Z _ (M1 (5 + f)%nat ltac:(lia)) ltac:(lia) ltac:(lia) eq_refl Hp L2) as L1.
      change (Z.of_N (2 / 1)) with 2%Z in L1. change (Z.of_N 2) with 2%Z in L1. fold W in L1. rewrite Eu in L1. specialize (L1 ltac:(lia)).
      destruct (divides_pow W 2 2 1) as [Q1 Q2]; [lia| |lia|lia|].
      { intros r Hr. assert (C : (r = 0 \/ r = 1)%Z) by lia. destruct C as [->| ->]; reflexivity. }
      rewrite P1 in *. split; [etransitivity; [exact L1|]; f_equal; lia|lia].
    - destruct (quot_range W 3 (-1)) as (t & Ht & Et & Dt); [lia..|].
      pose proof (pow_le W 1 3 ltac:(lia) ltac:(lia)) as Hpw.
      destruct (quot_range (W ^ 3) 3 1) as (u & Hu & Eu & Du); [lia..|].
      pose proof (level_last w 3 Hw ltac:(lia) (3 + f)%nat  (-1)%Z (M3 (3 + f)%nat ltac:(lia)) ltac:(lia) ltac:(lia)) as L3.
      change (Z.of_N 3) with 3%Z in L3. fold W in L3. rewrite Et in L3. specialize (L3 ltac:(lia)).
      pose proof (level_skip w 3 Hw ltac:(lia) (4 + f)%nat 2 _ ltac:(lia) ltac:(discriminate) L3 ltac:(lia)) as L2.
      pose proof (level_take w 3 Hw ltac:(lia) (5 + f)%nat 1 1%Z _ (M1 (5 + f)%nat ltac:(lia)) ltac:(lia) ltac:(lia) eq_refl Hp L2) as L1.
      change (Z.of_N (3 / 1)) with 3%Z in L1. change (Z.of_N 3) with 3%Z in L1. fold W in L1. rewrite Eu in L1. specialize (L1 ltac:(lia)).
      destruct (divides_pow W 3 3 1) as [Q1 Q2]; [lia| |lia|lia|].
      { intros r Hr. assert (C : (r = 0 \/ r = 1 \/ r = 2)%Z) by lia. destruct C as [->|[->| ->]]; reflexivity. }
      rewrite P1 in *. split; [etransitivity; [exact L1|]; f_equal; lia|lia].
    - pose proof (pow_le W 2 4 ltac:(lia) ltac:(lia)) as Hpw.
      destruct (quot_range W 4 0) as (t & Ht & Et & Dt); [lia..|].
      destruct (quot_range (W ^ 2) 4 (-1)) as (v & Hv & Ev & Dv); [lia..|].
      destruct (quot_range (W ^ 4) 4 1) as (u & Hu & Eu & Du); [lia..|].
      pose proof (level_last w 4 Hw ltac:(lia) (2 + f)%nat 0%Z (M4 (2 + f)%nat ltac:(lia)) ltac:(lia) ltac:(lia)) as L4.
      change (Z.of_N 4) with 4%Z in L4. fold W in L4. rewrite Et in L4. specialize (L4 ltac:(lia)).
      pose proof (level_skip w 4 Hw ltac:(lia) (3 + f)%nat 3 _ ltac:(lia) ltac:(discriminate) L4 ltac:(lia)) as L3.
      pose proof (level_take w 4 Hw ltac:(lia) (4 + f)%nat 2 (-1)%Z _ (M2 (4 + f)%nat ltac:(lia)) ltac:(lia) ltac:(lia) eq_refl ltac:(change (W ^ 2 < 2 ^ 63)%Z; lia) L3) as L2.
      change (Z.of_N (4 / 2)) with 2%Z in L2. change (Z.of_N 4) with 4%Z in L2. fold W in L2. rewrite Ev in L2. specialize (L2 ltac:(lia)).
      pose proof (level_take w 4 Hw ltac:(lia) (5 + f)%nat 1 1%Z _ (M1 (5 + f)%nat ltac:(lia)) ltac:(lia) ltac:(lia) eq_refl Hp L2) as L1.
      change (Z.of_N (4 / 1)) with 4%Z in L1. change (Z.of_N 4) with 4%Z in L1. fold W in L1. rewrite Eu in L1. specialize (L1 ltac:(lia)).
      destruct (divides_pow W 4 4 2) as [Q1 Q2]; [lia| |lia|lia|].
      { intros r Hr. assert (C : (r = 0 \/ r = 1 \/ r = 2 \/ r = 3)%Z) by lia. destruct C as [->|[->|[->| ->]]]; reflexivity. }
      split; [etransitivity; [exact L1|]; f_equal; lia|lia].
    - destruct (quot_range W 5 (-1)) as (t & Ht & Et & Dt); [lia..|].
      pose proof (pow_le W 1 5 ltac:(lia) ltac:(lia)) as Hpw.
      destruct (quot_range (W ^ 5) 5 1) as (u & Hu & Eu & Du); [lia..|].
      pose proof (level_last w 5 Hw ltac:(lia) (1 + f)%nat  (-1)%Z (M5 (1 + f)%nat ltac:(lia)) ltac:(lia) ltac:(lia)) as L5.
      change (Z.of_N 5) with 5%Z in L5. fold W in L5. rewrite Et in L5. specialize (L5 ltac:(lia)).
      pose proof (level_skip w 5 Hw ltac:(lia) (2 + f)%nat 4 _ ltac:(lia) ltac:(discriminate) L5 ltac:(lia)) as L4.
      pose proof (level_skip w 5 Hw ltac:(lia) (3 + f)%nat 3 _ ltac:(lia) ltac:(discriminate) L4 ltac:(lia)) as L3.
      pose proof (level_skip w 5 Hw ltac:(lia) (4 + f)%nat 2 _ ltac:(lia) ltac:(discriminate) L3 ltac:(lia)) as L2.
      pose proof (level_take w 5 Hw ltac:(lia) (5 + f)%nat 1 1%Z _ (M1 (5 + f)%nat ltac:(lia)) ltac:(lia) ltac:(lia) eq_refl Hp L2) as L1.
      change (Z.of_N (5 / 1)) with 5%Z in L1. change (Z.of_N 5) with 5%Z in L1. fold W in L1. rewrite Eu in L1. specialize (L1 ltac:(lia)).
      destruct (divides_pow W 5 5 1) as [Q1 Q2]; [lia| |lia|lia|].
      { intros r Hr. assert (C : (r = 0 \/ r = 1 \/ r = 2 \/ r = 3 \/ r = 4)%Z) by lia. destruct C as [->|[->|[->|[->| ->]]]]; reflexivity. }
      rewrite P1 in *. split; [etransitivity; [exact L1|]; f_equal; lia|lia].
  Qed.
End Sizes.
