(** Lie polynomials are combinations of the brackets of Lyndon words. *)
From Coq Require Import Ring_theory Ring.
From Verif Require Import Machine MachineLemmas S_Words L_Words M_Scalar M_Dense S_Vector S_Tensor S_Series L_Ring L_Algebra L_Conv L_Series L_ExpGroup
  S_Shuffle L_Shuffle S_Lie S_Dynkin L_Dynkin S_Lyndon L_Lyndon.

Section LyndonLie.
  Context {S R : Type} (so : scalar_ops S R) (L : ring_laws so) (n : N).
  Let RT := ring_of so L.
  Add Ring scalars : RT.
  Notation zero := (s_zero so).
  Notation one := (s_one so).
  Infix "[+]" := (s_add so) (at level 50, left associativity).
  Infix "[*]" := (s_mul so) (at level 40, left associativity).
  Notation "[-] x" := (s_uminus so x) (at level 35, right associativity).
  Notation cv := (conv so).
  Notation br := (brk so).
  Notation sum := (fold_right (s_add so) zero).

  (** the function of the bracket of a word *)
  Definition bf (l : word) : word -> S := lie_fun so (lyndon_bracket so l).
  Lemma bf_letter a w : bf [a] w = delta so [a] w.
  Proof. reflexivity. Qed.
  Lemma bf_std l u v w : std l u v -> bf l w = br (bf u) (bf v) w.
  Proof. intros H. unfold bf. rewrite (bracket_std so l u v H). reflexivity. Qed.

  (** ** products of functions of one length *)
  Definition homog (k : nat) (f : word -> S) : Prop := forall w, length w <> k -> f w = zero.
  Lemma conv_homog i j f g : homog i f -> homog j g -> homog (i + j) (cv f g).
  Proof.
    intros F G w Hw. apply (conv_zero so L). intros u v ->. rewrite app_length in Hw.
    destruct (Nat.eq_dec (length u) i) as [E|E]; [rewrite G by lia|rewrite F by exact E]; ring.
  Qed.
  Lemma conv_at i f g u v : homog i f -> length u = i -> cv f g (u ++ v) = f u [*] g v.
  Proof.
    revert i f. induction u as [|a u IH]; intros i f F E; cbn [app length] in *.
    - destruct v as [|b v]; [apply (conv_nil so L)|]. rewrite (conv_cons so).
      rewrite (conv_zero so L (der b f)); [ring|]. intros x y _. unfold der. rewrite F by (cbn; lia). ring.
    - rewrite (conv_cons so), (F []) by (cbn; lia). rewrite (IH (length u) (der a f)); [unfold der; ring| |reflexivity].
      intros x Hx. apply F. cbn. lia.
  Qed.
  Lemma brk_homog i j f g : homog i f -> homog j g -> homog (i + j) (br f g).
  Proof.
    intros F G w Hw. unfold brk. rewrite (conv_homog i j f g F G w Hw), (conv_homog j i g f G F w) by lia.
    rewrite (l_sub_def so L). ring.
  Qed.
  Lemma cut_at (w : word) i j : length w = (i + j)%nat -> exists x y, w = x ++ y /\ length x = i /\ length y = j.
  Proof.
    intros H. exists (firstn i w), (skipn i w). rewrite firstn_skipn, firstn_length, skipn_length. split; [reflexivity|]. lia.
  Qed.
  Lemma lyndon_ind (P : word -> Prop) : (forall a, P [a]) ->
    (forall w u v, lyndon w = true -> std w u v -> P u -> P v -> P w) -> forall w, lyndon w = true -> P w.
  Proof.
    intros A B. assert (G : forall k w, (length w <= k)%nat -> lyndon w = true -> P w).
    { induction k as [|k IH]; intros [|a [|b w]] Hk Hw; try discriminate; try apply A; [cbn in Hk; lia|].
      destruct (std_exists a b w) as (u & St). destruct (std_lyndon _ _ _ Hw St) as (U & V & _). pose proof St as (E & Hu & Hv & _).
      assert (length (a :: b :: w) = length u + length (least_suffix (b :: w)))%nat by (rewrite E at 1; apply app_length).
      assert (1 <= length u)%nat by (destruct u; [contradiction|cbn; lia]).
      assert (1 <= length (least_suffix (b :: w)))%nat by (destruct (least_suffix (b :: w)); [contradiction|cbn; lia]).
      apply (B _ _ _ Hw St); apply IH; (assumption || lia). }
    intros w. exact (G (length w) w (le_n _)).
  Qed.
  Lemma bf_homog l : lyndon l = true -> homog (length l) (bf l).
  Proof.
    revert l. apply lyndon_ind.
    - intros a w Hw. rewrite bf_letter. unfold delta, word_eqb. destruct (list_eq_dec N.eq_dec [a] w) as [<-|]; [contradiction|reflexivity].
    - intros w u v _ St U V x Hx. rewrite (bf_std w u v x St). destruct St as (E & _).
      apply (brk_homog _ _ _ _ U V). rewrite E, app_length in Hx. exact Hx.
  Qed.
  (** the bracket of a Lyndon word: the word itself and words after it *)
  Lemma bf_triangular l : lyndon l = true -> bf l l = one /\ forall w, length w = length l -> lt w l -> bf l w = zero.
  Proof.
    revert l. apply lyndon_ind.
    - intros a. split; [rewrite bf_letter; unfold delta, word_eqb; destruct (list_eq_dec N.eq_dec [a] [a]); congruence|].
      intros w _ Hl. rewrite bf_letter. unfold delta, word_eqb. destruct (list_eq_dec N.eq_dec [a] w) as [<-|]; [|reflexivity].
      exfalso. exact (lt_irrefl _ Hl).
    - intros w u v Hw St (U1 & U) (V1 & V). pose proof (std_lyndon w u v Hw St) as (Lu & Lv & Luv).
      pose proof (bf_homog u Lu) as Hu. pose proof (bf_homog v Lv) as Hv. pose proof St as (E & Nu & Nv & _).
      assert (Lt : lt w (v ++ u)). { apply lt_app_r. rewrite E. now apply lyndon_before_end. }
      assert (Z : forall x, length x = length w -> x = w \/ lt x w -> cv (bf v) (bf u) x = zero).
      { intros x Hx Hl. rewrite E, app_length, Nat.add_comm in Hx. destruct (cut_at x _ _ Hx) as (y & z & -> & Hy & Hz).
        rewrite (conv_at _ _ _ y z Hv Hy).
        assert (A : lt (y ++ z) (v ++ u)). { destruct Hl as [->|Hl]; [exact Lt|]. eapply lt_trans; eassumption. }
        apply le_app_same in A; [|exact Hy]. destruct A as [A|[-> A]]; [rewrite V by assumption; ring|rewrite (U z Hz A); ring]. }
      split.
      + rewrite (bf_std w u v w St). unfold brk. rewrite Z by auto. rewrite E at 1. rewrite (conv_at _ _ _ u v Hu eq_refl), U1, V1, (l_sub_def so L). ring.
      + intros x Hx Hl. rewrite (bf_std w u v x St). unfold brk. rewrite Z by auto.
        rewrite E, app_length in Hx. destruct (cut_at x _ _ Hx) as (y & z & -> & Hy & Hz). rewrite (conv_at _ _ _ y z Hu Hy), (l_sub_def so L).
        rewrite E in Hl. apply le_app_same in Hl; [|exact Hy]. destruct Hl as [A|[-> A]]; [rewrite U by assumption; ring|rewrite (V z Hz A); ring].
  Qed.

  (** ** combinations of brackets of Lyndon words of length k that do not come before low *)
  Inductive lc (k : nat) (low : word) : (word -> S) -> Prop :=
  | lc_b l : lyndon l = true -> word_ok n l -> length l = k -> ~ lt l low -> lc k low (bf l)
  | lc_zero : lc k low (fun _ => zero)
  | lc_lin c f g : lc k low f -> lc k low g -> lc k low (fun w => c [*] f w [+] g w)
  | lc_ext f g : (forall w, word_ok n w -> f w = g w) -> lc k low f -> lc k low g.
  Lemma lc_add k low f g : lc k low f -> lc k low g -> lc k low (fun w => f w [+] g w).
  Proof. intros A B. apply (lc_ext _ _ (fun w => one [*] f w [+] g w)); [intros; ring|]. now apply lc_lin. Qed.
  Lemma lc_scal k low c f : lc k low f -> lc k low (fun w => c [*] f w).
  Proof. intros A. apply (lc_ext _ _ (fun w => c [*] f w [+] (fun _ => zero) w)); [intros; ring|]. apply lc_lin; [exact A|constructor]. Qed.
  Lemma lc_opp k low f : lc k low f -> lc k low (fun w => [-] f w).
  Proof. intros A. apply (lc_ext _ _ (fun w => ([-] one) [*] f w)); [intros; ring|]. now apply lc_scal. Qed.
  Lemma lc_low k low low' f : lt low' low \/ low' = low -> lc k low f -> lc k low' f.
  Proof.
    intros H. induction 1 as [l A B C D| |c f g _ IHf _ IHg|f g E _ IH].
    - apply lc_b; try assumption. intros G. destruct H as [H|<-]; [|contradiction]. apply D. eapply lt_trans; eassumption.
    - constructor.
    - now apply lc_lin.
    - eapply lc_ext; eassumption.
  Qed.
  Lemma lc_zero' k low f : (forall w, word_ok n w -> f w = zero) -> lc k low f.
  Proof. intros H. apply (lc_ext _ _ (fun _ => zero)); [intros w Hw; symmetry; auto|constructor]. Qed.
  Lemma brk_ext f f' g g' : (forall w, word_ok n w -> f w = f' w) -> (forall w, word_ok n w -> g w = g' w) ->
    forall w, word_ok n w -> br f g w = br f' g' w.
  Proof.
    intros F G w Hw. unfold brk. f_equal; apply (conv_ext so); intros u v ->; apply word_ok_app in Hw; (apply F || apply G); apply Hw.
  Qed.
  Lemma brk_lin_l c f g h w : br (fun x => c [*] f x [+] g x) h w = c [*] br f h w [+] br g h w.
  Proof.
    unfold brk. rewrite (conv_add_l so L (fun x => c [*] f x) g), (conv_scal_l so L), (conv_add_r so L _ (fun x => c [*] f x) g), (conv_scal_r so L).
    rewrite !(l_sub_def so L). ring.
  Qed.
  Lemma brk_anti f g w : br f g w = [-] br g f w.
  Proof. unfold brk. rewrite !(l_sub_def so L). ring. Qed.
  Lemma brk_zero_l g w : br (fun _ => zero) g w = zero.
  Proof.
    unfold brk. rewrite !(conv_zero so L) by (intros; ring). rewrite (l_sub_def so L). ring.
  Qed.
  Lemma brk_self f w : br f f w = zero.
  Proof. unfold brk. rewrite (l_sub_def so L). ring. Qed.
  Lemma jacobi_fun f g h w : br (br f g) h w = br (br f h) g w [+] br f (br g h) w.
  Proof.
    assert (X : forall a b c x, cv (br a b) c x = cv a (cv b c) x [+] [-] cv b (cv a c) x).
    { intros a b c x. rewrite (conv_ext so (br a b) (fun y => cv a b y [+] ([-] one) [*] cv b a y) c c) by (intros; unfold brk; rewrite ?(l_sub_def so L); ring).
      rewrite (conv_add_l so L (cv a b) (fun y => ([-] one) [*] cv b a y)), (conv_scal_l so L), !(conv_assoc so L). ring. }
    assert (Y : forall a b c x, cv c (br a b) x = cv c (cv a b) x [+] [-] cv c (cv b a) x).
    { intros a b c x. rewrite (conv_ext so c c (br a b) (fun y => cv a b y [+] ([-] one) [*] cv b a y)) by (intros; unfold brk; rewrite ?(l_sub_def so L); ring).
      rewrite (conv_add_r so L c (cv a b) (fun y => ([-] one) [*] cv b a y)), (conv_scal_r so L). ring. }
    unfold brk at 1 3 5. rewrite !X, !Y, !(l_sub_def so L). ring.
  Qed.
  (** brackets with a combination *)
  Lemma lc_brk k low k' low' f g : lc k low f ->
    (forall l, lyndon l = true -> word_ok n l -> length l = k -> ~ lt l low -> lc k' low' (br (bf l) g)) -> lc k' low' (br f g).
  Proof.
    intros A B. induction A as [l A1 A2 A3 A4| |c f h _ IHf _ IHg|f h E _ IH].
    - auto.
    - apply lc_zero'. intros w _. apply brk_zero_l.
    - apply (lc_ext _ _ (fun w => c [*] br f g w [+] br h g w)); [intros w _; symmetry; apply brk_lin_l|now apply lc_lin].
    - apply (lc_ext _ _ (br f g)); [|exact IH]. apply brk_ext; [exact E|reflexivity].
  Qed.

  (** ** the bracket of two Lyndon brackets *)
  Definition room (w : word) : nat := N.to_nat (n ^ len w - rank n w).
  Lemma room_lt u v : word_ok n u -> word_ok n v -> length u = length v -> lt u v -> (room v < room u)%nat.
  Proof.
    intros Hu Hv E H. unfold lt in H. assert (El : len u = len v) by (unfold len; lia).
    rewrite <- (rank_lex n u v Hu Hv El) in H. change (rank n u < rank n v) in H. pose proof (rank_bound n v Hv). pose proof (rank_bound n u Hu).
    unfold room. rewrite El in *. generalize dependent (n ^ len v). intros. lia.
  Qed.
  Lemma straighten k : forall m i u v, (length u + length v <= k)%nat -> (room (u ++ v) <= m)%nat -> (length u <= i)%nat ->
    lyndon u = true -> lyndon v = true -> word_ok n u -> word_ok n v -> lt u v ->
    lc (length u + length v) (u ++ v) (br (bf u) (bf v)).
  Proof.
    induction k as [|k IHk]; [intros m i u v Hk _ _ U; destruct u; [discriminate U|cbn in Hk; lia]|].
    induction m as [m IHm] using lt_wf_ind. induction i as [|i IHi]; intros u v Hk Hm Hi U V Ou Ov Luv; [destruct u; [discriminate U|cbn in Hi; lia]|].
    assert (B : std (u ++ v) u v -> lc (length u + length v) (u ++ v) (br (bf u) (bf v))).
    { intros St. apply (lc_ext _ _ (bf (u ++ v))); [intros w _; now apply bf_std|]. apply lc_b; [now apply lyndon_app|apply word_ok_app; auto|apply app_length|apply lt_irrefl]. }
    destruct u as [|a [|b w]]; [discriminate U|apply B; now apply std_letter|].
    destruct (std_exists a b w) as (u1 & St). remember (a :: b :: w) as u. set (u2 := least_suffix (b :: w)) in *. clearbody u2. clear Hequ a b w.
    destruct (before u2 v) eqn:E2.
    2:{ apply B, (std_app u v u1 u2 V St). intros H. apply before_lt in H. congruence. }
    apply before_lt in E2. clear B. destruct (std_lyndon u u1 u2 U St) as (U1 & U2 & L12). pose proof St as (E & N1 & N2 & _). subst u.
    apply word_ok_app in Ou. destruct Ou as [O1 O2]. rewrite app_length in *.
    assert (P1 : (1 <= length u1)%nat) by (destruct u1; [contradiction|cbn; lia]).
    assert (P2 : (1 <= length u2)%nat) by (destruct u2; [contradiction|cbn; lia]).
    assert (Pv : (1 <= length v)%nat) by (destruct v; [discriminate V|cbn; lia]).
    assert (Nv : v <> []) by now apply lyndon_nil.
    assert (Ow : word_ok n ((u1 ++ u2) ++ v)) by (apply word_ok_app; split; [apply word_ok_app; auto|exact Ov]).
    (* any pair whose word comes after u v *)
    assert (After : forall x y, (length x + length y = length u1 + length u2 + length v)%nat -> lyndon x = true -> lyndon y = true ->
      word_ok n x -> word_ok n y -> lt x y -> lt ((u1 ++ u2) ++ v) (x ++ y) ->
      lc (length u1 + length u2 + length v) ((u1 ++ u2) ++ v) (br (bf x) (bf y))).
    { intros x y Hl X Y Ox Oy Lxy Lw. rewrite <- Hl. apply (lc_low _ (x ++ y)); [left; exact Lw|].
      apply (IHm (room (x ++ y))) with (i := length x); try assumption; try lia.
      assert (room (x ++ y) < room ((u1 ++ u2) ++ v))%nat; [|lia].
      apply room_lt; [exact Ow|apply word_ok_app; auto|rewrite !app_length; lia|exact Lw]. }
    apply (lc_ext _ _ (fun w => br (br (bf u1) (bf v)) (bf u2) w [+] br (bf u1) (br (bf u2) (bf v)) w)).
    { intros w Hw. rewrite <- jacobi_fun. apply brk_ext; [|reflexivity|exact Hw]. intros x _. symmetry. now apply bf_std. }
    apply lc_add.
    - apply (lc_brk (length u1 + length v) (u1 ++ v)).
      + apply (IHk (room (u1 ++ v)) (length u1)); try assumption; try lia. eapply lt_trans; eassumption.
      + intros l Ll Ol El Low.
        assert (G : lt ((u1 ++ u2) ++ v) (l ++ u2)).
        { destruct (lt_total l (u1 ++ v)) as [H|[->|H]]; [contradiction| |].
          - rewrite <- !app_assoc. apply lt_app. apply lt_app_r. now apply lyndon_before_end.
          - apply (lt_trans _ ((u1 ++ v) ++ u2)); [|apply ahead_lt, lt_long; [|exact H]; rewrite app_length; lia].
            rewrite <- !app_assoc. apply lt_app. apply lt_app_r. now apply lyndon_before_end. }
        destruct (lt_total l u2) as [H|[->|H]].
        * apply After; try assumption. lia.
        * apply lc_zero'. intros w _. apply brk_self.
        * apply (lc_ext _ _ (fun w => [-] br (bf u2) (bf l) w)); [intros w _; symmetry; apply brk_anti|]. apply lc_opp, After; try assumption; [lia|].
          apply ahead_lt. now apply lyndon_suffix.
    - apply (lc_ext _ _ (fun w => [-] br (br (bf u2) (bf v)) (bf u1) w)); [intros w _; symmetry; apply brk_anti|]. apply lc_opp.
      apply (lc_brk (length u2 + length v) (u2 ++ v)).
      + apply (IHk (room (u2 ++ v)) (length u2)); try assumption; lia.
      + intros l Ll Ol El Low. apply (lc_ext _ _ (fun w => [-] br (bf u1) (bf l) w)); [intros w _; symmetry; apply brk_anti|]. apply lc_opp.
        assert (G : lt (u2 ++ v) l \/ u2 ++ v = l). { destruct (lt_total l (u2 ++ v)) as [H|[->|H]]; [contradiction|auto|auto]. }
        assert (L1 : lt u1 l).
        { assert (lt u1 (u2 ++ v)) by now apply lt_app_r. destruct G as [G|<-]; [eapply lt_trans; eassumption|assumption]. }
        destruct G as [G|<-].
        * apply After; try assumption; [lia|]. rewrite <- app_assoc. now apply lt_app.
        * rewrite <- app_assoc. replace (length u1 + length u2 + length v)%nat with (length u1 + length (u2 ++ v))%nat by (rewrite app_length; lia).
          apply IHi; try assumption; rewrite ?app_length; try lia. rewrite app_assoc. exact Hm.
  Qed.
  Lemma lc_pair u v : lyndon u = true -> lyndon v = true -> word_ok n u -> word_ok n v ->
    lc (length u + length v) [] (br (bf u) (bf v)).
  Proof.
    intros U V Ou Ov. destruct (lt_total u v) as [H|[->|H]].
    - apply (lc_low _ (u ++ v)); [destruct (lt_total [] (u ++ v)) as [A|[A|A]]; [auto|auto|destruct (lt_nil _ A)]|].
      now apply (straighten (length u + length v) (room (u ++ v)) (length u)).
    - apply lc_zero'. intros w _. apply brk_self.
    - apply (lc_ext _ _ (fun w => [-] br (bf v) (bf u) w)); [intros w _; symmetry; apply brk_anti|]. apply lc_opp. rewrite Nat.add_comm.
      apply (lc_low _ (v ++ u)); [destruct (lt_total [] (v ++ u)) as [A|[A|A]]; [auto|auto|destruct (lt_nil _ A)]|].
      now apply (straighten (length v + length u) (room (v ++ u)) (length v)).
  Qed.
  Lemma lc_brk2 i j f g : lc i [] f -> lc j [] g -> lc (i + j) [] (br f g).
  Proof.
    intros A B. apply (lc_brk _ _ _ _ _ _ A). intros l Ll Ol <- _.
    apply (lc_ext _ _ (fun w => [-] br g (bf l) w)); [intros w _; symmetry; apply brk_anti|]. apply lc_opp.
    apply (lc_brk _ _ _ _ _ _ B). intros l' Ll' Ol' <- _. rewrite Nat.add_comm. now apply lc_pair.
  Qed.
End LyndonLie.
