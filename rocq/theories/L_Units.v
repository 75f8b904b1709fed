(** Inverses, leading coefficients and the centre of the truncated tensor algebra, on coefficient functions. *)
From Coq Require Import Ring_theory Ring.
From Verif Require Import Machine MachineLemmas S_Words L_Words M_Scalar M_Dense S_Vector S_Tensor S_Series L_Ring L_Algebra L_Conv L_Series L_ExpGroup
  L_Antipode.

Section Units.
  Context {S R : Type} (so : scalar_ops S R) (L : ring_laws so) (n : N).
  Let RT := ring_of so L.
  Add Ring scalars : RT.
  Notation zero := (s_zero so).
  Notation one := (s_one so).
  Infix "[+]" := (s_add so) (at level 50, left associativity).
  Infix "[*]" := (s_mul so) (at level 40, left associativity).
  Notation "[-] x" := (s_uminus so x) (at level 35, right associativity).
  Notation cv := (conv so).
  Notation eps := (unit_fun so).

  (** ** inverses: 1 + N + N N + ... for N without constant term *)
  Fixpoint geom (f : word -> S) (k : nat) : word -> S :=
    match k with O => eps | Datatypes.S k => fun w => eps w [+] cv f (geom f k) w end.
  Lemma conv_raise f g h k : f [] = zero -> feq n k g h -> feq n (k + 1) (cv f g) (cv f h).
  Proof.
    intros F0 E [|a w] Hw Hl; [rewrite !(conv_nil so L), F0; ring|]. rewrite !(conv_cons so), F0.
    rewrite (conv_ext so (der a f) (der a f) g h w); [ring|reflexivity|]. intros u v Ew.
    inversion Hw as [|a' w' _ Hw']; subst a' w'. rewrite len_cons in Hl. rewrite Ew in Hw', Hl. apply word_ok_app in Hw'. rewrite len_app in Hl.
    apply E; [apply Hw'|lia].
  Qed.
  Lemma geom_step f k : f [] = zero -> feq n (N.of_nat k) (geom f (Datatypes.S k)) (geom f k).
  Proof.
    intros F0. induction k as [|k IH].
    - intros [|a w] Hw Hl; [cbn [geom]; rewrite (conv_nil so L), F0; ring|]. rewrite len_cons in Hl. lia.
    - intros w Hw Hl. change (eps w [+] cv f (geom f (Datatypes.S k)) w = eps w [+] cv f (geom f k) w). f_equal.
      apply (conv_raise f _ _ (N.of_nat k) F0 IH w Hw). lia.
  Qed.
  Lemma right_inv f c k : c [*] f [] = one -> exists g, g [] = c /\ feq n k (cv f g) eps.
  Proof.
    intros C. set (h := fun w => eps w [+] [-] (c [*] f w)). assert (H0 : h [] = zero) by (unfold h; cbn [unit_fun]; rewrite C; ring).
    exists (fun w => c [*] geom h (N.to_nat k) w). split.
    - destruct (N.to_nat k) as [|j]; cbn [geom unit_fun]; [ring|]. rewrite (conv_nil so L), H0. ring.
    - intros w Hw Hl. rewrite (conv_scal_r so L), <- (conv_scal_l so L).
      rewrite (conv_ext so _ (fun u => eps u [+] [-] one [*] h u) _ (geom h (N.to_nat k))); [|intros u v _; unfold h; ring|reflexivity].
      rewrite (conv_add_l so L), (conv_unit_l so L), (conv_scal_l so L).
      pose proof (geom_step h (N.to_nat k) H0 w Hw) as G. rewrite N2Nat.id in G. specialize (G Hl). cbn [geom] in G. rewrite <- G. ring.
  Qed.
  Lemma two_inv f c k : c [*] f [] = one -> exists g, feq n k (cv f g) eps /\ feq n k (cv g f) eps.
  Proof.
    intros C. destruct (right_inv f c k C) as (g & G0 & G). exists g. split; [exact G|].
    destruct (right_inv g (f []) k) as (h & _ & H); [rewrite G0, <- C; ring|].
    transitivity (cv g h); [|exact H]. apply conv_proper; [reflexivity|].
    transitivity (cv f eps); [symmetry; apply (feq_unit_r so L)|].
    transitivity (cv f (cv g h)); [apply conv_proper; [reflexivity|symmetry; exact H]|].
    transitivity (cv (cv f g) h); [symmetry; apply (feq_assoc so L)|].
    transitivity (cv eps h); [apply conv_proper; [exact G|reflexivity]|apply (feq_unit_l so L)].
  Qed.
  Lemma cancel_l f c k g h : c [*] f [] = one -> feq n k (cv f g) (cv f h) -> feq n k g h.
  Proof.
    intros C E. destruct (two_inv f c k C) as (i & _ & I).
    assert (X : forall y, feq n k (cv i (cv f y)) y).
    { intros y. transitivity (cv (cv i f) y); [symmetry; apply (feq_assoc so L)|].
      transitivity (cv eps y); [apply conv_proper; [exact I|reflexivity]|apply (feq_unit_l so L)]. }
    transitivity (cv i (cv f g)); [symmetry; apply X|]. transitivity (cv i (cv f h)); [apply conv_proper; [reflexivity|exact E]|apply X].
  Qed.
  Lemma cancel_r f c k g h : c [*] f [] = one -> feq n k (cv g f) (cv h f) -> feq n k g h.
  Proof.
    intros C E. destruct (two_inv f c k C) as (i & I & _).
    assert (X : forall y, feq n k (cv (cv y f) i) y).
    { intros y. transitivity (cv y (cv f i)); [apply (feq_assoc so L)|].
      transitivity (cv y eps); [apply conv_proper; [reflexivity|exact I]|apply (feq_unit_r so L)]. }
    transitivity (cv (cv g f) i); [symmetry; apply X|]. transitivity (cv (cv h f) i); [apply conv_proper; [exact E|reflexivity]|apply X].
  Qed.

  (** ** leading coefficients *)
  Lemma conv_single f g w u0 v0 : w = u0 ++ v0 ->
    (forall u v, w = u ++ v -> u <> u0 -> f u [*] g v = zero) -> cv f g w = f u0 [*] g v0.
  Proof.
    revert f u0. induction w as [|a w IH]; intros f u0 E H.
    - symmetry in E. apply app_eq_nil in E. destruct E as [-> ->]. apply (conv_nil so L).
    - rewrite (conv_cons so). destruct u0 as [|b u0]; cbn [app] in E.
      + subst v0. rewrite (conv_zero so L); [ring|]. intros u v E. unfold der. apply H; [cbn [app]; congruence|discriminate].
      + injection E as <- E. rewrite (IH (der a f) u0 E).
        * rewrite (H [] (a :: w)); [unfold der; ring|reflexivity|discriminate].
        * intros u v E' Hu. unfold der. apply H; [cbn [app]; congruence|congruence].
  Qed.
  Lemma conv_lowest f g u v : word_ok n u -> word_ok n v ->
    (forall w, word_ok n w -> len w < len u -> f w = zero) -> (forall w, word_ok n w -> len w < len v -> g w = zero) ->
    cv f g (u ++ v) = f u [*] g v /\ forall w, word_ok n w -> len w < len u + len v -> cv f g w = zero.
  Proof.
    intros Hu Hv Hf Hg. split.
    - apply conv_single; [reflexivity|]. intros u' v' E Ne.
      assert (Ho : word_ok n (u ++ v)) by (apply word_ok_app; split; assumption). rewrite E in Ho. apply word_ok_app in Ho.
      pose proof (f_equal len E) as El. rewrite !len_app in El.
      destruct (N.lt_trichotomy (len u') (len u)) as [H|[H|H]].
      + rewrite Hf by (assumption || apply Ho). ring.
      + exfalso. apply Ne. symmetry. unfold len in H. apply Nnat.Nat2N.inj in H. symmetry in H.
        clear - E H. revert u' E H. induction u as [|a u IH]; intros [|b u'] E H; cbn in *; try discriminate; [reflexivity|].
        injection E as <- E. f_equal. apply IH; [exact E|congruence].
      + rewrite (Hg v') by (apply Ho || lia). ring.
    - intros w Hw Hl. apply (conv_zero so L). intros u' v' ->. apply word_ok_app in Hw. rewrite len_app in Hl.
      destruct (N.lt_ge_cases (len u') (len u)); [rewrite Hf by (assumption || apply Hw); ring|].
      rewrite (Hg v') by (apply Hw || lia). ring.
  Qed.
  Lemma conv_highest f g u v : word_ok n u -> word_ok n v ->
    (forall w, word_ok n w -> len u < len w -> f w = zero) -> (forall w, word_ok n w -> len v < len w -> g w = zero) ->
    cv f g (u ++ v) = f u [*] g v.
  Proof.
    intros Hu Hv Hf Hg. apply conv_single; [reflexivity|]. intros u' v' E Ne.
    assert (Ho : word_ok n (u ++ v)) by (apply word_ok_app; split; assumption). rewrite E in Ho. apply word_ok_app in Ho.
    pose proof (f_equal len E) as El. rewrite !len_app in El.
    destruct (N.lt_trichotomy (len u') (len u)) as [H|[H|H]].
    - rewrite (Hg v') by (apply Ho || lia). ring.
    - exfalso. apply Ne. symmetry. unfold len in H. apply Nnat.Nat2N.inj in H. symmetry in H.
      clear - E H. revert u' E H. induction u as [|a u IH]; intros [|b u'] E H; cbn in *; try discriminate; [reflexivity|].
      injection E as <- E. f_equal. apply IH; [exact E|congruence].
    - rewrite Hf by (assumption || apply Ho). ring.
  Qed.
  (** a non-zero coefficient has a shortest word with one *)
  Lemma shortest (D : forall a b : S, a = b \/ a <> b) f u : word_ok n u -> f u <> zero ->
    exists v, word_ok n v /\ len v <= len u /\ f v <> zero /\ forall w, word_ok n w -> len w < len v -> f w = zero.
  Proof.
    intros Hu Fu.
    assert (X : forall k, (forall w, word_ok n w -> (length w < k)%nat -> f w = zero)
                \/ exists v, word_ok n v /\ (length v < k)%nat /\ f v <> zero /\ forall w, word_ok n w -> (length w < length v)%nat -> f w = zero).
    { induction k as [|k [IH|(v & A & B & C)]].
      - left. intros w _ H. lia.
      - assert (Y : (forall w, In w (words_of_length n k) -> f w = zero) \/ exists w, In w (words_of_length n k) /\ f w <> zero).
        { induction (words_of_length n k) as [|w l IHl]; [left; intros w []|].
          destruct IHl as [H|(w' & I & H)]; [|right; exists w'; split; [right; exact I|exact H]].
          destruct (D (f w) zero) as [E|E]; [left; intros w' [<-|I]; auto|right; exists w; split; [now left|exact E]]. }
        destruct Y as [Y|(w & I & Y)].
        + left. intros w Hw Hl. destruct (Nat.eq_dec (length w) k) as [E|E]; [apply Y, in_words_of_length; split; assumption|apply IH; [exact Hw|lia]].
        + apply in_words_of_length in I. destruct I as [Hw E]. right. exists w. rewrite E. split; [exact Hw|]. split; [lia|]. split; [exact Y|exact IH].
      - right. exists v. split; [exact A|]. split; [lia|exact C]. }
    destruct (X (length u)) as [H|(v & A & B & C & E)].
    - exists u. split; [exact Hu|]. split; [lia|]. split; [exact Fu|]. intros w Hw Hl. apply H; [exact Hw|unfold len in Hl; lia].
    - exists v. split; [exact A|]. split; [unfold len; lia|]. split; [exact C|]. intros w Hw Hl. apply E; [exact Hw|unfold len in Hl; lia].
  Qed.

  (** ** products with a letter *)
  Notation dl := (delta so).
  Lemma delta_letter b c : dl [b] [c] = if b =? c then one else zero.
  Proof.
    unfold delta, word_eqb. destruct (list_eq_dec N.eq_dec [b] [c]) as [E|E]; destruct (N.eqb_spec b c); congruence.
  Qed.
  Lemma delta_other b w : length w <> 1%nat -> dl [b] w = zero.
  Proof. unfold delta, word_eqb. destruct (list_eq_dec N.eq_dec [b] w) as [<-|E]; [intros H; exfalso; apply H; reflexivity|reflexivity]. Qed.
  Lemma letter_r f b u c : cv f (dl [b]) (u ++ [c]) = if b =? c then f u else zero.
  Proof.
    rewrite (conv_single f (dl [b]) (u ++ [c]) u [c] eq_refl).
    - rewrite delta_letter. destruct (b =? c); ring.
    - intros u' v' E Ne. rewrite delta_other; [ring|]. intros H. apply Ne. destruct v' as [|d [|]]; cbn in H; try discriminate.
      apply app_inj_tail in E. symmetry. apply E.
  Qed.
  Lemma letter_l f b c w : cv (dl [b]) f (c :: w) = if b =? c then f w else zero.
  Proof.
    rewrite (conv_single (dl [b]) f (c :: w) [c] w eq_refl).
    - rewrite delta_letter. destruct (b =? c); ring.
    - intros u' v' E Ne. rewrite delta_other; [ring|]. intros H. apply Ne. destruct u' as [|d [|]]; cbn in H; try discriminate.
      cbn [app] in E. congruence.
  Qed.
  Lemma letter_nil f b : cv f (dl [b]) [] = zero /\ cv (dl [b]) f [] = zero.
  Proof. rewrite !(conv_nil so L), delta_other by discriminate. split; ring. Qed.
  Lemma centre f t : 2 <= n -> 1 <= t ->
    (forall b w, 1 <= b <= n -> word_ok n w -> len w <= t -> cv f (dl [b]) w = cv (dl [b]) f w)
    <-> (forall w, word_ok n w -> 1 <= len w < t -> f w = zero).
  Proof.
    intros Hn Ht. split.
    - intros H [|c u] Hw Hl; [vm_compute in Hl; destruct Hl as [Hl _]; congruence|].
      set (b := if c =? 1 then 2 else 1). assert (Hb : 1 <= b <= n) by (unfold b; destruct (c =? 1); lia).
      assert (Hc : b <> c) by (unfold b; destruct (N.eqb_spec c 1); lia).
      specialize (H b ((c :: u) ++ [b]) Hb). rewrite letter_r in H. cbn [app] in H. rewrite letter_l, N.eqb_refl in H.
      destruct (N.eqb_spec b c); [contradiction|]. apply H.
      + change (word_ok n ((c :: u) ++ [b])). apply word_ok_app. split; [exact Hw|constructor; [exact Hb|constructor]].
      + change (len ((c :: u) ++ [b]) <= t). rewrite len_app. change (len [b]) with 1. lia.
    - intros H b w Hb Hw Hl. destruct w as [|c u]; [rewrite !(proj1 (letter_nil f b)), !(proj2 (letter_nil f b)); reflexivity|].
      destruct (list_eq_dec N.eq_dec u []) as [->|Ne].
      + change (c :: nil) with ([] ++ [c]) at 1. rewrite letter_r, letter_l. reflexivity.
      + rewrite letter_l. assert (Hu : f u = zero).
        { apply H; [inversion Hw; assumption|]. destruct u; [congruence|rewrite !len_cons in *; lia]. }
        rewrite Hu.
        destruct (exists_last (l := c :: u)) as (u' & d & E); [discriminate|]. rewrite E in Hw, Hl |- *. rewrite letter_r.
        apply word_ok_app in Hw. rewrite len_app in Hl. change (len [d]) with 1 in Hl. rewrite (H u'); [destruct (b =? d), (b =? c); reflexivity|apply Hw|].
        split; [|lia]. destruct u' as [|c' u']; [|rewrite len_cons; lia]. cbn in E. injection E as _ ->. congruence.
  Qed.
End Units.
