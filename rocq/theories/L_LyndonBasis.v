(** The brackets of Lyndon words are a basis of the Lie polynomials. *)
From Coq Require Import Ring_theory Ring.
From Verif Require Import Machine MachineLemmas S_Words L_Words M_Scalar M_Dense S_Vector S_Tensor S_Series L_Ring L_Algebra L_Conv L_Series L_ExpGroup
  L_AlgebraFn S_Shuffle L_Shuffle S_Lie S_Dynkin L_Dynkin S_Lyndon L_Lyndon L_LyndonLie.

Section LyndonBasis.
  Context {S R : Type} (so : scalar_ops S R) (L : ring_laws so) (n : N).
  Let RT := ring_of so L.
  Add Ring scalars : RT.
  Notation zero := (s_zero so).
  Notation one := (s_one so).
  Infix "[+]" := (s_add so) (at level 50, left associativity).
  Infix "[*]" := (s_mul so) (at level 40, left associativity).
  Notation "[-] x" := (s_uminus so x) (at level 35, right associativity).
  Notation cv := (conv so).
  Notation br := (brk so).
  Notation bf := (bf so).
  Notation lc := (lc so n).
  Notation sum := (fold_right (s_add so) zero).
  Notation lf := (lie_fun so).

  Lemma sum_one {A} (h : A -> S) l a : NoDup l -> In a l -> (forall x, In x l -> x <> a -> h x = zero) -> sum (map h l) = h a.
  Proof.
    induction l as [|x l IH]; intros ND Hi Z; [destruct Hi|]. inversion ND as [|x' l' Nx Nl]; subst. cbn [map fold_right].
    destruct Hi as [->|Hi].
    - rewrite (sum_zero so L); [ring|]. intros y Hy. apply Z; [now right|]. intros ->. contradiction.
    - rewrite (Z x (or_introl eq_refl)) by (intros ->; contradiction). rewrite IH; [ring|exact Nl|exact Hi|].
      intros y Hy. apply Z. now right.
  Qed.
  Lemma in_lyndon_words k l : In l (lyndon_words n k) <-> lyndon l = true /\ word_ok n l /\ length l = k.
  Proof. unfold lyndon_words. rewrite filter_In, in_words_of_length. tauto. Qed.
  Lemma lyndon_words_nodup k : NoDup (lyndon_words n k).
  Proof. apply NoDup_filter, words_nodup. Qed.

  (** ** the parts of one length *)
  Definition hom (k : nat) (f : word -> S) : word -> S := fun w => if (length w =? k)%nat then f w else zero.
  Lemma hom_homog k f : homog so k (hom k f).
  Proof. intros w H. unfold hom. apply Nat.eqb_neq in H. rewrite H. reflexivity. Qed.
  Lemma conv_terms f g f' g' w : (forall u v, w = u ++ v -> f u [*] g v = f' u [*] g' v) -> cv f g w = cv f' g' w.
  Proof. intros E. unfold conv. f_equal. apply map_ext_in. intros [u v] H. apply in_splits in H. cbn. auto. Qed.
  Lemma conv_sum_l {A} (F : A -> word -> S) g l w : cv (fun x => sum (map (fun i => F i x) l)) g w = sum (map (fun i => cv (F i) g w) l).
  Proof.
    induction l as [|i l IH]; cbn [map fold_right]; [apply (conv_zero so L); intros; ring|].
    rewrite (conv_add_l so L (F i) (fun x => sum (map (fun i => F i x) l))), IH. reflexivity.
  Qed.
  Lemma conv_sum_r {A} (F : A -> word -> S) g l w : cv g (fun x => sum (map (fun i => F i x) l)) w = sum (map (fun i => cv g (F i) w) l).
  Proof.
    induction l as [|i l IH]; cbn [map fold_right]; [apply (conv_zero so L); intros; ring|].
    rewrite (conv_add_r so L g (F i) (fun x => sum (map (fun i => F i x) l))), IH. reflexivity.
  Qed.
  Lemma hom_sum k f w : (length w <= k)%nat -> sum (map (fun i => hom i f w) (seq 0 (k + 1))) = f w.
  Proof.
    intros H. rewrite (sum_one _ _ (length w)).
    - unfold hom. rewrite Nat.eqb_refl. reflexivity.
    - apply seq_NoDup.
    - apply in_seq. lia.
    - intros i _ Hi. apply hom_homog. auto.
  Qed.
  Lemma sum_sub {A} (h k : A -> S) l : sum (map (fun x => s_sub so (h x) (k x)) l) = s_sub so (sum (map h l)) (sum (map k l)).
  Proof. induction l as [|x l IH]; cbn [map fold_right]; rewrite ?IH, !(l_sub_def so L); ring. Qed.
  Lemma brk_parts k f g w :
    hom k (br f g) w = sum (map (fun i => br (hom i f) (hom (k - i) g) w) (seq 0 (k + 1))).
  Proof.
    unfold hom at 1. destruct (Nat.eqb_spec (length w) k) as [E|Ne].
    - unfold brk. rewrite sum_sub. f_equal.
      + rewrite (conv_ext so f (fun x => sum (map (fun i => hom i f x) (seq 0 (k + 1)))) g g w).
        2:{ intros u v ->. symmetry. apply hom_sum. rewrite app_length in E. lia. }
        2:{ reflexivity. }
        rewrite conv_sum_l. apply (sum_ext so). intros i Hi. apply in_seq in Hi. apply conv_terms. intros u v ->. rewrite app_length in E.
        unfold hom. destruct (Nat.eqb_spec (length u) i); [|ring]. replace (length v =? k - i)%nat with true; [reflexivity|]. symmetry. apply Nat.eqb_eq. lia.
      + rewrite (conv_ext so g g f (fun x => sum (map (fun i => hom i f x) (seq 0 (k + 1)))) w).
        2:{ reflexivity. }
        2:{ intros u v ->. symmetry. apply hom_sum. rewrite app_length in E. lia. }
        rewrite conv_sum_r. apply (sum_ext so). intros i Hi. apply in_seq in Hi. apply conv_terms. intros u v ->. rewrite app_length in E.
        unfold hom. destruct (Nat.eqb_spec (length v) i); [|ring]. replace (length u =? k - i)%nat with true; [reflexivity|]. symmetry. apply Nat.eqb_eq. lia.
    - symmetry. apply (sum_zero so L). intros i Hi. apply in_seq in Hi.
      apply (brk_homog so L i (k - i) _ _ (hom_homog i f) (hom_homog (k - i) g)). lia.
  Qed.
  Lemma lc_sum {A} k low (F : A -> word -> S) l : (forall i, In i l -> lc k low (F i)) -> lc k low (fun w => sum (map (fun i => F i w) l)).
  Proof.
    induction l as [|i l IH]; intros H; cbn [map fold_right]; [constructor|].
    apply (lc_add so L n k low (F i) (fun w => sum (map (fun i => F i w) l))); [apply H; now left|]. apply IH. intros j Hj. apply H. now right.
  Qed.
  Lemma lie_lc e : letters_ok n e -> forall k, lc k [] (hom k (lf e)).
  Proof.
    induction e as [a|e IH e' IH'|e IH e' IH'|e IH|c e IH|e IH e' IH']; cbn [letters_ok lie_fun]; intros Hl k.
    - destruct (Nat.eq_dec k 1) as [->|Ne].
      + apply (lc_ext so n _ _ (bf [a])).
        * intros w _. unfold hom. destruct (Nat.eqb_spec (length w) 1) as [_|Nw]; [reflexivity|]. now apply (bf_homog so L [a]).
        * apply lc_b; [reflexivity|constructor; [exact Hl|constructor]|reflexivity|apply lt_nil].
      + apply lc_zero'. intros w _. unfold hom, delta, word_eqb. destruct (Nat.eqb_spec (length w) k) as [E|]; [|reflexivity].
        destruct (list_eq_dec N.eq_dec [a] w) as [<-|]; [|reflexivity]. cbn in E. lia.
    - apply (lc_ext so n _ _ (fun w => hom k (lf e) w [+] hom k (lf e') w)); [|now apply (lc_add so L); [apply IH|apply IH']].
      intros w _. unfold hom. destruct (length w =? k)%nat; ring.
    - apply (lc_ext so n _ _ (fun w => hom k (lf e) w [+] [-] hom k (lf e') w)).
      + intros w _. unfold hom. destruct (length w =? k)%nat; rewrite ?(l_sub_def so L); ring.
      + apply (lc_add so L n k [] (hom k (lf e)) (fun w => [-] hom k (lf e') w)); [now apply IH|]. apply (lc_opp so L). now apply IH'.
    - apply (lc_ext so n _ _ (fun w => [-] hom k (lf e) w)); [intros w _; unfold hom; destruct (length w =? k)%nat; ring|].
      apply (lc_opp so L). now apply IH.
    - apply (lc_ext so n _ _ (fun w => c [*] hom k (lf e) w)); [intros w _; unfold hom; destruct (length w =? k)%nat; ring|].
      apply (lc_scal so L). now apply IH.
    - apply (lc_ext so n _ _ (fun w => sum (map (fun i => br (hom i (lf e)) (hom (k - i) (lf e')) w) (seq 0 (k + 1))))).
      { intros w _. symmetry. apply brk_parts. }
      apply (lc_sum k [] (fun i => br (hom i (lf e)) (hom (k - i) (lf e')))). intros i Hi. apply in_seq in Hi.
      replace k with (i + (k - i))%nat at 1 by lia. apply (lc_brk2 so L); [now apply IH|now apply IH'].
  Qed.

  (** ** coefficients *)
  Definition lsum (k : nat) (c : word -> S) : word -> S := fun w => sum (map (fun l => c l [*] bf l w) (lyndon_words n k)).
  Lemma lc_form k low f : lc k low f -> exists c, forall w, word_ok n w -> f w = lsum k c w.
  Proof.
    induction 1 as [l A B C D| |c f g _ [cf IHf] _ [cg IHg]|f g E _ [c IH]].
    - exists (delta so l). intros w _. unfold lsum. rewrite (sum_one _ _ l).
      + unfold delta, word_eqb. destruct (list_eq_dec N.eq_dec l l); [ring|contradiction].
      + apply lyndon_words_nodup.
      + apply in_lyndon_words. auto.
      + intros x _ Nx. unfold delta, word_eqb. destruct (list_eq_dec N.eq_dec l x) as [<-|]; [contradiction|ring].
    - exists (fun _ => zero). intros w _. symmetry. apply (sum_zero so L). intros; ring.
    - exists (fun l => c [*] cf l [+] cg l). intros w Hw. rewrite (IHf w Hw), (IHg w Hw). unfold lsum.
      rewrite <- (sum_map_scal so L), <- (sum_map_add so L). apply (sum_ext so). intros l _. ring.
    - exists c. intros w Hw. rewrite <- (E w Hw). auto.
  Qed.
  Lemma lc_lsum k c : lc k [] (lsum k c).
  Proof.
    apply (lc_sum k [] (fun l w => c l [*] bf l w)). intros l Hl. apply in_lyndon_words in Hl. destruct Hl as (A & B & C).
    apply (lc_scal so L). apply lc_b; [assumption..|apply lt_nil].
  Qed.
  (** a combination that vanishes at the Lyndon words has no coefficients *)
  Lemma lsum_zero k c : (forall l, In l (lyndon_words n k) -> lsum k c l = zero) -> forall l, In l (lyndon_words n k) -> c l = zero.
  Proof.
    intros H. assert (G : forall m l, rank n l < m -> In l (lyndon_words n k) -> c l = zero).
    { induction m as [|m IH] using N.peano_ind; intros l Hm Hl; [lia|].
      rewrite <- (H l Hl). unfold lsum. pose proof Hl as Hl'. apply in_lyndon_words in Hl'. destruct Hl' as (A & B & C).
      rewrite (sum_one _ _ l); [rewrite (proj1 (bf_triangular so L l A)); ring|apply lyndon_words_nodup|exact Hl|].
      intros x Hx Nx. pose proof Hx as Hx'. apply in_lyndon_words in Hx'. destruct Hx' as (A' & B' & C').
      destruct (lt_total x l) as [T|[T|T]]; [|contradiction|].
      - rewrite (IH x); [ring| |exact Hx]. assert (Q : rank n x < rank n l); [|lia].
        unfold lt in T. rewrite <- (rank_lex n x l B' B) in T by (unfold len; congruence). exact T.
      - rewrite (proj2 (bf_triangular so L x A') l); [ring|congruence|exact T]. }
    intros l Hl. apply (G (rank n l + 1) l); [lia|exact Hl].
  Qed.
  Lemma lc_determined k f : lc k [] f -> (forall l, In l (lyndon_words n k) -> f l = zero) -> forall w, word_ok n w -> f w = zero.
  Proof.
    intros A Z w Hw. destruct (lc_form k [] f A) as [c E]. rewrite (E w Hw). apply (sum_zero so L). intros l Hl.
    rewrite (lsum_zero k c); [ring| |exact Hl]. intros x Hx. rewrite <- E; [auto|]. apply in_lyndon_words in Hx. apply Hx.
  Qed.
  Lemma lc_prescribe k (g : word -> S) : exists c, forall l, In l (lyndon_words n k) -> lsum k c l = g l.
  Proof.
    assert (G : forall m, exists f, lc k [] f /\ forall l, In l (lyndon_words n k) -> rank n l < m -> f l = g l).
    { induction m as [|m IH] using N.peano_ind.
      - exists (fun _ => zero). split; [constructor|]. intros; lia.
      - destruct IH as (f & A & E).
        destruct (Exists_dec (fun l => rank n l = m) (lyndon_words n k) (fun l => N.eq_dec _ _)) as [X|X].
        + apply Exists_exists in X. destruct X as (l & Hl & <-). pose proof Hl as Hl'. apply in_lyndon_words in Hl'. destruct Hl' as (Ll & Ol & El).
          exists (fun w => (g l [+] [-] f l) [*] bf l w [+] f w). split.
          * apply lc_lin; [|exact A]. apply lc_b; [assumption..|apply lt_nil].
          * intros x Hx Hr. pose proof Hx as Hx'. apply in_lyndon_words in Hx'. destruct Hx' as (Lx & Ox & Ex).
            destruct (N.eq_dec (rank n x) (rank n l)) as [Er|Nr].
            { apply rank_inj in Er; [|assumption..|unfold len; congruence]. subst x. rewrite (proj1 (bf_triangular so L l Ll)). ring. }
            rewrite (proj2 (bf_triangular so L l Ll) x); [rewrite (E x Hx) by lia; ring|congruence|].
            unfold lt. rewrite <- (rank_lex n x l Ox Ol) by (unfold len; congruence). apply N.compare_lt_iff. lia.
        + exists f. split; [exact A|]. intros x Hx Hr. apply (E x Hx).
          assert (rank n x <> m); [|lia]. intros Er. apply X. apply Exists_exists. exists x. auto. }
    destruct (G (n ^ N.of_nat k)) as (f & A & E). destruct (lc_form k [] f A) as [c Ec]. exists c. intros l Hl.
    pose proof Hl as Hl'. apply in_lyndon_words in Hl'. destruct Hl' as (Ll & Ol & <-). rewrite <- (Ec l Ol). apply (E l Hl). apply rank_bound. exact Ol.
  Qed.

  (** ** expressions *)
  Notation lyndon_upto := (lyndon_upto n).
  Lemma in_upto t l : In l (lyndon_upto t) <-> lyndon l = true /\ word_ok n l /\ (length l <= t)%nat.
  Proof.
    unfold S_Lyndon.lyndon_upto. rewrite in_concat. split.
    - intros (x & Hx & Hl). apply in_map_iff in Hx. destruct Hx as (k & <- & Hk). apply in_seq in Hk. apply in_lyndon_words in Hl. intuition lia.
    - intros (A & B & C). exists (lyndon_words n (length l)). split; [|apply in_lyndon_words; auto].
      apply in_map_iff. exists (length l - 1)%nat. pose proof (lyndon_nil l A). destruct l as [|a l]; [contradiction|].
      cbn [length] in *. split; [f_equal; lia|]. apply in_seq. lia.
  Qed.
  Notation lyndon_sum := (lyndon_sum so).
  Lemma lyndon_sum_fun c ws w : lf (lyndon_sum c ws) w = sum (map (fun l => c l [*] bf l w) ws).
  Proof.
    induction ws as [|l ws IH]; unfold S_Lyndon.lyndon_sum in *; cbn [fold_right lie_fun nothing map]; [ring|]. rewrite IH. reflexivity.
  Qed.
  Lemma lyndon_bracket_ok l : lyndon l = true -> word_ok n l -> letters_ok n (lyndon_bracket so l).
  Proof.
    revert l. apply (lyndon_ind (fun l => word_ok n l -> letters_ok n (lyndon_bracket so l))).
    - intros a Ha. inversion Ha; subst. assumption.
    - intros w u v _ St U V Hw. rewrite (bracket_std so w u v St). destruct St as (-> & _). apply word_ok_app in Hw.
      split; [apply U|apply V]; apply Hw.
  Qed.
  Lemma lyndon_sum_ok c t : 1 <= n -> letters_ok n (lyndon_sum c (lyndon_upto t)).
  Proof.
    intros Hn. assert (G : forall ws, Forall (fun l => lyndon l = true /\ word_ok n l) ws -> letters_ok n (lyndon_sum c ws)).
    { induction 1 as [|l ws [A B] _ IH]; [cbn; lia|]. split; [now apply lyndon_bracket_ok|exact IH]. }
    apply G, Forall_forall. intros l Hl. apply in_upto in Hl. tauto.
  Qed.
  Lemma lsum_homog k c : homog so k (lsum k c).
  Proof.
    intros w Hw. apply (sum_zero so L). intros l Hl. apply in_lyndon_words in Hl. destruct Hl as (A & _ & C).
    rewrite (bf_homog so L l A w) by lia. ring.
  Qed.
  Lemma lyndon_upto_fun c t w : lf (lyndon_sum c (lyndon_upto t)) w = if ((1 <=? length w) && (length w <=? t))%nat then lsum (length w) c w else zero.
  Proof.
    rewrite lyndon_sum_fun. unfold S_Lyndon.lyndon_upto. rewrite <- flat_map_concat_map, (sum_flat so L).
    change (sum (map (fun k => lsum (k + 1) c w) (seq 0 t)) = if ((1 <=? length w) && (length w <=? t))%nat then lsum (length w) c w else zero).
    destruct ((1 <=? length w) && (length w <=? t))%nat eqn:E.
    - apply andb_true_iff in E. destruct E as [E1 E2]. apply Nat.leb_le in E1, E2.
      rewrite (sum_one _ _ (length w - 1)%nat); [do 2 f_equal; lia|apply seq_NoDup|apply in_seq; lia|].
      intros k _ Hk. apply lsum_homog. lia.
    - apply (sum_zero so L). intros k Hk. apply in_seq in Hk. apply lsum_homog. intros Ew. rewrite Ew in E.
      apply andb_false_iff in E. destruct E as [E|E]; apply Nat.leb_gt in E; lia.
  Qed.
  (** every Lie expression is a combination of brackets of Lyndon words, up to any degree *)
  Lemma lie_basis e t : letters_ok n e -> exists c, forall w, word_ok n w -> (length w <= t)%nat -> lf e w = lf (lyndon_sum c (lyndon_upto t)) w.
  Proof.
    intros He. assert (G : forall t, exists c, forall w, word_ok n w -> (length w <= t)%nat -> lf e w = lsum (length w) c w).
    { clear t. induction t as [|t [c IH]].
      - destruct (lc_form 0 [] _ (lie_lc e He 0)) as [c Hc]. exists c. intros w Hw Hl. destruct w; [|cbn in Hl; lia].
        specialize (Hc [] Hw). exact Hc.
      - destruct (lc_form (Datatypes.S t) [] _ (lie_lc e He (Datatypes.S t))) as [c' Hc'].
        exists (fun l => if (length l <=? t)%nat then c l else c' l). intros w Hw Hl. destruct (Nat.eq_dec (length w) (Datatypes.S t)) as [E|Ne].
        + specialize (Hc' w Hw). unfold hom in Hc'. rewrite E, Nat.eqb_refl in Hc'. rewrite Hc', E.
          apply (sum_ext so). intros l Hl'. apply in_lyndon_words in Hl'. destruct Hl' as (_ & _ & El). rewrite El.
          replace (Datatypes.S t <=? t)%nat with false; [reflexivity|]. symmetry. apply Nat.leb_gt. lia.
        + rewrite (IH w Hw) by lia. apply (sum_ext so). intros l Hl'. apply in_lyndon_words in Hl'. destruct Hl' as (_ & _ & El). rewrite El.
          replace (length w <=? t)%nat with true; [reflexivity|]. symmetry. apply Nat.leb_le. lia. }
    destruct (G t) as [c Hc]. exists c. intros w Hw Hl. rewrite lyndon_upto_fun. rewrite (Hc w Hw Hl).
    destruct w as [|a w]; [unfold lsum; cbn; reflexivity|]. apply Nat.leb_le in Hl. rewrite Hl. reflexivity.
  Qed.
  (** the coefficients are determined *)
  Lemma lie_basis_unique c c' t : (forall w, word_ok n w -> (length w <= t)%nat -> lf (lyndon_sum c (lyndon_upto t)) w = lf (lyndon_sum c' (lyndon_upto t)) w) ->
    forall l, In l (lyndon_upto t) -> c l = c' l.
  Proof.
    intros E l Hl. apply in_upto in Hl. destruct Hl as (A & B & C).
    assert (Z : c l [+] [-] c' l = zero).
    { apply (lsum_zero (length l) (fun l => c l [+] [-] c' l)); [|apply in_lyndon_words; auto].
      intros x Hx. apply in_lyndon_words in Hx. destruct Hx as (A' & B' & C'). specialize (E x B' ltac:(lia)).
      rewrite !lyndon_upto_fun in E. pose proof (lyndon_nil x A'). replace ((1 <=? length x) && (length x <=? t))%nat with true in E.
      2:{ symmetry. apply andb_true_iff. split; apply Nat.leb_le; [destruct x; [contradiction|cbn; lia]|lia]. }
      rewrite C' in E. transitivity (lsum (length l) c x [+] [-] lsum (length l) c' x); [|rewrite E; ring].
      unfold lsum. generalize (lyndon_words n (length l)). intros ys. induction ys as [|y ys IH]; cbn [map fold_right]; [ring|]. rewrite IH. ring. }
    transitivity ((c l [+] [-] c' l) [+] c' l); [ring|]. rewrite Z. ring.
  Qed.
  (** the coefficients at the Lyndon words determine a Lie polynomial *)
  Lemma lie_determined e e' t : letters_ok n e -> letters_ok n e' ->
    (forall l, In l (lyndon_upto t) -> lf e l = lf e' l) -> forall w, word_ok n w -> (length w <= t)%nat -> lf e w = lf e' w.
  Proof.
    intros He He' E w Hw Hl.
    assert (Z : hom (length w) (lf (Minus e e')) w = zero).
    { apply (lc_determined (length w) _ (lie_lc (Minus e e') (conj He He') (length w))); [|exact Hw].
      intros l Hl'. apply in_lyndon_words in Hl'. destruct Hl' as (A & B & C). unfold hom. rewrite C, Nat.eqb_refl. cbn [lie_fun].
      rewrite (E l); [rewrite (l_sub_def so L); ring|]. apply in_upto. repeat split; [exact A|exact B|lia]. }
    unfold hom in Z. rewrite Nat.eqb_refl in Z. cbn [lie_fun] in Z. rewrite (l_sub_def so L) in Z.
    transitivity ((lf e w [+] [-] lf e' w) [+] lf e' w); [ring|]. rewrite Z. ring.
  Qed.
  (** and can be any scalars *)
  Lemma lie_prescribed (g : word -> S) t : exists c, forall l, In l (lyndon_upto t) -> lf (lyndon_sum c (lyndon_upto t)) l = g l.
  Proof.
    assert (G : forall t, exists c, forall l, In l (lyndon_upto t) -> lsum (length l) c l = g l).
    { clear t. induction t as [|t [c IH]].
      - exists (fun _ => zero). intros l [].
      - destruct (lc_prescribe (Datatypes.S t) g) as [c' Hc'].
        exists (fun l => if (length l <=? t)%nat then c l else c' l). intros l Hl. apply in_upto in Hl. destruct Hl as (A & B & C).
        destruct (Nat.eq_dec (length l) (Datatypes.S t)) as [E|Ne].
        + rewrite <- (Hc' l) by (apply in_lyndon_words; auto). rewrite E. apply (sum_ext so). intros x Hx. apply in_lyndon_words in Hx.
          destruct Hx as (_ & _ & Ex). rewrite Ex. replace (Datatypes.S t <=? t)%nat with false; [reflexivity|]. symmetry. apply Nat.leb_gt. lia.
        + rewrite <- (IH l) by (apply in_upto; repeat split; (assumption || lia)). apply (sum_ext so). intros x Hx. apply in_lyndon_words in Hx.
          destruct Hx as (_ & _ & Ex). rewrite Ex. replace (length l <=? t)%nat with true; [reflexivity|]. symmetry. apply Nat.leb_le. lia. }
    destruct (G t) as [c Hc]. exists c. intros l Hl. rewrite lyndon_upto_fun, <- (Hc l Hl). apply in_upto in Hl. destruct Hl as (A & B & C).
    pose proof (lyndon_nil l A). replace ((1 <=? length l) && (length l <=? t))%nat with true; [reflexivity|].
    symmetry. apply andb_true_iff. split; apply Nat.leb_le; [destruct l; [contradiction|cbn; lia]|lia].
  Qed.
End LyndonBasis.
