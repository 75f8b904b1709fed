(** Words: the dictionary order and Lyndon words. *)
From Verif Require Import Machine MachineLemmas S_Words L_Words S_Lie S_Dynkin S_Lyndon.

(** ** the dictionary order *)
Definition lt (u v : word) : Prop := lex u v = Lt.
(** u comes before v because of a letter *)
Fixpoint ahead (u v : word) : Prop :=
  match u, v with
  | a :: u', b :: v' => a < b \/ a = b /\ ahead u' v'
  | _, _ => False
  end.
Lemma lt_cons a u b v : lt (a :: u) (b :: v) <-> a < b \/ a = b /\ lt u v.
Proof.
  unfold lt. cbn [lex]. destruct (N.compare_spec a b) as [->|H|H]; split; intros A; try discriminate; try (auto; fail).
  - destruct A as [A|[_ A]]; [lia|exact A].
  - destruct A as [A|[A _]]; lia.
Qed.
Lemma lt_nil u : ~ lt u [].
Proof. destruct u; discriminate. Qed.
Lemma nil_lt a u : lt [] (a :: u).
Proof. reflexivity. Qed.
Lemma lt_irrefl u : ~ lt u u.
Proof. induction u as [|a u IH]; [discriminate|]. rewrite lt_cons. intros [A|[_ A]]; [lia|auto]. Qed.
Lemma lt_trans u v w : lt u v -> lt v w -> lt u w.
Proof.
  revert v w. induction u as [|a u IH]; intros [|b v] [|c w] A B; try (exfalso; eapply lt_nil; eassumption); try reflexivity.
  rewrite lt_cons in *. destruct A as [A|[-> A]], B as [B|[-> B]]; [left; lia|left; lia|left; lia|right]. split; [reflexivity|]. eapply IH; eauto.
Qed.
Lemma lt_total u v : lt u v \/ u = v \/ lt v u.
Proof.
  revert v. induction u as [|a u IH]; intros [|b v]; [auto|left; reflexivity|right; right; reflexivity|].
  rewrite !lt_cons. destruct (N.lt_trichotomy a b) as [A|[->|A]]; [auto| |auto].
  destruct (IH v) as [A|[->|A]]; auto.
Qed.
Lemma lt_app p u v : lt (p ++ u) (p ++ v) <-> lt u v.
Proof. induction p as [|a p IH]; [reflexivity|]. cbn [app]. rewrite lt_cons, IH. intuition lia. Qed.
Lemma lt_more u v : v <> [] -> lt u (u ++ v).
Proof. intros A. rewrite <- (app_nil_r u) at 1. apply lt_app. destruct v; [contradiction|reflexivity]. Qed.
Lemma ahead_lt u v x y : ahead u v -> lt (u ++ x) (v ++ y).
Proof.
  revert v. induction u as [|a u IH]; intros [|b v] A; cbn in A; try contradiction. cbn [app]. rewrite lt_cons.
  destruct A as [A|[-> A]]; [auto|right; auto].
Qed.
Lemma ahead_lt0 u v : ahead u v -> lt u v.
Proof. intros A. rewrite <- (app_nil_r u), <- (app_nil_r v). now apply ahead_lt. Qed.
Lemma lt_cases u v : lt u v -> (exists s, s <> [] /\ v = u ++ s) \/ ahead u v.
Proof.
  revert v. induction u as [|a u IH]; intros [|b v] A; [discriminate A| |discriminate A|].
  - left. exists (b :: v). split; [discriminate|reflexivity].
  - rewrite lt_cons in A. cbn [ahead]. destruct A as [A|[-> A]]; [auto|].
    destruct (IH v A) as [(s & Hs & ->)|B]; [left; exists s; split; [exact Hs|reflexivity]|auto].
Qed.
Lemma lt_long u v : (length v <= length u)%nat -> lt u v -> ahead u v.
Proof.
  intros A B. destruct (lt_cases u v B) as [(s & Hs & ->)|C]; [|exact C].
  destruct s; [contradiction|]. rewrite app_length in A. cbn in A. lia.
Qed.
Lemma lt_app_r u v y : lt u v -> lt u (v ++ y).
Proof.
  intros A. destruct (lt_cases u v A) as [(s & Hs & ->)|B].
  - rewrite <- app_assoc. apply lt_more. destruct s; [contradiction|discriminate].
  - rewrite <- (app_nil_r u). now apply ahead_lt.
Qed.
Lemma before_lt u v : before u v = true <-> lt u v.
Proof. unfold before, lt. destruct (lex u v); split; congruence. Qed.
Lemma le_app_same u v x y : length u = length v -> lt (u ++ x) (v ++ y) -> lt u v \/ u = v /\ lt x y.
Proof.
  intros E A. destruct (lt_total u v) as [B|[->|B]]; [auto| |].
  - right. split; [reflexivity|]. now apply lt_app in A.
  - exfalso. apply (lt_irrefl (u ++ x)). eapply lt_trans; [exact A|]. apply ahead_lt, lt_long; [lia|exact B].
Qed.

(** ** Lyndon words *)
Lemma in_suffixes w s : In s (suffixes w) <-> s <> [] /\ exists u, w = u ++ s.
Proof.
  induction w as [|a w IH]; cbn [suffixes].
  - split; [intros []|]. intros (A & u & B). symmetry in B. apply app_eq_nil in B. destruct B; contradiction.
  - split.
    + intros [<-|A]; [split; [discriminate|exists []; reflexivity]|]. apply IH in A. destruct A as (A & u & ->).
      split; [exact A|]. exists (a :: u). reflexivity.
    + intros (A & [|b u] & B); [left; cbn in B; congruence|right]. injection B as <- ->. apply IH. split; [exact A|]. exists u. reflexivity.
Qed.
Lemma lyndon_spec w : lyndon w = true <-> w <> [] /\ forall u v, w = u ++ v -> u <> [] -> v <> [] -> lt w v.
Proof.
  destruct w as [|a w]; cbn [lyndon]; [split; [discriminate|intros [A _]; contradiction]|]. rewrite forallb_forall. split.
  - intros A. split; [discriminate|]. intros [|b u] v E Hu Hv; [contradiction|]. injection E as <- ->.
    apply before_lt, A, in_suffixes. split; [exact Hv|]. exists u. reflexivity.
  - intros [_ A] s Hs. apply in_suffixes in Hs. destruct Hs as (Hs & u & ->). apply before_lt, (A (a :: u)); [reflexivity|discriminate|exact Hs].
Qed.
Lemma lyndon_nil w : lyndon w = true -> w <> [].
Proof. intros A. apply lyndon_spec in A. apply A. Qed.
Lemma lyndon_suffix u v : lyndon (u ++ v) = true -> u <> [] -> v <> [] -> ahead (u ++ v) v.
Proof.
  intros A Hu Hv. apply lt_long; [rewrite app_length; lia|]. apply lyndon_spec in A. destruct A as [_ A]. apply (A u v); auto.
Qed.
Lemma lyndon_letter a : lyndon [a] = true.
Proof. reflexivity. Qed.
(** two ways to cut the same word *)
Lemma cut_cases (u v x y : word) : u ++ v = x ++ y -> (exists s, u = x ++ s /\ y = s ++ v) \/ (exists s, x = u ++ s /\ v = s ++ y).
Proof.
  revert x. induction u as [|a u IH]; intros [|b x] E; cbn in E.
  - left. exists []. split; [reflexivity|]. now symmetry.
  - right. exists (b :: x). split; [reflexivity|exact E].
  - left. exists (a :: u). split; [reflexivity|]. now symmetry.
  - injection E as -> E. destruct (IH x E) as [(s & -> & ->)|(s & -> & ->)]; [left|right]; exists s; split; reflexivity.
Qed.
Lemma lyndon_before_end u v : lyndon u = true -> lyndon v = true -> lt u v -> lt (u ++ v) v.
Proof.
  intros A B C. destruct (lt_cases u v C) as [(s & Hs & ->)|D].
  - apply lt_app. apply ahead_lt0, lyndon_suffix; [exact B|now apply lyndon_nil|exact Hs].
  - rewrite <- (app_nil_r v) at 2. now apply ahead_lt.
Qed.
Lemma lyndon_app u v : lyndon u = true -> lyndon v = true -> lt u v -> lyndon (u ++ v) = true.
Proof.
  intros A B C. pose proof (lyndon_before_end u v A B C) as D.
  apply lyndon_spec. split; [intros E; apply app_eq_nil in E; destruct E as [E _]; subst; discriminate A|].
  intros x y E Hx Hy. destruct (cut_cases u v x y E) as [(s & -> & ->)|(s & -> & ->)].
  - destruct s as [|a s]; [rewrite app_nil_r in *; exact D|]. apply ahead_lt, lyndon_suffix; [exact A|exact Hx|discriminate].
  - destruct s as [|a s]; [exact D|].
    eapply lt_trans; [exact D|]. apply ahead_lt0, lyndon_suffix; [exact B|discriminate|exact Hy].
Qed.
(** the first suffix *)
Lemma least_suffix_spec w : w <> [] -> least_suffix w <> [] /\ (exists u, w = u ++ least_suffix w)
  /\ forall u s, w = u ++ s -> s <> [] -> s = least_suffix w \/ lt (least_suffix w) s.
Proof.
  induction w as [|a w IH]; intros Hw; [contradiction|]. cbn [least_suffix]. destruct w as [|b w].
  { cbn. split; [discriminate|]. split; [exists []; reflexivity|]. intros [|c u] s E Hs; [left; now symmetry|].
    injection E as _ E. symmetry in E. apply app_eq_nil in E. destruct E; contradiction. }
  destruct (IH ltac:(discriminate)) as (A & (u0 & B) & C). set (l := least_suffix (b :: w)) in *. clearbody l.
  destruct l as [|c l]; [contradiction|]. destruct (before (a :: b :: w) (c :: l)) eqn:E.
  - apply before_lt in E. split; [discriminate|]. split; [exists []; reflexivity|].
    intros [|d u] s E' Hs; [left; now symmetry|]. injection E' as <- E'. right.
    destruct (C u s E' Hs) as [->|D]; [exact E|]. eapply lt_trans; eassumption.
  - split; [discriminate|]. split; [exists (a :: u0); rewrite B; reflexivity|].
    intros [|d u] s E' Hs.
    + cbn in E'. subst s. destruct (lt_total (c :: l) (a :: b :: w)) as [D|[D|D]]; [right; exact D|left; now symmetry|].
      apply before_lt in D. congruence.
    + injection E' as <- E'. apply (C u s E' Hs).
Qed.
(** the cut of a Lyndon word at its first proper suffix *)
Definition std (w u v : word) : Prop := w = u ++ v /\ u <> [] /\ v <> []
  /\ forall x y, w = x ++ y -> x <> [] -> y <> [] -> y = v \/ lt v y.
Lemma std_unique w u v x y : std w u v -> std w x y -> u = x /\ v = y.
Proof.
  intros (-> & Hu & Hv & A) (E & Hx & Hy & B).
  assert (D : y = v). { destruct (A x y E Hx Hy) as [C|C]; [exact C|].
    destruct (B u v eq_refl Hu Hv) as [D|D]; [now symmetry|]. exfalso. apply (lt_irrefl y). eapply lt_trans; eassumption. }
  subst. split; [|reflexivity]. now apply app_inv_tail in E.
Qed.
Lemma std_exists a b w : exists u, std (a :: b :: w) u (least_suffix (b :: w)).
Proof.
  destruct (least_suffix_spec (b :: w)) as (A & (u & B) & C); [discriminate|]. exists (a :: u). split; [exact (f_equal (cons a) B)|].
  split; [discriminate|]. split; [exact A|]. intros [|c x] y E Hx Hy; [contradiction|]. injection E as _ E. apply (C x y E Hy).
Qed.
Lemma std_lyndon w u v : lyndon w = true -> std w u v -> lyndon u = true /\ lyndon v = true /\ lt u v.
Proof.
  intros A (-> & Hu & Hv & B).
  assert (V : lyndon v = true).
  { apply lyndon_spec. split; [exact Hv|]. intros x y -> Hx Hy.
    destruct (B (u ++ x) y) as [C|C]; [now rewrite app_assoc|intros C; apply app_eq_nil in C; destruct C; contradiction|exact Hy| |exact C].
    exfalso. apply Hx. apply (app_inv_tail y). exact (eq_sym C). }
  assert (U : lyndon u = true).
  { apply lyndon_spec. split; [exact Hu|]. intros x y -> Hx Hy. destruct (lt_total (x ++ y) y) as [C|[C|C]]; [exact C| |].
    - exfalso. apply Hx. apply (app_inv_tail y). exact C.
    - exfalso. assert (D : lt ((x ++ y) ++ v) (y ++ v)).
      { rewrite <- app_assoc in *. apply ahead_lt0, lyndon_suffix; [exact A|exact Hx|].
        intros E. apply app_eq_nil in E. destruct E; contradiction. }
      destruct (lt_cases _ _ C) as [(s & Hs & E)|E].
      + rewrite E, <- app_assoc in D. apply lt_app in D.
        destruct (B y (s ++ v)) as [F|F].
        * rewrite E, app_assoc. reflexivity.
        * exact Hy.
        * intros F. apply app_eq_nil in F. destruct F; contradiction.
        * apply (lt_irrefl v). rewrite F in D at 1. exact D.
        * apply (lt_irrefl v). eapply lt_trans; eassumption.
      + apply (lt_irrefl (y ++ v)). eapply lt_trans; [|exact D]. now apply ahead_lt. }
  split; [exact U|]. split; [exact V|]. eapply lt_trans; [apply (lt_more u v Hv)|]. apply ahead_lt0, lyndon_suffix; assumption.
Qed.
(** when the concatenation of two Lyndon words is cut between them *)
Lemma std_letter a v : lyndon v = true -> std ([a] ++ v) [a] v.
Proof.
  intros V. split; [reflexivity|]. split; [discriminate|]. split; [now apply lyndon_nil|].
  intros [|b x] y E Hx Hy; [contradiction|]. injection E as _ ->. destruct x as [|b' x]; [left; reflexivity|right].
  apply ahead_lt0, lyndon_suffix; [exact V|discriminate|exact Hy].
Qed.
Lemma std_app u v u' u'' : lyndon v = true -> std u u' u'' -> ~ lt u'' v -> std (u ++ v) u v.
Proof.
  intros V (E & Hu' & Hu'' & B) C. assert (Hv : v <> []) by now apply lyndon_nil.
  split; [reflexivity|]. split; [rewrite E; destruct u'; [contradiction|discriminate]|]. split; [exact Hv|].
  intros x y E' Hx Hy. destruct (cut_cases u v x y E') as [(s & -> & ->)|(s & -> & ->)].
  - destruct s as [|a s]; [left; reflexivity|right].
    assert (D : ~ lt (a :: s) v).
    { intros D. apply C. destruct (B x (a :: s) eq_refl Hx ltac:(discriminate)) as [<-|F]; [exact D|]. eapply lt_trans; eassumption. }
    destruct (lt_total v (a :: s)) as [F|[->|F]]; [now apply lt_app_r|now apply lt_more|contradiction].
  - destruct s as [|a s]; [left; reflexivity|right]. apply ahead_lt0, lyndon_suffix; [exact V|discriminate|exact Hy].
Qed.
(** the recursion of the bracket *)
Lemma bracket_std {S R} (so : M_Scalar.scalar_ops S R) w u v : std w u v ->
  lyndon_bracket so w = Bracket (lyndon_bracket so u) (lyndon_bracket so v).
Proof.
  assert (G : forall k k' x, (length x <= k)%nat -> (length x <= k')%nat -> bracket_rec so k x = bracket_rec so k' x).
  { induction k as [|k IH]; intros k' [|a [|b x]] A B; try reflexivity; try (destruct k'; reflexivity); [cbn in A; lia|].
    destruct k' as [|k']; [cbn in B; lia|]. change (a :: b :: x) with (a :: (b :: x)). cbn [bracket_rec].
    destruct (std_exists a b x) as (u' & E & Hu & Hv & _). set (l := least_suffix (b :: x)) in *.
    assert (Ll : (length (a :: b :: x) = length u' + length l)%nat) by (rewrite E, app_length; reflexivity).
    assert (1 <= length u')%nat by (destruct u'; [contradiction|cbn; lia]).
    assert (1 <= length l)%nat by (destruct l; [contradiction|cbn; lia]).
    cbn [length] in A, B, Ll |- *. f_equal; apply IH; rewrite ?firstn_length; cbn [length]; lia. }
  intros St. pose proof St as (E & Hu & Hv & _).
  assert (1 <= length u)%nat by (destruct u; [contradiction|cbn; lia]).
  assert (1 <= length v)%nat by (destruct v; [contradiction|cbn; lia]).
  destruct w as [|a [|b w]].
  - symmetry in E. apply app_eq_nil in E. destruct E; contradiction.
  - exfalso. apply (f_equal (@length N)) in E. rewrite app_length in E. cbn in E. lia.
  - destruct (std_exists a b w) as (u' & St'). destruct (std_unique _ _ _ _ _ St St') as [-> ->].
    unfold lyndon_bracket. change (length (a :: b :: w)) with (Datatypes.S (length (b :: w))).
    change (a :: b :: w) with (a :: (b :: w)). cbn [bracket_rec].
    set (l := least_suffix (b :: w)) in *. assert (Ll : (length (a :: b :: w) = length u' + length l)%nat) by (rewrite E, app_length; reflexivity).
    replace (firstn (length (a :: b :: w) - length l) (a :: b :: w)) with u'.
    2:{ rewrite Ll, E. replace (length u' + length l - length l)%nat with (length u' + 0)%nat by lia. rewrite firstn_app_2. cbn. now rewrite app_nil_r. }
    cbn [length] in *. f_equal; apply G; lia.
Qed.
