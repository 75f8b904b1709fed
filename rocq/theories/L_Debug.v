(** The text written by Debug for a key determines its letters. *)
From Coq Require Import String Ascii DecimalString DecimalN.
From Verif Require Import Machine MachineLemmas S_Words M_TensorKey L_TensorKey M_TensorBasis S_TensorApi.
Local Open Scope string_scope.

Lemma sapp_assoc (a b c : string) : (a ++ b) ++ c = a ++ (b ++ c).
Proof. induction a as [|x a IH]; cbn; [reflexivity|rewrite IH; reflexivity]. Qed.
Lemma sapp_nil_r (a : string) : a ++ "" = a.
Proof. induction a as [|x a IH]; cbn; [reflexivity|rewrite IH; reflexivity]. Qed.

Definition is_digit (c : ascii) : bool := (48 <=? N_of_ascii c)%N && (N_of_ascii c <=? 57)%N.
Fixpoint all_digits (s : string) : bool :=
  match s with EmptyString => true | String c s' => is_digit c && all_digits s' end.
Definition starts_nondigit (s : string) : Prop :=
  match s with EmptyString => False | String c _ => is_digit c = false end.

Lemma uint_digits d : all_digits (NilEmpty.string_of_uint d) = true.
Proof. induction d; cbn; try reflexivity; exact IHd. Qed.
Lemma u32_text_digits x : all_digits (u32_text x) = true.
Proof. unfold u32_text, NilZero.string_of_uint. destruct (N.to_uint x) eqn:E; try reflexivity; apply uint_digits. Qed.
Lemma to_uint_nonnil x : N.to_uint x <> Decimal.Nil.
Proof.
  intros H. pose proof (Unsigned.of_to x) as E. rewrite H in E. cbn in E. subst x. discriminate.
Qed.
Lemma u32_text_inj x y : u32_text x = u32_text y -> x = y.
Proof.
  intros H. unfold u32_text in H. apply (f_equal NilZero.uint_of_string) in H.
  rewrite !NilZero.usu in H by apply to_uint_nonnil. injection H as H.
  rewrite <- (Unsigned.of_to x), <- (Unsigned.of_to y), H. reflexivity.
Qed.

Lemma digits_split d1 d2 r1 r2 : all_digits d1 = true -> all_digits d2 = true ->
  starts_nondigit r1 -> starts_nondigit r2 -> d1 ++ r1 = d2 ++ r2 -> d1 = d2 /\ r1 = r2.
Proof.
  revert d2; induction d1 as [|c d1 IH]; intros [|c' d2] H1 H2 Hr1 Hr2 E; cbn in *.
  - split; [reflexivity|exact E].
  - subst r1. cbn in Hr1. apply andb_true_iff in H2. destruct H2 as [H2 _]. congruence.
  - subst r2. cbn in Hr2. apply andb_true_iff in H1. destruct H1 as [H1 _]. congruence.
  - injection E as -> E. apply andb_true_iff in H1, H2. destruct H1 as [_ H1], H2 as [_ H2].
    destruct (IH d2 H1 H2 Hr1 Hr2 E) as [-> ->]. split; reflexivity.
Qed.

(** everything after the first letter, including the closing parenthesis *)
Fixpoint text_tail (l : list N) : string :=
  match l with [] => ")" | a :: l' => ", " ++ u32_text a ++ text_tail l' end.
Lemma text_tail_nondigit l : starts_nondigit (text_tail l).
Proof. destruct l; reflexivity. Qed.
Lemma text_tail_inj l m : text_tail l = text_tail m -> l = m.
Proof.
  revert m; induction l as [|a l IH]; intros [|b m] E; cbn [text_tail] in E; try discriminate; [reflexivity|].
  cbn in E. injection E as E.
  apply digits_split in E; try apply u32_text_digits; try apply text_tail_nondigit.
  destruct E as [E1 E2]. apply u32_text_inj in E1. rewrite E1, (IH m E2). reflexivity.
Qed.

Lemma concat_tail a l : String.concat ", " (map u32_text (a :: l)) ++ ")" = u32_text a ++ text_tail l.
Proof.
  revert a; induction l as [|b l IH]; intros a; [reflexivity|].
  change (String.concat ", " (map u32_text (a :: b :: l)))
    with (u32_text a ++ ", " ++ String.concat ", " (map u32_text (b :: l))).
  rewrite !sapp_assoc, IH. reflexivity.
Qed.
Lemma u32_text_nonempty a : exists c s, u32_text a = String c s /\ is_digit c = true.
Proof.
  pose proof (u32_text_digits a) as H. destruct (u32_text a) as [|c s] eqn:E.
  - unfold u32_text in E. pose proof (to_uint_nonnil a). destruct (N.to_uint a); cbn in E; congruence.
  - cbn in H. apply andb_true_iff in H. exists c, s. split; [reflexivity|apply H].
Qed.
Lemma debug_text_inj l m : debug_text l = debug_text m -> l = m.
Proof.
  unfold debug_text. intros E. cbn in E. injection E as E.
  destruct l as [|a l], m as [|b m]; [reflexivity| | |].
  - rewrite concat_tail in E. destruct (u32_text_nonempty b) as (c & s & Hb & Hd). rewrite Hb in E.
    cbn in E. injection E as <- _. discriminate.
  - rewrite concat_tail in E. destruct (u32_text_nonempty a) as (c & s & Ha & Hd). rewrite Ha in E.
    cbn in E. injection E as -> _. discriminate.
  - rewrite !concat_tail in E.
    apply digits_split in E; try apply u32_text_digits; try apply text_tail_nondigit.
    destruct E as [E1 E2]. apply u32_text_inj in E1. apply text_tail_inj in E2. congruence.
Qed.

Lemma debug_loop p n k (l : list N) i acc : (0 < i)%N ->
  (forall j x, nth_error l j = Some x -> tk_get_letter p n k (i + N.of_nat j) = Ret x) ->
  (s <- for_each (seqN i (length l)) (tk_debug_step p n k) acc ;; Ret (s ++ ")"))
  = Ret (acc ++ text_tail l).
Proof.
  revert i acc; induction l as [|a l IH]; intros i acc Hi H.
  - cbn. reflexivity.
  - cbn [length seqN for_each]. unfold tk_debug_step at 1.
    pose proof (H O a eq_refl) as H0. rewrite N.add_0_r in H0. rewrite H0. cbn [bind].
    destruct (N.ltb_spec 0 i); [|lia]. cbn [bind]. rewrite IH.
    + cbn [text_tail]. rewrite !sapp_assoc. reflexivity.
    + lia.
    + intros j x Hj. specialize (H (S j) x Hj). replace (i + 1 + N.of_nat j)%N with (i + N.of_nat (S j))%N by lia.
      exact H.
Qed.
Lemma Forall2_len {A B} {R : A -> B -> Prop} {l m} : Forall2 R l m -> length l = length m.
Proof. induction 1; cbn; congruence. Qed.
Lemma Forall2_nth {A B} {R : A -> B -> Prop} {l m} : Forall2 R l m ->
  forall i x y, nth_error l i = Some x -> nth_error m i = Some y -> R x y.
Proof.
  induction 1 as [|a b l m Hab _ IH]; intros [|i] x y Hx Hy; cbn in *; try discriminate; [congruence|].
  eapply IH; eassumption.
Qed.
Lemma debug_letters p n k l : tk_to_letters p n k = Ret l -> tk_debug p n k = Ret (debug_text l).
Proof.
  unfold tk_to_letters, tk_debug, range. rewrite N.sub_0_r. intros H.
  apply mapM_Ret in H. pose proof (Forall2_len H) as Hl. rewrite seqN_length in Hl. rewrite Hl in *.
  assert (Hg : forall j x, nth_error l j = Some x -> tk_get_letter p n k (N.of_nat j) = Ret x).
  { intros j x Hj. assert (Hjl : (j < length l)%nat) by (apply nth_error_Some; congruence).
    apply (Forall2_nth H j (N.of_nat j) x); [|exact Hj]. rewrite seqN_nth by exact Hjl. reflexivity. }
  destruct l as [|a l]; [reflexivity|].
  cbn [length seqN for_each]. unfold tk_debug_step at 1.
  rewrite (Hg O a eq_refl : tk_get_letter p n k 0 = Ret a). cbn [bind N.ltb N.compare].
  rewrite debug_loop.
  - unfold debug_text. rewrite concat_tail. cbn. reflexivity.
  - lia.
  - intros j x Hj. replace (0 + 1 + N.of_nat j)%N with (N.of_nat (S j)) by lia. apply Hg. exact Hj.
Qed.
