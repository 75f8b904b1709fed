(** The antipode and shuffles. *)
From Coq Require Import Ring_theory Ring.
From Verif Require Import Machine MachineLemmas S_Words L_Words M_Scalar M_Dense S_Vector S_Tensor L_Ring L_Algebra L_Conv L_Series L_ExpGroup S_Shuffle L_Shuffle S_Antipode.

Section Antipode.
  Context {S R : Type} (so : scalar_ops S R) (L : ring_laws so).
  Let RT := ring_of so L.
  Add Ring scalars : RT.
  Notation zero := (s_zero so).
  Notation one := (s_one so).
  Infix "[+]" := (s_add so) (at level 50, left associativity).
  Infix "[*]" := (s_mul so) (at level 40, left associativity).
  Notation "[-] x" := (s_uminus so x) (at level 35, right associativity).
  Notation cv := (conv so).
  Notation sh := (shuffle_sum so).
  Notation eps := (unit_fun so).
  Notation anti := (antipode so).
  Notation sgn k x := (if Nat.even k then x else [-] x).

  Lemma sgn_S k x : sgn (Datatypes.S k) x = [-] (sgn k x).
  Proof. rewrite Nat.even_succ, <- Nat.negb_even. destruct (Nat.even k); cbn [negb]; [reflexivity|ring]. Qed.
  Lemma sgn_mul k l x y : sgn k x [*] sgn l y = sgn (k + l) (x [*] y).
  Proof. rewrite Nat.even_add. destruct (Nat.even k), (Nat.even l); cbn [Bool.eqb]; ring. Qed.
  Lemma sgn_sgn k x : sgn k (sgn k x) = x.
  Proof. destruct (Nat.even k); [reflexivity|ring]. Qed.

  (** the letters of [v] move one by one, with alternating signs, to the front of [r] *)
  Fixpoint alt (f : word -> S) (r v : word) : S :=
    match v with [] => sh f r [] | b :: v' => sh f r (b :: v') [+] [-] alt f (b :: r) v' end.
  Lemma alt_cons f a r v : forall r0, r0 = a :: r -> alt f r0 v = sh (der a f) r v.
  Proof.
    revert a r. induction v as [|b v IH]; intros a r r0 ->; cbn [alt]; [rewrite !(sh_nil_r so L); reflexivity|].
    rewrite (IH b (a :: r) _ eq_refl), (sh_cons so L). ring.
  Qed.
  Lemma alt_zero f b v : alt f [] (b :: v) = zero.
  Proof. cbn [alt]. rewrite (alt_cons f b [] v _ eq_refl), !(sh_nil_l so L). unfold der. ring. Qed.

  Lemma alt_group n t f v : forall r, group_like so n t f -> word_ok n r -> word_ok n v -> len r + len v <= t ->
    cv (fun u => sgn (length u) (f (rev u ++ r))) f v = alt f r v.
  Proof.
    induction v as [|b v IH]; intros r G Hr Hv H; cbn [alt].
    - rewrite (conv_nil so L). cbn. rewrite (proj1 G), (sh_nil_r so L). ring.
    - rewrite (conv_cons so). cbn [length Nat.even rev app]. rewrite (proj2 G r (b :: v) Hr Hv H). inversion Hv as [|b' v' Hb Hv']; subst. rewrite !len_cons in *.
      assert (Hbr : word_ok n (b :: r)) by (constructor; assumption).
      rewrite <- (IH (b :: r) G Hbr Hv') by (rewrite len_cons; lia). f_equal.
      transitivity ([-] one [*] cv (fun u => sgn (length u) (f (rev u ++ b :: r))) f v); [|ring].
      rewrite <- (conv_scal_l so L). apply conv_ext; [|reflexivity]. intros u u' _. unfold der. cbn [length rev].
      rewrite sgn_S, <- app_assoc. cbn [app]. ring.
  Qed.
  Lemma antipode_left n t f : group_like so n t f -> feq n t (cv (anti f) f) eps.
  Proof.
    intros G w Hw Hl. transitivity (alt f [] w).
    - rewrite <- (alt_group n t f w [] G); [|constructor|exact Hw|unfold len in *; cbn; lia].
      apply conv_ext; [|reflexivity]. intros u v _. unfold antipode. rewrite app_nil_r. reflexivity.
    - destruct w as [|b w]; [|apply alt_zero]. cbn [alt unit_fun]. rewrite (sh_nil_l so L). apply G.
  Qed.
  (** a tensor with constant term 1 can be cancelled *)
  Lemma cancel n t f g h : f [] = one -> feq n t (cv f g) (cv f h) -> feq n t g h.
  Proof.
    intros F1 E w. remember (length w) as k eqn:Ek. revert w Ek. induction k as [k IH] using lt_wf_ind. intros w -> Hw Hl.
    specialize (E w Hw Hl). destruct w as [|a w].
    - rewrite !(conv_nil so L), F1 in E. transitivity (one [*] g []); [ring|]. rewrite E. ring.
    - rewrite !(conv_cons so), F1 in E.
      assert (E' : cv (der a f) g w = cv (der a f) h w).
      { apply conv_ext; [reflexivity|]. intros u v Ew. apply (IH (length v)); [|reflexivity| |].
        - rewrite Ew. cbn. rewrite app_length. lia.
        - inversion Hw as [|a' w' _ Hw']; subst. apply word_ok_app in Hw'. apply Hw'.
        - rewrite len_cons in Hl. rewrite Ew, len_app in Hl. lia. }
      rewrite E' in E. set (c := cv (der a f) h w) in *. transitivity (one [*] g (a :: w) [+] c [+] [-] c); [ring|]. rewrite E. ring.
  Qed.
  Lemma feq_assoc n t f g h : feq n t (cv (cv f g) h) (cv f (cv g h)).
  Proof. intros w _ _. apply (conv_assoc so L). Qed.
  Lemma feq_unit_l n t f : feq n t (cv eps f) f.
  Proof. intros w _ _. apply (conv_unit_l so L). Qed.
  Lemma feq_unit_r n t f : feq n t (cv f eps) f.
  Proof. intros w _ _. apply (conv_unit_r so L). Qed.
  Lemma anti_nil f : anti f [] = f [].
  Proof. reflexivity. Qed.
  Lemma antipode_right n t f : group_like so n t f -> feq n t (cv f (anti f)) eps.
  Proof.
    intros G. apply (cancel n t (anti f)); [rewrite anti_nil; apply G|].
    transitivity (cv (cv (anti f) f) (anti f)); [symmetry; apply feq_assoc|].
    transitivity (cv eps (anti f)); [apply conv_proper; [apply antipode_left; exact G|reflexivity]|].
    transitivity (anti f); [apply feq_unit_l|symmetry; apply feq_unit_r].
  Qed.
  Lemma right_inverse n t f g : group_like so n t f -> feq n t (cv f g) eps -> feq n t g (anti f).
  Proof.
    intros G H. transitivity (cv eps g); [symmetry; apply feq_unit_l|].
    transitivity (cv (cv (anti f) f) g); [apply conv_proper; [symmetry; apply antipode_left; exact G|reflexivity]|].
    transitivity (cv (anti f) (cv f g)); [apply feq_assoc|].
    transitivity (cv (anti f) eps); [apply conv_proper; [reflexivity|exact H]|apply feq_unit_r].
  Qed.
  Lemma left_inverse n t f g : group_like so n t f -> feq n t (cv g f) eps -> feq n t g (anti f).
  Proof.
    intros G H. transitivity (cv g eps); [symmetry; apply feq_unit_r|].
    transitivity (cv g (cv f (anti f))); [apply conv_proper; [reflexivity|symmetry; apply antipode_right; exact G]|].
    transitivity (cv (cv g f) (anti f)); [symmetry; apply feq_assoc|].
    transitivity (cv eps (anti f)); [apply conv_proper; [exact H|reflexivity]|apply feq_unit_l].
  Qed.

  (** ** primitive tensors *)
  Lemma alt_prim n t f v : forall r, r <> [] -> primitive so n t f -> word_ok n r -> word_ok n v -> len r + len v <= t ->
    alt f r v = sgn (length v) (f (rev v ++ r)).
  Proof.
    induction v as [|b v IH]; intros r Nr P Hr Hv H; cbn [alt]; [rewrite (sh_nil_r so L); reflexivity|].
    rewrite (proj2 P r (b :: v) Hr Hv Nr ltac:(discriminate) H). inversion Hv as [|b' v' Hb Hv']; subst. rewrite len_cons in H.
    rewrite (IH (b :: r)); [|discriminate|exact P|constructor; assumption|exact Hv'|rewrite len_cons; lia].
    cbn [length rev]. rewrite sgn_S, <- app_assoc. cbn [app]. ring.
  Qed.
  Lemma antipode_prim n t f : primitive so n t f -> forall w, word_ok n w -> len w <= t -> anti f w = [-] f w.
  Proof.
    intros P [|b v] Hw Hl; [rewrite anti_nil, (proj1 P); ring|]. inversion Hw as [|b' v' Hb Hv]; subst. rewrite len_cons in Hl.
    pose proof (alt_zero f b v) as Z. cbn [alt] in Z. rewrite (sh_nil_l so L) in Z.
    rewrite (alt_prim n t f v [b]) in Z; [|discriminate|exact P|constructor; [exact Hb|constructor]|exact Hv|change (len [b]) with 1; lia].
    unfold antipode. cbn [length rev]. rewrite sgn_S. set (c := sgn (length v) _) in *. transitivity (f (b :: v) [+] [-] c [+] [-] f (b :: v)); [ring|]. rewrite Z. ring.
  Qed.

  (** ** the antipode of a group-like tensor is group-like *)
  Definition rder (a : N) (f : word -> S) : word -> S := fun u => f (u ++ [a]).
  Lemma sh_snoc_nil f a u : forall v, v = [] -> sh f (u ++ [a]) v = sh (rder a f) u v.
  Proof. intros v ->. rewrite !(sh_nil_r so L). reflexivity. Qed.
  Lemma sh_snoc u : forall v f a b, sh f (u ++ [a]) (v ++ [b]) = sh (rder a f) u (v ++ [b]) [+] sh (rder b f) (u ++ [a]) v.
  Proof.
    induction u as [|c u IHu]; intros v.
    - induction v as [|d v IHv]; intros f a b; cbn [app].
      + rewrite (sh_cons so L), !(sh_nil_l so L), !(sh_nil_r so L). unfold der, rder. cbn [app]. ring.
      + rewrite (sh_cons so L), (sh_nil_l so L). change (a :: nil) with ([] ++ [a]). rewrite (IHv (der d f) a b). cbn [app].
        rewrite (sh_cons so L), !(sh_nil_l so L). unfold der, rder. cbn [app].
        change (fun u : list N => f (d :: u ++ [b])) with (fun u : word => f (d :: u ++ [b])). ring.
    - induction v as [|d v IHv]; intros f a b.
      + cbn [app]. rewrite (sh_cons so L). change [b] with ([] ++ [b]). rewrite (IHu [] (der c f) a b). cbn [app].
        rewrite (sh_cons so L), !(sh_nil_r so L). unfold der, rder. cbn [app]. ring.
      + cbn [app]. rewrite (sh_cons so L). change (d :: v ++ [b]) with ((d :: v) ++ [b]). rewrite (IHu (d :: v) (der c f) a b).
        change (c :: u ++ [a]) with ((c :: u) ++ [a]). rewrite (IHv (der d f) a b). cbn [app].
        rewrite !(sh_cons so L). unfold der, rder. cbn [app]. ring.
  Qed.
  Lemma sh_rev u : forall v f, sh (fun w => f (rev w)) u v = sh f (rev u) (rev v).
  Proof.
    induction u as [|a u IHu]; intros v f; [rewrite !(sh_nil_l so L); reflexivity|].
    revert f. induction v as [|b v IHv]; intros f; [rewrite !(sh_nil_r so L); reflexivity|].
    rewrite (sh_cons so L). cbn [rev]. rewrite sh_snoc. f_equal.
    - exact (IHu (b :: v) (rder a f)).
    - exact (IHv (rder b f)).
  Qed.
  Lemma antipode_group n t f : group_like so n t f -> group_like so n t (anti f).
  Proof.
    intros [F1 G]. split; [exact F1|]. intros u v Hu Hv H. unfold antipode at 1 2. rewrite sgn_mul, G.
    - rewrite <- sh_rev, (sh_ext so (anti f) (fun w => sgn (length u + length v) (f (rev w)))).
      + destruct (Nat.even (length u + length v)); [reflexivity|].
        rewrite (sh_ext so (fun w => [-] f (rev w)) (fun w => [-] one [*] f (rev w))) by (intros; ring). rewrite (sh_scal so L). ring.
      + intros w Hi. destruct (shuffle_ok n u v w Hu Hv Hi) as [_ Hlw]. unfold antipode, len in *. replace (length w) with (length u + length v)%nat by lia. reflexivity.
    - apply Forall_rev. exact Hu.
    - apply Forall_rev. exact Hv.
    - unfold len in *. rewrite !rev_length. exact H.
  Qed.
End Antipode.
