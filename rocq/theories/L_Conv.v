(** The tensor product on coefficient functions is associative, bilinear and unital. *)
From Coq Require Import Ring_theory Ring.
From Verif Require Import Machine MachineLemmas S_Words L_Words M_Scalar M_Dense S_Vector S_Tensor L_Ring L_Algebra.

Section Conv.
  Context {S R : Type} (so : scalar_ops S R) (L : ring_laws so).
  Let RT := ring_of so L.
  Add Ring scalars : RT.
  Notation zero := (s_zero so).
  Notation one := (s_one so).
  Infix "[+]" := (s_add so) (at level 50, left associativity).
  Infix "[*]" := (s_mul so) (at level 40, left associativity).
  Notation cv := (conv so).
  (** dropping a first letter *)
  Definition der (a : N) (f : word -> S) : word -> S := fun u => f (a :: u).

  Lemma conv_nil f g : cv f g [] = f [] [*] g [].
  Proof. unfold conv. cbn. ring. Qed.
  Lemma conv_cons f g a w : cv f g (a :: w) = f [] [*] g (a :: w) [+] cv (der a f) g w.
  Proof. unfold conv. cbn [splits map fold_right fst snd]. rewrite map_map. reflexivity. Qed.

  Lemma conv_ext f f' g g' w : (forall u v, w = u ++ v -> f u = f' u) -> (forall u v, w = u ++ v -> g v = g' v) ->
    cv f g w = cv f' g' w.
  Proof.
    intros Hf Hg. unfold conv. f_equal. apply map_ext_in. intros [u v] H. apply in_splits in H. cbn [fst snd].
    rewrite (Hf u v H), (Hg u v H). reflexivity.
  Qed.
  Lemma conv_zero f g w : (forall u v, w = u ++ v -> f u [*] g v = zero) -> cv f g w = zero.
  Proof.
    intros H. unfold conv.
    assert (G : forall uv, In uv (splits w) -> f (fst uv) [*] g (snd uv) = zero).
    { intros [u v] Hi. apply in_splits in Hi. apply H. exact Hi. }
    induction (splits w) as [|uv l IH]; [reflexivity|]. cbn [map fold_right].
    rewrite (G uv (or_introl eq_refl)), IH; [ring|]. intros x Hx. apply G. right. exact Hx.
  Qed.
  Lemma conv_add_l f f' g w : cv (fun u => f u [+] f' u) g w = cv f g w [+] cv f' g w.
  Proof.
    revert f f'; induction w as [|a w IH]; intros f f'; rewrite ?conv_nil, ?conv_cons; [ring|].
    change (der a (fun u => f u [+] f' u)) with (fun u => der a f u [+] der a f' u). rewrite IH. ring.
  Qed.
  Lemma conv_scal_l c f g w : cv (fun u => c [*] f u) g w = c [*] cv f g w.
  Proof.
    revert f; induction w as [|a w IH]; intros f; rewrite ?conv_nil, ?conv_cons; [ring|].
    change (der a (fun u => c [*] f u)) with (fun u => c [*] der a f u). rewrite IH. ring.
  Qed.
  Lemma conv_add_r f g g' w : cv f (fun u => g u [+] g' u) w = cv f g w [+] cv f g' w.
  Proof.
    revert f; induction w as [|a w IH]; intros f; rewrite ?conv_nil, ?conv_cons; [ring|]. rewrite IH. ring.
  Qed.
  Lemma conv_scal_r c f g w : cv f (fun u => c [*] g u) w = c [*] cv f g w.
  Proof.
    revert f; induction w as [|a w IH]; intros f; rewrite ?conv_nil, ?conv_cons; [ring|]. rewrite IH. ring.
  Qed.
  Lemma conv_assoc f g h w : cv (cv f g) h w = cv f (cv g h) w.
  Proof.
    revert f g; induction w as [|a w IH]; intros f g; rewrite ?conv_nil, ?conv_cons, ?conv_nil; [ring|].
    rewrite <- IH.
    rewrite (conv_ext (der a (cv f g)) (fun u => f [] [*] der a g u [+] cv (der a f) g u) h h)
      by (intros; try reflexivity; apply conv_cons).
    rewrite conv_add_l, conv_scal_l. ring.
  Qed.
  (** the unit *)
  Notation unit_fun := (unit_fun so).
  Lemma conv_unit_l g w : cv unit_fun g w = g w.
  Proof.
    destruct w as [|a w]; rewrite ?conv_nil, ?conv_cons; cbn [unit_fun]; [ring|].
    rewrite (conv_zero (der a unit_fun)); [ring|]. intros u v _. unfold der, unit_fun. ring.
  Qed.
  Lemma conv_unit_r f w : cv f unit_fun w = f w.
  Proof.
    revert f; induction w as [|a w IH]; intros f; rewrite ?conv_nil, ?conv_cons; cbn [unit_fun]; [ring|].
    rewrite IH. unfold der. ring.
  Qed.
  (** basis elements *)
  Definition delta (u w : word) : S := if word_eqb u w then one else zero.
  Lemma delta_cons a b u w : delta (a :: u) (b :: w) = if a =? b then delta u w else zero.
  Proof.
    unfold delta, word_eqb. destruct (N.eqb_spec a b) as [->|Hn].
    - destruct (list_eq_dec N.eq_dec (b :: u) (b :: w)), (list_eq_dec N.eq_dec u w); congruence.
    - destruct (list_eq_dec N.eq_dec (a :: u) (b :: w)); congruence.
  Qed.
  Lemma conv_delta u v w : cv (delta u) (delta v) w = delta (u ++ v) w.
  Proof.
    revert u; induction w as [|b w IH]; intros u.
    - rewrite conv_nil. destruct u as [|a u]; [cbn [app]|].
      + change (delta [] []) with one. ring.
      + cbn [app]. change (delta (a :: u) []) with zero. change (delta (a :: u ++ v) []) with zero. ring.
    - rewrite conv_cons. destruct u as [|a u].
      + change (delta [] []) with one. cbn [app].
        rewrite (conv_zero (der b (delta []))); [ring|].
        intros x y _. unfold der. change (delta [] (b :: x)) with zero. ring.
      + change (delta (a :: u) []) with zero. cbn [app]. rewrite delta_cons.
        destruct (N.eqb_spec a b) as [->|Hn].
        * rewrite (conv_ext (der b (delta (b :: u))) (delta u) (delta v) (delta v)); [rewrite IH; ring| |reflexivity].
          intros x y _. unfold der. rewrite delta_cons, N.eqb_refl. reflexivity.
        * rewrite (conv_zero (der b (delta (a :: u)))); [ring|]. intros x y _. unfold der.
          rewrite delta_cons. destruct (N.eqb_spec a b); [contradiction|]. ring.
  Qed.

  (** sums in the order of the code *)
  Notation sum := (fold_right (s_add so) zero).
  Lemma fold_sum l a : fold_left (s_add so) l a = a [+] sum l.
  Proof. revert a; induction l as [|x l IH]; intros a; cbn [fold_left fold_right]; [ring|]. rewrite IH. ring. Qed.
  Lemma sum_app l m : sum (l ++ m) = sum l [+] sum m.
  Proof. induction l as [|x l IH]; cbn [app fold_right]; [ring|]. rewrite IH. ring. Qed.
  Lemma sum_filter_rev {A} (P : A -> bool) (h : A -> S) l : (forall x, In x l -> P x = false -> h x = zero) ->
    sum (map h (filter P (rev l))) = sum (map h l).
  Proof.
    induction l as [|x l IH]; intros H; [reflexivity|]. cbn [rev]. rewrite filter_app, map_app, sum_app.
    rewrite IH by (intros y Hy; apply H; right; exact Hy). cbn [filter map fold_right].
    destruct (P x) eqn:E; cbn [map fold_right]; [ring|]. rewrite (H x (or_introl eq_refl) E). ring.
  Qed.
  Lemma terms_conv l r f g w a :
    (forall u v, w = u ++ v -> l < len u -> f u = zero) -> (forall u v, w = u ++ v -> r < len v -> g v = zero) ->
    fold_left (s_add so) (terms so l r f g w) a = a [+] cv f g w.
  Proof.
    intros Hf Hg. rewrite fold_sum. f_equal. unfold terms, conv. apply sum_filter_rev.
    intros [u v] Hi HP. apply in_splits in Hi. cbn [fst snd] in *. apply andb_false_iff in HP.
    destruct HP as [HP|HP]; apply N.leb_gt in HP.
    - rewrite (Hf u v Hi HP). ring.
    - rewrite (Hg u v Hi HP). ring.
  Qed.
  Lemma fold_opp l a : fold_left (fun a c => a [+] s_uminus so c) l a = s_sub so a (sum l).
  Proof. revert a; induction l as [|x l IH]; intros a; cbn [fold_left fold_right]; [ring|]. rewrite IH. ring. Qed.
  Lemma terms_conv_opp l r f g w a :
    (forall u v, w = u ++ v -> l < len u -> f u = zero) -> (forall u v, w = u ++ v -> r < len v -> g v = zero) ->
    fold_left (fun a c => a [+] s_uminus so c) (terms so l r f g w) a = s_sub so a (cv f g w).
  Proof.
    intros Hf Hg. rewrite fold_opp. f_equal. unfold terms, conv. apply sum_filter_rev.
    intros [u v] Hi HP. apply in_splits in Hi. cbn [fst snd] in *. apply andb_false_iff in HP.
    destruct HP as [HP|HP]; apply N.leb_gt in HP.
    - rewrite (Hf u v Hi HP). ring.
    - rewrite (Hg u v Hi HP). ring.
  Qed.

  (** truncated products *)
  Lemma len_prefix (w u v : word) : w = u ++ v -> len w = len u + len v.
  Proof. intros ->. apply len_app. Qed.
  Lemma tconv_trunc_l t f g h w : tconv so t (tconv so t f g) h w = tconv so t (cv f g) h w.
  Proof.
    unfold tconv at 1 3. destruct (N.leb_spec (len w) t) as [H|H]; [|reflexivity].
    apply conv_ext; [|reflexivity]. intros u v E. apply len_prefix in E. unfold tconv.
    destruct (N.leb_spec (len u) t); [reflexivity|lia].
  Qed.
  Lemma tconv_trunc_r t f g h w : tconv so t f (tconv so t g h) w = tconv so t f (cv g h) w.
  Proof.
    unfold tconv at 1 3. destruct (N.leb_spec (len w) t) as [H|H]; [|reflexivity].
    apply conv_ext; [reflexivity|]. intros u v E. apply len_prefix in E. unfold tconv.
    destruct (N.leb_spec (len v) t); [reflexivity|lia].
  Qed.
  Lemma tconv_assoc t f g h w : tconv so t (tconv so t f g) h w = tconv so t f (tconv so t g h) w.
  Proof.
    rewrite tconv_trunc_l, tconv_trunc_r. unfold tconv. destruct (len w <=? t); [|reflexivity]. apply conv_assoc.
  Qed.
  Lemma tconv_ext t f f' g g' w : (forall u v, w = u ++ v -> f u = f' u) -> (forall u v, w = u ++ v -> g v = g' v) ->
    tconv so t f g w = tconv so t f' g' w.
  Proof. intros. unfold tconv. destruct (len w <=? t); [|reflexivity]. apply conv_ext; assumption. Qed.
  Lemma tconv_add_l t f f' g w : tconv so t (fun u => f u [+] f' u) g w = tconv so t f g w [+] tconv so t f' g w.
  Proof. unfold tconv. destruct (len w <=? t); [apply conv_add_l|ring]. Qed.
  Lemma tconv_add_r t f g g' w : tconv so t f (fun u => g u [+] g' u) w = tconv so t f g w [+] tconv so t f g' w.
  Proof. unfold tconv. destruct (len w <=? t); [apply conv_add_r|ring]. Qed.
  Lemma tconv_scal_l t c f g w : tconv so t (fun u => c [*] f u) g w = c [*] tconv so t f g w.
  Proof. unfold tconv. destruct (len w <=? t); [apply conv_scal_l|ring]. Qed.
  Lemma tconv_scal_r t c f g w : tconv so t f (fun u => c [*] g u) w = c [*] tconv so t f g w.
  Proof. unfold tconv. destruct (len w <=? t); [apply conv_scal_r|ring]. Qed.
  (** the bracket *)
  Definition bracket t (f g : word -> S) (w : word) : S := s_sub so (tconv so t f g w) (tconv so t g f w).
  Lemma tconv_sub_l t f f' g w : tconv so t (fun u => s_sub so (f u) (f' u)) g w
    = s_sub so (tconv so t f g w) (tconv so t f' g w).
  Proof.
    rewrite (tconv_ext t _ (fun u => f u [+] s_uminus so one [*] f' u) g g) by (intros; try reflexivity; ring).
    rewrite tconv_add_l, tconv_scal_l. ring.
  Qed.
  Lemma tconv_sub_r t f g g' w : tconv so t f (fun u => s_sub so (g u) (g' u)) w
    = s_sub so (tconv so t f g w) (tconv so t f g' w).
  Proof.
    rewrite (tconv_ext t f f _ (fun u => g u [+] s_uminus so one [*] g' u)) by (intros; try reflexivity; ring).
    rewrite tconv_add_r, tconv_scal_r. ring.
  Qed.
  Lemma jacobi t f g h w :
    bracket t f (bracket t g h) w [+] bracket t g (bracket t h f) w [+] bracket t h (bracket t f g) w = zero.
  Proof.
    unfold bracket. rewrite !tconv_sub_l, !tconv_sub_r, !tconv_assoc. ring.
  Qed.
End Conv.
