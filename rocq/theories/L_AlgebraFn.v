(** Lemmas about the products with closures of every kind. *)
From Verif Require Import Machine MachineLemmas S_Words L_Words M_Scalar M_Vector M_Dense M_TensorKey M_TensorBasis
  S_TensorApi S_Vector S_Tensor L_TensorKey L_TensorBasis L_Dense M_Algebra L_Algebra M_AlgebraFn S_AlgebraFn.

(** ** Calls *)
Section Calls.
  Context {S St : Type} (func : St -> S -> St * option S).
  Notation run := (run_calls func).

  Lemma run_app st a1 a2 : run st (a1 ++ a2) =
    let '(b1, st1, ok) := run st a1 in
    if ok : bool then let '(b2, st2, ok2) := run st1 a2 in (b1 ++ b2, st2, ok2) else (b1, st1, false).
  Proof.
    revert st; induction a1 as [|a a1 IH]; intros st; cbn [app run_calls].
    - destruct (run st a2) as [[b2 st2] ok2]. reflexivity.
    - destruct (func st a) as [st1 [b|]]; [|reflexivity]. rewrite IH.
      destruct (run st1 a1) as [[b1 st1'] []]; [|reflexivity]. destruct (run st1' a2) as [[b2 st2] ok2]. reflexivity.
  Qed.
  Lemma run_length st args bs st' ok : run st args = (bs, st', ok) ->
    (length bs <= length args)%nat /\ (ok = true -> length bs = length args).
  Proof.
    revert st bs; induction args as [|a args IH]; intros st bs; cbn [run_calls].
    - intros [= <- <- <-]. split; reflexivity.
    - destruct (func st a) as [st1 [b|]].
      + destruct (run st1 args) as [[b1 st1'] ok1] eqn:E. intros [= <- <- <-]. destruct (IH _ _ E) as [H1 H2].
        cbn [length]. split; [lia|]. intros H. rewrite (H2 H). reflexivity.
      + intros [= <- <- <-]. cbn [length]. split; [lia|discriminate].
  Qed.
End Calls.

(** ** The buffer *)
Section AddAt.
  Context {S R : Type} (so : scalar_ops S R).
  (** the results of the calls, added from position [i] on *)
  Fixpoint add_at (o : list S) (i : N) (bs : list S) : list S :=
    match bs with
    | [] => o
    | b :: bs' => match slice_get o i with
                  | Some x => add_at (list_set o (N.to_nat i) (s_add so x b)) (i + 1) bs'
                  | None => o
                  end
    end.
  Definition fin {X} (ok : bool) (x : X) : res X := if ok then Done x else Thrown x.

  Lemma add_at_len o i bs : len (add_at o i bs) = len o.
  Proof.
    revert o i; induction bs as [|b bs IH]; intros o i; cbn [add_at]; [reflexivity|].
    destruct (slice_get o i); [|reflexivity]. rewrite IH. apply len_list_set.
  Qed.
  Lemma add_at_get o i bs j : i + len bs <= len o ->
    slice_get (add_at o i bs) j =
      if i <=? j then match slice_get bs (j - i), slice_get o j with
                      | Some b, Some x => Some (s_add so x b)
                      | _, x => x
                      end
      else slice_get o j.
  Proof.
    revert o i; induction bs as [|b bs IH]; intros o i H; cbn [add_at].
    - rewrite (slice_get_none []) by (unfold len; cbn [length]; lia). destruct (i <=? j); reflexivity.
    - rewrite len_cons in H. destruct (slice_get_some o i ltac:(lia)) as [x Ex]. rewrite Ex.
      rewrite IH by (rewrite len_list_set; lia).
      rewrite slice_get_list_set by lia. 
      destruct (N.leb_spec (i + 1) j) as [L|L], (N.leb_spec i j) as [L'|L']; try lia.
      + destruct (N.eqb_spec j i); [lia|]. 
        replace (slice_get (b :: bs) (j - i)) with (slice_get bs (j - (i + 1))); [reflexivity|].
        unfold slice_get. replace (N.to_nat (j - i)) with (Datatypes.S (N.to_nat (j - (i + 1)))) by lia. reflexivity.
      + assert (j = i) as -> by lia. rewrite N.eqb_refl, N.sub_diag, Ex. reflexivity.
      + destruct (N.eqb_spec j i); [lia|]. reflexivity.
  Qed.
  Lemma add_at_app o i b1 b2 : i + len b1 <= len o -> add_at o i (b1 ++ b2) = add_at (add_at o i b1) (i + len b1) b2.
  Proof.
    revert o i; induction b1 as [|b b1 IH]; intros o i H.
    - cbn [app add_at]. f_equal. unfold len. cbn [length]. lia.
    - rewrite len_cons in *. cbn [app add_at]. destruct (slice_get_some o i ltac:(lia)) as [x ->].
      rewrite IH by (rewrite len_list_set; lia). f_equal. lia.
  Qed.

End AddAt.

Section Buffer.
  Context {S R St : Type} (so : scalar_ops S R) (func : St -> S -> St * option S).
  Notation run := (run_calls func).
  Notation add_at := (add_at so).
  Notation step x := (fun '(o, i, st) rhs_v =>
              match slice_get o i with
              | None => Undefined
              | Some y => let '(st', r) := func st (s_mul so x rhs_v) in
                          match r with
                          | None => Thrown (o, i, st')
                          | Some b => Done (list_set o (N.to_nat i) (s_add so y b), i + 1, st')
                          end
              end).
  Lemma row_fn x r o i st : i + len r <= len o ->
    loop r (step x) (o, i, st) = let '(bs, st', ok) := run st (map (s_mul so x) r) in
                                 fin ok (add_at o i bs, i + len bs, st').
  Proof.
    revert o i st; induction r as [|y r IH]; intros o i st H; cbn [loop map run_calls].
    - cbn [fin add_at]. replace (i + len []) with i by (unfold len; cbn [length]; lia). reflexivity.
    - rewrite len_cons in H. destruct (slice_get_some o i ltac:(lia)) as [z Ez]. rewrite Ez.
      destruct (func st (s_mul so x y)) as [st1 [b|]].
      + rewrite IH by (rewrite len_list_set; lia). destruct (run st1 (map (s_mul so x) r)) as [[bs st'] ok].
        cbn [add_at]. rewrite Ez, len_cons. replace (i + 1 + len bs) with (i + (1 + len bs)) by lia. 
        replace (i + (len bs + 1)) with (i + (1 + len bs)) by lia. reflexivity.
      + cbn [fin add_at]. replace (i + len []) with i by (unfold len; cbn [length]; lia). reflexivity.
  Qed.
  Lemma rows_fn l r o i st : i + len l * len r <= len o ->
    loop l (fun x lhs_v => loop r (step lhs_v) x) (o, i, st)
    = let '(bs, st', ok) := run st (flat_map (fun a => map (s_mul so a) r) l) in
      fin ok (add_at o i bs, i + len bs, st').
  Proof.
    revert o i st; induction l as [|x l IH]; intros o i st H; cbn [loop flat_map].
    - cbn [run_calls fin add_at]. replace (i + len []) with i by (unfold len; cbn [length]; lia). reflexivity.
    - rewrite len_cons in H. rewrite row_fn by lia. rewrite run_app.
      destruct (run st (map (s_mul so x) r)) as [[b1 st1] ok] eqn:E1.
      destruct (run_length func _ _ _ _ _ E1) as [H1 H2]. rewrite map_length in H1, H2.
      destruct ok; cbn [fin]; [|reflexivity].
      assert (Lb : len b1 = len r) by (unfold len; rewrite H2 by reflexivity; reflexivity).
      rewrite IH by (rewrite add_at_len; lia).
      destruct (run st1 (flat_map _ l)) as [[b2 st2] ok2].
      rewrite add_at_app by lia. replace (len (b1 ++ b2)) with (len b1 + len b2) by (symmetry; apply len_app).
      rewrite N.add_assoc. reflexivity.
  Qed.
  Lemma buffer_fn out l r st : len l * len r <= len out ->
    multiply_into_buffer_fn so func out l r st
    = let '(bs, st', ok) := run st (flat_map (fun a => map (s_mul so a) r) l) in fin ok (add_at out 0 bs, st').
  Proof.
    intros H. unfold multiply_into_buffer_fn. rewrite rows_fn by lia.
    destruct (run st _) as [[bs st'] []]; reflexivity.
  Qed.
End Buffer.

(** ** Words *)
Lemma prod_args {S R} (so : scalar_ops S R) (f g : word -> S) (A B : list word) :
  flat_map (fun a => map (s_mul so a) (map g B)) (map f A) = map (fun uv => s_mul so (f (fst uv)) (g (snd uv))) (list_prod A B).
Proof.
  induction A as [|a A IH]; [reflexivity|]. cbn [map flat_map list_prod]. rewrite map_app, IH, !map_map. reflexivity.
Qed.
Lemma prod_words n a b :
  map (fun uv => fst uv ++ snd uv) (list_prod (words_of_length n a) (words_of_length n b)) = words_of_length n (a + b).
Proof.
  induction a as [|a IH].
  - cbn [words_of_length list_prod Nat.add]. rewrite app_nil_r, map_map. cbn [fst snd app]. apply map_id.
  - cbn [words_of_length Nat.add]. rewrite <- IH. generalize (words_of_length n a) as A. intros A.
    induction (letters n) as [|x xs IHx]; [reflexivity|]. cbn [flat_map].
    rewrite <- IHx. clear IHx. generalize (flat_map (fun a0 => map (cons a0) A) xs) as rest. intros rest.
    assert (P : forall A B C : list word, list_prod (A ++ B) C = list_prod A C ++ list_prod B C).
    { clear. intros A B C. induction A as [|y A IH]; [reflexivity|]. cbn [app list_prod]. rewrite IH, app_assoc. reflexivity. }
    rewrite P, map_app. f_equal. clear. induction A as [|y A IH]; [reflexivity|].
    cbn [map list_prod]. rewrite !map_app, IH. rewrite !map_map. reflexivity.
Qed.
Lemma words_nodup n d : NoDup (words_of_length n d).
Proof.
  apply NoDup_nth_error. intros i j Hi E.
  destruct (nth_error (words_of_length n d) i) as [w|] eqn:Ei; [|apply nth_error_None in Ei; lia].
  assert (Hr : forall k, nth_error (words_of_length n d) k = Some w -> N.of_nat k = rank n w).
  { intros k Hk. assert (Hk' : (k < length (words_of_length n d))%nat) by (apply nth_error_Some; congruence).
    rewrite words_of_length_length in Hk'.
    assert (Hn : 0 < n \/ d = O).
    { destruct d; [right; reflexivity|left]. destruct (N.eq_dec n 0) as [->|]; [|lia].
      rewrite N.pow_0_l in Hk' by lia. cbn in Hk'. lia. }
    destruct Hn as [Hn| ->].
    - destruct (rank_surj n d (N.of_nat k) Hn ltac:(lia)) as (u & Hu & Lu & Ru).
      pose proof (words_of_length_nth n u Hu) as Eu. rewrite Lu, Ru, Nat2N.id in Eu. congruence.
    - cbn in Hk. destruct k as [|k]; [|destruct k; discriminate]. injection Hk as <-. reflexivity. }
  pose proof (Hr i Ei) as R1. symmetry in E. pose proof (Hr j E) as R2. lia.
Qed.
Lemma filter_none {A} (P : A -> bool) l : (forall x, In x l -> P x = false) -> filter P l = [].
Proof.
  induction l as [|x l IH]; intros H; [reflexivity|]. cbn [filter]. rewrite (H x (or_introl eq_refl)).
  apply IH. intros y Hy. apply H. right. exact Hy.
Qed.
(** the one call for a word *)
Lemma added_one {S R} (so : scalar_ops S R) (cs : list (word * word)) (bs : list S) w i a :
  (length bs <= length cs)%nat ->
  NoDup (map (fun uv => fst uv ++ snd uv) cs) -> nth_error (map (fun uv => fst uv ++ snd uv) cs) i = Some w ->
  added_to so w (List.combine cs bs) a = match nth_error bs i with Some b => s_add so a b | None => a end.
Proof.
  unfold added_to. revert bs i a; induction cs as [|c cs IH]; intros bs i a Hl Hnd Hi; [destruct i; discriminate|].
  destruct bs as [|b bs]; [destruct i; reflexivity|]. cbn [map] in Hnd, Hi. inversion Hnd as [|? ? Hnin Hnd']; subst.
  cbn [List.combine filter fst snd]. cbn [length] in Hl. unfold word_eqb at 1. destruct i as [|i].
  - cbn [nth_error] in *. injection Hi as <-. destruct (list_eq_dec _ _ _) as [_|D]; [|contradiction].
    rewrite filter_none; [reflexivity|]. intros [[u v] b'] Hin. apply in_combine_l in Hin. cbn [fst snd].
    unfold word_eqb. destruct (list_eq_dec _ _ _) as [E|]; [|reflexivity]. destruct Hnin. rewrite <- E.
    apply (in_map (fun uv : word * word => fst uv ++ snd uv) cs (u, v)). exact Hin.
  - cbn [nth_error] in *. destruct (list_eq_dec _ _ _) as [E|D].
    + destruct Hnin. rewrite E. apply nth_error_In in Hi. exact Hi.
    + apply IH; [lia|exact Hnd'|exact Hi].
Qed.
Lemma added_none {S R} (so : scalar_ops S R) (cs : list (word * word)) (bs : list S) w a :
  (forall uv, In uv cs -> fst uv ++ snd uv <> w) -> added_to so w (List.combine cs bs) a = a.
Proof.
  intros H. unfold added_to. rewrite filter_none; [reflexivity|]. intros [[u v] b] Hin. apply in_combine_l in Hin.
  cbn [fst snd]. unfold word_eqb. destruct (list_eq_dec _ _ _) as [E|]; [|reflexivity]. destruct (H _ Hin E).
Qed.
Lemma added_app {S R} (so : scalar_ops S R) w (l1 l2 : list (word * word * S)) a :
  added_to so w (l1 ++ l2) a = added_to so w l2 (added_to so w l1 a).
Proof. unfold added_to. rewrite filter_app, map_app, fold_left_app. reflexivity. Qed.
Lemma combine_app' {A B} (l1 l2 : list A) (m1 m2 : list B) : length l1 = length m1 ->
  List.combine (l1 ++ l2) (m1 ++ m2) = List.combine l1 m1 ++ List.combine l2 m2.
Proof. revert m1; induction l1 as [|x l1 IH]; intros [|y m1] H; try discriminate; [reflexivity|]. cbn. rewrite IH by (cbn in H; lia). reflexivity. Qed.
Lemma combine_short {A B} (l1 l2 : list A) (m : list B) : (length m <= length l1)%nat -> List.combine (l1 ++ l2) m = List.combine l1 m.
Proof. revert m; induction l1 as [|x l1 IH]; intros [|y m] H; try reflexivity; [destruct l2; reflexivity|cbn in H; lia|]. cbn. rewrite IH by (cbn in H; lia). reflexivity. Qed.

Lemma degrees_filter l r k :
  filter (fun d => (d <=? l) && (k - d <=? r)) (rev_range_incl 0 k) = ds_of l r k.
Proof.
  unfold ds_of, rev_range_incl. rewrite filter_rev. f_equal. rewrite lo_eq. unfold range_incl.
  rewrite (filter_ext_in' _ (fun d => (k - r <=? d) && (d <=? N.min k l))).
  - rewrite filter_seq_between. f_equal; lia.
  - intros d Hd. apply in_seqN in Hd.
    destruct (N.leb_spec d l), (N.leb_spec (k - d) r), (N.leb_spec (k - r) d),
      (N.leb_spec d (N.min k l)); cbn [andb]; reflexivity || lia.
Qed.

Lemma pairs_in n l r m u v : In (u, v) (product_pairs n l r m)
  <-> word_ok n u /\ word_ok n v /\ len u <= l /\ len v <= r /\ len u + len v <= m.
Proof.
  unfold product_pairs. rewrite in_flat_map. split.
  - intros (k & Hk & Hin). apply in_rev_range_incl in Hk. rewrite degrees_filter in Hin.
    apply in_flat_map in Hin. destruct Hin as (d & Hd & Hin). unfold ds_of in Hd. apply in_rev_range_incl in Hd.
    rewrite lo_eq in Hd. apply in_prod_iff in Hin. destruct Hin as [Hu Hv].
    apply in_words_of_length in Hu, Hv. unfold len. repeat apply conj; (apply Hu || apply Hv || lia).
  - intros (Hu & Hv & H1 & H2 & H3). exists (len u + len v). split; [apply in_rev_range_incl; lia|].
    rewrite degrees_filter. apply in_flat_map. exists (len u). split.
    + unfold ds_of. apply in_rev_range_incl. rewrite lo_eq. lia.
    + apply in_prod_iff. split; apply in_words_of_length; (split; [assumption|unfold len; lia]).
Qed.

(** ** The product *)
Section Product.
  Context {S R St : Type} (so : scalar_ops S R) (p : profile) (n : N) (Hn : 2 <= n).
  Context (func : St -> S -> St * option S).
  Notation wc := (wcoef so n).
  Notation cb d := (count_below n (N.to_nat d)).
  Notation cbS d := (count_below n (Datatypes.S (N.to_nat d))).
  Notation run := (run_calls func).
  Notation W d := (words_of_length n (N.to_nat d)).
  Notation args x y := (map (fun uv : word * word => s_mul so (wc x (fst uv)) (wc y (snd uv)))).

  (** [z] is [v] with the calls added *)
  Definition upd (v : dvec S) (cs : list (word * word * S)) (z : dvec S) : Prop :=
    dv_size z = dv_size v /\ forall w, word_ok n w -> wc z w = added_to so w cs (wc v w).
  (** [m] makes the calls [cs] and updates [v] *)
  Definition does (x y : dvec S) (m : res (dvec S * St)) (v : dvec S) (st : St) (cs : list (word * word)) : Prop :=
    forall bs st' ok, run st (args x y cs) = (bs, st', ok) ->
      exists z, m = fin ok (z, st') /\ upd v (List.combine cs bs) z /\ kept v z
        /\ (cs <> [] -> z = after v false (dv_elems z)).

  Lemma does_nil x y v st : does x y (Done (v, st)) v st [].
  Proof.
    intros bs st' ok [= <- <- <-]. exists v. split; [reflexivity|]. split; [split; reflexivity|].
    split; [left; reflexivity|congruence].
  Qed.
  Lemma does_seq x y m1 (f : dvec S * St -> res (dvec S * St)) v st c1 c2 : c1 <> [] ->
    does x y m1 v st c1 ->
    (forall z st', dv_size z = dv_size v -> does x y (f (z, st')) z st' c2) ->
    does x y (match m1 with Done x' => f x' | Thrown x' => Thrown x' | Undefined => Undefined | Endless => Endless end) v st (c1 ++ c2).
  Proof.
    intros Hne H1 H2 bs st' ok E. rewrite map_app, run_app in E.
    destruct (run st (args x y c1)) as [[b1 st1] ok1] eqn:E1.
    destruct (H1 _ _ _ E1) as (z1 & -> & (U1 & U2) & K1 & A1). specialize (A1 Hne).
    destruct (run_length func _ _ _ _ _ E1) as [L1 L2]. rewrite map_length in L1, L2.
    destruct ok1; cbn [fin].
    - destruct (run st1 (args x y c2)) as [[b2 st2] ok2] eqn:E2. injection E as <- <- <-.
      destruct (H2 z1 st1 U1 _ _ _ E2) as (z & -> & (V1 & V2) & K2 & _). exists z. split; [reflexivity|].
      rewrite combine_app' by (symmetry; apply L2; reflexivity).
      split; [split; [congruence|]|].
      + intros w Hw. rewrite added_app, <- U2 by exact Hw. apply V2. exact Hw.
      + split; [eapply kept_trans; eassumption|]. intros _.
        destruct K2 as [->|K2]; [exact A1|]. rewrite K2, A1, after_after. reflexivity.
    - injection E as <- <- <-. exists z1. split; [reflexivity|]. rewrite combine_short by exact L1.
      split; [split; assumption|]. split; [exact K1|]. intros _. exact A1.
  Qed.
  Lemma does_loop {A} x y (xs : list A) body (cs : A -> list (word * word)) v st :
    (forall a z st', In a xs -> dv_size z = dv_size v -> does x y (body (z, st') a) z st' (cs a)) ->
    (forall a, In a xs -> cs a <> []) ->
    does x y (loop xs body (v, st)) v st (flat_map cs xs).
  Proof.
    revert v st; induction xs as [|a xs IH]; intros v st Hb Hne; [apply does_nil|].
    cbn [loop flat_map].
    apply (does_seq x y (body (v, st) a) (loop xs body) v st (cs a) (flat_map cs xs)).
    - apply Hne. left. reflexivity.
    - apply Hb; [left; reflexivity|reflexivity].
    - intros z st' Hz. apply IH.
      + intros a' z' st'' Ha Hz'. apply Hb; [right; exact Ha|congruence].
      + intros a' Ha. apply Hne. right. exact Ha.
  Qed.

  (** a degree of a vector, as words *)
  Lemma block_words (v : dvec S) d l : stored_to n v d -> len l = n ^ d ->
    (forall i, i < n ^ d -> slice_get l i = slice_get (dv_elems v) (cb d + i)) -> l = map (wc v) (W d).
  Proof.
    intros Hs Hl Hg. apply slice_get_ext. intros i. destruct (N.lt_ge_cases i (n ^ d)) as [Hi|Hi].
    - destruct (rank_surj n (N.to_nat d) i ltac:(lia) ltac:(rewrite N2Nat.id; exact Hi)) as (w & Hw & Lw & Rw).
      rewrite (Hg i Hi). unfold slice_get at 2. rewrite nth_error_map.
      pose proof (words_of_length_nth n w Hw) as E. rewrite Lw, Rw in E. rewrite E. cbn [option_map].
      replace (cb d + i) with (windex n w) by (rewrite (windex_rank n w Hw), Lw, Rw; reflexivity).
      apply (wcoef_stored so n Hn v d); [exact Hs|exact Hw|unfold len; lia].
    - rewrite !slice_get_none; [reflexivity| |lia].
      unfold len. rewrite map_length, words_of_length_length, !N2Nat.id. exact Hi.
  Qed.

  Lemma body_does x y out d self st : n ^ (out + 1) < 2 ^ 64 -> d <= out ->
    stored_to n self out -> stored_to n x d -> stored_to n y (out - d) ->
    does x y (mul_add_body_fn so p n func x y out (self, st) d) self st (list_prod (W d) (W (out - d))).
  Proof.
    intros Hp Hd Hs Hx Hy bs st' ok E. unfold mul_add_body_fn.
    assert (Hpd : n ^ (d + 1) < 2 ^ 64) by (pose proof (pow_le n (d + 1) (out + 1)); lia).
    assert (Hpr : n ^ (out - d + 1) < 2 ^ 64) by (pose proof (pow_le n (out - d + 1) (out + 1)); lia).
    rewrite (degree_range_ok p n out Hn Hp), (degree_range_ok p n d Hn Hpd),
      (degree_range_ok p n (out - d) Hn Hpr). cbn [eval].
    rewrite as_mut_elems. pose proof Hs as Hs0. pose proof Hx as Hx0. pose proof Hy as Hy0.
    unfold stored_to, dv_size in Hs, Hx, Hy.
    pose proof (cbS_cb n out) as Eo. pose proof (cbS_cb n d) as Ed. pose proof (cbS_cb n (out - d)) as Er.
    assert (Hpp : n ^ out = n ^ d * n ^ (out - d)) by (rewrite <- N.pow_add_r; f_equal; lia).
    destruct (slice_unchecked_ok (dv_elems self) (cb out) (cbS out)) as (o & -> & Ho & Go); [lia|exact Hs|].
    destruct (slice_unchecked_ok (dv_as_slice x) (cb d) (cbS d)) as (lx & -> & Hlx & Gx); [lia|exact Hx|].
    destruct (slice_unchecked_ok (dv_as_slice y) (cb (out - d)) (cbS (out - d))) as (ly & -> & Hly & Gy);
      [lia|exact Hy|]. cbn [eval].
    replace (cbS out - cb out) with (n ^ out) in * by lia.
    replace (cbS d - cb d) with (n ^ d) in * by lia.
    replace (cbS (out - d) - cb (out - d)) with (n ^ (out - d)) in * by lia.
    rewrite buffer_fn by (rewrite Ho, Hlx, Hly; lia).
    rewrite (block_words x d lx Hx0 Hlx Gx), (block_words y (out - d) ly Hy0 Hly Gy), prod_args, E.
    set (cs := list_prod (W d) (W (out - d))) in *.
    destruct (run_length func _ _ _ _ _ E) as [L1 L2]. rewrite map_length in L1, L2.
    assert (Lc : length cs = N.to_nat (n ^ out)).
    { unfold cs. rewrite prod_length, !words_of_length_length, !N2Nat.id, Hpp. lia. }
    assert (Lb : len bs <= n ^ out) by (unfold len; lia).
    exists (dv_write (dv_as_mut self) (splice (dv_elems self) (cb out) (add_at so o 0 bs))).
    rewrite write_as_mut.
    assert (Hfit : cb out + len (add_at so o 0 bs) <= len (dv_elems self)) by (rewrite add_at_len; lia).
    split; [rewrite <- write_as_mut; destruct ok; reflexivity|]. split; [|split; [right; reflexivity|intros _; reflexivity]].
    split; [unfold dv_size; cbn [after dv_elems]; apply splice_len; exact Hfit|].
    intros w Hw. unfold wcoef at 1, coef at 1, dv_as_slice at 1. cbn [after dv_elems].
    rewrite splice_get by exact Hfit. rewrite add_at_len, Ho.
    assert (Hkeys : map (fun uv => fst uv ++ snd uv) cs = W out).
    { unfold cs. rewrite prod_words. f_equal. lia. }
    destruct (N.eqb_spec (len w) out) as [El|El].
    - pose proof (windex_rank n w Hw) as Ew. pose proof (rank_bound n w Hw) as Bw. rewrite El in Bw.
      replace (length w) with (N.to_nat out) in Ew by (unfold len in El; lia).
      destruct (N.leb_spec (cb out) (windex n w)); [|lia].
      destruct (N.ltb_spec (windex n w) (cb out + n ^ out)); [|lia]. cbn [andb].
      replace (windex n w - cb out) with (rank n w) by lia.
      rewrite add_at_get by (rewrite Ho; lia). cbn [N.leb]. rewrite N.sub_0_r.
      destruct (N.leb_spec 0 (rank n w)); [|lia].
      rewrite Go by exact Bw. rewrite <- Ew. rewrite (wcoef_stored so n Hn self out w Hs0 Hw) by lia.
      rewrite (added_one so cs bs w (N.to_nat (rank n w))).
      + unfold slice_get. destruct (nth_error bs _); reflexivity.
      + exact L1.
      + rewrite Hkeys. apply words_nodup.
      + rewrite Hkeys. pose proof (words_of_length_nth n w Hw) as G.
        replace (length w) with (N.to_nat out) in G by (unfold len in El; lia). exact G.
    - rewrite added_none.
      + replace ((cb out <=? windex n w) && (windex n w <? cb out + n ^ out)) with false; [reflexivity|].
        symmetry. apply andb_false_iff.
        pose proof (below_iff n w (N.to_nat out) ltac:(lia) Hw) as B1.
        pose proof (below_iff n w (Datatypes.S (N.to_nat out)) ltac:(lia) Hw) as B2.
        destruct (N.leb_spec (cb out) (windex n w)); [right|left; reflexivity].
        apply N.ltb_ge. unfold len in El. lia.
      + intros uv Hin E0. apply El.
        assert (Hi : In w (W out)).
        { rewrite <- Hkeys, <- E0. apply (in_map (fun uv : word * word => fst uv ++ snd uv)). exact Hin. }
        apply in_words_of_length in Hi. unfold len. lia.
  Qed.

  Lemma words_ne d : words_of_length n d <> [].
  Proof.
    intros E. pose proof (words_of_length_length n d) as H. rewrite E in H. cbn [length] in H.
    pose proof (pow_pos n (N.of_nat d) ltac:(lia)). lia.
  Qed.
  Lemma prod_ne {A B} (a : list A) (b : list B) : a <> [] -> b <> [] -> list_prod a b <> [].
  Proof. intros Ha Hb E. destruct a as [|x a]; [congruence|]. destruct b as [|y b]; [congruence|]. discriminate. Qed.
  Lemma pairs_ne l r m : product_pairs n l r m <> [].
  Proof.
    intros E. assert (Hi : In ([], []) (product_pairs n l r m)).
    { apply pairs_in. repeat apply conj; try constructor; unfold len; cbn [length]; lia. }
    rewrite E in Hi. exact Hi.
  Qed.

  Theorem mul_add_fn self x y s l r t st bs st' ok (m := N.min t (l + r)) :
    has_degree n self s -> has_degree n x l -> has_degree n y r ->
    n ^ (s + 1) < 2 ^ 64 -> n ^ (l + 1) < 2 ^ 64 -> n ^ (r + 1) < 2 ^ 64 -> n ^ (m + 1) < 2 ^ 64 ->
    s < m \/ stored_to n self m -> stored_to n x (N.min m l) -> stored_to n y (N.min m r) ->
    run st (args x y (product_pairs n l r m)) = (bs, st', ok) ->
    exists e, multiply_and_add_into_impl_fn so p n func self x y st (Some t) = fin ok (after self (s <? m) e, st')
      /\ len e = (if s <? m then cbS m else dv_size self)
      /\ forall w, word_ok n w -> wc (dv_from e) w = added_to so w (List.combine (product_pairs n l r m) bs) (wc self w).
  Proof.
    intros Hs Hl Hr Ps Pl Pr Pm Hself Hx Hy E. unfold multiply_and_add_into_impl_fn.
    rewrite (degree_ok p n Hn x l Hl Pl), (degree_ok p n Hn y r Hr Pr). cbn [eval].
    pose proof (pow_u64_exp n _ Hn Pl). pose proof (pow_u64_exp n _ Hn Pr).
    rewrite product_degree_ok by lia. cbn [eval]. fold m.
    destruct (grow_ok so p n Hn self s m Hs Ps (fun _ => Pm)) as (g & -> & Hg & Hgw). cbn [eval].
    set (s1 := if s <? m then after self true g else self).
    assert (S1 : stored_to n s1 m).
    { unfold s1. destruct (N.ltb_spec s m) as [H1|H1].
      - unfold stored_to, dv_size. cbn [after dv_elems]. rewrite (Hg H1). lia.
      - destruct Hself; [lia|assumption]. }
    assert (S2 : forall w, word_ok n w -> wc s1 w = wc self w).
    { intros w Hw. unfold s1. destruct (N.ltb_spec s m) as [H1|H1]; [|reflexivity].
      rewrite <- (Hgw H1 w Hw). apply wc_elems. reflexivity. }
    assert (D : does x y (loop (rev_range_incl 0 m) (fun x0 out_deg =>
        loop (rev_range_incl (if r <? out_deg then out_deg - r else 0) (N.min out_deg l))
             (mul_add_body_fn so p n func x y out_deg) x0) (s1, st)) s1 st (product_pairs n l r m)).
    { unfold product_pairs. apply does_loop.
      - intros out z st0 Hout Hz. apply in_rev_range_incl in Hout.
        assert (Hpo : n ^ (out + 1) < 2 ^ 64) by (pose proof (pow_le n (out + 1) (m + 1)); lia).
        rewrite degrees_filter. apply does_loop.
        + intros d z' st1 Hd Hz'. apply in_rev_range_incl in Hd. fold (lo r out) in Hd. rewrite lo_eq in Hd.
          apply body_does; [exact Hpo|lia| | |].
          * apply (stored_mono n Hn z' out m); [lia|]. unfold stored_to in *. congruence.
          * apply (stored_mono n Hn x d (N.min m l)); [lia|exact Hx].
          * apply (stored_mono n Hn y _ (N.min m r)); [lia|exact Hy].
        + intros d _. apply prod_ne; apply words_ne.
      - intros out Hout. apply in_rev_range_incl in Hout. rewrite degrees_filter.
        assert (Hi : In (N.min out l) (ds_of l r out)) by (apply in_rev_range_incl; rewrite lo_eq; lia).
        destruct (ds_of l r out) as [|d ds]; [destruct Hi|]. cbn [flat_map]. intros E0.
        apply app_eq_nil in E0. destruct E0 as [E0 _]. revert E0. apply prod_ne; apply words_ne. }
    destruct (D _ _ _ E) as (z & Ez & (U1 & U2) & K & A). rewrite Ez. exists (dv_elems z).
    assert (Hne : product_pairs n l r m <> []) by apply pairs_ne.
    specialize (A Hne).
    split.
    { rewrite A at 1. unfold s1. destruct (s <? m); [|reflexivity]. rewrite after_after. reflexivity. }
    split.
    { change (len (dv_elems z)) with (dv_size z). rewrite U1. unfold s1.
      destruct (N.ltb_spec s m) as [H1|H1]; [|reflexivity]. unfold dv_size. cbn [after dv_elems]. apply Hg. exact H1. }
    intros w Hwo. rewrite (wc_elems so n (dv_from (dv_elems z)) z w eq_refl). rewrite (U2 w Hwo).
    rewrite (S2 w Hwo). reflexivity.
  Qed.
End Product.
