(** The theorem of Dynkin, Specht and Wever, for coefficients: brackets against shuffles. *)
From Coq Require Import Ring_theory Ring.
From Verif Require Import Machine MachineLemmas S_Words L_Words M_Scalar M_Dense S_Vector S_Tensor S_Series L_Ring L_Algebra L_Conv L_Series L_ExpGroup
  L_HallMap S_Shuffle L_Shuffle S_Antipode L_Antipode L_Units S_Lie S_Dynkin.

Section Dynkin.
  Context {S R : Type} (so : scalar_ops S R) (L : ring_laws so).
  Let RT := ring_of so L.
  Add Ring scalars : RT.
  Notation zero := (s_zero so).
  Notation one := (s_one so).
  Infix "[+]" := (s_add so) (at level 50, left associativity).
  Infix "[*]" := (s_mul so) (at level 40, left associativity).
  Notation "[-] x" := (s_uminus so x) (at level 35, right associativity).
  Notation cv := (conv so).
  Notation sh := (shuffle_sum so).
  Notation dl := (delta so).
  Notation sgn k x := (if Nat.even k then x else [-] x).
  Notation sum := (fold_right (s_add so) zero).

  (** ** sums over the ways to cut a word in two *)
  Fixpoint ssum (h : word -> word -> S) (w : word) : S :=
    match w with [] => h [] [] | a :: w' => h [] (a :: w') [+] ssum (fun u v => h (a :: u) v) w' end.
  Lemma ssum_ext h k w : (forall u v, w = u ++ v -> h u v = k u v) -> ssum h w = ssum k w.
  Proof.
    revert h k. induction w as [|a w IH]; intros h k E; cbn [ssum]; [apply E; reflexivity|].
    rewrite (E [] (a :: w) eq_refl). f_equal. apply IH. intros u v ->. apply E. reflexivity.
  Qed.
  Lemma ssum_add h k w : ssum (fun u v => h u v [+] k u v) w = ssum h w [+] ssum k w.
  Proof. revert h k. induction w as [|a w IH]; intros h k; cbn [ssum]; [reflexivity|]. rewrite IH. ring. Qed.
  Lemma ssum_opp h w : ssum (fun u v => [-] h u v) w = [-] ssum h w.
  Proof. revert h. induction w as [|a w IH]; intros h; cbn [ssum]; [reflexivity|]. rewrite IH. ring. Qed.
  Lemma ssum_zero h w : (forall u v, w = u ++ v -> h u v = zero) -> ssum h w = zero.
  Proof.
    revert h. induction w as [|a w IH]; intros h E; cbn [ssum]; [apply E; reflexivity|].
    rewrite (E [] (a :: w) eq_refl), IH; [ring|]. intros u v ->. apply E. reflexivity.
  Qed.
  Lemma ssum_snoc h w b : ssum h (w ++ [b]) = ssum (fun u v => h u (v ++ [b])) w [+] h (w ++ [b]) [].
  Proof. revert h. induction w as [|a w IH]; intros h; cbn [app ssum]; [reflexivity|]. rewrite IH. ring. Qed.

  (** ** the weighted sum over the shuffles of a beginning with the reversed rest *)
  Definition tsum (c : nat -> S) (f : word -> S) (w : word) : S :=
    ssum (fun u v => c (length u) [*] sgn (length v) (sh f u (rev v))) w.
  Lemma tsum_ends c f a m b :
    tsum c f (a :: m ++ [b]) = tsum (fun k => c (Datatypes.S k)) (der a f) (m ++ [b]) [+] [-] tsum c (der b f) (a :: m).
  Proof.
    unfold tsum. cbn [ssum]. rewrite !ssum_snoc. cbn [length rev].
    rewrite (ssum_ext (fun u v => c (Datatypes.S (length u)) [*] sgn (length (v ++ [b])) (sh f (a :: u) (rev (v ++ [b]))))
      (fun u v => c (Datatypes.S (length u)) [*] sgn (length (v ++ [b])) (sh (der a f) u (rev (v ++ [b])))
                  [+] [-] (c (Datatypes.S (length u)) [*] sgn (length v) (sh (der b f) (a :: u) (rev v))))).
    2:{ intros u v _. rewrite rev_app_distr. cbn [rev app]. rewrite (sh_cons so L), app_length, Nat.add_comm. cbn [length Nat.add].
        rewrite !(sgn_S so L). destruct (Nat.even (length v)); ring. }
    rewrite ssum_add, ssum_opp. rewrite !(sh_nil_l so L), !(sh_nil_r so L).
    replace (length (m ++ [b])) with (Datatypes.S (length m)) by (rewrite app_length; cbn; lia).
    rewrite rev_app_distr. cbn [rev app length]. rewrite !(sgn_S so L). change (Nat.even 0) with true. cbv iota.
    change (der b f (rev m ++ [a])) with (f (b :: rev m ++ [a])). change (der a f (m ++ [b])) with (f (a :: m ++ [b])).
    destruct (Nat.even (length m)); ring.
  Qed.
  Lemma two_ends (w : word) : w = [] \/ (exists a, w = [a]) \/ exists a m b, w = a :: m ++ [b].
  Proof.
    destruct w as [|a w]; [left; reflexivity|right]. destruct (exists_last (l := a :: w)) as (m & b & E); [discriminate|].
    destruct m as [|c m]; cbn [app] in E; injection E as -> ->; [left; eauto|right; eauto].
  Qed.
  Lemma tsum_one f w : w <> [] -> tsum (fun _ => one) f w = zero.
  Proof.
    remember (length w) as k eqn:Ek. revert f w Ek. induction k as [k IH] using lt_wf_ind. intros f w -> Hw.
    destruct (two_ends w) as [->|[[a ->]|(a & m & b & ->)]]; [contradiction| |].
    - unfold tsum. cbn. unfold der. ring.
    - rewrite tsum_ends. rewrite (IH (length (m ++ [b]))), (IH (length (a :: m))); try reflexivity; try discriminate; [ring| | |].
      1,2: cbn [length]; rewrite app_length; cbn [length]; lia.
      destruct m; discriminate.
  Qed.

  (** ** natural numbers as scalars *)
  Fixpoint num (k : nat) : S := match k with O => zero | Datatypes.S k => one [+] num k end.
  Lemma tsum_num_ends f a m b :
    tsum num f (a :: m ++ [b]) = tsum num (der a f) (m ++ [b]) [+] [-] tsum num (der b f) (a :: m).
  Proof.
    rewrite tsum_ends. f_equal. unfold tsum.
    rewrite (ssum_ext (fun u v => num (Datatypes.S (length u)) [*] sgn (length v) (sh (der a f) u (rev v)))
      (fun u v => one [*] sgn (length v) (sh (der a f) u (rev v)) [+] num (length u) [*] sgn (length v) (sh (der a f) u (rev v))))
      by (intros; cbn [num]; ring).
    rewrite ssum_add. pose proof (tsum_one (der a f) (m ++ [b])) as Z. unfold tsum in Z. rewrite Z by (destruct m; discriminate). ring.
  Qed.
  Lemma tsum_prim n t f w : primitive so n t f -> word_ok n w -> len w <= t -> w <> [] -> tsum num f w = num (length w) [*] f w.
  Proof.
    intros P Hw Hl Nw. destruct (two_ends w) as [->|[[a ->]|(a & m & b & ->)]]; [contradiction|unfold tsum; cbn; ring|].
    unfold tsum. change (a :: m ++ [b]) with ((a :: m) ++ [b]). rewrite ssum_snoc. cbn [rev length Nat.even]. rewrite (sh_nil_r so L).
    rewrite ssum_zero; [ring|]. intros u v E. destruct u as [|c u]; [cbn [num length]; ring|].
    rewrite (proj2 P (c :: u) (rev (v ++ [b]))); [destruct (Nat.even _); ring| | |discriminate| |].
    - apply (proj1 (word_ok_app n (c :: u) (v ++ [b]))). rewrite app_assoc, <- E. exact Hw.
    - apply Forall_rev. apply (proj1 (word_ok_app n (c :: u) (v ++ [b]))). rewrite app_assoc, <- E. exact Hw.
    - rewrite rev_app_distr. discriminate.
    - assert (H : len ((c :: u) ++ (v ++ [b])) <= t) by (rewrite app_assoc, <- E; exact Hl).
      rewrite len_app in H. unfold len in *. rewrite rev_length. exact H.
  Qed.

  (** ** brackets *)
  Definition brk (f g : word -> S) (w : word) : S := s_sub so (cv f g w) (cv g f w).
  Fixpoint brf (v : word) : word -> S :=
    match v with [] => fun _ => zero | [a] => dl [a] | a :: v' => brk (dl [a]) (brf v') end.
  Lemma brf_cons c v : v <> [] -> brf (c :: v) = brk (dl [c]) (brf v).
  Proof. destruct v; [contradiction|reflexivity]. Qed.
  Lemma brf_ends c v a m b : v <> [] -> brf (c :: v) (a :: m ++ [b])
    = s_sub so (if c =? a then brf v (m ++ [b]) else zero) (if c =? b then brf v (a :: m) else zero).
  Proof.
    intros Hv. rewrite brf_cons by exact Hv. unfold brk. rewrite (letter_l so L). f_equal.
    change (a :: m ++ [b]) with ((a :: m) ++ [b]). apply (letter_r so L).
  Qed.
  Lemma brf_length v : forall w, length w <> length v -> brf v w = zero.
  Proof.
    induction v as [|c v IH]; intros w Hw; [reflexivity|]. destruct v as [|d v]; [apply (delta_other so); exact Hw|].
    rewrite brf_cons by discriminate. set (g := brf (d :: v)) in *. unfold brk.
    destruct (two_ends w) as [->|[[a ->]|(a & m & b & ->)]].
    - destruct (letter_nil so L g c) as [-> ->]. rewrite (l_sub_def so L). ring.
    - rewrite (letter_l so L). change [a] with ([] ++ [a]) at 1. rewrite (letter_r so L). rewrite (l_sub_def so L).
      rewrite !(IH []) by (cbn; lia). destruct (c =? a); ring.
    - rewrite (letter_l so L). change (a :: m ++ [b]) with ((a :: m) ++ [b]) at 1. rewrite (letter_r so L).
      cbn [length] in Hw. rewrite app_length in Hw. cbn [length] in Hw.
      rewrite (IH (m ++ [b])), (IH (a :: m)); [|cbn [length]; lia|rewrite app_length; cbn [length]; lia].
      rewrite (l_sub_def so L). destruct (c =? a), (c =? b); ring.
  Qed.

  Lemma sum_ext {A} (h k : A -> S) l : (forall x, In x l -> h x = k x) -> sum (map h l) = sum (map k l).
  Proof. intros E. f_equal. apply map_ext_in. exact E. Qed.
  Lemma sum_zero {A} (h : A -> S) l : (forall x, In x l -> h x = zero) -> sum (map h l) = zero.
  Proof.
    induction l as [|x l IH]; intros E; [reflexivity|]. cbn [map fold_right]. rewrite (E x (or_introl eq_refl)), IH; [ring|].
    intros y Hy. apply E. right. exact Hy.
  Qed.
  Lemma sum_pick (h : N -> S) l a : NoDup l -> In a l -> sum (map (fun c => if c =? a then h c else zero) l) = h a.
  Proof.
    induction l as [|x l IH]; intros ND Hi; [destruct Hi|]. inversion ND as [|x' l' Nx Nl]; subst. cbn [map fold_right].
    destruct (N.eqb_spec x a) as [->|Ne].
    - rewrite sum_zero; [ring|]. intros y Hy. destruct (N.eqb_spec y a) as [->|]; [contradiction|reflexivity].
    - destruct Hi as [->|Hi]; [contradiction|]. rewrite IH by assumption. ring.
  Qed.
  Lemma sum_flat {A B} (h : B -> S) (k : A -> list B) l : sum (map h (flat_map k l)) = sum (map (fun x => sum (map h (k x))) l).
  Proof.
    induction l as [|x l IH]; [reflexivity|]. cbn [flat_map map fold_right]. rewrite map_app, (sum_app so L), IH. reflexivity.
  Qed.

  Context (n : N).
  (** the sum of f(v) times the bracket of v over all words of one length *)
  Definition dsum (f : word -> S) (w : word) : S :=
    sum (map (fun v => f v [*] brf v w) (words_of_length n (length w))).
  Lemma letters_nodup : NoDup (letters n).
  Proof.
    unfold letters, range_incl. generalize 1 as a, (N.to_nat (n + 1 - 1)) as k. intros a k. revert a.
    induction k as [|k IH]; intros a; cbn [seqN]; constructor; [|apply IH]. rewrite in_seqN. lia.
  Qed.
  Lemma in_letters a : 1 <= a <= n -> In a (letters n).
  Proof. intros H. unfold letters, range_incl. apply in_seqN. lia. Qed.
  Lemma dsum_ends f a m b : word_ok n (a :: m ++ [b]) ->
    dsum f (a :: m ++ [b]) = dsum (der a f) (m ++ [b]) [+] [-] dsum (der b f) (a :: m).
  Proof.
    intros Hw. inversion Hw as [|a' w' Ha Hw']; subst. apply word_ok_app in Hw'. destruct Hw' as [_ Hb].
    inversion Hb as [|b' w' Hb' _]; subst. unfold dsum.
    assert (Lm : length (m ++ [b]) = length (a :: m)) by (rewrite app_length; cbn [length]; lia).
    cbn [length] in Lm |- *. rewrite Lm. set (k := Datatypes.S (length m)). cbn [words_of_length]. rewrite sum_flat.
    set (X c := sum (map (fun v => f (c :: v) [*] brf v (m ++ [b])) (words_of_length n k))).
    set (Y c := sum (map (fun v => f (c :: v) [*] brf v (a :: m)) (words_of_length n k))).
    rewrite (sum_ext _ (fun c => (if c =? a then X c else zero) [+] [-] one [*] (if c =? b then Y c else zero))).
    - rewrite (sum_map_add so L), (sum_map_scal so L), (sum_pick X), (sum_pick Y) by (apply letters_nodup || apply in_letters; assumption).
      change (X a) with (sum (map (fun v => der a f v [*] brf v (m ++ [b])) (words_of_length n k))).
      change (Y b) with (sum (map (fun v => der b f v [*] brf v (a :: m)) (words_of_length n k))). ring.
    - intros c _. rewrite map_map.
      rewrite (sum_ext _ (fun v => (if c =? a then one else zero) [*] (f (c :: v) [*] brf v (m ++ [b]))
                            [+] [-] (if c =? b then one else zero) [*] (f (c :: v) [*] brf v (a :: m)))).
      + rewrite (sum_map_add so L), !(sum_map_scal so L). fold (X c) (Y c). destruct (c =? a), (c =? b); ring.
      + intros v Hv. apply in_words_of_length in Hv. destruct Hv as [_ Hv]. unfold k in Hv.
        rewrite brf_ends by (intros ->; discriminate Hv). rewrite (l_sub_def so L). destruct (c =? a), (c =? b); ring.
  Qed.
  Lemma dsum_tsum f w : word_ok n w -> w <> [] -> dsum f w = tsum num f w.
  Proof.
    remember (length w) as k eqn:Ek. revert f w Ek. induction k as [k IH] using lt_wf_ind. intros f w -> Hw Nw.
    destruct (two_ends w) as [->|[[a ->]|(a & m & b & ->)]]; [contradiction| |].
    - inversion Hw as [|a' w' Ha _]; subst. unfold dsum. cbn [length words_of_length]. rewrite sum_flat. cbn [map fold_right brf].
      rewrite (sum_ext _ (fun c => if c =? a then f [c] else zero)).
      + rewrite (sum_pick (fun c => f [c])) by (apply letters_nodup || apply in_letters; exact Ha).
        unfold tsum. cbn. ring.
      + intros c _. rewrite (delta_letter so). destruct (c =? a); ring.
    - rewrite dsum_ends, tsum_num_ends by exact Hw.
      assert (H1 : word_ok n (a :: m) /\ word_ok n [b]) by (apply word_ok_app; exact Hw).
      assert (H2 : word_ok n [a] /\ word_ok n (m ++ [b])) by (apply word_ok_app; exact Hw).
      rewrite (IH (length (m ++ [b]))), (IH (length (a :: m))); try reflexivity; try discriminate; try apply H1; try apply H2.
      1,2: cbn [length]; rewrite app_length; cbn [length]; lia.
      destruct m; discriminate.
  Qed.
  Lemma dsum_prim t f w : primitive so n t f -> word_ok n w -> len w <= t -> w <> [] -> dsum f w = num (length w) [*] f w.
  Proof. intros P Hw Hl Nw. rewrite dsum_tsum by assumption. apply (tsum_prim n t); assumption. Qed.

  (** ** Lie expressions as functions on words *)
  Fixpoint lie_fun (e : lie S) : word -> S :=
    match e with
    | Letter a => dl [a]
    | Plus e e' => fun w => lie_fun e w [+] lie_fun e' w
    | Minus e e' => fun w => s_sub so (lie_fun e w) (lie_fun e' w)
    | Neg e => fun w => [-] lie_fun e w
    | Scaled c e => fun w => c [*] lie_fun e w
    | Bracket e e' => brk (lie_fun e) (lie_fun e')
    end.
  Lemma brk_ext f f' g g' w : (forall u, f u = f' u) -> (forall u, g u = g' u) -> brk f g w = brk f' g' w.
  Proof. intros E E'. unfold brk. f_equal; apply conv_ext; intros; auto. Qed.
  Lemma right_bracket_fun v w : lie_fun (right_bracket so v) w = brf v w.
  Proof.
    revert w. induction v as [|a v IH]; intros w; [cbn; ring|]. destruct v as [|b v]; [reflexivity|].
    change (brk (dl [a]) (lie_fun (right_bracket so (b :: v))) w = brk (dl [a]) (brf (b :: v)) w).
    apply brk_ext; [reflexivity|exact IH].
  Qed.
  Lemma bracket_sum_fun f ws w : lie_fun (bracket_sum so f ws) w = sum (map (fun v => f v [*] brf v w) ws).
  Proof.
    induction ws as [|v ws IH]; [cbn; ring|]. cbn [bracket_sum fold_right lie_fun map]. rewrite right_bracket_fun. f_equal. exact IH.
  Qed.
  Lemma right_bracket_ok v : 1 <= n -> word_ok n v -> letters_ok n (right_bracket so v).
  Proof.
    intros Hn. induction v as [|a v IH]; intros Hv; [cbn; lia|]. inversion Hv as [|a' v' Ha Hv']; subst.
    destruct v as [|b v]; [exact Ha|]. split; [exact Ha|]. apply IH. exact Hv'.
  Qed.
  Lemma bracket_sum_ok f ws : 1 <= n -> Forall (word_ok n) ws -> letters_ok n (bracket_sum so f ws).
  Proof.
    intros Hn H. induction H as [|v ws Hv Hws IH]; [cbn; lia|]. split; [apply (right_bracket_ok v Hn Hv)|exact IH].
  Qed.
End Dynkin.
