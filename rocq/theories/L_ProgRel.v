(** Programs on float tensors followed by three programs on rational numbers - exact values, sizes, largest sizes -
    through a relation between one float and three rational numbers. *)
From Coq Require Import ZArith QArith Qabs Lqa SpecFloat.
From Verif Require Import Machine MachineLemmas S_Words L_Words M_Scalar M_Dense S_Tensor M_Float S_Float L_FloatSum
  L_TensorKey L_TensorBasis L_Algebra L_PropDense L_PropFloat L_PropRound L_PropCommFloat S_Vector S_TensorProg L_PropTensorProg S_ProgSteps.
Local Open Scope N_scope.

(** ** degrees *)
Lemma t_product_eq {S R} (so : scalar_ops S R) x a b h t :
  t_product so x a b h t =
  (d <- d_product (t_deg x) (t_deg a) (t_deg b) t ;;
   Ret (mk_atensor d (fun w => h (t_fun x w) (tconv so (match t with Some t => t | None => 0 end) (t_fun a) (t_fun b) w)))).
Proof.
  unfold t_product, d_product. destruct t as [t|]; [|reflexivity]. destruct (t_deg a) as [l|]; [|reflexivity].
  destruct (t_deg b) as [r|]; [|destruct (t_deg x); reflexivity]. destruct (t_deg x); [reflexivity|].
  destruct (N.min t (l + r) =? 0); reflexivity.
Qed.
Lemma r_product_eq {S R} (so : scalar_ops S R) x a b f t :
  r_product so x a b f t =
  (d <- d_product (t_deg x) (t_deg a) (t_deg b) t ;;
   Ret (mk_atensor d (fun w =>
     match t, t_deg a, t_deg b with
     | Some t, Some l, Some r => if len w <=? N.min t (l + r)
         then fold_left (fun s c => s_add so s (f c)) (terms so l r (t_fun a) (t_fun b) w) (t_fun x w) else t_fun x w
     | _, _, _ => t_fun x w
     end))).
Proof.
  unfold r_product, d_product. destruct t as [t|]; [|reflexivity]. destruct (t_deg a) as [l|]; [|reflexivity].
  destruct (t_deg b) as [r|]; [|destruct (t_deg x); reflexivity]. destruct (t_deg x); [reflexivity|].
  destruct (N.min t (l + r) =? 0); reflexivity.
Qed.
Lemma product_degree x l r t d : d_product x (Some l) (Some r) (Some t) = Ret d ->
  exists e, d = Some e /\ N.min t (l + r) <= e /\ match x with Some s => s <= e | None => True end.
Proof.
  unfold d_product. destruct x as [s|].
  - intros H. injection H as <-. eexists. split; [reflexivity|]. lia.
  - destruct (N.eqb_spec (N.min t (l + r)) 0); intros H; [discriminate|]. injection H as <-. eexists. split; [reflexivity|]. lia.
Qed.

Lemma filter_none {A} (g : A -> bool) l : (forall a, List.In a l -> g a = false) -> filter g l = [].
Proof.
  induction l as [|a l IH]; intros H; [reflexivity|]. cbn [filter]. rewrite (H a (or_introl eq_refl)). apply IH.
  intros b Hb. apply H. right. exact Hb.
Qed.

Section Relation.
  Context (f : fmt) (n : N)
    (Rel : nat -> nat -> spec_float -> Q -> Q -> Q -> Prop) (const divisor : spec_float -> Prop).
  Notation so := (fl_ops f).
  Notation zero := (S754_zero false).
  Local Open Scope Q_scope.
  Context
    (R_compat : forall k j x v s m v' s' m', v == v' -> s == s' -> m == m' -> Rel k j x v s m -> Rel k j x v' s' m')
    (R_mono : forall k j k' j' x v s m, (k <= k')%nat -> (j <= j')%nat -> Rel k j x v s m -> Rel k' j' x v s m)
    (R_zero : Rel 0 0 zero 0 0 0)
    (R_add : forall k j x v s m k' j' y v' s' m', Rel k j x v s m -> Rel k' j' y v' s' m' ->
       Rel (S (Nat.max k k')) (j + j') (s_add so x y) (v + v') (s + s') (m + m'))
    (R_addz : forall k j x v s m v' s' m', Rel k j x v s m -> Rel 0 0 zero v' s' m' ->
       Rel k j x (v + v') (s + s') (m + m'))
    (R_zadd : forall v s m k' j' y v' s' m', Rel 0 0 zero v s m -> Rel k' j' y v' s' m' ->
       Rel k' j' (s_add so zero y) (v + v') (s + s') (m + m'))
    (R_opp : forall k j x v s m, Rel k j x v s m -> Rel k j (SFopp x) (- v) s m)
    (R_oppz : forall v s m, Rel 0 0 zero v s m -> Rel 0 0 zero (- v) s m)
    (R_mul : forall x v s m y v' s' m', Rel 0 0 x v s m -> Rel 0 0 y v' s' m' ->
       Rel 1 1 (s_mul so x y) (v * v') (s * s') (m * m'))
    (R_mulz : forall v s m y v' s' m', Rel 0 0 zero v s m -> Rel 0 0 y v' s' m' -> Rel 0 0 zero (v * v') (s * s') (m * m'))
    (R_const : forall c, const c -> Rel 0 0 c (fl_val c) (Qabs (fl_val c)) (Qabs (fl_val c)))
    (R_div : forall x v s m r, Rel 0 0 x v s m -> divisor r ->
       Rel 1 1 (s_div so x r) (v / fl_val r) (s / Qabs (fl_val r)) (m / Qabs (fl_val r)))
    (R_divz : forall v s m r, Rel 0 0 zero v s m -> divisor r ->
       Rel 0 0 zero (v / fl_val r) (s / Qabs (fl_val r)) (m / Qabs (fl_val r))).

  Lemma R_sub k j x v s m k' j' y v' s' m' : Rel k j x v s m -> Rel k' j' y v' s' m' ->
    Rel (S (Nat.max k k')) (j + j') (s_sub so x y) (v - v') (s + s') (m + m').
  Proof.
    intros H1 H2. change (s_sub so x y) with (SFsub (f_prec f) (f_emax f) x y). rewrite L_Float.sub_opp.
    apply (R_add k j x v s m k' j' (SFopp y) (- v') s' m' H1). apply R_opp, H2.
  Qed.
  Lemma R_subz k j x v s m v' s' m' : Rel k j x v s m -> Rel 0 0 zero v' s' m' -> Rel k j x (v - v') (s + s') (m + m').
  Proof. intros H1 H2. apply (R_addz k j x v s m (- v') s' m' H1). apply R_oppz, H2. Qed.
  Lemma R_mulz2 x v s m v' s' m' : Rel 0 0 x v s m -> Rel 0 0 zero v' s' m' -> Rel 0 0 zero (v * v') (s * s') (m * m').
  Proof.
    intros H1 H2. apply (R_compat 0 0 zero (v' * v) (s' * s) (m' * m)); try apply Qmult_comm. exact (R_mulz _ _ _ _ _ _ _ H2 H1).
  Qed.

  (** one tensor of floats and three of rational numbers *)
  Definition rel4 (k j : word -> nat) (a : atensor spec_float) (v s m : atensor Q) : Prop :=
    t_deg v = t_deg a /\ t_deg s = t_deg a /\ t_deg m = t_deg a
    /\ (forall w, word_ok n w -> stores a w = false -> t_fun a w = zero)
    /\ forall w, word_ok n w -> Rel (k w) (j w) (t_fun a w) (t_fun v w) (t_fun s w) (t_fun m w).
  Notation none := (fun _ : word => O).
  Notation leaf := (rel4 none none).

  Lemma leaf_zero : leaf (t_zero so) (t_zero q_ops) (t_zero size_ops) (t_zero size_ops).
  Proof. do 3 (split; [reflexivity|]). split; [reflexivity|]. intros. exact R_zero. Qed.
  Lemma rel4_mono k j k' j' a v s m : (forall w, k w <= k' w)%nat -> (forall w, j w <= j' w)%nat ->
    rel4 k j a v s m -> rel4 k' j' a v s m.
  Proof.
    intros Hk Hj (E1 & E2 & E3 & Z & H). do 4 (split; [assumption|]). intros w Hw.
    apply (R_mono (k w) (j w)); [apply Hk|apply Hj|exact (H w Hw)].
  Qed.

  (** ** sums of products *)
  Section Terms.
    Context (neg : bool) (l r : N) (a b : word -> spec_float) (va vb sa sb ma mb : word -> Q)
      (Za : forall u, word_ok n u -> (l < len u)%N -> a u = zero) (Zb : forall u, word_ok n u -> (r < len u)%N -> b u = zero)
      (Ha : forall u, word_ok n u -> Rel 0 0 (a u) (va u) (sa u) (ma u))
      (Hb : forall u, word_ok n u -> Rel 0 0 (b u) (vb u) (sb u) (mb u)).
    Notation inside := (fun uv : word * word => (len (fst uv) <=? l) && (len (snd uv) <=? r))%N.
    Notation func := (if neg then SFopp else fun c => c).
    Notation sgn := (if neg then Qopp else fun c => c).
    Notation tm A B := (fun uv : word * word => A (fst uv) * B (snd uv)).
    Lemma func_rel k j x v s m : Rel k j x v s m -> Rel k j (func x) (sgn v) s m.
    Proof. intros H. destruct neg; [apply R_opp, H|exact H]. Qed.
    Lemma sgn_rel v s m : Rel 0 0 zero v s m -> Rel 0 0 zero (sgn v) s m.
    Proof. intros H. destruct neg; [apply R_oppz, H|exact H]. Qed.
    Lemma fold_rel ps : (forall uv, List.In uv ps -> word_ok n (fst uv) /\ word_ok n (snd uv)) ->
      forall k j acc v s m, (1 <= k)%nat -> Rel k j acc v s m ->
      Rel (k + length ps) (j + length ps)
        (fold_left (fun s c => s_add so s (func c))
           (map (fun uv => s_mul so (a (fst uv)) (b (snd uv))) (filter inside ps)) acc)
        (v + qsum (map (fun uv => sgn (tm va vb uv)) ps)) (s + qsum (map (tm sa sb) ps)) (m + qsum (map (tm ma mb) ps)).
    Proof.
      induction ps as [|uv ps IH]; intros P k j acc v s m Hk H.
      - cbn [filter map fold_left length]. rewrite !Nat.add_0_r. unfold qsum. cbn [fold_right map].
        apply (R_compat k j acc v s m); [ring|ring|ring|exact H].
      - destruct (P uv (or_introl eq_refl)) as [Hu Hv].
        assert (P' : forall uv, List.In uv ps -> word_ok n (fst uv) /\ word_ok n (snd uv)) by (intros; apply P; right; assumption).
        cbn [map length]. rewrite !qsum_cons.
        set (v1 := sgn (tm va vb uv)). set (s1 := tm sa sb uv). set (m1 := tm ma mb uv).
        assert (Hd : inside uv = false -> Rel 0 0 zero v1 s1 m1).
        { intros E. subst v1. apply sgn_rel. subst s1 m1. cbn beta in E |- *. apply andb_false_iff in E.
          pose proof (Ha _ Hu) as A. pose proof (Hb _ Hv) as B.
          destruct E as [E|E]; apply N.leb_gt in E.
          - rewrite (Za _ Hu E) in A. exact (R_mulz _ _ _ _ _ _ _ A B).
          - rewrite (Zb _ Hv E) in B. exact (R_mulz2 _ _ _ _ _ _ _ A B). }
        cbn [filter]. destruct (inside uv) eqn:E.
        + cbn [map fold_left].
          assert (T : Rel 1 1 (func (s_mul so (a (fst uv)) (b (snd uv)))) v1 s1 m1) by (apply func_rel, R_mul; [apply Ha, Hu|apply Hb, Hv]).
          pose proof (R_add _ _ _ _ _ _ _ _ _ _ _ _ H T) as Hs. rewrite Nat.max_l in Hs by exact Hk.
          pose proof (IH P' (Datatypes.S k) (j + 1)%nat _ _ _ _ ltac:(lia) Hs) as X.
          replace (k + S (length ps))%nat with (S k + length ps)%nat by lia.
          replace (j + S (length ps))%nat with (j + 1 + length ps)%nat by lia.
          eapply R_compat; [| | |exact X]; ring.
        + pose proof (IH P' k j _ _ _ _ Hk (R_addz _ _ _ _ _ _ _ _ _ H (Hd eq_refl))) as X.
          apply (R_mono (k + length ps) (j + length ps)); [lia|lia|].
          eapply R_compat; [| | |exact X]; ring.
    Qed.
    (** starting with 0 the first addition is exact *)
    Lemma fold_rel_zero ps : (forall uv, List.In uv ps -> word_ok n (fst uv) /\ word_ok n (snd uv)) ->
      forall v s m, Rel 0 0 zero v s m ->
      Rel (length ps) (length ps)
        (fold_left (fun s c => s_add so s (func c))
           (map (fun uv => s_mul so (a (fst uv)) (b (snd uv))) (filter inside ps)) zero)
        (v + qsum (map (fun uv => sgn (tm va vb uv)) ps)) (s + qsum (map (tm sa sb) ps)) (m + qsum (map (tm ma mb) ps)).
    Proof.
      induction ps as [|uv ps IH]; intros P v s m H.
      - cbn [filter map fold_left length]. unfold qsum. cbn [fold_right map].
        apply (R_compat 0 0 zero v s m); [ring|ring|ring|exact H].
      - destruct (P uv (or_introl eq_refl)) as [Hu Hv].
        assert (P' : forall uv, List.In uv ps -> word_ok n (fst uv) /\ word_ok n (snd uv)) by (intros; apply P; right; assumption).
        cbn [map length]. rewrite !qsum_cons.
        set (v1 := sgn (tm va vb uv)). set (s1 := tm sa sb uv). set (m1 := tm ma mb uv).
        assert (Hd : inside uv = false -> Rel 0 0 zero v1 s1 m1).
        { intros E. subst v1. apply sgn_rel. subst s1 m1. cbn beta in E |- *. apply andb_false_iff in E.
          pose proof (Ha _ Hu) as A. pose proof (Hb _ Hv) as B.
          destruct E as [E|E]; apply N.leb_gt in E.
          - rewrite (Za _ Hu E) in A. exact (R_mulz _ _ _ _ _ _ _ A B).
          - rewrite (Zb _ Hv E) in B. exact (R_mulz2 _ _ _ _ _ _ _ A B). }
        cbn [filter]. destruct (inside uv) eqn:E.
        + cbn [map fold_left].
          assert (T : Rel 1 1 (func (s_mul so (a (fst uv)) (b (snd uv)))) v1 s1 m1) by (apply func_rel, R_mul; [apply Ha, Hu|apply Hb, Hv]).
          pose proof (fold_rel ps P' 1 1 _ _ _ _ (Nat.le_refl 1) (R_zadd _ _ _ _ _ _ _ _ _ H T)) as X.
          eapply R_compat; [| | |exact X]; symmetry; apply Qplus_assoc.
        + pose proof (IH P' _ _ _ (R_addz _ _ _ _ _ _ _ _ _ H (Hd eq_refl))) as X.
          apply (R_mono (length ps) (length ps)); [lia|lia|].
          eapply R_compat; [| | |exact X]; ring.
    Qed.
  End Terms.

  Lemma qsum_signs {A} (neg : bool) (g : A -> Q) ps :
    qsum (map (fun uv => (if neg then Qopp else fun c => c) (g uv)) ps) == (if neg then Qopp else fun c => c) (qsum (map g ps)).
  Proof.
    destruct neg; [|reflexivity]. induction ps as [|a ps IH]; [reflexivity|]. cbn [map]. rewrite !qsum_cons, IH. ring.
  Qed.
  Lemma sum_rev (A B : word -> Q) w : qsum (map (fun uv => A (fst uv) * B (snd uv)) (rev (splits w))) == conv q_ops A B w.
  Proof. rewrite map_rev, qsum_rev. reflexivity. Qed.

  (** x + ab and x - ab *)
  (** the largest number of roundings of a product: the accumulator [k] may be 0 to begin with *)
  Definition deep (fresh : bool) (k l : nat) : nat := if fresh then S l else (Nat.max 1 k + S l)%nat.
  Lemma product_rel (neg fresh : bool) k j x xv xs xm a av as_ am b bv bs bm t :
    (fresh = true -> forall w, t_fun x w = zero /\ k w = O /\ j w = O) ->
    rel4 k j x xv xs xm -> leaf a av as_ am -> leaf b bv bs bm ->
    match d_product (t_deg x) (t_deg a) (t_deg b) t with
    | Ret d => exists z zv zs zm,
        r_product so x a b (if neg then s_uminus so else fun c => c) t = Ret z
        /\ t_product q_ops xv av bv (if neg then s_sub q_ops else s_add q_ops) t = Ret zv
        /\ t_product size_ops xs as_ bs (if neg then s_sub size_ops else s_add size_ops) t = Ret zs
        /\ t_product size_ops xm am bm (if neg then s_sub size_ops else s_add size_ops) t = Ret zm
        /\ t_deg z = d
        /\ rel4 (fun w => deep fresh (k w) (length w)) (fun w => j w + S (length w))%nat z zv zs zm
    | Panic => r_product so x a b (if neg then s_uminus so else fun c => c) t = Panic
        /\ t_product q_ops xv av bv (if neg then s_sub q_ops else s_add q_ops) t = Panic
    | UB => r_product so x a b (if neg then s_uminus so else fun c => c) t = UB
        /\ t_product q_ops xv av bv (if neg then s_sub q_ops else s_add q_ops) t = UB
    | Diverge => False
    end.
  Proof.
    intros Fr (X1 & X2 & X3 & XZ & X) (A1 & A2 & A3 & AZ & A) (B1 & B2 & B3 & BZ & B).
    rewrite r_product_eq, !t_product_eq, X1, X2, X3, A1, A2, A3, B1, B2, B3.
    destruct (d_product (t_deg x) (t_deg a) (t_deg b) t) as [d| | |] eqn:Ed; cbn [bind].
    2,3: split; reflexivity.
    2:{ unfold d_product in Ed. destruct t; [|discriminate]. destruct (t_deg a), (t_deg b), (t_deg x); try discriminate.
        destruct (N.min n0 (n1 + n2) =? 0); discriminate. }
    do 4 eexists. do 4 (split; [reflexivity|]). split; [reflexivity|].
    destruct t as [t|]; [|discriminate]. destruct (t_deg a) as [l|] eqn:El; [|unfold d_product in Ed; discriminate].
    destruct (t_deg b) as [r|] eqn:Er; [|unfold d_product in Ed; destruct (t_deg x); discriminate].
    destruct (product_degree _ _ _ _ _ Ed) as (e & -> & He & Hx).
    split; [reflexivity|]. split; [reflexivity|]. split; [reflexivity|]. cbn [t_deg t_fun]. split.
    - unfold stores at 1. cbn [t_deg]. intros w Hw E. apply N.leb_gt in E.
      destruct (N.leb_spec (len w) (N.min t (l + r))) as [H|_]; [lia|]. apply (XZ w Hw). unfold stores.
      destruct (t_deg x); [apply N.leb_gt; lia|reflexivity].
    - intros w Hw.
      assert (Za : forall u, word_ok n u -> (l < len u)%N -> t_fun a u = zero).
      { intros u Hu Hl. apply (AZ u Hu). unfold stores. rewrite El. apply N.leb_gt. exact Hl. }
      assert (Zb : forall u, word_ok n u -> (r < len u)%N -> t_fun b u = zero).
      { intros u Hu Hl. apply (BZ u Hu). unfold stores. rewrite Er. apply N.leb_gt. exact Hl. }
      assert (P : forall uv, List.In uv (rev (splits w)) -> word_ok n (fst uv) /\ word_ok n (snd uv)).
      { intros [u v] H. apply in_rev in H. apply splits_in in H. subst w. apply word_ok_app in Hw. exact Hw. }
      assert (F : Rel (deep fresh (k w) (length w)) (j w + S (length w))
        (fold_left (fun s c => s_add so s ((if neg then SFopp else fun c => c) c))
           (map (fun p => s_mul so (t_fun a (fst p)) (t_fun b (snd p)))
              (filter (fun q => ((len (fst q) <=? l) && (len (snd q) <=? r))%N) (rev (splits w)))) (t_fun x w))
        (t_fun xv w + qsum (map (fun uv => (if neg then Qopp else fun c => c) (t_fun av (fst uv) * t_fun bv (snd uv))) (rev (splits w))))
        (t_fun xs w + qsum (map (fun uv => t_fun as_ (fst uv) * t_fun bs (snd uv)) (rev (splits w))))
        (t_fun xm w + qsum (map (fun uv => t_fun am (fst uv) * t_fun bm (snd uv)) (rev (splits w))))).
      { pose proof (X w Hw) as Xw. destruct fresh; cbn [deep].
        - destruct (Fr eq_refl w) as (Ez & Ek & Ej). rewrite Ez, Ek, Ej in Xw. rewrite Ez, Ej.
          pose proof (fold_rel_zero neg l r (t_fun a) (t_fun b) (t_fun av) (t_fun bv) (t_fun as_) (t_fun bs) (t_fun am) (t_fun bm)
            Za Zb A B (rev (splits w)) P _ _ _ Xw) as F. rewrite rev_length, splits_len in F. exact F.
        - pose proof (fold_rel neg l r (t_fun a) (t_fun b) (t_fun av) (t_fun bv) (t_fun as_) (t_fun bs) (t_fun am) (t_fun bm)
            Za Zb A B (rev (splits w)) P (Nat.max 1 (k w)) (j w) _ _ _ _ ltac:(lia)
            (R_mono (k w) (j w) _ _ _ _ _ _ (Nat.le_max_r 1 (k w)) (Nat.le_refl _) Xw)) as F.
          rewrite rev_length, splits_len in F. exact F. }
      change (map (fun p => s_mul so (t_fun a (fst p)) (t_fun b (snd p)))
        (filter (fun q => ((len (fst q) <=? l) && (len (snd q) <=? r))%N) (rev (splits w))))
        with (terms so l r (t_fun a) (t_fun b) w) in F.
      apply (R_compat _ _ _ _ _ _ (t_fun xv w + (if neg then Qopp else fun c => c) (conv q_ops (t_fun av) (t_fun bv) w))
        (t_fun xs w + conv q_ops (t_fun as_) (t_fun bs) w) (t_fun xm w + conv q_ops (t_fun am) (t_fun bm) w)) in F.
      2:{ rewrite qsum_signs. destruct neg; rewrite sum_rev; reflexivity. }
      2,3: rewrite sum_rev; reflexivity.
      destruct (N.leb_spec (len w) t) as [Ht|Ht].
      + assert (F' : Rel (deep fresh (k w) (length w)) (j w + S (length w))
          (if (len w <=? N.min t (l + r))%N then
             fold_left (fun s c => s_add so s ((if neg then s_uminus so else fun c => c) c)) (terms so l r (t_fun a) (t_fun b) w) (t_fun x w)
           else t_fun x w)
          (t_fun xv w + (if neg then Qopp else fun c => c) (conv q_ops (t_fun av) (t_fun bv) w))
          (t_fun xs w + conv q_ops (t_fun as_) (t_fun bs) w) (t_fun xm w + conv q_ops (t_fun am) (t_fun bm) w)).
        { destruct (N.leb_spec (len w) (N.min t (l + r))) as [_|H].
          - destruct neg; exact F.
          - assert (E : terms so l r (t_fun a) (t_fun b) w = []).
            { unfold terms. rewrite filter_none; [reflexivity|]. intros [u v] Hin. apply in_rev in Hin. apply splits_in in Hin.
              subst w. unfold len in *. rewrite app_length in H, Ht. cbn [fst snd]. apply andb_false_iff.
              destruct (N.leb_spec (N.of_nat (length u)) l); [right; apply N.leb_gt; lia|left; reflexivity]. }
            rewrite E in F. destruct neg; exact F. }
        unfold tconv. destruct (N.leb_spec (len w) t); [|lia]. clear F. destruct neg; exact F'.
      + destruct (N.leb_spec (len w) (N.min t (l + r))) as [H|_]; [lia|]. unfold tconv.
        destruct (N.leb_spec (len w) t); [lia|].
        apply (R_mono (k w) (j w)); [unfold deep; destruct fresh; [rewrite (proj1 (proj2 (Fr eq_refl w)))|]; lia|lia|].
        destruct neg; (eapply R_compat; [| | |exact (X w Hw)]); cbn; ring.
  Qed.

  (** ** the other operations *)
  Lemma map_rel k j a v s m h hv hs hm : leaf a v s m ->
    (forall x v s m, Rel 0 0 x v s m -> Rel k j (h x) (hv v) (hs s) (hm m)) ->
    (forall v s m, Rel 0 0 zero v s m -> Rel 0 0 zero (hv v) (hs s) (hm m)) ->
    rel4 (fun _ => k) (fun _ => j) (r_map so a h) (t_map v hv) (t_map s hs) (t_map m hm).
  Proof.
    intros (E1 & E2 & E3 & Z & H) Hh Hz. do 3 (split; [assumption|]). split.
    - intros w Hw E. change (stores (r_map so a h) w) with (stores a w) in E. cbn [r_map t_fun]. rewrite E. reflexivity.
    - intros w Hw. cbn [r_map t_map t_fun]. pose proof (H w Hw) as X. destruct (stores a w) eqn:E; [apply Hh, X|].
      rewrite (Z w Hw E) in X. apply (R_mono 0 0); [lia|lia|]. apply Hz, X.
  Qed.
  Lemma zip_rel k j a v s m b bv bs bm h hv hs hm : leaf a v s m -> leaf b bv bs bm ->
    (forall x v s m y v' s' m', Rel 0 0 x v s m -> Rel 0 0 y v' s' m' -> Rel k j (h x y) (hv v v') (hs s s') (hm m m')) ->
    (forall x v s m v' s' m', Rel 0 0 x v s m -> Rel 0 0 zero v' s' m' -> Rel k j x (hv v v') (hs s s') (hm m m')) ->
    rel4 (fun _ => k) (fun _ => j) (r_zip a b h) (t_zip v bv hv) (t_zip s bs hs) (t_zip m bm hm).
  Proof.
    intros (A1 & A2 & A3 & AZ & A) (B1 & B2 & B3 & BZ & B) Hh Hz. unfold r_zip, t_zip.
    rewrite A1, A2, A3, B1, B2, B3. do 3 (split; [reflexivity|]). cbn [t_deg t_fun]. split.
    - intros w Hw. unfold stores at 1. cbn [t_deg]. intros E. unfold stores in *.
      destruct (t_deg a) as [d|], (t_deg b) as [e|]; cbn [join] in E; try (apply N.leb_gt in E).
      + destruct (N.leb_spec (len w) e); [lia|]. apply (AZ w Hw). apply N.leb_gt. lia.
      + apply (AZ w Hw). apply N.leb_gt. lia.
      + destruct (N.leb_spec (len w) e); [lia|]. apply (AZ w Hw). reflexivity.
      + apply (AZ w Hw). reflexivity.
    - intros w Hw. pose proof (A w Hw) as X. pose proof (B w Hw) as Y. destruct (stores b w) eqn:E; [apply Hh; assumption|].
      rewrite (BZ w Hw E) in Y. apply Hz; assumption.
  Qed.

  (** one coefficient *)
  Lemma at_rel k a v s m w h hv hs hm : leaf a v s m ->
    (forall x v s m, Rel 0 0 x v s m -> Rel k 0 (h x) (hv v) (hs s) (hm m)) ->
    rel4 (fun u => if word_eqb u w then k else O) none (t_at a w h) (t_at v w hv) (t_at s w hs) (t_at m w hm).
  Proof.
    intros (E1 & E2 & E3 & Z & H) Hh. do 3 (split; [assumption|]). unfold t_at. cbn [t_deg t_fun].
    assert (Es : forall x : atensor Q, t_deg x = t_deg a -> stores x w = stores a w) by (intros x E; unfold stores; rewrite E; reflexivity).
    rewrite (Es v E1), (Es s E2), (Es m E3). split.
    - intros u Hu. unfold stores at 1. cbn [t_deg]. fold (stores a u). intros E.
      destruct (word_eqb_spec u w) as [->|_]; cbn [andb]; [rewrite E|]; exact (Z _ Hu E).
    - intros u Hu. pose proof (H u Hu) as X. destruct (word_eqb_spec u w) as [->|_]; cbn [andb]; [|exact X].
      destruct (stores a w); [apply Hh, X|]. apply (R_mono 0 0); [lia|lia|exact X].
  Qed.
  (** sums of constants *)
  Lemma sum_after l : Forall const l -> forall k acc v s m, Rel k 0 acc v s m ->
    Rel (k + length l) 0 (fold_left (s_add so) l acc) (fold_left (s_add q_ops) (map fl_val l) v)
      (fold_left (s_add size_ops) (map (fun x => Qabs (fl_val x)) l) s)
      (fold_left (s_add size_ops) (map (fun x => Qabs (fl_val x)) l) m).
  Proof.
    induction 1 as [|c l Hc _ IH]; intros k acc v s m H; [rewrite Nat.add_0_r; exact H|].
    cbn [map fold_left length]. replace (k + S (length l))%nat with (S (Nat.max k 0) + length l)%nat by lia.
    apply IH. exact (R_add k 0 _ _ _ _ 0 0 _ _ _ _ H (R_const c Hc)).
  Qed.
  Lemma sum_rel l : Forall const l ->
    Rel (length l - 1) 0 (sum_from_zero so l) (sum_from_zero q_ops (map fl_val l))
      (sum_from_zero size_ops (map (fun x => Qabs (fl_val x)) l)) (sum_from_zero size_ops (map (fun x => Qabs (fl_val x)) l)).
  Proof.
    intros H. destruct H as [|c l Hc H]; [exact R_zero|]. unfold sum_from_zero. cbn [map fold_left length].
    replace (S (length l) - 1)%nat with (0 + length l)%nat by lia. apply (sum_after l H).
    exact (R_zadd _ _ _ 0 0 _ _ _ _ R_zero (R_const c Hc)).
  Qed.
  Lemma given_map {A B} (g : A -> B) same (l : list (word * A)) :
    given same (map (fun e => (fst e, g (snd e))) l) = map g (given same l).
  Proof.
    unfold given. induction l as [|[w c] l IH]; [reflexivity|]. cbn [map filter fst snd].
    destruct (same w); cbn [map snd]; rewrite IH; reflexivity.
  Qed.
  Lemma deg_pairs_map {A B} (g : A -> B) (l : list (word * A)) :
    deg_pairs (map (fun e => (fst e, g (snd e))) l) = deg_pairs l.
  Proof. unfold deg_pairs. induction l as [|[w c] l IH]; [reflexivity|]. cbn [map fold_right fst snd]. rewrite IH. reflexivity. Qed.
  Lemma given_none {A} w (l : list (word * A)) :
    match deg_pairs l with Some d => (len w <=? d)%N | None => false end = false -> given (word_eqb w) l = [].
  Proof.
    intros E. unfold given. rewrite filter_none; [reflexivity|]. intros [u c] Hin. cbn [fst].
    destruct (word_eqb_spec w u) as [->|]; [|reflexivity]. destruct (deg_pairs l) as [d|] eqn:Ed.
    - pose proof (deg_pairs_le l d Ed _ Hin) as Hle. cbn [fst] in Hle. apply N.leb_gt in E.
      exfalso. exact (N.lt_irrefl _ (N.lt_le_trans _ _ _ E Hle)).
    - destruct (deg_pairs_in l) as (e & _ & E'); [intros ->; contradiction|]. congruence.
  Qed.
  Lemma pairs_rel (l : list (word * spec_float)) : Forall (fun e => const (snd e)) l ->
    rel4 (fun w => length (given (word_eqb w) l) - 1)%nat none
      (mk_atensor (deg_pairs l) (fun u => sum_from_zero so (given (word_eqb u) l)))
      (mk_atensor (deg_pairs (map (fun e => (fst e, fl_val (snd e))) l))
         (fun u => sum_from_zero q_ops (given (word_eqb u) (map (fun e => (fst e, fl_val (snd e))) l))))
      (mk_atensor (deg_pairs (map (fun e => (fst e, Qabs (fl_val (snd e)))) l))
         (fun u => sum_from_zero size_ops (given (word_eqb u) (map (fun e => (fst e, Qabs (fl_val (snd e)))) l))))
      (mk_atensor (deg_pairs (map (fun e => (fst e, Qabs (fl_val (snd e)))) l))
         (fun u => sum_from_zero size_ops (given (word_eqb u) (map (fun e => (fst e, Qabs (fl_val (snd e)))) l)))).
  Proof.
    intros Hl. split; [exact (deg_pairs_map fl_val l)|]. do 2 (split; [exact (deg_pairs_map (fun x => Qabs (fl_val x)) l)|]).
    cbn [t_deg t_fun]. split.
    - intros w Hw E. unfold stores in E. cbn [t_deg] in E. rewrite (given_none w l E). reflexivity.
    - intros w Hw. rewrite (given_map fl_val), (given_map (fun x => Qabs (fl_val x))). apply sum_rel.
      unfold given. clear -Hl. induction Hl as [|[u c] l Hc Hl IH]; [constructor|]. cbn [filter fst snd] in *.
      destruct (word_eqb w u); [constructor; assumption|exact IH].
  Qed.

  Definition cmd_ok (c : tcmd spec_float spec_float) : Prop :=
    match c with
    | CKey _ _ c | CScale _ c | CAddScaled _ _ c | CSubScaled _ _ c | CSet _ _ c | CKeyAdd _ _ c | CKeySub _ _ c => const c
    | CPairs _ l => Forall (fun e => const (snd e)) l
    | CDivide _ r | CSubDivided _ _ r | CAddDivided _ _ r => divisor r
    | _ => True
    end.
  Definition rst (a : nat -> atensor spec_float) (v s m : nat -> atensor Q) : Prop := forall i, leaf (a i) (v i) (s i) (m i).
  Notation rd c := (fun w => N.to_nat (roundings c w)).
  Notation pd c := (fun w => N.to_nat (products c w)).
  Definition follows (c : tcmd spec_float spec_float) a v s m (a' : outcome (nat -> atensor spec_float)) : Prop :=
    match a' with
    | Ret a' => exists v' s' m', mean_cmd q_ops v (exact_cmd c) = Ret v' /\ mean_cmd size_ops s (size_cmd c) = Ret s'
        /\ mean_cmd size_ops m (size_cmd c) = Ret m'
        /\ (forall i, i <> target c -> a' i = a i /\ v' i = v i /\ s' i = s i /\ m' i = m i)
        /\ rel4 (rd c) (pd c) (a' (target c)) (v' (target c)) (s' (target c)) (m' (target c))
    | Panic => mean_cmd q_ops v (exact_cmd c) = Panic
    | UB => mean_cmd q_ops v (exact_cmd c) = UB
    | Diverge => False
    end.
  Lemma set_same {A} (st : nat -> A) d x : set_var st d x d = x.
  Proof. unfold set_var. rewrite Nat.eqb_refl. reflexivity. Qed.
  Lemma set_other {A} (st : nat -> A) d x i : i <> d -> set_var st d x i = st i.
  Proof. intros H. unfold set_var. destruct (Nat.eqb_spec i d); [contradiction|reflexivity]. Qed.
  Lemma follows_ret c a v s m d xa xv xs xm :
    target c = d -> mean_cmd q_ops v (exact_cmd c) = Ret (set_var v d xv) ->
    mean_cmd size_ops s (size_cmd c) = Ret (set_var s d xs) -> mean_cmd size_ops m (size_cmd c) = Ret (set_var m d xm) ->
    rel4 (rd c) (pd c) xa xv xs xm -> follows c a v s m (Ret (set_var a d xa)).
  Proof.
    intros <- Ev Es Em H. cbn [follows]. do 3 eexists. split; [exact Ev|]. split; [exact Es|]. split; [exact Em|]. split.
    - intros i Hi. rewrite !set_other by exact Hi. repeat split.
    - rewrite !set_same. exact H.
  Qed.

  Lemma cmd_rel c a v s m : rst a v s m -> cmd_ok c -> follows c a v s m (step_cmd so a c).
  Proof.
    intros H Hc.
    assert (One : forall (neg fresh : bool) x xv xs xm y z t, leaf x xv xs xm -> (fresh = true -> forall w, t_fun x w = zero) ->
      match d_product (t_deg x) (t_deg (a y)) (t_deg (a z)) t with
      | Ret d => exists z0 zv zs zm,
          r_product so x (a y) (a z) (if neg then s_uminus so else fun c => c) t = Ret z0
          /\ t_product q_ops xv (v y) (v z) (if neg then s_sub q_ops else s_add q_ops) t = Ret zv
          /\ t_product size_ops xs (s y) (s z) (if neg then s_sub size_ops else s_add size_ops) t = Ret zs
          /\ t_product size_ops xm (m y) (m z) (if neg then s_sub size_ops else s_add size_ops) t = Ret zm
          /\ rel4 (fun w => N.to_nat (if fresh then len w + 1 else len w + 2)) (fun w => N.to_nat (len w + 1)) z0 zv zs zm
      | Panic => r_product so x (a y) (a z) (if neg then s_uminus so else fun c => c) t = Panic
          /\ t_product q_ops xv (v y) (v z) (if neg then s_sub q_ops else s_add q_ops) t = Panic
      | UB => r_product so x (a y) (a z) (if neg then s_uminus so else fun c => c) t = UB
          /\ t_product q_ops xv (v y) (v z) (if neg then s_sub q_ops else s_add q_ops) t = UB
      | Diverge => False
      end).
    { intros neg fresh x xv xs xm y z t Hx Hz.
      pose proof (product_rel neg fresh none none x xv xs xm _ _ _ _ _ _ _ _ t (fun E w => conj (Hz E w) (conj eq_refl eq_refl)) Hx (H y) (H z)) as P.
      destruct (d_product (t_deg x) (t_deg (a y)) (t_deg (a z)) t) as [d| | |]; try exact P.
      destruct P as (z0 & zv & zs & zm & P1 & P2 & P3 & P4 & _ & P5). exists z0, zv, zs, zm. do 4 (split; [assumption|]).
      eapply rel4_mono; [| |exact P5]; intros w; cbn beta; unfold deep, len; destruct fresh; lia. }
    destruct c as [d|d w c|d y|d|d w|d|d c|d r|d y|d y|d y c|d y r|d y z t|d y z t|d y z t|d y z t|d y c|d y r|d e|d l|d w c|d w c|d w c];
      cbn [cmd_ok step_cmd] in *.
    - eapply follows_ret; try reflexivity. exact leaf_zero.
    - eapply follows_ret; try reflexivity. do 3 (split; [reflexivity|]). cbn [t_deg t_fun]. split.
      + intros u Hu E. unfold stores in E. cbn [t_deg] in E. apply N.leb_gt in E.
        destruct (word_eqb_spec u w) as [->|_]; [lia|reflexivity].
      + intros u Hu. destruct (word_eqb u w); [exact (R_const c Hc)|exact R_zero].
    - eapply follows_ret; try reflexivity. exact (H y).
    - eapply follows_ret; try reflexivity. exact leaf_zero.
    - eapply follows_ret; try reflexivity. destruct (H d) as (E1 & E2 & E3 & Z & X). cbn [t_deg t_fun].
      do 3 (split; [assumption|]). cbn [t_deg t_fun]. split.
      + intros u Hu E. destruct (word_eqb u w); [reflexivity|]. exact (Z u Hu E).
      + intros u Hu. destruct (word_eqb u w); [exact R_zero|exact (X u Hu)].
    - eapply follows_ret; try reflexivity. apply (map_rel 0 0); [exact (H d)| |]; intros; [apply R_opp|apply R_oppz]; assumption.
    - eapply follows_ret; try reflexivity. apply (map_rel 1 1); [exact (H d)| |].
      + intros x v0 s0 m0 Hx. exact (R_mul _ _ _ _ _ _ _ _ Hx (R_const c Hc)).
      + intros v0 s0 m0 Hx. exact (R_mulz _ _ _ _ _ _ _ Hx (R_const c Hc)).
    - eapply follows_ret; try reflexivity. apply (map_rel 1 1); [exact (H d)| |].
      + intros x v0 s0 m0 Hx. exact (R_div _ _ _ _ r Hx Hc).
      + intros v0 s0 m0 Hx. exact (R_divz _ _ _ r Hx Hc).
    - eapply follows_ret; try reflexivity. apply (zip_rel 1 0); [exact (H d)|exact (H y)| |].
      + intros. exact (R_add 0 0 _ _ _ _ 0 0 _ _ _ _ H0 H1).
      + intros. apply (R_mono 0 0); [lia|lia|]. apply R_addz; assumption.
    - eapply follows_ret; try reflexivity. apply (zip_rel 1 0); [exact (H d)|exact (H y)| |].
      + intros. exact (R_sub 0 0 _ _ _ _ 0 0 _ _ _ _ H0 H1).
      + intros. apply (R_mono 0 0); [lia|lia|]. apply R_subz; assumption.
    - eapply follows_ret; try reflexivity. apply (zip_rel 2 1); [exact (H d)|exact (H y)| |].
      + intros x v0 s0 m0 y0 v' s' m' Hx Hy. exact (R_add 0 0 _ _ _ _ 1 1 _ _ _ _ Hx (R_mul _ _ _ _ _ _ _ _ Hy (R_const c Hc))).
      + intros x v0 s0 m0 v' s' m' Hx Hy. apply (R_mono 0 0); [lia|lia|]. apply R_addz; [exact Hx|].
        exact (R_mulz _ _ _ _ _ _ _ Hy (R_const c Hc)).
    - eapply follows_ret; try reflexivity. apply (zip_rel 2 1); [exact (H d)|exact (H y)| |].
      + intros x v0 s0 m0 y0 v' s' m' Hx Hy. exact (R_sub 0 0 _ _ _ _ 1 1 _ _ _ _ Hx (R_div _ _ _ _ r Hy Hc)).
      + intros x v0 s0 m0 v' s' m' Hx Hy. apply (R_mono 0 0); [lia|lia|]. apply R_subz; [exact Hx|].
        exact (R_divz _ _ _ r Hy Hc).
    - pose proof (One false true _ _ _ _ y z t leaf_zero (fun _ _ => eq_refl)) as P. cbn iota in P.
      destruct (d_product _ _ _ t) as [e| | |].
      + destruct P as (z0 & zv & zs & zm & P1 & P2 & P3 & P4 & P5). rewrite P1. cbn [bind].
        eapply follows_ret; [reflexivity|..]; cbn [exact_cmd size_cmd cmd_map mean_cmd]; rewrite ?P2, ?P3, ?P4; [reflexivity..|exact P5].
      + destruct P as [P1 P2]. rewrite P1. cbn [bind follows exact_cmd cmd_map mean_cmd]. rewrite P2. reflexivity.
      + destruct P as [P1 P2]. rewrite P1. cbn [bind follows exact_cmd cmd_map mean_cmd]. rewrite P2. reflexivity.
      + contradiction.
    - pose proof (One false true _ _ _ _ y z t leaf_zero (fun _ _ => eq_refl)) as P. cbn iota in P.
      destruct (d_product _ _ _ t) as [e| | |] eqn:Ed.
      + destruct P as (z0 & zv & zs & zm & P1 & P2 & P3 & P4 & P5). rewrite P1. cbn [bind].
        pose proof (product_rel true false _ _ z0 zv zs zm _ _ _ _ _ _ _ _ t ltac:(discriminate) P5 (H z) (H y)) as P. cbn iota in P.
        destruct (d_product (t_deg z0) _ _ t) as [e'| | |].
        * destruct P as (z1 & zv1 & zs1 & zm1 & Q1 & Q2 & Q3 & Q4 & _ & Q5). rewrite Q1. cbn [bind].
          eapply follows_ret; [reflexivity|..]; cbn [exact_cmd size_cmd cmd_map mean_cmd]; rewrite ?P2, ?P3, ?P4; cbn [bind];
            rewrite ?Q2, ?Q3, ?Q4; [reflexivity..|].
          eapply rel4_mono; [| |exact Q5]; intros w; cbn [roundings products deep]; unfold deep, len; lia.
        * destruct P as [Q1 Q2]. rewrite Q1. cbn [bind follows exact_cmd cmd_map mean_cmd]. rewrite P2. cbn [bind]. rewrite Q2. reflexivity.
        * destruct P as [Q1 Q2]. rewrite Q1. cbn [bind follows exact_cmd cmd_map mean_cmd]. rewrite P2. cbn [bind]. rewrite Q2. reflexivity.
        * contradiction.
      + destruct P as [P1 P2]. rewrite P1. cbn [bind follows exact_cmd cmd_map mean_cmd]. rewrite P2. reflexivity.
      + destruct P as [P1 P2]. rewrite P1. cbn [bind follows exact_cmd cmd_map mean_cmd]. rewrite P2. reflexivity.
      + contradiction.
    - pose proof (One false false _ _ _ _ y z t (H d) ltac:(discriminate)) as P. cbn iota in P.
      destruct (d_product _ _ _ t) as [e| | |].
      + destruct P as (z0 & zv & zs & zm & P1 & P2 & P3 & P4 & P5). rewrite P1. cbn [bind].
        eapply follows_ret; [reflexivity|..]; cbn [exact_cmd size_cmd cmd_map mean_cmd]; rewrite ?P2, ?P3, ?P4; [reflexivity..|exact P5].
      + destruct P as [P1 P2]. rewrite P1. cbn [bind follows exact_cmd cmd_map mean_cmd]. rewrite P2. reflexivity.
      + destruct P as [P1 P2]. rewrite P1. cbn [bind follows exact_cmd cmd_map mean_cmd]. rewrite P2. reflexivity.
      + contradiction.
    - pose proof (One true false _ _ _ _ y z t (H d) ltac:(discriminate)) as P. cbn iota in P.
      destruct (d_product _ _ _ t) as [e| | |].
      + destruct P as (z0 & zv & zs & zm & P1 & P2 & P3 & P4 & P5). rewrite P1. cbn [bind].
        eapply follows_ret; [reflexivity|..]; cbn [exact_cmd size_cmd cmd_map mean_cmd]; rewrite ?P2, ?P3, ?P4; [reflexivity..|exact P5].
      + destruct P as [P1 P2]. rewrite P1. cbn [bind follows exact_cmd cmd_map mean_cmd]. rewrite P2. reflexivity.
      + destruct P as [P1 P2]. rewrite P1. cbn [bind follows exact_cmd cmd_map mean_cmd]. rewrite P2. reflexivity.
      + contradiction.
    - eapply follows_ret; try reflexivity. apply (zip_rel 2 1); [exact (H d)|exact (H y)| |].
      + intros x v0 s0 m0 y0 v' s' m' Hx Hy. exact (R_sub 0 0 _ _ _ _ 1 1 _ _ _ _ Hx (R_mul _ _ _ _ _ _ _ _ Hy (R_const c Hc))).
      + intros x v0 s0 m0 v' s' m' Hx Hy. apply (R_mono 0 0); [lia|lia|]. apply R_subz; [exact Hx|].
        exact (R_mulz _ _ _ _ _ _ _ Hy (R_const c Hc)).
    - eapply follows_ret; try reflexivity. apply (zip_rel 2 1); [exact (H d)|exact (H y)| |].
      + intros x v0 s0 m0 y0 v' s' m' Hx Hy. exact (R_add 0 0 _ _ _ _ 1 1 _ _ _ _ Hx (R_div _ _ _ _ r Hy Hc)).
      + intros x v0 s0 m0 v' s' m' Hx Hy. apply (R_mono 0 0); [lia|lia|]. apply R_addz; [exact Hx|].
        exact (R_divz _ _ _ r Hy Hc).
    - eapply follows_ret; try reflexivity. do 3 (split; [reflexivity|]). split; [reflexivity|]. intros. exact R_zero.
    - eapply follows_ret; try reflexivity. eapply rel4_mono; [| |exact (pairs_rel l Hc)]; intros w; cbn [roundings]; unfold len; lia.
    - eapply follows_ret; try reflexivity.
      eapply rel4_mono; [| |exact (at_rel 0 _ _ _ _ w (fun _ => c) (fun _ => fl_val c) (fun _ => Qabs (fl_val c))
        (fun _ => Qabs (fl_val c)) (H d) (fun _ _ _ _ _ => R_const c Hc))]; intros u; cbn [roundings]; [destruct (word_eqb u w)|]; lia.
    - eapply follows_ret; try reflexivity.
      eapply rel4_mono; [| |exact (at_rel 1 _ _ _ _ w (fun x => s_add so x c) (fun x => x + fl_val c) (fun x => x + Qabs (fl_val c))
        (fun x => x + Qabs (fl_val c)) (H d) (fun _ _ _ _ Hx => R_add 0 0 _ _ _ _ 0 0 _ _ _ _ Hx (R_const c Hc)))];
        intros u; cbn [roundings]; [destruct (word_eqb u w)|]; lia.
    - eapply follows_ret; try reflexivity.
      eapply rel4_mono; [| |exact (at_rel 1 _ _ _ _ w (fun x => s_sub so x c) (fun x => x - fl_val c) (fun x => x + Qabs (fl_val c))
        (fun x => x + Qabs (fl_val c)) (H d) (fun _ _ _ _ Hx => R_sub 0 0 _ _ _ _ 0 0 _ _ _ _ Hx (R_const c Hc)))];
        intros u; cbn [roundings]; [destruct (word_eqb u w)|]; lia.
  Qed.
End Relation.
