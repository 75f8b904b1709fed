(** Shuffles and products of tensors. *)
From Coq Require Import Ring_theory Ring.
From Verif Require Import Machine MachineLemmas S_Words L_Words M_Scalar M_Dense S_Vector S_Tensor L_Ring L_Algebra L_Conv S_Shuffle.

Lemma shuffle_nil_r u : shuffle u [] = [u].
Proof. destruct u; reflexivity. Qed.
Lemma shuffle_cons a u b v : shuffle (a :: u) (b :: v) = map (cons a) (shuffle u (b :: v)) ++ map (cons b) (shuffle (a :: u) v).
Proof. reflexivity. Qed.
Lemma shuffle_ok n u : forall v w, word_ok n u -> word_ok n v -> In w (shuffle u v) -> word_ok n w /\ len w = len u + len v.
Proof.
  induction u as [|a u IHu]; intros v w Hu Hv Hw.
  - destruct Hw as [<-|[]]. split; [exact Hv|]. unfold len. cbn. lia.
  - revert w Hw. induction v as [|b v IHv]; intros w Hw.
    + destruct Hw as [<-|[]]. split; [exact Hu|]. unfold len. cbn. lia.
    + rewrite shuffle_cons in Hw. apply in_app_or in Hw. inversion Hu; subst. inversion Hv; subst.
      destruct Hw as [Hw|Hw]; apply in_map_iff in Hw; destruct Hw as (w' & <- & Hw).
      * destruct (IHu (b :: v) w') as [O E]; try assumption. split; [constructor; assumption|]. unfold len in *. cbn [length] in *. lia.
      * destruct (IHv ltac:(assumption) w' Hw) as [O E]. split; [constructor; assumption|]. unfold len in *. cbn [length] in *. lia.
Qed.

Section Shuffles.
  Context {S R : Type} (so : scalar_ops S R) (L : ring_laws so).
  Let RT := ring_of so L.
  Add Ring scalars : RT.
  Notation zero := (s_zero so).
  Notation one := (s_one so).
  Infix "[+]" := (s_add so) (at level 50, left associativity).
  Infix "[*]" := (s_mul so) (at level 40, left associativity).
  Notation cv := (conv so).
  Notation sum := (fold_right (s_add so) zero).
  Notation sh := (shuffle_sum so).
  Notation eps := (unit_fun so).

  Lemma sh_nil_l f v : sh f [] v = f v.
  Proof. unfold shuffle_sum. cbn. ring. Qed.
  Lemma sh_nil_r f u : sh f u [] = f u.
  Proof. unfold shuffle_sum. rewrite shuffle_nil_r. cbn. ring. Qed.
  Lemma sh_cons f a u b v : sh f (a :: u) (b :: v) = sh (der a f) u (b :: v) [+] sh (der b f) (a :: u) v.
  Proof. unfold shuffle_sum. rewrite shuffle_cons, map_app, (sum_app so L), !map_map. reflexivity. Qed.
  Lemma sh_ext f g u v : (forall w, In w (shuffle u v) -> f w = g w) -> sh f u v = sh g u v.
  Proof. intros H. unfold shuffle_sum. f_equal. apply map_ext_in, H. Qed.
  Lemma sum_map_add {A} (h k : A -> S) l : sum (map (fun x => h x [+] k x) l) = sum (map h l) [+] sum (map k l).
  Proof. induction l as [|x l IH]; cbn; [ring|]. rewrite IH. ring. Qed.
  Lemma sum_map_scal {A} c (h : A -> S) l : sum (map (fun x => c [*] h x) l) = c [*] sum (map h l).
  Proof. induction l as [|x l IH]; cbn; [ring|]. rewrite IH. ring. Qed.
  Lemma sh_add f g u v : sh (fun w => f w [+] g w) u v = sh f u v [+] sh g u v.
  Proof. apply sum_map_add. Qed.
  Lemma sh_scal c f u v : sh (fun w => c [*] f w) u v = c [*] sh f u v.
  Proof. apply sum_map_scal. Qed.

  (** the sum over the ways to cut both words *)
  Definition cuts (f g : word -> S) (u v : word) : S :=
    sum (map (fun c : word * word => cv (sh f (fst c)) (sh g (snd c)) v) (splits u)).
  Lemma cuts_nil_l f g v : cuts f g [] v = cv f g v.
  Proof.
    unfold cuts. cbn. rewrite (conv_ext so (sh f []) f (sh g []) g) by (intros; apply sh_nil_l). ring.
  Qed.
  Lemma cuts_nil_r f g u : cuts f g u [] = cv f g u.
  Proof.
    unfold cuts, conv at 2. f_equal. apply map_ext. intros [u1 u2]. cbn [fst snd]. rewrite (conv_nil so L), !sh_nil_r. reflexivity.
  Qed.
  Lemma cuts_cons_l f g a u v : cuts f g (a :: u) v =
    cv (sh f []) (sh g (a :: u)) v [+] sum (map (fun c : word * word => cv (sh f (a :: fst c)) (sh g (snd c)) v) (splits u)).
  Proof. unfold cuts. cbn [splits map fold_right fst snd]. rewrite map_map. reflexivity. Qed.
  Lemma cuts_cons f g a u b v : cuts f g (a :: u) (b :: v) =
    f [] [*] sh g (a :: u) (b :: v) [+] cuts (der a f) g u (b :: v) [+] cuts (der b f) g (a :: u) v.
  Proof.
    rewrite (cuts_cons_l f g), (cuts_cons_l (der b f) g). unfold cuts. rewrite (conv_cons so), sh_nil_l.
    rewrite (conv_ext so (der b (sh f [])) (sh (der b f) []) (sh g (a :: u)) (sh g (a :: u)))
      by (intros; try reflexivity; unfold der; rewrite !sh_nil_l; reflexivity).
    rewrite (map_ext (fun c : word * word => cv (sh f (a :: fst c)) (sh g (snd c)) (b :: v))
      (fun c : word * word => cv (sh (der a f) (fst c)) (sh g (snd c)) (b :: v) [+] cv (sh (der b f) (a :: fst c)) (sh g (snd c)) v)).
    - rewrite sum_map_add. ring.
    - intros [u1 u2]. cbn [fst snd]. rewrite !(conv_cons so), !sh_nil_r.
      rewrite (conv_ext so (der b (sh f (a :: u1))) (fun v1 => der b (sh (der a f) u1) v1 [+] sh (der b f) (a :: u1) v1) (sh g u2) (sh g u2))
        by (intros; try reflexivity; unfold der at 1 2; apply sh_cons).
      rewrite (conv_add_l so L). change (der a f u1) with (f (a :: u1)). ring.
  Qed.
  (** cutting the shuffles of two words is shuffling the pieces of the two words *)
  Lemma sh_conv u : forall v f g, sh (cv f g) u v = cuts f g u v.
  Proof.
    induction u as [|a u IHu]; intros v f g; [rewrite sh_nil_l, cuts_nil_l; reflexivity|].
    revert f g. induction v as [|b v IHv]; intros f g; [rewrite sh_nil_r, cuts_nil_r; reflexivity|].
    rewrite sh_cons, cuts_cons, <- IHu, <- IHv, sh_cons.
    assert (E : forall c x y, sh (der c (cv f g)) x y = f [] [*] sh (der c g) x y [+] sh (cv (der c f) g) x y).
    { intros c x y. rewrite <- sh_scal, <- sh_add. apply sh_ext. intros w _. apply (conv_cons so). }
    rewrite !E. ring.
  Qed.
  Lemma cuts_prod A B C E u v :
    sum (map (fun c : word * word => cv (fun v1 => A (fst c) [*] B v1) (fun v2 => C (snd c) [*] E v2) v) (splits u)) = cv A C u [*] cv B E v.
  Proof.
    rewrite (map_ext _ (fun c : word * word => cv B E v [*] (A (fst c) [*] C (snd c)))).
    - rewrite sum_map_scal. unfold conv at 2. ring.
    - intros c. rewrite (conv_scal_l so L), (conv_scal_r so L). ring.
  Qed.
  (** group-like tensors are closed under the product *)
  Lemma cut_ok n t u v u1 u2 v1 v2 : word_ok n u -> word_ok n v -> len u + len v <= t -> u = u1 ++ u2 -> v = v1 ++ v2 ->
    (word_ok n u1 /\ word_ok n v1 /\ len u1 + len v1 <= t) /\ (word_ok n u2 /\ word_ok n v2 /\ len u2 + len v2 <= t).
  Proof.
    intros Hu Hv H Eu Ev. pose proof (len_prefix u u1 u2 Eu). pose proof (len_prefix v v1 v2 Ev).
    rewrite Eu in Hu. rewrite Ev in Hv. apply word_ok_app in Hu. apply word_ok_app in Hv.
    repeat apply conj; try apply Hu; try apply Hv; lia.
  Qed.
  Lemma cuts_ext n t f g (f2 g2 : word -> word -> S) u v : word_ok n u -> word_ok n v -> len u + len v <= t ->
    (forall u v, word_ok n u -> word_ok n v -> len u + len v <= t -> sh f u v = f2 u v) ->
    (forall u v, word_ok n u -> word_ok n v -> len u + len v <= t -> sh g u v = g2 u v) ->
    cuts f g u v = sum (map (fun c : word * word => cv (f2 (fst c)) (g2 (snd c)) v) (splits u)).
  Proof.
    intros Hu Hv H Hf Hg. unfold cuts. f_equal. apply map_ext_in. intros [u1 u2] Hc. apply in_splits in Hc. cbn [fst snd].
    apply conv_ext; intros v1 v2 Ev; destruct (cut_ok n t u v u1 u2 v1 v2 Hu Hv H Hc Ev) as [(?&?&?) (?&?&?)]; auto.
  Qed.
  Lemma group_conv n t f g : group_like so n t f -> group_like so n t g -> group_like so n t (cv f g).
  Proof.
    intros [F1 Ff] [G1 Gg]. split; [rewrite (conv_nil so L), F1, G1; ring|]. intros u v Hu Hv H.
    rewrite sh_conv, (cuts_ext n t f g (fun a b => f a [*] f b) (fun a b => g a [*] g b) u v Hu Hv H).
    - rewrite cuts_prod. reflexivity.
    - intros a b Ha Hb Hab. symmetry. apply Ff; assumption.
    - intros a b Ha Hb Hab. symmetry. apply Gg; assumption.
  Qed.
  (** the shuffles of a product with a primitive tensor *)
  Lemma prim_sh n t f : primitive so n t f -> forall u v, word_ok n u -> word_ok n v -> len u + len v <= t ->
    sh f u v = eps u [*] f v [+] f u [*] eps v.
  Proof.
    intros [F0 Ff] [|a u] [|b v] Hu Hv H; cbn [unit_fun].
    - rewrite sh_nil_l, F0. ring.
    - rewrite sh_nil_l. ring.
    - rewrite sh_nil_r. ring.
    - rewrite Ff by (assumption || discriminate). ring.
  Qed.
  Lemma prim_conv n t f g u v : primitive so n t f -> primitive so n t g -> word_ok n u -> word_ok n v -> len u + len v <= t ->
    sh (cv f g) u v = eps u [*] cv f g v [+] g u [*] f v [+] f u [*] g v [+] cv f g u [*] eps v.
  Proof.
    intros Pf Pg Hu Hv H.
    rewrite sh_conv, (cuts_ext n t f g (fun a b => eps a [*] f b [+] f a [*] eps b) (fun a b => eps a [*] g b [+] g a [*] eps b) u v Hu Hv H).
    - rewrite (map_ext _ (fun c : word * word =>
        cv (fun b => eps (fst c) [*] f b) (fun b => eps (snd c) [*] g b) v [+] cv (fun b => eps (fst c) [*] f b) (fun b => g (snd c) [*] eps b) v
        [+] (cv (fun b => f (fst c) [*] eps b) (fun b => eps (snd c) [*] g b) v [+] cv (fun b => f (fst c) [*] eps b) (fun b => g (snd c) [*] eps b) v)))
        by (intros c; rewrite (conv_add_l so L), !(conv_add_r so L); reflexivity).
      rewrite !sum_map_add, !cuts_prod, !(conv_unit_l so L), !(conv_unit_r so L). ring.
    - intros a b Ha Hb Hab. exact (prim_sh n t f Pf a b Ha Hb Hab).
    - intros a b Ha Hb Hab. exact (prim_sh n t g Pg a b Ha Hb Hab).
  Qed.
  Lemma prim_bracket n t f g : primitive so n t f -> primitive so n t g ->
    primitive so n t (fun w => s_sub so (cv f g w) (cv g f w)).
  Proof.
    intros Pf Pg. split.
    - rewrite !(conv_nil so L), (proj1 Pf), (proj1 Pg). rewrite (l_sub_def so L). ring.
    - intros u v Hu Hv Nu Nv H.
      rewrite (sh_ext _ (fun w => cv f g w [+] s_uminus so one [*] cv g f w)) by (intros w _; rewrite (l_sub_def so L); ring).
      rewrite sh_add, sh_scal, (prim_conv n t f g u v Pf Pg Hu Hv H), (prim_conv n t g f u v Pg Pf Hu Hv H).
      destruct u; [contradiction|]. destruct v; [contradiction|]. cbn [unit_fun]. ring.
  Qed.
  Lemma prim_add n t f g : primitive so n t f -> primitive so n t g -> primitive so n t (fun w => f w [+] g w).
  Proof.
    intros [F0 Ff] [G0 Gg]. split; [rewrite F0, G0; ring|]. intros u v Hu Hv Nu Nv H. rewrite sh_add, Ff, Gg by assumption. ring.
  Qed.
  Lemma prim_scal n t c f : primitive so n t f -> primitive so n t (fun w => c [*] f w).
  Proof. intros [F0 Ff]. split; [rewrite F0; ring|]. intros u v Hu Hv Nu Nv H. rewrite sh_scal, Ff by assumption. ring. Qed.
  (** both depend only on the words of length up to [t] *)
  Lemma group_ext n t f g : (forall w, word_ok n w -> len w <= t -> f w = g w) -> group_like so n t f -> group_like so n t g.
  Proof.
    intros E [F1 Ff]. split.
    - rewrite <- F1. symmetry. apply E; [constructor|unfold len; cbn; lia].
    - intros u v Hu Hv H. rewrite <- (E u Hu ltac:(lia)), <- (E v Hv ltac:(lia)), (Ff u v Hu Hv H). apply sh_ext.
      intros w Hw. destruct (shuffle_ok n u v w Hu Hv Hw). apply E; [assumption|lia].
  Qed.
  Lemma prim_ext n t f g : (forall w, word_ok n w -> len w <= t -> f w = g w) -> primitive so n t f -> primitive so n t g.
  Proof.
    intros E [F0 Ff]. split.
    - rewrite <- F0. symmetry. apply E; [constructor|unfold len; cbn; lia].
    - intros u v Hu Hv Nu Nv H. rewrite <- (Ff u v Hu Hv Nu Nv H). apply sh_ext.
      intros w Hw. destruct (shuffle_ok n u v w Hu Hv Hw). symmetry. apply E; [assumption|lia].
  Qed.
  Lemma group_mono n t t' f : t' <= t -> group_like so n t f -> group_like so n t' f.
  Proof. intros H [F1 Ff]. split; [exact F1|]. intros. apply Ff; try assumption. lia. Qed.
  Lemma prim_mono n t t' f : t' <= t -> primitive so n t f -> primitive so n t' f.
  Proof. intros H [F1 Ff]. split; [exact F1|]. intros. apply Ff; try assumption. lia. Qed.
  (** a tensor with only letters is primitive *)
  Lemma prim_letters n t f : (forall w, word_ok n w -> len w <> 1 -> f w = zero) -> primitive so n t f.
  Proof.
    intros E. split; [apply E; [constructor|unfold len; cbn; lia]|]. intros u v Hu Hv Nu Nv _.
    assert (len u <> 0) by (destruct u; [contradiction|unfold len; cbn; lia]).
    assert (len v <> 0) by (destruct v; [contradiction|unfold len; cbn; lia]).
    rewrite (sh_ext f (fun _ => zero [*] zero)); [rewrite sh_scal; ring|].
    intros w Hw. destruct (shuffle_ok n u v w Hu Hv Hw). rewrite E; [ring|assumption|lia].
  Qed.
  Lemma group_unit n t : group_like so n t eps.
  Proof.
    split; [reflexivity|]. intros [|a u] [|b v] _ _ _; rewrite ?sh_nil_l, ?sh_nil_r; cbn [unit_fun]; try ring.
    rewrite sh_cons, (sh_ext (der a eps) (fun _ => zero [*] zero)), (sh_ext (der b eps) (fun _ => zero [*] zero))
      by (intros; unfold der; cbn [unit_fun]; ring).
    rewrite !sh_scal. ring.
  Qed.
End Shuffles.
