(** Exponentials of commuting tensors without constant term add up. *)
From Coq Require Import Ring_theory Ring Morphisms Setoid.
From Verif Require Import Machine MachineLemmas S_Words L_Words M_Scalar M_Dense S_Vector S_Tensor S_Series L_Ring L_Algebra L_Conv
  L_Series.

Section Group.
  Context {S R : Type} (so : scalar_ops S R) (F : field_laws so) (n t : N).
  Let L := l_ring so F.
  Let RT := ring_of so L.
  Add Ring scalars : RT.
  Notation zero := (s_zero so).
  Notation one := (s_one so).
  Infix "[+]" := (s_add so) (at level 50, left associativity).
  Infix "[*]" := (s_mul so) (at level 40, left associativity).
  Notation cv := (conv so).
  Notation deg k := (s_from_degree so (N.of_nat k)).
  Notation inv k := (s_inv so (r_from_degree so (N.of_nat k))).

  (** the same coefficients for the words of letters 1..n of length up to [t] *)
  Definition feq (f g : word -> S) : Prop := forall w, word_ok n w -> len w <= t -> f w = g w.
  Infix "==" := feq (at level 70).
  Global Instance feq_equiv : Equivalence feq.
  Proof.
    split.
    - intros f w _ _. reflexivity.
    - intros f g H w Hw Hl. symmetry. exact (H w Hw Hl).
    - intros f g h H1 H2 w Hw Hl. rewrite (H1 w Hw Hl). exact (H2 w Hw Hl).
  Qed.
  Definition fadd (f g : word -> S) : word -> S := fun w => f w [+] g w.
  Definition fscal (c : S) (f : word -> S) : word -> S := fun w => c [*] f w.
  Definition fzero : word -> S := fun _ => zero.
  Global Instance fadd_proper : Proper (feq ==> feq ==> feq) fadd.
  Proof. intros f f' Hf g g' Hg w Hw Hl. unfold fadd. rewrite (Hf w Hw Hl), (Hg w Hw Hl). reflexivity. Qed.
  Global Instance fscal_proper c : Proper (feq ==> feq) (fscal c).
  Proof. intros f f' Hf w Hw Hl. unfold fscal. rewrite (Hf w Hw Hl). reflexivity. Qed.
  Global Instance conv_proper : Proper (feq ==> feq ==> feq) cv.
  Proof.
    intros f f' Hf g g' Hg w Hw Hl. apply conv_ext; intros u v E; rewrite E in Hw; apply word_ok_app in Hw;
      apply len_prefix in E; [apply Hf|apply Hg]; try apply Hw; lia.
  Qed.
  Lemma cv_add_l f f' g : cv (fadd f f') g == fadd (cv f g) (cv f' g).
  Proof. intros w _ _. apply (conv_add_l so L). Qed.
  Lemma cv_add_r f g g' : cv f (fadd g g') == fadd (cv f g) (cv f g').
  Proof. intros w _ _. apply (conv_add_r so L). Qed.
  Lemma cv_scal_l c f g : cv (fscal c f) g == fscal c (cv f g).
  Proof. intros w _ _. apply (conv_scal_l so L). Qed.
  Lemma cv_scal_r c f g : cv f (fscal c g) == fscal c (cv f g).
  Proof. intros w _ _. apply (conv_scal_r so L). Qed.
  Lemma cv_assoc f g h : cv (cv f g) h == cv f (cv g h).
  Proof. intros w _ _. apply (conv_assoc so L). Qed.
  Lemma cv_unit_l g : cv (unit_fun so) g == g.
  Proof. intros w _ _. apply (conv_unit_l so L). Qed.
  Lemma cv_unit_r g : cv g (unit_fun so) == g.
  Proof. intros w _ _. apply (conv_unit_r so L). Qed.
  Lemma scal_add c f g : fscal c (fadd f g) == fadd (fscal c f) (fscal c g).
  Proof. intros w _ _. unfold fscal, fadd. ring. Qed.
  Lemma scal_scal c d f : fscal c (fscal d f) == fscal (c [*] d) f.
  Proof. intros w _ _. unfold fscal. ring. Qed.
  Lemma scal_1 f : fscal one f == f.
  Proof. intros w _ _. unfold fscal. ring. Qed.
  Lemma scal_0 f : fscal zero f == fzero.
  Proof. intros w _ _. unfold fscal, fzero. ring. Qed.
  Lemma add_zero_l f : fadd fzero f == f.
  Proof. intros w _ _. unfold fadd, fzero. ring. Qed.
  Lemma add_zero_r f : fadd f fzero == f.
  Proof. intros w _ _. unfold fadd, fzero. ring. Qed.
  Lemma add_swap a b c d : fadd (fadd a b) (fadd c d) == fadd (fadd a c) (fadd b d).
  Proof. intros w _ _. unfold fadd. ring. Qed.
  Lemma add_assoc a b c : fadd (fadd a b) c == fadd a (fadd b c).
  Proof. intros w _ _. unfold fadd. ring. Qed.
  Lemma scal_plus c d f : fadd (fscal c f) (fscal d f) == fscal (c [+] d) f.
  Proof. intros w _ _. unfold fscal, fadd. ring. Qed.

  (** h 0 + ... + h K *)
  Fixpoint fsum (h : nat -> word -> S) (K : nat) : word -> S :=
    match K with O => h O | Datatypes.S K' => fadd (fsum h K') (h K) end.
  Lemma fsum_ext h h' K : (forall k, (k <= K)%nat -> h k == h' k) -> fsum h K == fsum h' K.
  Proof.
    induction K as [|K IH]; intros H; cbn [fsum]; [apply H; lia|].
    rewrite IH by (intros; apply H; lia). rewrite (H (Datatypes.S K)) by lia. reflexivity.
  Qed.
  Lemma fsum_add h h' K : fadd (fsum h K) (fsum h' K) == fsum (fun k => fadd (h k) (h' k)) K.
  Proof. induction K as [|K IH]; cbn [fsum]; [reflexivity|]. rewrite add_swap, IH. reflexivity. Qed.
  Lemma fsum_scal c h K : fscal c (fsum h K) == fsum (fun k => fscal c (h k)) K.
  Proof. induction K as [|K IH]; cbn [fsum]; [reflexivity|]. rewrite scal_add, IH. reflexivity. Qed.
  Lemma fsum_cv_r h g K : cv (fsum h K) g == fsum (fun k => cv (h k) g) K.
  Proof. induction K as [|K IH]; cbn [fsum]; [reflexivity|]. rewrite cv_add_l, IH. reflexivity. Qed.
  Lemma fsum_cv_l h g K : cv g (fsum h K) == fsum (fun k => cv g (h k)) K.
  Proof. induction K as [|K IH]; cbn [fsum]; [reflexivity|]. rewrite cv_add_r, IH. reflexivity. Qed.
  Lemma fsum_first h K : fsum h (Datatypes.S K) == fadd (h O) (fsum (fun k => h (Datatypes.S k)) K).
  Proof.
    induction K as [|K IH]; [reflexivity|].
    change (fsum h (Datatypes.S (Datatypes.S K))) with (fadd (fsum h (Datatypes.S K)) (h (Datatypes.S (Datatypes.S K)))).
    rewrite IH, add_assoc. reflexivity.
  Qed.
  (** the triangle, by rows and by diagonals *)
  Lemma fsum_triangle (a : nat -> nat -> word -> S) K :
    fsum (fun i => fsum (a i) (K - i)) K == fsum (fun k => fsum (fun i => a i (k - i)%nat) k) K.
  Proof.
    induction K as [|K IH]; [reflexivity|].
    transitivity (fadd (fadd (fsum (fun i => fsum (a i) (K - i)) K) (fsum (fun i => a i (Datatypes.S K - i)%nat) K))
                    (a (Datatypes.S K) O)).
    - cbn [fsum]. rewrite fsum_add. replace (Datatypes.S K - Datatypes.S K)%nat with O by lia. cbn [fsum].
      apply fadd_proper; [|reflexivity]. apply fsum_ext. intros k Hk.
      replace (Datatypes.S K - k)%nat with (Datatypes.S (K - k)) by lia. reflexivity.
    - rewrite IH. cbn [fsum]. replace (Datatypes.S K - Datatypes.S K)%nat with O by lia. rewrite add_assoc. reflexivity.
  Qed.
  Lemma fsum_cut h K K' : (K' <= K)%nat -> (forall k, (K' < k <= K)%nat -> h k == fzero) -> fsum h K == fsum h K'.
  Proof.
    intros H. induction K as [|K IH]; intros Hz; [replace K' with O by lia; reflexivity|].
    destruct (Nat.eq_dec K' (Datatypes.S K)) as [->|]; [reflexivity|]. cbn [fsum].
    rewrite IH by (try lia; intros; apply Hz; lia). rewrite (Hz (Datatypes.S K)) by lia. apply add_zero_r.
  Qed.

  (** ** Divided powers *)
  Fixpoint pw (f : word -> S) (k : nat) : word -> S :=
    match k with O => unit_fun so | Datatypes.S k => cv (pw f k) f end.
  Definition dp (f : word -> S) (k : nat) : word -> S := fscal (inv_fact so k) (pw f k).
  Lemma deg_S k : deg (Datatypes.S k) = deg k [+] one.
  Proof. rewrite Nat2N.inj_succ, <- N.add_1_r. apply (l_degree_S so F). Qed.
  Lemma deg_0 : deg 0 = zero. Proof. apply (l_degree_0 so F). Qed.
  Lemma deg_add a b : deg (a + b) = deg a [+] deg b.
  Proof.
    induction a as [|a IH]; [rewrite deg_0; cbn [Nat.add]; ring|].
    cbn [Nat.add]. rewrite !deg_S, IH. ring.
  Qed.
  Lemma deg_inv k : deg (Datatypes.S k) [*] inv (Datatypes.S k) = one.
  Proof. apply (l_degree_inv so F). lia. Qed.
  Lemma dp_0 f : dp f 0 == unit_fun so.
  Proof. unfold dp. cbn [inv_fact pw]. apply scal_1. Qed.
  Lemma dp_S f k : fscal (deg (Datatypes.S k)) (dp f (Datatypes.S k)) == cv (dp f k) f.
  Proof.
    unfold dp. cbn [pw]. rewrite scal_scal, cv_scal_l. cbn [inv_fact].
    replace (deg (Datatypes.S k) [*] (inv_fact so k [*] inv (Datatypes.S k)))
      with (inv_fact so k [*] (deg (Datatypes.S k) [*] inv (Datatypes.S k))) by ring.
    rewrite deg_inv. replace (inv_fact so k [*] one) with (inv_fact so k) by ring. reflexivity.
  Qed.
  Global Instance pw_proper : Proper (feq ==> eq ==> feq) pw.
  Proof. intros f g H k ? <-. induction k as [|k IH]; cbn [pw]; [reflexivity|]. rewrite IH, H. reflexivity. Qed.
  Global Instance dp_proper : Proper (feq ==> eq ==> feq) dp.
  Proof. intros f g H k ? <-. unfold dp. rewrite H. reflexivity. Qed.
  Lemma pw_comm f g k : cv f g == cv g f -> cv (pw f k) g == cv g (pw f k).
  Proof.
    intros H. induction k as [|k IH]; cbn [pw].
    - rewrite cv_unit_l, cv_unit_r. reflexivity.
    - rewrite cv_assoc, H, <- cv_assoc, IH, cv_assoc. reflexivity.
  Qed.
  Lemma dp_comm f g k : cv f g == cv g f -> cv (dp f k) g == cv g (dp f k).
  Proof. intros H. unfold dp. rewrite cv_scal_l, cv_scal_r, pw_comm by exact H. reflexivity. Qed.

  (** the binomial theorem *)
  Lemma binomial f g k : cv f g == cv g f ->
    dp (fadd f g) k == fsum (fun i => cv (dp f i) (dp g (k - i))) k.
  Proof.
    intros C. induction k as [|k IH].
    - cbn [fsum Nat.sub]. rewrite !dp_0, cv_unit_l. reflexivity.
    - assert (E : fscal (deg (Datatypes.S k)) (dp (fadd f g) (Datatypes.S k))
        == fscal (deg (Datatypes.S k)) (fsum (fun i => cv (dp f i) (dp g (Datatypes.S k - i))) (Datatypes.S k))).
      { rewrite dp_S, IH, fsum_cv_r, fsum_scal.
        transitivity (fadd (fsum (fun i => fscal (deg (Datatypes.S i)) (cv (dp f (Datatypes.S i)) (dp g (k - i)))) k)
                           (fsum (fun i => fscal (deg (Datatypes.S k - i)) (cv (dp f i) (dp g (Datatypes.S k - i)))) k)).
        - rewrite fsum_add. apply fsum_ext. intros i Hi. rewrite cv_add_r. apply fadd_proper.
          + rewrite cv_assoc. rewrite (dp_comm g f (k - i)) by (symmetry; exact C).
            rewrite <- cv_assoc, <- dp_S, cv_scal_l. reflexivity.
          + rewrite cv_assoc, <- dp_S, cv_scal_r. replace (Datatypes.S k - i)%nat with (Datatypes.S (k - i)) by lia.
            reflexivity.
        - (* both sums run to k+1, with zero terms added *)
          transitivity (fadd (fsum (fun i => fscal (deg i) (cv (dp f i) (dp g (Datatypes.S k - i)))) (Datatypes.S k))
                             (fsum (fun i => fscal (deg (Datatypes.S k - i)) (cv (dp f i) (dp g (Datatypes.S k - i))))
                                (Datatypes.S k))).
          + apply fadd_proper.
            * rewrite fsum_first, deg_0, scal_0, add_zero_l. reflexivity.
            * cbn [fsum]. replace (Datatypes.S k - Datatypes.S k)%nat with O by lia.
              rewrite deg_0, scal_0, add_zero_r. reflexivity.
          + rewrite fsum_add. apply fsum_ext. intros i Hi. rewrite scal_plus, <- deg_add.
            replace (i + (Datatypes.S k - i))%nat with (Datatypes.S k) by lia. reflexivity. }
      assert (E' := fscal_proper (inv (Datatypes.S k)) _ _ E). rewrite !scal_scal in E'.
      replace (inv (Datatypes.S k) [*] deg (Datatypes.S k)) with one in E'
        by (rewrite <- (deg_inv k); ring). rewrite !scal_1 in E'. exact E'.
  Qed.

  (** ** Exponentials *)
  Definition efun (f : word -> S) : word -> S := fsum (dp f) (N.to_nat t).
  Global Instance efun_proper : Proper (feq ==> feq) efun.
  Proof. intros f g H. unfold efun. apply fsum_ext. intros k _. rewrite H. reflexivity. Qed.
  Lemma pw_low f k w : f [] = zero -> (length w < k)%nat -> pw f k w = zero.
  Proof.
    intros F0. revert w. induction k as [|k IH]; intros w Hw; [lia|]. cbn [pw].
    apply (conv_zero so L). intros u v E.
    assert (Hl : length w = (length u + length v)%nat) by (rewrite E; apply app_length).
    destruct v as [|a v].
    - rewrite F0. ring.
    - rewrite IH by (cbn [length] in Hl; lia). ring.
  Qed.
  Lemma dp_prod_high f g i j : f [] = zero -> g [] = zero -> (N.to_nat t < i + j)%nat -> cv (dp f i) (dp g j) == fzero.
  Proof.
    intros F0 G0 H w _ Hl. unfold fzero. apply (conv_zero so L). intros u v E. unfold dp, fscal.
    assert (El : length w = (length u + length v)%nat) by (rewrite E; apply app_length). unfold len in Hl.
    destruct (Nat.lt_ge_cases (length u) i).
    - rewrite pw_low by assumption. ring.
    - rewrite (pw_low g) by (assumption || lia). ring.
  Qed.
  Lemma efun_add f g : f [] = zero -> g [] = zero -> cv f g == cv g f -> cv (efun f) (efun g) == efun (fadd f g).
  Proof.
    intros F0 G0 C. unfold efun. rewrite fsum_cv_r.
    transitivity (fsum (fun i => fsum (fun j => cv (dp f i) (dp g j)) (N.to_nat t - i)) (N.to_nat t)).
    - apply fsum_ext. intros i Hi. rewrite fsum_cv_l. apply fsum_cut; [lia|]. intros j Hj.
      apply dp_prod_high; try assumption. lia.
    - rewrite (fsum_triangle (fun i j => cv (dp f i) (dp g j))). apply fsum_ext. intros k _. symmetry. apply binomial. exact C.
  Qed.
  Lemma efun_zero f : f == fzero -> efun f == unit_fun so.
  Proof.
    intros Z. unfold efun. rewrite (fsum_cut (dp f) (N.to_nat t) 0); [apply dp_0|lia|]. intros [|k] Hk; [lia|].
    unfold dp. cbn [pw]. rewrite Z. intros w _ _. unfold fscal, fzero. rewrite (conv_zero so L); [ring|].
    intros; ring.
  Qed.
  Lemma tpow_pw md f k : t <= md -> tpow so md f k == pw f k.
  Proof.
    intros H. induction k as [|k IH]; cbn [tpow pw]; [reflexivity|]. rewrite <- IH.
    intros w _ Hl. unfold tconv. destruct (N.leb_spec (len w) md); [reflexivity|lia].
  Qed.
  Lemma exp_efun md f : t <= md -> exp_upto so md f (N.to_nat t) == efun f.
  Proof.
    intros H. unfold exp_upto, efun. generalize (N.to_nat t) as K. induction K as [|K IH]; cbn [series fsum].
    - intros w Hw Hl. unfold dp, fscal. rewrite <- (tpow_pw md f 0 H w Hw Hl). reflexivity.
    - intros w Hw Hl. unfold fadd. rewrite (IH w Hw Hl). unfold dp, fscal. rewrite <- (tpow_pw md f _ H w Hw Hl). reflexivity.
  Qed.
End Group.
