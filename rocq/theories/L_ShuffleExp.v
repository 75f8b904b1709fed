(** The exponential of a primitive tensor is group-like. *)
From Coq Require Import Ring_theory Ring.
From Verif Require Import Machine MachineLemmas S_Words L_Words M_Scalar M_Dense S_Vector S_Tensor S_Series L_Ring L_Algebra L_Conv
  L_Series L_ExpGroup S_Shuffle L_Shuffle.

Section ShuffleExp.
  Context {S R : Type} (so : scalar_ops S R) (F : field_laws so) (n t : N).
  Let L := l_ring so F.
  Let RT := ring_of so L.
  Add Ring scalars : RT.
  Notation zero := (s_zero so).
  Notation one := (s_one so).
  Infix "[+]" := (s_add so) (at level 50, left associativity).
  Infix "[*]" := (s_mul so) (at level 40, left associativity).
  Notation cv := (conv so).
  Notation sum := (fold_right (s_add so) zero).
  Notation sh := (shuffle_sum so).
  Notation eps := (unit_fun so).
  Notation deg k := (s_from_degree so (N.of_nat k)).
  Notation inv k := (s_inv so (r_from_degree so (N.of_nat k))).
  Notation dp := (dp so).

  (** h 0 + ... + h K *)
  Fixpoint ssum (h : nat -> S) (K : nat) : S := match K with O => h O | Datatypes.S K' => ssum h K' [+] h K end.
  Lemma ssum_ext h h' K : (forall k, (k <= K)%nat -> h k = h' k) -> ssum h K = ssum h' K.
  Proof.
    induction K as [|K IH]; intros H; cbn [ssum]; [apply H; lia|].
    rewrite IH by (intros; apply H; lia). rewrite (H (Datatypes.S K)) by lia. reflexivity.
  Qed.
  Lemma ssum_add h h' K : ssum h K [+] ssum h' K = ssum (fun k => h k [+] h' k) K.
  Proof. induction K as [|K IH]; cbn [ssum]; [reflexivity|]. rewrite <- IH. ring. Qed.
  Lemma ssum_scal c h K : c [*] ssum h K = ssum (fun k => c [*] h k) K.
  Proof. induction K as [|K IH]; cbn [ssum]; [reflexivity|]. rewrite <- IH. ring. Qed.
  Lemma ssum_first h K : ssum h (Datatypes.S K) = h O [+] ssum (fun k => h (Datatypes.S k)) K.
  Proof.
    induction K as [|K IH]; [reflexivity|].
    change (ssum h (Datatypes.S (Datatypes.S K))) with (ssum h (Datatypes.S K) [+] h (Datatypes.S (Datatypes.S K))).
    rewrite IH. cbn [ssum]. ring.
  Qed.
  Lemma ssum_sum {A} (h : nat -> A -> S) K (l : list A) :
    sum (map (fun x => ssum (fun k => h k x) K) l) = ssum (fun k => sum (map (h k) l)) K.
  Proof. induction K as [|K IH]; cbn [ssum]; [reflexivity|]. rewrite (sum_map_add so L), IH. reflexivity. Qed.
  Lemma ssum_cut h K K' : (K' <= K)%nat -> (forall k, (K' < k <= K)%nat -> h k = zero) -> ssum h K = ssum h K'.
  Proof.
    intros H. induction K as [|K IH]; intros Hz; [replace K' with O by lia; reflexivity|].
    destruct (Nat.eq_dec K' (Datatypes.S K)) as [->|]; [reflexivity|]. cbn [ssum].
    rewrite IH by (try lia; intros; apply Hz; lia). rewrite (Hz (Datatypes.S K)) by lia. ring.
  Qed.
  Lemma ssum_triangle (a : nat -> nat -> S) K :
    ssum (fun i => ssum (a i) (K - i)) K = ssum (fun k => ssum (fun i => a i (k - i)%nat) k) K.
  Proof.
    induction K as [|K IH]; [reflexivity|]. cbn [ssum]. rewrite <- IH, Nat.sub_diag.
    rewrite (ssum_ext (fun i => ssum (a i) (Datatypes.S K - i)) (fun i => ssum (a i) (K - i) [+] a i (Datatypes.S K - i)%nat)).
    - rewrite <- ssum_add. cbn [ssum]. ring.
    - intros i Hi. replace (Datatypes.S K - i)%nat with (Datatypes.S (K - i)) by lia. reflexivity.
  Qed.
  Lemma cv_ssum h g K w : cv (fun u => ssum (fun k => h k u) K) g w = ssum (fun k => cv (h k) g w) K.
  Proof. induction K as [|K IH]; cbn [ssum]; [reflexivity|]. rewrite (conv_add_l so L), IH. reflexivity. Qed.

  Lemma dp_step f k w : deg (Datatypes.S k) [*] dp f (Datatypes.S k) w = cv (dp f k) f w.
  Proof.
    unfold L_ExpGroup.dp, fscal. cbn [pw inv_fact]. rewrite (conv_scal_l so L).
    replace (deg (Datatypes.S k) [*] (inv_fact so k [*] inv (Datatypes.S k) [*] cv (pw so f k) f w))
      with (deg (Datatypes.S k) [*] inv (Datatypes.S k) [*] (inv_fact so k [*] cv (pw so f k) f w)) by ring.
    rewrite (deg_inv so F). ring.
  Qed.
  Context (f : word -> S) (Pf : primitive so n t f).
  Lemma dp_sh k : forall u v, word_ok n u -> word_ok n v -> len u + len v <= t ->
    sh (dp f k) u v = ssum (fun i => dp f i u [*] dp f (k - i) v) k.
  Proof.
    induction k as [|k IH]; intros u v Hu Hv H.
    - cbn [ssum Nat.sub]. unfold L_ExpGroup.dp, fscal. cbn [pw inv_fact]. rewrite (sh_scal so L).
      destruct (group_unit so L n t) as [_ G]. rewrite <- (G u v Hu Hv H). ring.
    - assert (E : deg (Datatypes.S k) [*] sh (dp f (Datatypes.S k)) u v
        = deg (Datatypes.S k) [*] ssum (fun i => dp f i u [*] dp f (Datatypes.S k - i) v) (Datatypes.S k)).
      { rewrite <- (sh_scal so L). rewrite (sh_ext so _ (cv (dp f k) f)) by (intros w _; apply dp_step).
        rewrite (sh_conv so L), (cuts_ext so n t (dp f k) f (fun a b => ssum (fun i => dp f i a [*] dp f (k - i) b) k)
          (fun a b => eps a [*] f b [+] f a [*] eps b) u v Hu Hv H IH (prim_sh so L n t f Pf)).
        rewrite (map_ext _ (fun c : word * word =>
          ssum (fun i => cv (fun b => dp f i (fst c) [*] dp f (k - i) b) (fun b => eps (snd c) [*] f b) v) k
          [+] ssum (fun i => cv (fun b => dp f i (fst c) [*] dp f (k - i) b) (fun b => f (snd c) [*] eps b) v) k))
          by (intros c; rewrite (conv_add_r so L), !cv_ssum; reflexivity).
        rewrite (sum_map_add so L), !ssum_sum.
        rewrite (ssum_ext (fun i => sum (map (fun c : word * word => cv (fun b => dp f i (fst c) [*] dp f (k - i) b) (fun b => eps (snd c) [*] f b) v) (splits u)))
          (fun i => deg (Datatypes.S k - i) [*] (dp f i u [*] dp f (Datatypes.S k - i) v))).
        2:{ intros i Hi. rewrite (cuts_prod so L), (conv_unit_r so L), <- dp_step.
            replace (Datatypes.S k - i)%nat with (Datatypes.S (k - i)) by lia. ring. }
        rewrite (ssum_ext (fun i => sum (map (fun c : word * word => cv (fun b => dp f i (fst c) [*] dp f (k - i) b) (fun b => f (snd c) [*] eps b) v) (splits u)))
          (fun i => deg (Datatypes.S i) [*] (dp f (Datatypes.S i) u [*] dp f (k - i) v))).
        2:{ intros i Hi. rewrite (cuts_prod so L), (conv_unit_r so L), <- dp_step. ring. }
        (* both sums run to k+1, with zero terms added *)
        transitivity (ssum (fun i => deg (Datatypes.S k - i) [*] (dp f i u [*] dp f (Datatypes.S k - i) v)) (Datatypes.S k)
          [+] ssum (fun i => deg i [*] (dp f i u [*] dp f (Datatypes.S k - i) v)) (Datatypes.S k)).
        - f_equal.
          + cbn [ssum]. rewrite Nat.sub_diag, (deg_0 so F). ring.
          + rewrite ssum_first, (deg_0 so F). cbn [Nat.sub]. ring.
        - rewrite ssum_add, ssum_scal. apply ssum_ext. intros i Hi.
          replace (deg (Datatypes.S k)) with (deg (Datatypes.S k - i + i)) by (f_equal; lia). rewrite (deg_add so F). ring. }
      apply (f_equal (s_mul so (inv (Datatypes.S k)))) in E.
      assert (C : forall x, inv (Datatypes.S k) [*] (deg (Datatypes.S k) [*] x) = x).
      { intros x. replace (inv (Datatypes.S k) [*] (deg (Datatypes.S k) [*] x)) with (deg (Datatypes.S k) [*] inv (Datatypes.S k) [*] x) by ring.
        rewrite (deg_inv so F). ring. }
      rewrite !C in E. exact E.
  Qed.
  Lemma efun_ssum k w : fsum so (dp f) k w = ssum (fun i => dp f i w) k.
  Proof. induction k as [|k IH]; cbn [fsum ssum]; [reflexivity|]. unfold fadd. rewrite IH. reflexivity. Qed.
  Lemma sh_ssum h K u v : sh (fun w => ssum (fun k => h k w) K) u v = ssum (fun k => sh (h k) u v) K.
  Proof. apply ssum_sum. Qed.
  Lemma dp_low k w : (length w < k)%nat -> dp f k w = zero.
  Proof. intros H. unfold L_ExpGroup.dp, fscal. rewrite (pw_low so F) by (apply (proj1 Pf) || exact H). ring. Qed.
  (** the exponential, with powers up to [K] >= t *)
  Lemma exp_group : group_like so n t (efun so t f).
  Proof.
    unfold efun. set (K := N.to_nat t). split.
    - rewrite efun_ssum. rewrite (ssum_cut _ K 0) by (try lia; intros k Hk; apply dp_low; cbn; lia).
      cbn [ssum]. unfold L_ExpGroup.dp, fscal. cbn [pw inv_fact unit_fun]. ring.
    - intros u v Hu Hv H. rewrite !efun_ssum.
      rewrite (sh_ext so (fsum so (dp f) K) (fun w => ssum (fun i => dp f i w) K)) by (intros w _; apply efun_ssum).
      rewrite sh_ssum.
      rewrite (ssum_ext (fun k => sh (dp f k) u v) (fun k => ssum (fun i => dp f i u [*] dp f (k - i) v) k))
        by (intros k _; apply dp_sh; assumption).
      rewrite <- (ssum_triangle (fun i j => dp f i u [*] dp f j v)).
      replace (ssum (fun i => dp f i u) K [*] ssum (fun i => dp f i v) K)
        with (ssum (fun i => dp f i v) K [*] ssum (fun i => dp f i u) K) by ring.
      rewrite ssum_scal. apply ssum_ext. intros i Hi.
      replace (ssum (fun i => dp f i v) K [*] dp f i u) with (dp f i u [*] ssum (fun i => dp f i v) K) by ring.
      rewrite ssum_scal. symmetry. symmetry. apply ssum_cut; [lia|]. intros j Hj. unfold len in H.
      destruct (Nat.lt_ge_cases (length u) i).
      + rewrite (dp_low i u) by assumption. ring.
      + rewrite (dp_low j v) by (subst K; lia). ring.
  Qed.
End ShuffleExp.
