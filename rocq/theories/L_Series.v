(** Lemmas on power series of tensors. *)
From Coq Require Import Ring_theory Ring.
From Verif Require Import Machine MachineLemmas S_Words L_Words M_Scalar M_Dense S_Vector S_Tensor S_Series L_Ring L_Algebra L_Conv.

Section Series.
  Context {S R : Type} (so : scalar_ops S R) (L : ring_laws so).
  Let RT := ring_of so L.
  Add Ring scalars : RT.
  Notation zero := (s_zero so).
  Notation one := (s_one so).
  Infix "[+]" := (s_add so) (at level 50, left associativity).
  Infix "[*]" := (s_mul so) (at level 40, left associativity).

  Lemma series_ext t c c' f K w : (forall k, (k <= K)%nat -> c k = c' k) -> series so t c f K w = series so t c' f K w.
  Proof.
    induction K as [|K IH]; intros H; cbn [series].
    - rewrite H by lia. reflexivity.
    - rewrite IH by (intros; apply H; lia). rewrite (H (Datatypes.S K)) by lia. reflexivity.
  Qed.
  Lemma tpow_ext n t f g k w : word_ok n w -> (forall u, word_ok n u -> f u = g u) -> tpow so t f k w = tpow so t g k w.
  Proof.
    intros Hw H. revert w Hw. induction k as [|k IH]; intros w Hw; [reflexivity|]. cbn [tpow].
    apply tconv_ext; intros u v E; rewrite E in Hw; apply word_ok_app in Hw; [apply IH|apply H]; apply Hw.
  Qed.
  Lemma series_fun_ext n t c f g K w : word_ok n w -> (forall u, word_ok n u -> f u = g u) ->
    series so t c f K w = series so t c g K w.
  Proof.
    intros Hw H. induction K as [|K IH]; cbn [series]; [reflexivity|].
    rewrite IH. rewrite (tpow_ext n t f g) by assumption. reflexivity.
  Qed.
  (** powers of a series without constant term start at their exponent *)
  Lemma tpow_low t f k w : f [] = zero -> (length w < k)%nat -> tpow so t f k w = zero.
  Proof.
    intros F. revert w. induction k as [|k IH]; intros w Hw; [lia|]. cbn [tpow]. unfold tconv.
    destruct (len w <=? t); [|reflexivity]. apply (conv_zero so L). intros u v E.
    assert (Hl : length w = (length u + length v)%nat) by (rewrite E; apply app_length).
    destruct v as [|a v].
    - rewrite F. ring.
    - rewrite IH by (cbn [length] in Hl; lia). ring.
  Qed.
  Lemma tpow_zero t f k w : (forall u, f u = zero) -> tpow so t f (Datatypes.S k) w = zero.
  Proof.
    intros F. cbn [tpow]. unfold tconv. destruct (len w <=? t); [|reflexivity].
    apply (conv_zero so L). intros u v _. rewrite F. ring.
  Qed.
  Lemma series_zero t c f K w : (forall u, f u = zero) -> series so t c f K w = c 0%nat [*] unit_fun so w.
  Proof.
    intros F. induction K as [|K IH]; [reflexivity|]. cbn [series]. rewrite IH, tpow_zero by exact F. ring.
  Qed.
  (** Horner: 1 + (Σ c k f^k)·f *)
  Lemma series_shift t c f K a w :
    series so t (fun k => match k with O => a | Datatypes.S k1 => c k1 end) f (Datatypes.S K) w
    = tconv so t (series so t c f K) f w [+] a [*] unit_fun so w.
  Proof.
    revert w. induction K as [|K IH]; intros w.
    - change (series so t (fun k => match k with O => a | Datatypes.S k1 => c k1 end) f 1 w)
        with (a [*] unit_fun so w [+] c 0%nat [*] tconv so t (unit_fun so) f w).
      change (series so t c f 0) with (fun u => c 0%nat [*] unit_fun so u). rewrite tconv_scal_l by exact L. ring.
    - change (series so t (fun k => match k with O => a | Datatypes.S k1 => c k1 end) f (Datatypes.S (Datatypes.S K)) w)
        with (series so t (fun k => match k with O => a | Datatypes.S k1 => c k1 end) f (Datatypes.S K) w
              [+] c (Datatypes.S K) [*] tconv so t (tpow so t f (Datatypes.S K)) f w).
      rewrite IH.
      change (series so t c f (Datatypes.S K)) with (fun u => series so t c f K u [+] c (Datatypes.S K) [*] tpow so t f (Datatypes.S K) u).
      rewrite tconv_add_l by exact L. rewrite tconv_scal_l by exact L. ring.
  Qed.
  Lemma series_scal t c f K b w : series so t (fun k => b [*] c k) f K w = b [*] series so t c f K w.
  Proof. induction K as [|K IH]; cbn [series]; [ring|]. rewrite IH. ring. Qed.
End Series.
