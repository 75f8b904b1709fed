(** Proofs about the exponentials of the trait FreeTensor as a group: commuting increments add up. *)
From Coq Require Import QArith Qcanon Ring_theory Ring.
From Verif Require Import Machine MachineLemmas S_Words L_Words M_TensorKey M_Scalar M_Vector M_Dense S_Vector S_Tensor S_Series
  S_FreeTensor I_Scalars I_FunAlgebra L_Ring L_Algebra L_Conv L_Series M_FreeTensor L_ExactAlgebra L_ExpGroup.
Local Open Scope N_scope.

Section Exp.
  Context {V S R : Type} (so : scalar_ops S R) (p : profile) (n : N) (vo : vec_ops V tkey S R)
    (mulr : V -> V -> S -> option N -> outcome V) (mul : V -> V -> option N -> outcome V) (val : V -> word -> S)
    (F : field_laws so) (X : exact_algebra so n vo mulr mul val).
  Let L := l_ring so F.
  Let RT := ring_of so L.
  Add Ring scalars : RT.
  Notation zero := (s_zero so).
  Notation one := (s_one so).
  Infix "[+]" := (s_add so) (at level 50, left associativity).
  Infix "[*]" := (s_mul so) (at level 40, left associativity).
  Notation nu := (no_unit so).

  Lemma cv_neg_comm f g : (forall u, word_ok n u -> g u = s_uminus so (f u)) ->
    forall w, word_ok n w -> conv so f g w = conv so g f w.
  Proof.
    intros H w Hw.
    transitivity (conv so f (fun u => s_uminus so one [*] f u) w).
    { apply conv_ext; [reflexivity|]. intros u v E. rewrite H by (rewrite E in Hw; apply word_ok_app in Hw; apply Hw). ring. }
    rewrite conv_scal_r by exact L. rewrite <- conv_scal_l by exact L.
    apply conv_ext; [|reflexivity]. intros u v E. rewrite H by (rewrite E in Hw; apply word_ok_app in Hw; apply Hw). ring.
  Qed.
  Lemma nu_neg (f g : word -> S) : (forall u, word_ok n u -> g u = s_uminus so (f u)) ->
    forall u, word_ok n u -> nu g u = s_uminus so (nu f u).
  Proof. intros H [|a u] Hu; cbn [no_unit]; [ring|apply H; exact Hu]. Qed.

  (** two increments, one after the other *)
  Lemma fmexp_two md x y z : md < 2 ^ 32 -> exists a b, trait_fmexp so p md vo mulr x y = Ret a
    /\ trait_fmexp so p md vo mulr a z = Ret b
    /\ forall w, word_ok n w -> val b w = if len w <=? md then
         conv so (val x) (conv so (exp_upto so md (nu (val y)) (N.to_nat (md - 1)))
                                  (exp_upto so md (nu (val z)) (N.to_nat (md - 1)))) w else val x w.
  Proof.
    intros Hmd. destruct (exact_fmexp so p n vo mulr mul val L X md x y Hmd) as (a & Ea & Ga).
    destruct (exact_fmexp so p n vo mulr mul val L X md a z Hmd) as (b & Eb & Gb). exists a, b.
    split; [exact Ea|]. split; [exact Eb|]. intros w Hw. rewrite (Gb w Hw). destruct (N.leb_spec (len w) md) as [Hl|Hl].
    - rewrite <- conv_assoc by exact L. apply conv_ext; [|reflexivity]. intros u v E. rewrite Ga.
      + apply len_prefix in E. destruct (N.leb_spec (len u) md); [reflexivity|lia].
      + rewrite E in Hw. apply word_ok_app in Hw. apply Hw.
    - rewrite (Ga w Hw). destruct (N.leb_spec (len w) md); [lia|reflexivity].
  Qed.
  (** the series of the code, for the words shorter than MAX_DEGREE *)
  Lemma code_exp md f : 1 <= md -> feq n (md - 1) (exp_upto so md f (N.to_nat (md - 1))) (efun so (md - 1) f).
  Proof. intros H. apply exp_efun. lia. Qed.

  Lemma compose md x y z yz : md < 2 ^ 32 ->
    (forall w, word_ok n w -> val yz w = val y w [+] val z w) ->
    (forall w, word_ok n w -> conv so (nu (val y)) (nu (val z)) w = conv so (nu (val z)) (nu (val y)) w) ->
    exists a b c, trait_fmexp so p md vo mulr x y = Ret a /\ trait_fmexp so p md vo mulr a z = Ret b
      /\ trait_fmexp so p md vo mulr x yz = Ret c
      /\ forall w, word_ok n w -> len w <> md -> val b w = val c w.
  Proof.
    intros Hmd Hs C. destruct (fmexp_two md x y z Hmd) as (a & b & Ea & Eb & Gb).
    destruct (exact_fmexp so p n vo mulr mul val L X md x yz Hmd) as (c & Ec & Gc). exists a, b, c.
    split; [exact Ea|]. split; [exact Eb|]. split; [exact Ec|]. intros w Hw Hl. rewrite (Gb w Hw), (Gc w Hw).
    destruct (N.leb_spec (len w) md) as [Hl'|Hl']; [|reflexivity].
    assert (E : feq n (md - 1)
      (conv so (exp_upto so md (nu (val y)) (N.to_nat (md - 1))) (exp_upto so md (nu (val z)) (N.to_nat (md - 1))))
      (exp_upto so md (nu (val yz)) (N.to_nat (md - 1)))).
    { rewrite (code_exp md (nu (val y))), (code_exp md (nu (val z))), (code_exp md (nu (val yz))) by lia.
      rewrite (efun_add so F n (md - 1)); [|reflexivity|reflexivity|intros u Hu _; exact (C u Hu)].
      apply efun_proper. intros [|k u] Hu _; unfold fadd; cbn [no_unit]; [ring|]. symmetry. exact (Hs _ Hu). }
    refine (conv_proper so n (md - 1) (val x) (val x) _ _ _ E w Hw _); [reflexivity|lia].
  Qed.

  Lemma undo md x y my : md < 2 ^ 32 -> (forall w, word_ok n w -> val my w = s_uminus so (val y w)) ->
    exists a b, trait_fmexp so p md vo mulr x y = Ret a /\ trait_fmexp so p md vo mulr a my = Ret b
      /\ (forall w, word_ok n w -> len w <> md -> val b w = val x w)
      /\ (forall w, word_ok n w -> len w = md -> 0 < md -> val b w =
            if N.even md then
              s_sub so (val x w) (val x [] [*] ((one [+] one) [*] (inv_fact so (N.to_nat md) [*] tpow so md (nu (val y)) (N.to_nat md) w)))
            else val x w).
  Proof.
    intros Hmd Hn. destruct (fmexp_two md x y my Hmd) as (a & b & Ea & Eb & Gb). exists a, b.
    split; [exact Ea|]. split; [exact Eb|].
    assert (Hneg := nu_neg _ _ Hn). set (f := nu (val y)) in *. set (g := nu (val my)) in *.
    assert (C : forall t, feq n t (conv so f g) (conv so g f)).
    { intros t w Hw _. apply cv_neg_comm; assumption. }
    assert (Z : forall t, feq n t (fadd so f g) (fzero so)).
    { intros t w Hw _. unfold fadd, fzero. rewrite (Hneg w Hw). ring. }
    set (e := exp_upto so md f (N.to_nat (md - 1))) in *. set (e' := exp_upto so md g (N.to_nat (md - 1))) in *.
    assert (E : 1 <= md -> feq n (md - 1) (conv so e e') (unit_fun so)).
    { intros H1. unfold e, e'. rewrite (code_exp md f), (code_exp md g) by exact H1.
      rewrite (efun_add so F n (md - 1)); [|reflexivity|reflexivity|apply C]. apply (efun_zero so F). apply Z. }
    split.
    - intros w Hw Hl. rewrite (Gb w Hw). destruct (N.leb_spec (len w) md) as [Hl'|Hl']; [|reflexivity].
      rewrite (conv_proper so n (md - 1) (val x) (val x) ltac:(reflexivity) _ _ (E ltac:(lia)) w Hw ltac:(lia)).
      apply conv_unit_r. exact L.
    - intros w Hw Hl H0. rewrite (Gb w Hw). destruct (N.leb_spec (len w) md) as [Hl'|Hl']; [|lia].
      (* the terms of order md, missing in the code *)
      set (d := dp so f (N.to_nat md)). set (d' := dp so g (N.to_nat md)).
      assert (Em : forall h, feq n md (efun so md h)
                (fadd so (exp_upto so md h (N.to_nat (md - 1))) (dp so h (N.to_nat md)))).
      { intros h. rewrite <- (exp_efun so n md md h) by lia. unfold exp_upto.
        replace (N.to_nat md) with (Datatypes.S (N.to_nat (md - 1))) by lia. cbn [series]. intros u Hu Hlu. unfold fadd, dp, fscal.
        rewrite <- (tpow_pw so n md md h _ ltac:(lia) u Hu Hlu). reflexivity. }
      assert (dlow : forall h u, h [] = zero -> len u < md -> dp so h (N.to_nat md) u = zero).
      { intros h u H Hu. unfold dp, fscal. rewrite (pw_low so F) by (assumption || (unfold len in Hu; lia)). ring. }
      assert (e0 : forall h, h [] = zero -> exp_upto so md h (N.to_nat (md - 1)) [] = one).
      { intros h Hh0. unfold exp_upto. generalize (N.to_nat (md - 1)). induction n0 as [|k IH]; cbn [series].
        - cbn. ring.
        - rewrite IH. rewrite (tpow_low so L) by (assumption || cbn [length]; lia). ring. }
      assert (Ew : forall u, word_ok n u -> len u = md ->
                conv so e e' u = s_uminus so (d u [+] d' u)).
      { intros u Hu Hlu.
        assert (T : unit_fun so u = conv so (fadd so e d) (fadd so e' d') u).
        { assert (T1 : feq n md (conv so (efun so md f) (efun so md g)) (unit_fun so)).
          { rewrite (efun_add so F n md); [|reflexivity|reflexivity|apply C]. apply (efun_zero so F). apply Z. }
          rewrite <- (T1 u Hu ltac:(lia)).
          apply (conv_proper so n md _ _ (Em f) _ _ (Em g) u Hu ltac:(lia)). }
        assert (T2 : conv so (fadd so e d) (fadd so e' d') u = conv so e e' u [+] d u [+] d' u).
        { unfold fadd. rewrite (conv_add_l so L), !(conv_add_r so L).
          assert (A1 : conv so d e' u = d u).
          { transitivity (conv so d (unit_fun so) u); [|apply conv_unit_r; exact L].
            unfold conv. f_equal. apply map_ext_in. intros [u1 u2] Hi. apply in_splits in Hi. cbn [fst snd].
            apply len_prefix in Hi. destruct u2 as [|k u2].
            - unfold e'. rewrite e0 by reflexivity. reflexivity.
            - rewrite len_cons in Hi. unfold d. rewrite (dlow f) by (reflexivity || lia). ring. }
          assert (A2 : conv so e d' u = d' u).
          { transitivity (conv so (unit_fun so) d' u); [|apply conv_unit_l; exact L].
            unfold conv. f_equal. apply map_ext_in. intros [u1 u2] Hi. apply in_splits in Hi. cbn [fst snd].
            apply len_prefix in Hi. destruct u1 as [|k u1].
            - unfold e. rewrite e0 by reflexivity. reflexivity.
            - rewrite len_cons in Hi. unfold d'. rewrite (dlow g) by (reflexivity || lia). ring. }
          assert (A3 : conv so d d' u = zero).
          { apply (conv_zero so L). intros u1 u2 Hi. apply len_prefix in Hi.
            destruct (N.lt_ge_cases (len u1) md).
            - unfold d. rewrite (dlow f) by (reflexivity || lia). ring.
            - unfold d'. rewrite (dlow g) by (reflexivity || lia). ring. }
          rewrite A1, A2, A3. ring. }
        rewrite T2 in T. destruct u as [|k u]; [cbn in Hlu; lia|]. cbn [unit_fun] in T.
        assert (T3 : forall p0 q0 r0, zero = p0 [+] q0 [+] r0 -> p0 = s_uminus so (q0 [+] r0)).
        { intros p0 q0 r0 H. transitivity (p0 [+] q0 [+] r0 [+] s_uminus so (q0 [+] r0)); [ring|]. rewrite <- H. ring. }
        exact (T3 _ _ _ T). }
      assert (Ed' : d' w = (if N.even md then one else s_uminus so one) [*] d w).
      { unfold d', d, dp, fscal.
        assert (P : forall k u, word_ok n u -> pw so g k u = (if Nat.even k then one else s_uminus so one) [*] pw so f k u).
        { induction k as [|k IH]; intros u Hu; [cbn [pw Nat.even]; ring|]. cbn [pw].
          transitivity (conv so (fun v => (if Nat.even k then one else s_uminus so one) [*] pw so f k v)
                          (fun v => s_uminus so one [*] f v) u).
          - apply conv_ext; intros u1 u2 E1; rewrite E1 in Hu; apply word_ok_app in Hu.
            + apply IH. apply Hu.
            + rewrite Hneg by apply Hu. ring.
          - rewrite (conv_scal_l so L), (conv_scal_r so L). rewrite Nat.even_succ, <- Nat.negb_even.
            destruct (Nat.even k); cbn [negb]; ring. }
        rewrite (P _ w Hw).
        assert (Ev : Nat.even (N.to_nat md) = N.even md).
        { rewrite <- (N2Nat.id md) at 2. generalize (N.to_nat md) as k. induction k as [|k IH]; [reflexivity|].
          rewrite Nat.even_succ, <- Nat.negb_even, IH, Nat2N.inj_succ, N.even_succ, <- N.negb_even. reflexivity. }
        rewrite Ev. ring. }
      (* conv x (e*e') at w *)
      transitivity (val x w [+] val x [] [*] conv so e e' w).
      + transitivity (conv so (val x) (fun v => unit_fun so v [+] (if len v =? md then conv so e e' v else zero)) w).
        * apply conv_ext; [reflexivity|]. intros u v Euv. assert (Hv : word_ok n v) by (rewrite Euv in Hw; apply word_ok_app in Hw; apply Hw).
          cbv beta. destruct (N.eqb_spec (len v) md) as [Hvl|Hvl].
          -- destruct v as [|k v]; [cbn in Hvl; lia|]. cbn [unit_fun]. symmetry. apply (l_add_0_l so L).
          -- rewrite (E ltac:(lia) v Hv); [ring|]. apply len_prefix in Euv. lia.
        * rewrite (conv_add_r so L). rewrite (conv_unit_r so L). f_equal.
          destruct w as [|k w]; [cbn in Hl; lia|]. rewrite (conv_cons so).
          rewrite Hl, N.eqb_refl. rewrite (conv_zero so L (der k (val x))); [ring|]. intros u v Euv. apply len_prefix in Euv.
          rewrite len_cons in Hl. cbv beta. destruct (N.eqb_spec (len v) md); [lia|]. ring.
      + rewrite (Ew w Hw Hl), Ed'. unfold d, dp, fscal.
        rewrite <- (tpow_pw so n md md f _ ltac:(lia) w Hw ltac:(lia)). destruct (N.even md); ring.
  Qed.

  Lemma exp_mul md x y xy : (forall w, word_ok n w -> val xy w = val x w [+] val y w) ->
    val x [] = zero -> val y [] = zero ->
    (forall w, word_ok n w -> conv so (val x) (val y) w = conv so (val y) (val x) w) ->
    exists ex ey exy z, trait_exp so md vo mulr x = Ret ex /\ trait_exp so md vo mulr y = Ret ey
      /\ trait_exp so md vo mulr xy = Ret exy /\ mul ex ey (Some md) = Ret z
      /\ forall w, word_ok n w -> len w < md -> val z w = val exy w.
  Proof.
    intros Hs X0 Y0 C.
    destruct (exact_exp so n vo mulr mul val L X md x) as (ex & Ex & Gx).
    destruct (exact_exp so n vo mulr mul val L X md y) as (ey & Ey & Gy).
    destruct (exact_exp so n vo mulr mul val L X md xy) as (exy & Exy & Gxy).
    destruct (ea_mul _ _ _ _ _ _ X ex ey md) as (z & Ez & Gz). exists ex, ey, exy, z.
    split; [exact Ex|]. split; [exact Ey|]. split; [exact Exy|]. split; [exact Ez|]. intros w Hw Hl.
    rewrite (Gz w Hw), (Gxy w Hw). unfold tconv. destruct (N.leb_spec (len w) md); [|lia].
    assert (E : feq n (md - 1) (conv so (val ex) (val ey)) (exp_upto so md (val xy) (N.to_nat (md - 1)))).
    { transitivity (conv so (exp_upto so md (val x) (N.to_nat (md - 1))) (exp_upto so md (val y) (N.to_nat (md - 1)))).
      { apply conv_proper; intros u Hu _; [apply Gx|apply Gy]; exact Hu. }
      rewrite (code_exp md (val x)), (code_exp md (val y)), (code_exp md (val xy)) by lia.
      rewrite (efun_add so F n (md - 1)); [|exact X0|exact Y0|intros u Hu _; exact (C u Hu)].
      apply efun_proper. intros u Hu _. symmetry. exact (Hs u Hu). }
    apply (E w Hw). lia.
  Qed.
End Exp.

(** * C92: fmexp with commuting increments *)
Lemma c92_compose : forall (V S R : Type) (so : scalar_ops S R) (p : profile) (n md : N) (vo : vec_ops V tkey S R)
    (mulr : V -> V -> S -> option N -> outcome V) (mul : V -> V -> option N -> outcome V) (val : V -> word -> S) (x y z yz : V),
  field_laws so -> exact_algebra so n vo mulr mul val -> md < 2 ^ 32 ->
  (forall w, word_ok n w -> val yz w = s_add so (val y w) (val z w)) ->
  (forall w, word_ok n w ->
     conv so (no_unit so (val y)) (no_unit so (val z)) w = conv so (no_unit so (val z)) (no_unit so (val y)) w) ->
  exists a b c, trait_fmexp so p md vo mulr x y = Ret a /\ trait_fmexp so p md vo mulr a z = Ret b
    /\ trait_fmexp so p md vo mulr x yz = Ret c
    /\ forall w, word_ok n w -> len w <> md -> val b w = val c w.
Proof. intros V S R so p n md vo mulr mul val x y z yz F X. exact (compose so p n vo mulr mul val F X md x y z yz). Qed.
Lemma c92_undo : forall (V S R : Type) (so : scalar_ops S R) (p : profile) (n md : N) (vo : vec_ops V tkey S R)
    (mulr : V -> V -> S -> option N -> outcome V) (mul : V -> V -> option N -> outcome V) (val : V -> word -> S) (x y my : V),
  field_laws so -> exact_algebra so n vo mulr mul val -> md < 2 ^ 32 ->
  (forall w, word_ok n w -> val my w = s_uminus so (val y w)) ->
  exists a b, trait_fmexp so p md vo mulr x y = Ret a /\ trait_fmexp so p md vo mulr a my = Ret b
    /\ (forall w, word_ok n w -> len w <> md -> val b w = val x w)
    /\ (forall w, word_ok n w -> len w = md -> 0 < md -> val b w =
          if N.even md then
            s_sub so (val x w) (s_mul so (val x []) (s_mul so (s_add so (s_one so) (s_one so))
              (s_mul so (inv_fact so (N.to_nat md)) (tpow so md (no_unit so (val y)) (N.to_nat md) w))))
          else val x w).
Proof. intros V S R so p n md vo mulr mul val x y my F X. exact (undo so p n vo mulr mul val F X md x y my). Qed.
Lemma c92_exp : forall (V S R : Type) (so : scalar_ops S R) (n md : N) (vo : vec_ops V tkey S R)
    (mulr : V -> V -> S -> option N -> outcome V) (mul : V -> V -> option N -> outcome V) (val : V -> word -> S) (x y xy : V),
  field_laws so -> exact_algebra so n vo mulr mul val ->
  (forall w, word_ok n w -> val xy w = s_add so (val x w) (val y w)) ->
  val x [] = s_zero so -> val y [] = s_zero so ->
  (forall w, word_ok n w -> conv so (val x) (val y) w = conv so (val y) (val x) w) ->
  exists ex ey exy z, trait_exp so md vo mulr x = Ret ex /\ trait_exp so md vo mulr y = Ret ey
    /\ trait_exp so md vo mulr xy = Ret exy /\ mul ex ey (Some md) = Ret z
    /\ forall w, word_ok n w -> len w < md -> val z w = val exy w.
Proof. intros V S R so n md vo mulr mul val x y xy F X. exact (exp_mul so n vo mulr mul val F X md x y xy). Qed.
Example c92_example : let y : word -> Qc := fun w => match w with [1] => q 1 | [2] => q 3 | _ => q 0 end in
  let my : word -> Qc := fun w => Qcopp (y w) in
  let x : word -> Qc := fun w => match w with [] => q 5 | [2; 1] => q 7 | _ => q 0 end in
  let go md := (a <- trait_fmexp qc_ops dev md (fun_ops qc_ops) fun_mul_rat_rdiv x y ;;
                b <- trait_fmexp qc_ops dev md (fun_ops qc_ops) fun_mul_rat_rdiv a my ;;
                Ret (map this (map b [[]; [1]; [2; 1]; [2; 1; 1]]))) in
  go 3 = Ret [5; 0; 7; 0]%Q /\ go 2 = Ret [5; 0; -8; 0]%Q.
Proof. vm_compute. split; reflexivity. Qed.
