(** Proofs about Lie polynomials: the primitive tensors are exactly the values of Lie expressions. *)
From Coq Require Import QArith Qcanon Ring_theory Ring.
From Verif Require Import Machine MachineLemmas S_Words L_Words M_TensorKey L_TensorKey M_TensorBasis L_TensorBasis M_Scalar M_Vector
  M_Dense S_Vector S_Tensor S_Series I_Scalars L_Dense L_Ring L_PropKey L_PropDense M_Algebra L_Algebra L_Conv
  L_PropAlgebra L_PropProducts S_Shuffle L_Shuffle S_Lie L_PropShuffle S_Dynkin L_Dynkin L_PropUnits.
Local Open Scope N_scope.

Section Dense.
  Context {S R : Type} (so : scalar_ops S R) (L : ring_laws so) (p : profile) (n : N) (Hn : 2 <= n).
  Let RT := ring_of so L.
  Add Ring scalars : RT.
  Notation wc := (wcoef so n).
  Notation zero := (s_zero so).
  Notation one := (s_one so).
  Infix "[+]" := (s_add so) (at level 50, left associativity).
  Infix "[*]" := (s_mul so) (at level 40, left associativity).

  (** the value of an expression is its function, cut at degree t *)
  Lemma lie_value (e : lie S) t : n < 2 ^ 32 -> 1 <= t -> n ^ (t + 1) < 2 ^ 64 -> letters_ok n e ->
    exists z d, lie_eval so p n t e = Ret z /\ 1 <= d <= t /\ filled n z d
      /\ forall w, word_ok n w -> wc z w = if len w <=? t then lie_fun so e w else zero.
  Proof.
    intros Hn32 Ht Pt. induction e as [a|e IH e' IH'|e IH e' IH'|e IH|c e IH|e IH e' IH']; cbn [letters_ok lie_eval lie_fun]; intros Hl.
    - rewrite (from_letter_ok p n a Hl). cbn [bind].
      destruct (from_key_elems so p n Hn [a] Hn32) as (e & -> & Le & W).
      { split; [constructor; [exact Hl|constructor]|]. pose proof (max_depth_ge_2 n Hn32). cbn. lia. }
      { apply (pow_mono_fits n Hn _ t); [cbn; lia|exact Pt]. }
      exists (dv_from e), 1. split; [reflexivity|]. split; [lia|]. split; [exact Le|]. intros w Hw. rewrite (W w Hw).
      destruct (N.leb_spec (len w) t); [reflexivity|]. unfold delta, word_eqb. destruct (list_eq_dec N.eq_dec [a] w) as [<-|]; [|reflexivity].
      change (len [a]) with 1 in *. lia.
    - destruct (IH (proj1 Hl)) as (x & a & -> & Ha & Fx & Px), (IH' (proj2 Hl)) as (y & b & -> & Hb & Fy & Py).
      cbn [bind]. rewrite add_elems. eexists _, (N.max a b). split; [reflexivity|]. split; [lia|].
      split; [apply comb_filled; assumption|]. intros w Hw. rewrite wc_add by exact L.
      transitivity (wc x w [+] wc y w); [reflexivity|]. rewrite Px, Py by exact Hw. destruct (len w <=? t); ring.
    - destruct (IH (proj1 Hl)) as (x & a & -> & Ha & Fx & Px), (IH' (proj2 Hl)) as (y & b & -> & Hb & Fy & Py).
      cbn [bind]. rewrite sub_elems. eexists _, (N.max a b). split; [reflexivity|]. split; [lia|]. split.
      + pose proof (comb_filled so n Hn x y a b Fx Fy) as H. unfold filled, dv_size in *. cbn [dv_from dv_elems] in *.
        rewrite comb_len in *. exact H.
      + intros w Hw. rewrite (wc_sub so L). transitivity (s_sub so (wc x w) (wc y w)); [reflexivity|].
        rewrite Px, Py by exact Hw. rewrite !(l_sub_def so L). destruct (len w <=? t); ring.
    - destruct (IH Hl) as (x & a & -> & Ha & Fx & Px). cbn [bind]. rewrite uminus_elems. eexists _, a.
      split; [reflexivity|]. split; [exact Ha|]. split.
      + unfold filled, dv_size in *. cbn [dv_from dv_elems]. unfold len in *. rewrite map_length. exact Fx.
      + intros w Hw. rewrite (wc_uminus so L n (dv_elems x) w). transitivity (s_uminus so (wc x w)); [reflexivity|].
        rewrite Px by exact Hw. destruct (len w <=? t); ring.
    - destruct (IH Hl) as (x & a & -> & Ha & Fx & Px). cbn [bind]. rewrite scal_elems. eexists _, a.
      split; [reflexivity|]. split; [exact Ha|]. split.
      + unfold filled, dv_size in *. cbn [dv_from dv_elems]. unfold len in *. rewrite map_length. exact Fx.
      + intros w Hw. rewrite (wc_scal so L n (dv_elems x) c w). transitivity (c [*] wc x w); [reflexivity|].
        rewrite Px by exact Hw. destruct (len w <=? t); ring.
    - destruct (IH (proj1 Hl)) as (x & a & -> & Ha & Fx & Px), (IH' (proj2 Hl)) as (y & b & -> & Hb & Fy & Py).
      cbn [bind]. destruct (commutator_conv so L p n Hn x y a b t Fx Fy) as (z & -> & Fz & Pz); try lia.
      1-3: apply (pow_mono_fits n Hn _ t); [lia|exact Pt].
      exists (dv_from z), (N.min t (a + b)). split; [reflexivity|]. split; [lia|]. split; [exact Fz|].
      intros w Hw. rewrite (Pz w Hw). unfold L_Conv.bracket, tconv, brk. destruct (N.leb_spec (len w) t) as [Hl'|]; [|rewrite (l_sub_def so L); ring].
      f_equal; apply conv_ext; intros u v ->; apply word_ok_app in Hw; rewrite len_app in Hl'.
      all: ((rewrite Px by apply Hw) || (rewrite Py by apply Hw)).
      all: match goal with |- (if ?a <=? ?b then _ else _) = _ => destruct (N.leb_spec a b); [reflexivity|lia] end.
  Qed.

  Context (Hn32 : n < 2 ^ 32).
  Lemma words_ok k : Forall (word_ok n) (words_of_length n k).
  Proof. apply Forall_forall. intros w Hw. apply in_words_of_length in Hw. apply Hw. Qed.
  Lemma dynkin t k f : 1 <= k <= t -> n ^ (t + 1) < 2 ^ 64 -> primitive so n k f ->
    exists z, lie_eval so p n t (bracket_sum so f (words_of_length n (N.to_nat k))) = Ret z
      /\ forall w, word_ok n w -> wc z w = if len w =? k then num so (N.to_nat k) [*] f w else zero.
  Proof.
    intros Hk Pt P. destruct (lie_value (bracket_sum so f (words_of_length n (N.to_nat k))) t Hn32) as (z & d & E & _ & _ & W);
      [lia|exact Pt|apply (bracket_sum_ok so n); [lia|apply words_ok]|].
    exists z. split; [exact E|]. intros w Hw. rewrite (W w Hw), (bracket_sum_fun so L).
    destruct (N.eqb_spec (len w) k) as [Ek|Nk].
    - destruct (N.leb_spec (len w) t); [|lia]. pose proof (dsum_prim so L n k f w P Hw) as D.
      unfold dsum in D. unfold len in *. replace (N.to_nat k) with (length w) by lia. apply D; [lia|].
      intros ->. cbn in Ek. lia.
    - destruct (len w <=? t); [|reflexivity]. apply (sum_zero so L). intros v Hv. apply in_words_of_length in Hv. destruct Hv as [_ Hv].
      rewrite (brf_length so L); [ring|]. unfold len in Nk. lia.
  Qed.
End Dense.

Section Field.
  Context {S R : Type} (so : scalar_ops S R) (F : field_laws so).
  Let L := l_ring so F.
  Let RT := ring_of so L.
  Add Ring scalars : RT.
  Notation zero := (s_zero so).
  Infix "[*]" := (s_mul so) (at level 40, left associativity).

  Lemma num_degree k : num so k = s_from_degree so (N.of_nat k).
  Proof.
    induction k as [|k IH]; [symmetry; apply (l_degree_0 so F)|]. cbn [num]. rewrite IH.
    replace (N.of_nat (Datatypes.S k)) with (N.of_nat k + 1) by lia. rewrite (l_degree_S so F). ring.
  Qed.
  Context (p : profile) (n : N) (Hn : 2 <= n < 2 ^ 32).
  Notation wc := (wcoef so n).
  (** every function that is primitive up to t is a Lie expression up to t *)
  Definition lie_of (f : word -> S) (t : nat) : lie S :=
    bracket_sum so (fun w => s_div so (f w) (r_from_degree so (len w))) (concat (map (fun k => words_of_length n (Datatypes.S k)) (seq 0 t))).
  Lemma friedrichs f t : 1 <= t -> n ^ (t + 1) < 2 ^ 64 -> primitive so n t f ->
    exists z, lie_eval so p n t (lie_of f (N.to_nat t)) = Ret z
      /\ forall w, word_ok n w -> wc z w = if len w <=? t then f w else zero.
  Proof.
    intros Ht Pt P.
    assert (Wk : Forall (word_ok n) (concat (map (fun k => words_of_length n (Datatypes.S k)) (seq 0 (N.to_nat t))))).
    { apply Forall_concat, Forall_map, Forall_forall. intros k _. apply words_ok. }
    destruct (lie_value so L p n (proj1 Hn) (lie_of f (N.to_nat t)) t (proj2 Hn) Ht Pt) as (z & d & E & _ & _ & W).
    { apply (bracket_sum_ok so n); [lia|exact Wk]. }
    exists z. split; [exact E|]. intros w Hw. rewrite (W w Hw). destruct (N.leb_spec (len w) t) as [Hl|]; [|reflexivity].
    unfold lie_of. rewrite (bracket_sum_fun so L), <- flat_map_concat_map, (sum_flat so L).
    set (g := fun w => s_div so (f w) (r_from_degree so (len w))).
    assert (Z : forall k, length w <> Datatypes.S k ->
      fold_right (s_add so) zero (map (fun v => g v [*] brf so v w) (words_of_length n (Datatypes.S k))) = zero).
    { intros k Nk. apply (sum_zero so L). intros v Hv. apply in_words_of_length in Hv. destruct Hv as [_ Hv].
      rewrite (brf_length so L) by lia. ring. }
    destruct w as [|a w].
    { rewrite (sum_zero so L); [symmetry; apply P|]. intros k _. apply Z. cbn. lia. }
    assert (Q : forall l, NoDup l -> In (length w) l ->
      fold_right (s_add so) zero (map (fun k => fold_right (s_add so) zero (map (fun v => g v [*] brf so v (a :: w)) (words_of_length n (Datatypes.S k)))) l)
      = dsum so n g (a :: w)).
    { induction l as [|k l IH]; intros ND Hi; [destruct Hi|]. inversion ND as [|k' l' Nk Nl]; subst. cbn [map fold_right].
      destruct (Nat.eq_dec k (length w)) as [->|Ne].
      - rewrite (sum_zero so L _ l); [unfold dsum; cbn [length]; ring|]. intros k Hk. apply Z. cbn [length]. intros [= <-]. contradiction.
      - rewrite Z by (cbn [length]; lia). destruct Hi as [->|Hi]; [contradiction|]. rewrite IH by assumption. ring. }
    rewrite Q; [|apply seq_NoDup|apply in_seq; unfold len in Hl; cbn [length] in Hl; lia].
    transitivity (s_inv so (r_from_degree so (len (a :: w))) [*] dsum so n f (a :: w)).
    - unfold dsum. rewrite <- (sum_map_scal so L). apply (sum_ext so). intros v Hv. apply in_words_of_length in Hv. destruct Hv as [_ Hv].
      unfold g. replace (len v) with (len (a :: w)) by (unfold len; rewrite Hv; reflexivity). rewrite (l_div so F). ring.
    - rewrite (dsum_prim so L n t f (a :: w) P Hw Hl) by discriminate. rewrite num_degree.
      change (N.of_nat (length (a :: w))) with (len (a :: w)).
      transitivity (s_from_degree so (len (a :: w)) [*] s_inv so (r_from_degree so (len (a :: w))) [*] f (a :: w)); [ring|].
      rewrite (l_degree_inv so F) by (unfold len; cbn [length]; lia). ring.
  Qed.
End Field.

Lemma c128_dynkin : forall (S R : Type) (so : scalar_ops S R) (p : profile) (n t k : N) (x : dvec S),
  field_laws so -> 2 <= n < 2 ^ 32 -> 1 <= k <= t -> n ^ (t + 1) < 2 ^ 64 -> primitive so n k (wcoef so n x) ->
  exists z, lie_eval so p n t (bracket_sum so (wcoef so n x) (words_of_length n (N.to_nat k))) = Ret z
    /\ forall w, word_ok n w ->
         wcoef so n z w = if len w =? k then s_mul so (s_from_degree so k) (wcoef so n x w) else s_zero so.
Proof.
  intros S R so p n t k x F Hn Hk Pt P.
  destruct (dynkin so (l_ring so F) p n (proj1 Hn) (proj2 Hn) t k (wcoef so n x) Hk Pt P) as (z & E & W).
  exists z. split; [exact E|]. intros w Hw. rewrite (W w Hw), (num_degree so F), N2Nat.id. reflexivity.
Qed.
Lemma c128_specht_wever : forall (S R : Type) (so : scalar_ops S R) (p : profile) (n t k : N) (e : lie S),
  field_laws so -> 2 <= n < 2 ^ 32 -> 1 <= k <= t -> n ^ (t + 1) < 2 ^ 64 -> letters_ok n e ->
  exists x z, lie_eval so p n t e = Ret x
    /\ lie_eval so p n t (bracket_sum so (wcoef so n x) (words_of_length n (N.to_nat k))) = Ret z
    /\ forall w, word_ok n w -> len w = k -> wcoef so n z w = s_mul so (s_from_degree so k) (wcoef so n x w).
Proof.
  intros S R so p n t k e F Hn Hk Pt Hl.
  destruct (lie_prim so (l_ring so F) p n (proj1 Hn) e t (proj2 Hn) ltac:(lia) Pt Hl) as (x & d & E & _ & _ & P).
  destruct (c128_dynkin S R so p n t k x F Hn Hk Pt (P k)) as (z & E' & W).
  exists x, z. split; [exact E|]. split; [exact E'|]. intros w Hw Hk'. rewrite (W w Hw), Hk', N.eqb_refl. reflexivity.
Qed.
Lemma c128_lie_polynomials : forall (S R : Type) (so : scalar_ops S R) (p : profile) (n t d : N) (x : dvec S),
  field_laws so -> 2 <= n < 2 ^ 32 -> 1 <= t -> d <= t -> n ^ (t + 1) < 2 ^ 64 -> filled n x d ->
  primitive so n t (wcoef so n x)
  <-> exists e z, letters_ok n e /\ lie_eval so p n t e = Ret z
        /\ forall w, word_ok n w -> wcoef so n z w = wcoef so n x w.
Proof.
  intros S R so p n t d x F Hn Ht Hd Pt Fx. split.
  - intros P. destruct (friedrichs so F p n Hn (wcoef so n x) t Ht Pt P) as (z & E & W).
    eexists _, z. split; [|split; [exact E|]].
    + apply (bracket_sum_ok so n); [lia|]. apply Forall_concat, Forall_map, Forall_forall. intros k _. apply words_ok.
    + intros w Hw. rewrite (W w Hw). destruct (N.leb_spec (len w) t); [reflexivity|].
      symmetry. apply (wcoef_beyond so n (proj1 Hn) x d); [apply (filled_degree n (proj1 Hn)); exact Fx|exact Hw|lia].
  - intros (e & z & Hl & E & W).
    destruct (lie_prim so (l_ring so F) p n (proj1 Hn) e t (proj2 Hn) Ht Pt Hl) as (z' & d' & E' & _ & _ & P).
    rewrite E in E'. injection E' as <-. apply (prim_ext so n t (wcoef so n z)); [|apply P]. intros w Hw _. apply W. exact Hw.
Qed.
Lemma c128_right_brackets : forall (S R : Type) (so : scalar_ops S R) (p : profile) (n t : N) (e : lie S),
  field_laws so -> 2 <= n < 2 ^ 32 -> 1 <= t -> n ^ (t + 1) < 2 ^ 64 -> letters_ok n e ->
  exists x z, lie_eval so p n t e = Ret x
    /\ lie_eval so p n t (bracket_sum so (fun w => s_div so (wcoef so n x w) (r_from_degree so (len w)))
         (concat (map (fun k => words_of_length n (k + 1)) (seq 0 (N.to_nat t))))) = Ret z
    /\ forall w, word_ok n w -> wcoef so n z w = wcoef so n x w.
Proof.
  intros S R so p n t e F Hn Ht Pt Hl.
  destruct (lie_prim so (l_ring so F) p n (proj1 Hn) e t (proj2 Hn) Ht Pt Hl) as (x & d & E & Hd & Fx & P).
  destruct (friedrichs so F p n Hn (wcoef so n x) t Ht Pt (P t)) as (z & E' & W).
  exists x, z. split; [exact E|]. split.
  - rewrite <- E'. unfold lie_of. do 2 f_equal. f_equal. apply map_ext. intros k. rewrite Nat.add_1_r. reflexivity.
  - intros w Hw. rewrite (W w Hw). destruct (N.leb_spec (len w) t); [reflexivity|].
    symmetry. apply (wcoef_beyond so n (proj1 Hn) x d); [apply (filled_degree n (proj1 Hn)); exact Fx|exact Hw|lia].
Qed.

(** [2 a1 + a2, [a1, a2]] = 2 [a1,[a1,a2]] + [a2,[a1,a2]], three times in degree 3; x is primitive, y is not *)
Example c128_example :
  let q z := Q2Qc (inject_Z z) in
  let e := Bracket (Plus (Scaled (q 2%Z) (Letter 1)) (Letter 2)) (Bracket (Letter 1) (Letter 2)) in
  (z <- lie_eval qc_ops dev 2 3 e ;; Ret (map this (dv_elems z)))
    = Ret (map inject_Z [0; 0; 0; 0; 0; 0; 0; 0; 2; -4; -1; 2; 2; -1; 0]%Z)
  /\ (x <- lie_eval qc_ops dev 2 3 e ;; z <- lie_eval qc_ops dev 2 3 (bracket_sum qc_ops (wcoef qc_ops 2 x) (words_of_length 2 3)) ;;
      Ret (map this (dv_elems z)))
    = Ret (map inject_Z [0; 0; 0; 0; 0; 0; 0; 0; 6; -12; -3; 6; 6; -3; 0]%Z)
  /\ (let y := dv_from (map q [0; 0; 0; 0; 1; 0; 0]%Z) in
      (z <- lie_eval qc_ops dev 2 2 (bracket_sum qc_ops (wcoef qc_ops 2 y) (words_of_length 2 2)) ;; Ret (map this (dv_elems z)))
      = Ret (map inject_Z [0; 0; 0; 0; 1; -1; 0]%Z))
  /\ right_bracket qc_ops [1; 2; 1] = Bracket (Letter 1) (Bracket (Letter 2) (Letter 1)).
Proof. vm_compute. repeat split. Qed.
