(** Sums in an algebra, and the product rule of evaluation. *)
From Verif Require Import Machine MachineLemmas S_Words L_Words M_Scalar S_Vector M_Dense S_Tensor S_TensorProg L_PropClosures S_Eval.
Local Open Scope N_scope.

Section Eval.
  Context {S R A : Type} (so : scalar_ops S R) (RL : ring_laws so) (al : algebra S A) (L : algebra_laws so al) (phi : N -> A) (n : N).
  Notation "0" := (a_zero al). Notation "x + y" := (a_add al x y). Notation "x * y" := (a_mul al x y).
  Notation "s ** x" := (a_scale al s x) (at level 35, right associativity).
  Notation sum := (a_sum al). Notation ew := (eval_word al phi).
  Lemma add_0_r x : x + 0 = x.
  Proof. rewrite (al_add_comm so al L). apply (al_add_0 so al L). Qed.
  Lemma mul_0_l x : 0 * x = 0.
  Proof. rewrite <- (al_scale_0 so al L (a_one al)) at 1. rewrite (al_scale_mul_l so al L). apply (al_scale_0 so al L). Qed.
  Lemma mul_0_r x : x * 0 = 0.
  Proof. rewrite <- (al_scale_0 so al L (a_one al)) at 1. rewrite (al_scale_mul_r so al L). apply (al_scale_0 so al L). Qed.
  Lemma scale_zero s : s ** 0 = 0.
  Proof.
    rewrite <- (al_scale_0 so al L 0) at 1. rewrite <- (al_scale_mul so al L), (l_mul_comm so RL), (al_scale_mul so al L). apply (al_scale_0 so al L).
  Qed.
  Lemma add_swap a b c d : (a + b) + (c + d) = (a + c) + (b + d).
  Proof.
    rewrite <- !(al_add_assoc so al L). f_equal. rewrite !(al_add_assoc so al L). f_equal. apply (al_add_comm so al L).
  Qed.
  Lemma sum_app l m : sum (l ++ m) = sum l + sum m.
  Proof. induction l as [|x l IH]; cbn; [rewrite (al_add_0 so al L); reflexivity|]. unfold a_sum in *. rewrite IH. apply (al_add_assoc so al L). Qed.
  Lemma sum_add {X} (f g : X -> A) l : sum (map (fun x => f x + g x) l) = sum (map f l) + sum (map g l).
  Proof. induction l as [|x l IH]; cbn; [rewrite (al_add_0 so al L); reflexivity|]. unfold a_sum in *. rewrite IH. apply add_swap. Qed.
  Lemma sum_mul_l {X} (f : X -> A) l y : sum (map f l) * y = sum (map (fun x => f x * y) l).
  Proof. induction l as [|x l IH]; cbn; [apply mul_0_l|]. unfold a_sum in *. rewrite (al_mul_add_l so al L), IH. reflexivity. Qed.
  Lemma sum_mul_r {X} (f : X -> A) l y : y * sum (map f l) = sum (map (fun x => y * f x) l).
  Proof. induction l as [|x l IH]; cbn; [apply mul_0_r|]. unfold a_sum in *. rewrite (al_mul_add_r so al L), IH. reflexivity. Qed.
  Lemma sum_scale {X} (f : X -> A) l s : s ** sum (map f l) = sum (map (fun x => s ** f x) l).
  Proof. induction l as [|x l IH]; cbn; [apply scale_zero|]. unfold a_sum in *. rewrite (al_scale_add_r so al L), IH. reflexivity. Qed.
  Lemma sum_ext {X} (f g : X -> A) l : (forall x, In x l -> f x = g x) -> sum (map f l) = sum (map g l).
  Proof. intros H. f_equal. apply map_ext_in. exact H. Qed.
  Lemma sum_0 {X} (f : X -> A) l : (forall x, In x l -> f x = 0) -> sum (map f l) = 0.
  Proof.
    intros H. induction l as [|x l IH]; [reflexivity|]. cbn. unfold a_sum in *. rewrite H by (left; reflexivity).
    rewrite IH by (intros y Hy; apply H; right; exact Hy). apply (al_add_0 so al L).
  Qed.
  Lemma sum_flat {X Y} (f : X -> list Y) (g : Y -> A) l : sum (map g (flat_map f l)) = sum (map (fun x => sum (map g (f x))) l).
  Proof. induction l as [|x l IH]; [reflexivity|]. cbn [flat_map map]. rewrite map_app, sum_app, IH. reflexivity. Qed.
  Lemma sum_swap {X Y} (f : X -> Y -> A) l m :
    sum (map (fun x => sum (map (f x) m)) l) = sum (map (fun y => sum (map (fun x => f x y) l)) m).
  Proof.
    induction l as [|x l IH]; cbn [map].
    - symmetry. apply sum_0. reflexivity.
    - change (sum (map (f x) m) + sum (map (fun x => sum (map (f x) m)) l) = sum (map (fun y => f x y + sum (map (fun x => f x y) l)) m)).
      rewrite IH, sum_add. reflexivity.
  Qed.

  (** the part of degree [k] *)
  Definition part (k : nat) (f : word -> S) : A := sum (map (fun w => f w ** ew w) (words_of_length n k)).
  Lemma part_S k f : part (Datatypes.S k) f = sum (map (fun a => phi a * part k (fun w => f (a :: w))) (letters n)).
  Proof.
    unfold part. cbn [words_of_length]. rewrite sum_flat. apply sum_ext. intros a _. rewrite map_map, sum_mul_r. apply sum_ext.
    intros w _. cbn [eval_word fold_right]. rewrite (al_scale_mul_r so al L). reflexivity.
  Qed.
  Lemma part_ext k f g : (forall w, word_ok n w -> length w = k -> f w = g w) -> part k f = part k g.
  Proof. intros H. apply sum_ext. intros w Hw. apply in_words_of_length in Hw. rewrite H by apply Hw. reflexivity. Qed.
  Lemma part_add k f g : part k (fun w => s_add so (f w) (g w)) = part k f + part k g.
  Proof. unfold part. rewrite <- sum_add. apply sum_ext. intros w _. apply (al_scale_add so al L). Qed.
  Lemma part_scale k f s : part k (fun w => s_mul so s (f w)) = s ** part k f.
  Proof. unfold part. rewrite sum_scale. apply sum_ext. intros w _. apply (al_scale_mul so al L). Qed.
  Lemma conv_cons f g a w : conv so f g (a :: w) = s_add so (s_mul so (f []) (g (a :: w))) (conv so (fun w => f (a :: w)) g w).
  Proof. unfold conv. cbn [splits map fold_right fst snd]. rewrite map_map. reflexivity. Qed.
  Lemma sum_seq_S (h : nat -> A) k : sum (map h (seq 0 (Datatypes.S k))) = h O + sum (map (fun i => h (Datatypes.S i)) (seq 0 k)).
  Proof. cbn [seq map]. rewrite <- seq_shift, map_map. reflexivity. Qed.
  (** the product rule, degree by degree *)
  Lemma part_conv k : forall f g, part k (conv so f g) = sum (map (fun i => part i f * part (k - i) g) (seq 0 (Datatypes.S k))).
  Proof.
    induction k as [|k IH]; intros f g.
    - unfold part. cbn. rewrite !add_0_r. rewrite (al_scale_mul_l so al L), (al_one_l so al L), <- (al_scale_mul so al L). f_equal.
      unfold conv. cbn. rewrite (l_add_comm so RL). apply (l_add_0_l so RL).
    - rewrite part_S. rewrite (sum_seq_S (fun i => part i f * part (Datatypes.S k - i) g)).
      transitivity (sum (map (fun a => phi a * (f [] ** part k (fun w => g (a :: w)))) (letters n))
                    + sum (map (fun a => sum (map (fun i => phi a * (part i (fun w => f (a :: w)) * part (k - i) g)) (seq 0 (Datatypes.S k)))) (letters n))).
      { rewrite <- sum_add. apply sum_ext. intros a _. rewrite <- sum_mul_r, <- (al_mul_add_r so al L). f_equal.
        rewrite <- IH, <- part_scale, <- part_add. apply part_ext. intros w _ _. apply conv_cons. }
      f_equal.
      + unfold part at 2. cbn [words_of_length map]. change (sum [f [] ** ew []]) with (f [] ** a_one al + 0). rewrite add_0_r.
        rewrite (al_scale_mul_l so al L), (al_one_l so al L). change (Datatypes.S k - 0)%nat with (Datatypes.S k). rewrite part_S, sum_scale.
        apply sum_ext. intros a _. apply (al_scale_mul_r so al L).
      + rewrite sum_swap. apply sum_ext. intros i _. rewrite part_S. change (Datatypes.S k - Datatypes.S i)%nat with (k - i)%nat.
        rewrite sum_mul_l. apply sum_ext. intros a _. apply (al_mul_assoc so al L).
  Qed.
  Lemma below_parts d (f : word -> S) : sum (map (fun w => f w ** ew w) (words_below n d)) = sum (map (fun k => part k f) (seq 0 d)).
  Proof.
    induction d as [|d IH]; [reflexivity|]. rewrite seq_S. cbn [words_below]. rewrite !map_app, !sum_app, IH. f_equal.
    cbn. symmetry. apply add_0_r.
  Qed.
  (** sums over a triangle *)
  Lemma triangle (x : nat -> nat -> A) d :
    sum (map (fun k => sum (map (fun i => x i (k - i)%nat) (seq 0 (Datatypes.S k)))) (seq 0 d))
    = sum (map (fun i => sum (map (x i) (seq 0 (d - i)))) (seq 0 d)).
  Proof.
    induction d as [|d IH]; [reflexivity|].
    rewrite (seq_S d 0), (map_app _ (seq 0 d) [(0 + d)%nat]), sum_app, IH. cbn [map Nat.add].
    rewrite (map_app (fun i => sum (map (x i) (seq 0 (Datatypes.S d - i)))) (seq 0 d) [d]), sum_app. cbn [map].
    rewrite (seq_S d 0), map_app, sum_app. cbn [map Nat.add].
    rewrite (sum_ext (fun i => sum (map (x i) (seq 0 (Datatypes.S d - i)))) (fun i => sum (map (x i) (seq 0 (d - i))) + x i (d - i)%nat)).
    - rewrite sum_add, <- (al_add_assoc so al L). f_equal.
      replace (Datatypes.S d - d)%nat with 1%nat by lia. replace (d - d)%nat with O by lia. cbn [seq map a_sum fold_right].
      rewrite !add_0_r. reflexivity.
    - intros i Hi. apply in_seq in Hi. replace (Datatypes.S d - i)%nat with (Datatypes.S (d - i)) by lia.
      rewrite seq_S, map_app, sum_app. f_equal. cbn. apply add_0_r.
  Qed.
  Lemma full_square (x : nat -> nat -> A) d :
    (forall i j, (d <= i + j)%nat -> x i j = 0) ->
    sum (map (fun i => sum (map (x i) (seq 0 (d - i)))) (seq 0 d)) = sum (map (fun i => sum (map (x i) (seq 0 d))) (seq 0 d)).
  Proof.
    intros H. apply sum_ext. intros i Hi. apply in_seq in Hi.
    replace d with ((d - i) + i)%nat at 2 by lia. rewrite seq_app, map_app, sum_app.
    rewrite (sum_0 (x i) (seq (0 + (d - i)) i)); [symmetry; apply add_0_r|]. intros j Hj. apply in_seq in Hj. apply H. lia.
  Qed.
  (** the product of two evaluations is the evaluation of the product, when what lies above the degree vanishes *)
  Lemma below_conv d f g :
    (forall i j, (d <= i + j)%nat -> part i f * part j g = 0) ->
    sum (map (fun w => conv so f g w ** ew w) (words_below n d))
    = sum (map (fun w => f w ** ew w) (words_below n d)) * sum (map (fun w => g w ** ew w) (words_below n d)).
  Proof.
    intros H. rewrite !below_parts. rewrite (sum_ext _ _ _ (fun k _ => part_conv k f g)).
    rewrite (triangle (fun i j => part i f * part j g)), full_square by exact H.
    rewrite sum_mul_l. apply sum_ext. intros i _. symmetry. apply sum_mul_r.
  Qed.
End Eval.
