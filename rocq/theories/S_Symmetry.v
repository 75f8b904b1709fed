(** Specification: the words of a program relabelled, weighted and read backwards. *)
From Verif Require Import Machine S_Words M_Scalar M_Dense S_Vector S_Tensor S_TensorProg.
Local Open Scope N_scope.

(** [s] takes different letters of 1..n to different letters of 1..m *)
Definition injects (s : N -> N) (n m : N) : Prop :=
  (forall a, 1 <= a <= n -> 1 <= s a <= m) /\ (forall a b, 1 <= a <= n -> 1 <= b <= n -> s a = s b -> a = b).
(** the command with other words *)
Definition rename {S R} (s : word -> word) (c : tcmd S R) : tcmd S R :=
  match c with
  | CKey d w c => CKey d (s w) c | CErase d w => CErase d (s w) | CSet d w c => CSet d (s w) c
  | CKeyAdd d w c => CKeyAdd d (s w) c | CKeySub d w c => CKeySub d (s w) c
  | CPairs d l => CPairs d (map (fun e => (s (fst e), snd e)) l)
  | c => c
  end.
(** in the second tensor, over m letters, [s w] has the coefficient that [w] has in the first, over n letters *)
Definition renamed {S R} (so : scalar_ops S R) (n m D : N) (s : word -> word) (v v' : dvec S) : Prop :=
  exists d, shaped n D v d /\ shaped m D v' d /\ forall w, word_ok n w -> wcoef so m v' (s w) = wcoef so n v w.

(** a weight for every letter; the weight of a word is the product *)
Definition weight {S R} (so : scalar_ops S R) (x : N -> S) (w : word) : S := fold_right (fun a c => s_mul so (x a) c) (s_one so) w.
(** the command with every scalar that belongs to a word times the weight of the word *)
Definition weigh {S R} (so : scalar_ops S R) (x : N -> S) (c : tcmd S R) : tcmd S R :=
  match c with
  | CKey d w c => CKey d w (s_mul so (weight so x w) c) | CSet d w c => CSet d w (s_mul so (weight so x w) c)
  | CKeyAdd d w c => CKeyAdd d w (s_mul so (weight so x w) c) | CKeySub d w c => CKeySub d w (s_mul so (weight so x w) c)
  | CPairs d l => CPairs d (map (fun e => (fst e, s_mul so (weight so x (fst e)) (snd e))) l)
  | c => c
  end.
(** in the second tensor the coefficient of each word is that in the first times the weight of the word *)
Definition weighted {S R} (so : scalar_ops S R) (n D : N) (x : N -> S) (v v' : dvec S) : Prop :=
  exists d, shaped n D v d /\ shaped n D v' d /\ forall w, word_ok n w -> wcoef so n v' w = s_mul so (weight so x w) (wcoef so n v w).

(** the command with reversed words and exchanged factors *)
Definition backwards {S R} (c : tcmd S R) : tcmd S R :=
  match c with
  | CMul d a b t => CMul d b a t | CComm d a b t => CComm d b a t | CAddMul d a b t => CAddMul d b a t | CSubMul d a b t => CSubMul d b a t
  | c => rename (@rev N) c
  end.
