(** Specification: which coefficients a coefficient can depend on. *)
From Verif Require Import Machine S_Words M_Scalar M_Dense S_Vector S_Tensor S_TensorProg.
Local Open Scope N_scope.

(** with a word, [W] contains its first and its last letters, however many: all its factors *)
Definition factor_closed (W : word -> Prop) : Prop := forall u v, W (u ++ v) -> W u /\ W v.
(** what is stored up to degree [e] *)
Definition upto (e : N) (d : option N) : option N := option_map (N.min e) d.

Section Local.
  Context (W : word -> Prop) (e : N) {S R : Type}.
  (** the same scalar at the same word, or scalars at words outside of [W] *)
  Definition at_same (w w' : word) (c c' : S) : Prop := (w = w' /\ c = c') \/ (~ W w /\ ~ W w').
  (** degrees that do not differ up to [e] *)
  Definition same_degree (t t' : option N) : Prop := upto e t = upto e t'.
  (** the same command as far as the words of [W] are concerned *)
  Definition alike (c c' : tcmd S R) : Prop :=
    match c, c' with
    | CNew d, CNew d' | CClear d, CClear d' | CNeg d, CNeg d' => d = d'
    | CKey d w c, CKey d' w' c' => d = d' /\ N.min e (len w) = N.min e (len w') /\ at_same w w' c c'
    | CCopy d a, CCopy d' a' | CAdd d a, CAdd d' a' | CSub d a, CSub d' a' => d = d' /\ a = a'
    | CErase d w, CErase d' w' => d = d' /\ (w = w' \/ (~ W w /\ ~ W w'))
    | CScale d c, CScale d' c' => d = d' /\ c = c'
    | CDivide d r, CDivide d' r' => d = d' /\ r = r'
    | CAddScaled d a c, CAddScaled d' a' c' | CSubScaled d a c, CSubScaled d' a' c' => d = d' /\ a = a' /\ c = c'
    | CSubDivided d a r, CSubDivided d' a' r' | CAddDivided d a r, CAddDivided d' a' r' => d = d' /\ a = a' /\ r = r'
    | CMul d a b t, CMul d' a' b' t' | CComm d a b t, CComm d' a' b' t' | CAddMul d a b t, CAddMul d' a' b' t' | CSubMul d a b t, CSubMul d' a' b' t' =>
        d = d' /\ a = a' /\ b = b' /\ same_degree t t'
    | CDegree d k, CDegree d' k' => d = d' /\ N.min (e + 1) k = N.min (e + 1) k'
    | CPairs d l, CPairs d' l' => d = d' /\ same_degree (deg_pairs l) (deg_pairs l') /\ forall w, W w -> given (word_eqb w) l = given (word_eqb w) l'
    | CSet d w c, CSet d' w' c' | CKeyAdd d w c, CKeyAdd d' w' c' | CKeySub d w c, CKeySub d' w' c' => d = d' /\ at_same w w' c c'
    | _, _ => False
    end.
  (** the two tensors have storage for the same words of length up to [e], and the same coefficients at the words of [W] *)
  Definition agree_on (so : scalar_ops S R) (n D D' : N) (v v' : dvec S) : Prop :=
    exists d d', shaped n D v d /\ shaped n D' v' d' /\ same_degree d d'
      /\ forall w, word_ok n w -> W w -> wcoef so n v w = wcoef so n v' w.
End Local.

(** products truncated at degree [e] at the latest *)
Definition lower {S R} (e : N) (c : tcmd S R) : tcmd S R :=
  match c with
  | CMul d a b t => CMul d a b (upto e t) | CComm d a b t => CComm d a b (upto e t)
  | CAddMul d a b t => CAddMul d a b (upto e t) | CSubMul d a b t => CSubMul d a b (upto e t)
  | c => c
  end.
(** [u] is a factor of [w] *)
Definition factor (w u : word) : Prop := exists a b, w = a ++ u ++ b.
