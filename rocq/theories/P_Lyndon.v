(** Property theorems (generated by tools/gen_props.py from L_PropLyndon.v, where the proofs are). *)
From Coq Require Import QArith Qcanon Ring_theory Ring.
From Verif Require Import Machine MachineLemmas S_Words L_Words M_TensorKey L_TensorKey M_TensorBasis L_TensorBasis M_Scalar M_Vector
  M_Dense S_Vector S_Tensor S_Series I_Scalars L_Dense L_Ring L_PropKey L_PropDense M_Algebra L_Algebra L_Conv
  L_PropAlgebra L_PropProducts S_Shuffle L_Shuffle S_Lie L_PropShuffle S_Dynkin L_Dynkin L_PropDynkin
  S_Hall M_DegreeRange L_HallSize L_HallSums L_PropHallSize S_Lyndon L_Lyndon L_LyndonLie L_LyndonBasis L_LyndonCount.
From Verif Require Import L_PropLyndon.
Local Open Scope N_scope.

(** * C129: hall_set_size counts a basis of the Lie polynomials *)
Theorem C129_bracket : forall (S R : Type) (so : scalar_ops S R) (p : profile) (n t : N) (l : word),
  ring_laws so -> 2 <= n < 2 ^ 32 -> n ^ (t + 1) < 2 ^ 64 -> word_ok n l -> lyndon l = true -> len l <= t ->
  exists z, lie_eval so p n t (lyndon_bracket so l) = Ret z /\ wcoef so n z l = s_one so
    /\ forall w, word_ok n w -> len w <> len l \/ lex w l = Lt -> wcoef so n z w = s_zero so.
Proof. exact c129_bracket. Qed.
Print Assumptions C129_bracket.
Theorem C129_basis : forall (S R : Type) (so : scalar_ops S R) (p : profile) (n t : N) (e : lie S),
  ring_laws so -> 2 <= n < 2 ^ 32 -> 1 <= t -> n ^ (t + 1) < 2 ^ 64 -> letters_ok n e ->
  exists x c, lie_eval so p n t e = Ret x
    /\ (exists z, lie_eval so p n t (lyndon_sum so c (lyndon_upto n (N.to_nat t))) = Ret z
          /\ forall w, word_ok n w -> wcoef so n z w = wcoef so n x w)
    /\ forall c', (exists z, lie_eval so p n t (lyndon_sum so c' (lyndon_upto n (N.to_nat t))) = Ret z
                     /\ forall w, word_ok n w -> wcoef so n z w = wcoef so n x w) ->
         forall l, In l (lyndon_upto n (N.to_nat t)) -> c' l = c l.
Proof. exact c129_basis. Qed.
Print Assumptions C129_basis.
Theorem C129_determined : forall (S R : Type) (so : scalar_ops S R) (p : profile) (n t : N) (e e' : lie S) (x x' : dvec S),
  ring_laws so -> 2 <= n < 2 ^ 32 -> 1 <= t -> n ^ (t + 1) < 2 ^ 64 -> letters_ok n e -> letters_ok n e' ->
  lie_eval so p n t e = Ret x -> lie_eval so p n t e' = Ret x' ->
  (forall l, In l (lyndon_upto n (N.to_nat t)) -> wcoef so n x l = wcoef so n x' l) ->
  forall w, word_ok n w -> wcoef so n x w = wcoef so n x' w.
Proof. exact c129_determined. Qed.
Print Assumptions C129_determined.
Theorem C129_prescribed : forall (S R : Type) (so : scalar_ops S R) (p : profile) (n t : N) (g : word -> S),
  ring_laws so -> 2 <= n < 2 ^ 32 -> 1 <= t -> n ^ (t + 1) < 2 ^ 64 ->
  exists e z, letters_ok n e /\ lie_eval so p n t e = Ret z
    /\ forall l, In l (lyndon_upto n (N.to_nat t)) -> wcoef so n z l = g l.
Proof. exact c129_prescribed. Qed.
Print Assumptions C129_prescribed.
Theorem C129_hall_set_size : forall (p : profile) (w d : N),
  w < 2 ^ 32 -> d <= 5 -> (Z.of_N w ^ Z.of_N d < 2 ^ 63)%Z ->
  converges (fun f => hall_set_size p f w d) (Ret (len (lyndon_upto w (N.to_nat d)))).
Proof. exact c129_hall_set_size. Qed.
Print Assumptions C129_hall_set_size.
Example C129_example :
  lyndon_upto 2 4 = [[1]; [2]; [1; 2]; [1; 1; 2]; [1; 2; 2]; [1; 1; 1; 2]; [1; 1; 2; 2]; [1; 2; 2; 2]]
  /\ hall_set_size dev 40 2 4 = Ret 8 /\ hall_set_size release 40 3 5 = Ret 80 /\ len (lyndon_upto 3 5) = 80
  /\ lyndon_bracket qc_ops [1; 1; 2; 2] = Bracket (Letter 1) (Bracket (Bracket (Letter 1) (Letter 2)) (Letter 2))
  /\ (z <- lie_eval qc_ops dev 2 3 (lyndon_bracket qc_ops [1; 2; 2]) ;; Ret (map this (dv_elems z)))
     = Ret (map inject_Z [0; 0; 0; 0; 0; 0; 0; 0; 0; 0; 1; 0; -2; 1; 0]%Z).
Proof. exact c129_example. Qed.
