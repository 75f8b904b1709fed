(** Property theorems (generated by tools/gen_props.py from L_PropExp.v, where the proofs are). *)
From Coq Require Import QArith Qcanon Ring_theory Ring.
From Verif Require Import Machine MachineLemmas S_Words L_Words M_TensorKey M_Scalar M_Vector M_Dense S_Vector S_Tensor S_Series
  S_FreeTensor I_Scalars I_FunAlgebra L_Ring L_Algebra L_Conv L_Series M_FreeTensor L_ExactAlgebra L_ExpGroup.
From Verif Require Import L_PropExp.
Local Open Scope N_scope.

(** * C92: exp and fmexp with commuting arguments *)
Theorem C92_compose : forall (V S R : Type) (so : scalar_ops S R) (p : profile) (n md : N) (vo : vec_ops V tkey S R)
    (mulr : V -> V -> S -> option N -> outcome V) (mul : V -> V -> option N -> outcome V) (val : V -> word -> S) (x y z yz : V),
  field_laws so -> exact_algebra so n vo mulr mul val -> md < 2 ^ 32 ->
  (forall w, word_ok n w -> val yz w = s_add so (val y w) (val z w)) ->
  (forall w, word_ok n w ->
     conv so (no_unit so (val y)) (no_unit so (val z)) w = conv so (no_unit so (val z)) (no_unit so (val y)) w) ->
  exists a b c, trait_fmexp so p md vo mulr x y = Ret a /\ trait_fmexp so p md vo mulr a z = Ret b
    /\ trait_fmexp so p md vo mulr x yz = Ret c
    /\ forall w, word_ok n w -> len w <> md -> val b w = val c w.
Proof. exact c92_compose. Qed.
Print Assumptions C92_compose.
Theorem C92_undo : forall (V S R : Type) (so : scalar_ops S R) (p : profile) (n md : N) (vo : vec_ops V tkey S R)
    (mulr : V -> V -> S -> option N -> outcome V) (mul : V -> V -> option N -> outcome V) (val : V -> word -> S) (x y my : V),
  field_laws so -> exact_algebra so n vo mulr mul val -> md < 2 ^ 32 ->
  (forall w, word_ok n w -> val my w = s_uminus so (val y w)) ->
  exists a b, trait_fmexp so p md vo mulr x y = Ret a /\ trait_fmexp so p md vo mulr a my = Ret b
    /\ (forall w, word_ok n w -> len w <> md -> val b w = val x w)
    /\ (forall w, word_ok n w -> len w = md -> 0 < md -> val b w =
          if N.even md then
            s_sub so (val x w) (s_mul so (val x []) (s_mul so (s_add so (s_one so) (s_one so))
              (s_mul so (inv_fact so (N.to_nat md)) (tpow so md (no_unit so (val y)) (N.to_nat md) w))))
          else val x w).
Proof. exact c92_undo. Qed.
Print Assumptions C92_undo.
Theorem C92_exp : forall (V S R : Type) (so : scalar_ops S R) (n md : N) (vo : vec_ops V tkey S R)
    (mulr : V -> V -> S -> option N -> outcome V) (mul : V -> V -> option N -> outcome V) (val : V -> word -> S) (x y xy : V),
  field_laws so -> exact_algebra so n vo mulr mul val ->
  (forall w, word_ok n w -> val xy w = s_add so (val x w) (val y w)) ->
  val x [] = s_zero so -> val y [] = s_zero so ->
  (forall w, word_ok n w -> conv so (val x) (val y) w = conv so (val y) (val x) w) ->
  exists ex ey exy z, trait_exp so md vo mulr x = Ret ex /\ trait_exp so md vo mulr y = Ret ey
    /\ trait_exp so md vo mulr xy = Ret exy /\ mul ex ey (Some md) = Ret z
    /\ forall w, word_ok n w -> len w < md -> val z w = val exy w.
Proof. exact c92_exp. Qed.
Print Assumptions C92_exp.
Example C92_example : let y : word -> Qc := fun w => match w with [1] => q 1 | [2] => q 3 | _ => q 0 end in
  let my : word -> Qc := fun w => Qcopp (y w) in
  let x : word -> Qc := fun w => match w with [] => q 5 | [2; 1] => q 7 | _ => q 0 end in
  let go md := (a <- trait_fmexp qc_ops dev md (fun_ops qc_ops) fun_mul_rat_rdiv x y ;;
                b <- trait_fmexp qc_ops dev md (fun_ops qc_ops) fun_mul_rat_rdiv a my ;;
                Ret (map this (map b [[]; [1]; [2; 1]; [2; 1; 1]]))) in
  go 3 = Ret [5; 0; 7; 0]%Q /\ go 2 = Ret [5; 0; -8; 0]%Q.
Proof. exact c92_example. Qed.
