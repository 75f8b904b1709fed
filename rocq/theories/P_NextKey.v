(** Property theorems (generated by tools/gen_props.py from L_PropNextKey.v, where the proofs are). *)
From Verif Require Import Machine MachineLemmas S_Words L_Words M_TensorKey L_TensorKey M_TensorBasis S_IterKeys L_NextKey.
From Verif Require L_IterKeys.
From Verif Require Import L_PropNextKey.
Local Open Scope N_scope.

(** * C109: Exactly when the basis iterator goes to the next word *)
Theorem C109_next : forall (p : profile) (n : N) (w : word), let k := key_of n w in
  2 <= n < 2 ^ 32 -> word_ok n w -> len w <= max_depth n -> w <> repeat n (N.to_nat (max_depth n)) ->
  (exists v, word_ok n v /\ windex n v = windex n w + 1 /\
     bi_next p n (bi_starting_from n k) = Ret (bi_starting_from n (key_of n v), Some k))
  <-> goes_right n w.
Proof. exact c109_next. Qed.
Print Assumptions C109_next.
Theorem C109_last : forall (p : profile) (n : N), let k := key_of n (repeat n (N.to_nat (max_depth n))) in
  2 <= n < 2 ^ 32 -> exists it, bi_next p n (bi_starting_from n k) = Ret (it, Some k) /\ bi_next p n it = Ret (it, None).
Proof. exact c109_last. Qed.
Print Assumptions C109_last.
Theorem C109_total : forall (p : profile) (n : N) (k : tkey), tk_size k < 2 ^ 32 ->
  (exists it, bi_next p n (bi_starting_from n k) = Ret (it, Some k))
  \/ (bi_next p n (bi_starting_from n k) = Panic /\ (overflow_checks p = true \/ debug_assertions p = true)).
Proof. exact c109_total. Qed.
Print Assumptions C109_total.
Example C109_example :
  goes_right 5 [2; 5] /\ ~ goes_right 5 [3; 5] /\ goes_right 4 [3; 1; 4; 4] /\ ~ goes_right 5 [1; 5; 5]
  /\ bi_next dev 5 (bi_starting_from 5 (key_of 5 [2; 5])) = Ret (bi_starting_from 5 (key_of 5 [3; 1]), Some (key_of 5 [2; 5]))
  /\ bi_next dev 5 (bi_starting_from 5 (key_of 5 [3; 5])) = Ret (bi_starting_from 5 (key_of 5 [6; 1]), Some (key_of 5 [3; 5]))
  /\ bi_next dev 4 (bi_starting_from 4 (key_of 4 [3; 1; 4; 4])) = Ret (bi_starting_from 4 (key_of 4 [3; 2; 1; 1]), Some (key_of 4 [3; 1; 4; 4])).
Proof. exact c109_example. Qed.
