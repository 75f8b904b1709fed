(** Property theorems (generated by tools/gen_props.py from L_PropIndexKey.v, where the proofs are). *)
From Verif Require Import Machine MachineLemmas S_Words L_Words M_TensorKey M_TensorBasis S_KeyRaw L_KeyRaw L_IndexKey.
From Verif Require Import L_PropIndexKey.
Local Open Scope N_scope.

(** * C107: index_to_key for every index *)
Theorem C107_index_to_key : forall (p : profile) (n i : N), 1 <= n < 2 ^ 32 -> i < 2 ^ 64 ->
  exists w, word_ok n w /\ windex n w = i /\
  let b := letter_bits n in
  (overflow_checks p = true -> tb_index_to_key p n i =
     if (len w - 1) * b <? 64 then Ret (mk_tkey (len w) (packed b w mod 2 ^ 64)) else Panic)
  /\ (overflow_checks p = false -> tb_index_to_key p n i = Ret (mk_tkey (len w mod 2 ^ 32) (packed_around b w mod 2 ^ 64))).
Proof. exact c107_index_to_key. Qed.
Print Assumptions C107_index_to_key.
Theorem C107_round_trip : forall (p : profile) (n : N) (w : word),
  let b := letter_bits n in let i := windex n w in
  1 <= n < 2 ^ 32 -> word_ok n w -> i < 2 ^ 64 -> (len w - 1) * b < 64 ->
  exists k j, tb_index_to_key p n i = Ret k /\ tb_key_to_index p n k = Ret j /\ j <= i /\ (j = i <-> packed b w < 2 ^ 64).
Proof. exact c107_round_trip. Qed.
Print Assumptions C107_round_trip.
Theorem C107_collision : exists n i k j, i < 2 ^ 64 /\ i <> j /\ forall p : profile,
  tb_index_to_key p n i = Ret k /\ tb_key_to_index p n k = Ret j /\ tb_index_to_key p n j = Ret k.
Proof. exact c107_collision. Qed.
Print Assumptions C107_collision.
Theorem C107_no_letters : forall (p : profile) (i : N), 0 < i -> tb_index_to_key p 0 i = Panic.
Proof. exact c107_no_letters. Qed.
Print Assumptions C107_no_letters.
Example C107_example :
  let i := windex 2 (2 :: repeat 1 32) in let j := windex 2 (1 :: repeat 1 31 ++ [2]) in
  i < 2 ^ 64 /\ tb_index_to_key dev 2 i = Panic /\ tb_index_to_key release 2 i = Ret (mk_tkey 33 1)
  /\ tb_index_to_key release 2 j = Ret (mk_tkey 33 1) /\ i <> j
  /\ tb_index_to_key dev 3 (3 ^ 20) = Ret (mk_tkey 20 366503875926)
  /\ tb_key_to_index dev 3 (mk_tkey 20 366503875926) = Ret (3 ^ 20).
Proof. exact c107_example. Qed.
