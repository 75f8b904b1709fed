(** Property theorems (generated by tools/gen_props.py from L_PropKeyRaw.v, where the proofs are). *)
From Verif Require Import Machine MachineLemmas S_Words L_Words M_TensorKey L_TensorKey L_DegreeWrap S_KeyRaw L_KeyRaw L_PropKey.
From Verif Require Import L_PropKeyRaw.
Local Open Scope N_scope.

(** * C105: Key operations with arguments of any value *)
Theorem C105_from_letter : forall (p : profile) (a : N), a < 2 ^ 32 ->
  tk_from_letter p a = if a =? 0 then (if overflow_checks p then Panic else Ret (mk_tkey 1 (2 ^ 64 - 1))) else Ret (mk_tkey 1 (a - 1)).
Proof. exact c105_from_letter. Qed.
Print Assumptions C105_from_letter.
Theorem C105_get_letter : forall (p : profile) (n : N) (k : tkey) (i : N),
  let b := letter_bits n in
  n < 2 ^ 32 -> tk_data k < 2 ^ 64 ->
  (overflow_checks p = true -> tk_get_letter p n k i =
     if (i * b <? 64) && (bits_at b (tk_data k) (i * b) + 1 <? 2 ^ 32) then Ret (bits_at b (tk_data k) (i * b) + 1) else Panic)
  /\ (overflow_checks p = false -> tk_get_letter p n k i = Ret ((bits_at b (tk_data k) (i * b mod 64) + 1) mod 2 ^ 32)).
Proof. exact c105_get_letter. Qed.
Print Assumptions C105_get_letter.
Theorem C105_get_letter_beyond : forall (p : profile) (n : N) (w : word) (k : tkey) (i : N),
  1 <= n < 2 ^ 32 -> word_ok n w -> tk_from_letters p n w = Ret k -> len w <= i -> i * letter_bits n < 64 ->
  tk_get_letter p n k i = Ret 1.
Proof. exact c105_get_letter_beyond. Qed.
Print Assumptions C105_get_letter_beyond.
Theorem C105_push_front : forall (p : profile) (n a : N) (k : tkey),
  let b := letter_bits n in let s := tk_size k * b in
  n < 2 ^ 32 -> a < 2 ^ 32 -> tk_data k < 2 ^ 64 -> tk_size k < 2 ^ 32 ->
  (debug_assertions p = true -> max_depth n <= tk_size k \/ a = 0 \/ n < a -> tk_push_front p n k a = Panic)
  /\ (debug_assertions p = false \/ (tk_size k < max_depth n /\ 1 <= a <= n) ->
      (overflow_checks p = true -> tk_push_front p n k a =
         let data := tk_data k + ((a - 1) mod 2 ^ b * 2 ^ s) mod 2 ^ 64 in
         if (1 <=? a) && (s <? 64) && (data <? 2 ^ 64) then Ret (mk_tkey (tk_size k + 1) data) else Panic)
      /\ (overflow_checks p = false -> tk_push_front p n k a =
         Ret (mk_tkey ((tk_size k + 1) mod 2 ^ 32) ((tk_data k + code32 a mod 2 ^ b * 2 ^ (s mod 64)) mod 2 ^ 64)))).
Proof. exact c105_push_front. Qed.
Print Assumptions C105_push_front.
Theorem C105_concatenate : forall (p : profile) (n : N) (k1 k2 : tkey),
  let s := tk_size k2 * letter_bits n in
  n < 2 ^ 32 ->
  (overflow_checks p = true -> tk_concatenate p n k1 k2 =
     let data := (tk_data k1 * 2 ^ s) mod 2 ^ 64 + tk_data k2 in
     if (tk_size k1 + tk_size k2 <? 2 ^ 32) && (s <? 64) && (data <? 2 ^ 64)
     then Ret (mk_tkey (tk_size k1 + tk_size k2) data) else Panic)
  /\ (overflow_checks p = false -> tk_concatenate p n k1 k2 =
     Ret (mk_tkey ((tk_size k1 + tk_size k2) mod 2 ^ 32) ((tk_data k1 * 2 ^ (s mod 64) + tk_data k2) mod 2 ^ 64))).
Proof. exact c105_concatenate. Qed.
Print Assumptions C105_concatenate.
Theorem C105_from_letters : forall (p : profile) (n : N) (l : list N), debug_assertions p = false ->
  n < 2 ^ 32 -> Forall (fun a => a < 2 ^ 32) l -> len l <= max_depth n ->
  (overflow_checks p = true -> In 0 l -> tk_from_letters p n l = Panic)
  /\ (overflow_checks p = false -> tk_from_letters p n l = Ret (mk_tkey (len l) (packed (letter_bits n) l mod 2 ^ 64))).
Proof. exact c105_from_letters. Qed.
Print Assumptions C105_from_letters.
Example C105_example :
  tk_from_letter dev 0 = Panic /\ tk_from_letter release 0 = Ret (mk_tkey 1 18446744073709551615)
  /\ tk_from_letters dev 3 [1; 2] = Ret (mk_tkey 2 1) /\ tk_get_letter dev 3 (mk_tkey 2 1) 31 = Ret 1
  /\ tk_get_letter dev 3 (mk_tkey 2 1) 32 = Panic /\ tk_get_letter release 3 (mk_tkey 2 1) 32 = Ret 2
  /\ tk_push_front dev 3 (mk_tkey 30 0) 1 = Panic /\ tk_push_front dev 3 (mk_tkey 2 1) 4 = Panic
  /\ tk_push_front release 3 (mk_tkey 32 0) 3 = Ret (mk_tkey 33 2)
  /\ tk_concatenate release 3 (mk_tkey 1 2) (mk_tkey 32 0) = Ret (mk_tkey 33 2)
  /\ tk_concatenate dev 3 (mk_tkey 1 2) (mk_tkey 32 0) = Panic
  /\ tk_from_letters release 3 [1; 5] = tk_from_letters release 3 [2; 1]
  /\ tk_from_letters release 3 [1; 0] = Ret (mk_tkey 2 4294967295).
Proof. exact c105_example. Qed.
