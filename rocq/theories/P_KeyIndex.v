(** Property theorems (generated by tools/gen_props.py from L_PropKeyIndex.v, where the proofs are). *)
From Coq Require Import QArith Qcanon String.
From Verif Require Import Machine MachineLemmas S_Words L_Words M_TensorKey L_TensorKey M_TensorBasis L_TensorBasis
  M_Scalar M_Vector M_Dense S_Vector I_Scalars L_Dense S_Degree L_DegreeWrap S_KeyRaw L_KeyRaw L_PropKeyRaw L_PropBasis L_PropSafe L_PropDegree S_TensorApi L_Debug.
From Verif Require Import L_PropKeyIndex.
Local Open Scope N_scope.

(** * C112: The index and the dimension of any key *)
Theorem C112_key_to_index : forall (p : profile) (n : N) (k : tkey),
  let b := letter_bits n in let s := tk_size k in let d := tk_data k in
  n < 2 ^ 32 -> d < 2 ^ 64 ->
  (overflow_checks p = true -> tb_key_to_index p n k =
     let i := windex n (stored_letters b s d) in
     if readable b s d && (i <? 2 ^ 64) then Ret i else Panic)
  /\ (overflow_checks p = false -> tb_key_to_index p n k = Ret (windex n (letters_around b s d) mod 2 ^ 64)).
Proof. exact c112_key_to_index. Qed.
Print Assumptions C112_key_to_index.
Theorem C112_iterate : forall (p : profile) (n : N) (k : tkey) (m : nat),
  let b := letter_bits n in let s := tk_size k in let d := tk_data k in
  n < 2 ^ 32 -> d < 2 ^ 64 -> s < 2 ^ 32 -> (1 <= m)%nat ->
  (overflow_checks p = true -> ti_take p n (ti_new k) m =
     let ls := firstn m (stored_letters b s d) in
     if ((s - 1) * b <? 64) && forallb (fun a => a <? 2 ^ 32) ls
     then Ret (map Some ls ++ repeat None (m - N.to_nat s)) else Panic)
  /\ (overflow_checks p = false -> ti_take p n (ti_new k) m =
     Ret (map Some (firstn m (letters_around b s d)) ++ repeat None (m - N.to_nat s))).
Proof. exact c112_iterate. Qed.
Print Assumptions C112_iterate.
Theorem C112_letters : forall (p : profile) (n : N) (k : tkey),
  let b := letter_bits n in let s := tk_size k in let d := tk_data k in
  n < 2 ^ 32 -> d < 2 ^ 64 ->
  (overflow_checks p = true ->
     tk_to_letters p n k = (if readable b s d then Ret (rev (stored_letters b s d)) else Panic)
     /\ tk_debug p n k = (if readable b s d then Ret (debug_text (rev (stored_letters b s d))) else Panic))
  /\ (overflow_checks p = false ->
     tk_to_letters p n k = Ret (rev (letters_around b s d))
     /\ tk_debug p n k = Ret (debug_text (rev (letters_around b s d)))).
Proof. exact c112_letters. Qed.
Print Assumptions C112_letters.
Theorem C112_dimension_for_key : forall (p : profile) (n : N) (k : tkey),
  let d := tk_size k + 1 in
  2 <= n < 2 ^ 32 -> tk_size k < 2 ^ 32 ->
  (overflow_checks p = true -> tb_vector_dimension_for_key p n k =
     if n ^ d <? 2 ^ 64 then Ret (count_below n (N.to_nat d)) else Panic)
  /\ (overflow_checks p = false -> tb_vector_dimension_for_key p n k = Ret (wrapped_start n (d mod 2 ^ 32))).
Proof. exact c112_dimension_for_key. Qed.
Print Assumptions C112_dimension_for_key.
Theorem C112_from_key : forall (S R : Type) (so : scalar_ops S R) (p : profile) (n : N) (k : tkey) (c : S),
  let b := letter_bits n in let s := tk_size k in let d := tk_data k in
  let run := vr_from_key_scalar (dense_ops so (tensor_basis p n)) k c in
  2 <= n < 2 ^ 32 -> d < 2 ^ 64 -> s < 2 ^ 32 ->
  (overflow_checks p = true ->
     let i := windex n (stored_letters b s d) in let dim := count_below n (N.to_nat (s + 1)) in
     let fine := (n ^ (s + 1) <? 2 ^ 64) && readable b s d && (i <? 2 ^ 64) in
     (fine = false -> run = Panic)
     /\ (fine = true -> i < dim -> exists v, run = Ret v /\ dv_size v = dim)
     /\ (fine = true -> dim <= i -> run = UB))
  /\ (overflow_checks p = false ->
     let i := windex n (letters_around b s d) mod 2 ^ 64 in let dim := wrapped_start n ((s + 1) mod 2 ^ 32) in
     (i < dim -> exists v, run = Ret v /\ dv_size v = dim) /\ (dim <= i -> run = UB)).
Proof. exact c112_from_key. Qed.
Print Assumptions C112_from_key.
Example C112_example :
  tb_key_to_index dev 5 (mk_tkey 2 63) = Ret 48 /\ stored_letters (letter_bits 5) 2 63 = [8; 8] /\ windex 5 [8; 8] = 48
  /\ count_below 5 3 = 31 /\ vr_from_key_scalar (dense_ops qc_ops (tensor_basis dev 5)) (mk_tkey 2 63) (q 1) = UB
  /\ tb_key_to_index dev 4294967295 (mk_tkey 2 18446744073709551614) = Panic    (* the first letter would be 2^32 *)
  /\ stored_letters (letter_bits 127) 10 10489068180659619969 = [2; 18; 73; 42; 126; 126; 41; 72; 18; 2]
  /\ windex 127 [2; 18; 73; 42; 126; 126; 41; 72; 18; 2] = 2 ^ 64 /\ tb_key_to_index dev 127 (mk_tkey 10 10489068180659619969) = Panic
  /\ tb_key_to_index release 127 (mk_tkey 10 10489068180659619969) = Ret 0
  /\ tb_key_to_index dev 127 (mk_tkey 10 10489068180659619968) = Ret (2 ^ 64 - 1)
  /\ tb_key_to_index release 3 (mk_tkey 33 2) = Ret (windex 3 (3 :: repeat 1 31 ++ [3]) mod 2 ^ 64)
  /\ tb_key_to_index dev 3 (mk_tkey 33 2) = Panic
  /\ ti_take dev 5 (ti_new (mk_tkey 2 62)) 4 = Ret [Some 8; Some 7; None; None]
  /\ ti_take dev 3 (ti_new (mk_tkey 33 2)) 1 = Panic
  /\ tk_to_letters dev 5 (mk_tkey 2 62) = Ret [7; 8] /\ tk_debug dev 5 (mk_tkey 2 62) = Ret "(7, 8)"%string
  /\ tk_debug dev 3 (mk_tkey 33 2) = Panic
  /\ ti_take release 3 (ti_new (mk_tkey 33 2)) 2 = Ret [Some 3; Some 1].
Proof. exact c112_example. Qed.
