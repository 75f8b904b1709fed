(** The crate's own #[test] functions, run on the model (tests of the model, not proofs).
    All in the dev profile, as `cargo test` does. *)
From Verif Require Import Machine M_TensorKey M_TensorBasis.

Notation key l := (tk_from_letters dev 3 l).
Notation letter a := (tk_from_letter dev a).

(** tensor_key.rs:239-375 *)
Example test_make_mask_3_0 : make_mask dev 3 0 = Ret 7. Proof. reflexivity. Qed.
Example test_make_mask_3_5 : make_mask dev 3 5 = Ret 224. Proof. reflexivity. Qed.
Example test_make_mask_12_52 : make_mask dev 12 52 = Ret 18442240474082181120. Proof. reflexivity. Qed.
Example test_size_bits_common : map size_bits [2; 5; 9; 17; 33] = [4; 4; 3; 3; 3]. Proof. reflexivity. Qed.
Example test_size_bits : size_bits 3 = 4. Proof. reflexivity. Qed.
Example test_size_mask : size_mask dev 3 = Ret 17293822569102704640. Proof. reflexivity. Qed.
Example test_letter_mask : letter_mask dev 3 = Ret 3. Proof. reflexivity. Qed.
Example test_bits_per_letter_correct : bits_per_letter 3 = 2. Proof. reflexivity. Qed.
Example test_from_letter_each_letter :
  mapM (fun a => k <- letter a ;; Ret (tk_data k)) [1; 2; 3] = Ret [0; 1; 2]. Proof. reflexivity. Qed.
Example test_from_array : (k <- key [1; 2; 1] ;; Ret (tk_data k)) = Ret 4. Proof. reflexivity. Qed.
Example test_concatenate : (a <- letter 3 ;; b <- letter 1 ;; k <- tk_concatenate dev 3 a b ;; Ret (tk_data k)) = Ret 8.
Proof. reflexivity. Qed.
Example test_to_letters : (k <- key [1; 2; 1; 2; 3] ;; l <- tk_to_letters dev 3 k ;; Ret (tk_size k, l))
  = Ret (5, [3; 2; 1; 2; 1]). Proof. vm_compute. reflexivity. Qed.
Example test_equal_empty_key : tkey_eqb tk_new tk_new = true. Proof. reflexivity. Qed.
Example test_not_equal_empty_vs_1_key : (k <- letter 1 ;; Ret (tkey_eqb tk_new k)) = Ret false. Proof. reflexivity. Qed.
Example test_not_equal_1_key_vs_2_key :
  (a <- letter 1 ;; b <- letter 2 ;; Ret (tkey_eqb a b)) = Ret false. Proof. reflexivity. Qed.
Example test_iterator_3_letters :
  (k <- key [1; 2; 3] ;; ti_take dev 3 (ti_new k) 4) = Ret [Some 1; Some 2; Some 3; None].
Proof. vm_compute. reflexivity. Qed.

(** tensor_basis/mod.rs:139-338 *)
Example test_key_from_index_empty_key : tb_index_to_key dev 3 0 = Ret tk_new. Proof. reflexivity. Qed.
Example test_key_from_index_letters :
  mapM (tb_index_to_key dev 3) [1; 2; 3] = mapM (tk_from_letter dev) [1; 2; 3]. Proof. reflexivity. Qed.
Example test_key_from_index_depth_2 :
  mapM (tb_index_to_key dev 3) (range_incl 4 12)
  = mapM (tk_from_letters dev 3) [[1;1];[1;2];[1;3];[2;1];[2;2];[2;3];[3;1];[3;2];[3;3]].
Proof. vm_compute. reflexivity. Qed.
Example test_compare_key_ordering_smaller_key :
  (a <- key [1; 2; 3] ;; b <- key [1; 2] ;; Ret (tb_compare a b, tb_compare b a)) = Ret (Gt, Lt).
Proof. reflexivity. Qed.
Example test_compare_equal_same_length :
  (a <- key [1; 2; 3] ;; b <- key [2; 1; 3] ;; Ret (tb_compare a b, tb_compare b a)) = Ret (Lt, Gt).
Proof. reflexivity. Qed.
Example test_equal_keys_equal :
  (a <- key [1; 2; 3] ;; b <- key [1; 2; 3] ;; Ret (tb_compare a b)) = Ret Eq. Proof. reflexivity. Qed.
Example test_key_to_index_empty_key : tb_key_to_index dev 3 tk_new = Ret 0. Proof. reflexivity. Qed.
Example test_key_to_index_letters :
  mapM (fun a => k <- letter a ;; tb_key_to_index dev 3 k) [1; 2; 3] = Ret [1; 2; 3]. Proof. reflexivity. Qed.
Example test_key_to_index_depth_2 :
  mapM (fun w => k <- key w ;; tb_key_to_index dev 3 k)
    [[1;1];[1;2];[1;3];[2;1];[2;2];[2;3];[3;1];[3;2];[3;3]] = Ret (range_incl 4 12).
Proof. vm_compute. reflexivity. Qed.
Example test_key_to_index_depth_3 :
  mapM (fun w => k <- key w ;; tb_key_to_index dev 3 k)
    (flat_map (fun a => flat_map (fun b => map (fun c => [a; b; c]) [1; 2; 3]) [1; 2; 3]) [1; 2; 3])
  = Ret (range_incl 13 39).
Proof. vm_compute. reflexivity. Qed.

(** key_iterator.rs:68-111 *)
Example test_iterator_first_key : bi_take dev 3 (bi_new 3) 1 = Ret [Some tk_new]. Proof. vm_compute. reflexivity. Qed.
Example test_iterator_advance_letters :
  (k <- letter 1 ;; bi_take dev 3 (bi_starting_from 3 k) 3)
  = mapM (fun a => k <- letter a ;; Ret (Some k)) [1; 2; 3].
Proof. vm_compute. reflexivity. Qed.
Example test_iterator_move_to_level_2 :
  (k <- letter 3 ;; bi_take dev 3 (bi_starting_from 3 k) 2)
  = (a <- letter 3 ;; b <- key [1; 1] ;; Ret [Some a; Some b]).
Proof. vm_compute. reflexivity. Qed.
Example test_iterator_13_to_21 :
  (k <- key [1; 3] ;; bi_take dev 3 (bi_starting_from 3 k) 2)
  = (a <- key [1; 3] ;; b <- key [2; 1] ;; Ret [Some a; Some b]).
Proof. vm_compute. reflexivity. Qed.
