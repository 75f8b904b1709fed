(** Cases that meet the hypotheses of the theorems of P_Key.v. *)
From Coq Require Import String.
From Verif Require Import Machine S_Words M_TensorKey M_TensorBasis S_TensorApi P_Key E_Tac.
Local Open Scope N_scope.
Ltac hyp_more ::=
  lazymatch goal with
  | |- ~ word_ok _ _ => let H := fresh in intros H; unfold word_ok in H; repeat (rewrite Forall_cons_iff in H); lia
  | |- guarded_key _ _ _ => apply (g_push dev 3 (mk_tkey 2 9) 2); [apply (g_letters dev 3 [3; 2]); [repeat constructor; lia|reflexivity]|lia|vm_compute; reflexivity|reflexivity]
  end.

Example case_C01_key_remembers_word := ltac:(use (C01_key_remembers_word dev 3 [1; 3; 2])).
Example case_C02_key_eq_word_eq := ltac:(use (C02_key_eq_word_eq dev release 3 [1] [1; 1] (key 3 [1]) (key 3 [1; 1]))).
Example case_C54_concatenate_exact :=
  ltac:(use (C54_concatenate_exact dev 4294967295 [] [7; 8] tk_new (key 4294967295 [7; 8]) (key 4294967295 [7; 8]))).
Example case_C03_monoid_partial :=
  ltac:(use (C03_monoid_partial dev 3 [2] [3; 1] [2; 2] (key 3 [2]) (key 3 [3; 1]) (key 3 [2; 2]))).
Example case_C04_push_front := ltac:(use (C04_push_front dev 3 2 [3; 2] (key 3 [3; 2]))).
Example case_C04_build_by_push_front := ltac:(use (C04_build_by_push_front dev 3 [2; 3; 1])).
Example case_C05_max_depth_sound := ltac:(use (C05_max_depth_sound 4294967295)).
Example case_C05_too_long_panics := ltac:(use (C05_too_long_panics release 3 (repeat 1 31))).
Example case_C05_bad_letter_panics := ltac:(use (C05_bad_letter_panics dev 3 [1; 4])).
Example case_C55_to_letters_reversed := ltac:(use (C55_to_letters_reversed dev 3 [1; 3; 2] (key 3 [1; 3; 2]))).
Example case_C55_roundtrip_iff_palindrome := ltac:(use (C55_roundtrip_iff_palindrome dev 3 [2; 3; 2] (key 3 [2; 3; 2]))).
Example case_C07_guarded_partial := ltac:(use (C07_guarded_partial dev 3 (mk_tkey 3 25))).
Example case_C08_debug_text := ltac:(use (C08_debug_text dev 12 [3; 11; 2] (key 12 [3; 11; 2]))).
Example case_C08_debug_injective :=
  ltac:(use (C08_debug_injective dev release 12 [3; 11; 2] [3; 11; 2] (key 12 [3; 11; 2]) (key 12 [3; 11; 2]) "(2, 11, 3)")).
