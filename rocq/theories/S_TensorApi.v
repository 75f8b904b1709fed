(** Specification vocabulary for the tensor basis: what a caller can observe. *)
From Coq Require Import String.
From Verif Require Import Machine S_Words M_TensorKey M_TensorBasis.

(** [k] is the key of a word over 1..n that is not longer than max_depth *)
Definition valid_key (n : N) (k : tkey) : Prop :=
  exists w, word_ok n w /\ len w <= max_depth n /\ tk_from_letters release n w = Ret k.

(** Keys that safe code can obtain: any sequence of calls of the public constructors and of the public
    operations returning or changing keys, with any arguments of the argument types. *)
Inductive api_key (p : profile) (n : N) : tkey -> Prop :=
| api_new : api_key p n tk_new
| api_letter a k : a < 2 ^ 32 -> tk_from_letter p a = Ret k -> api_key p n k
| api_letters l k : Forall (fun a => a < 2 ^ 32) l -> tk_from_letters p n l = Ret k -> api_key p n k
| api_index i k : i < 2 ^ 64 -> tb_index_to_key p n i = Ret k -> api_key p n k
| api_push k a k' : api_key p n k -> a < 2 ^ 32 -> tk_push_front p n k a = Ret k' -> api_key p n k'
| api_concat k1 k2 k : api_key p n k1 -> api_key p n k2 -> tk_concatenate p n k1 k2 = Ret k ->
    api_key p n k.

(** The same calls with arguments in the range for which they are meant: letters in 1..n, at most
    max_depth letters in the result, indices of such words. *)
Inductive guarded_key (p : profile) (n : N) : tkey -> Prop :=
| g_new : guarded_key p n tk_new
| g_letter a k : 1 <= a <= n -> tk_from_letter p a = Ret k -> guarded_key p n k
| g_letters l k : word_ok n l -> tk_from_letters p n l = Ret k -> guarded_key p n k
| g_index i k : i < count_below n (S (N.to_nat (max_depth n))) -> tb_index_to_key p n i = Ret k ->
    guarded_key p n k
| g_push k a k' : guarded_key p n k -> 1 <= a <= n -> tk_size k < max_depth n ->
    tk_push_front p n k a = Ret k' -> guarded_key p n k'
| g_concat k1 k2 k : guarded_key p n k1 -> guarded_key p n k2 ->
    tk_size k1 + tk_size k2 <= max_depth n -> tk_concatenate p n k1 k2 = Ret k -> guarded_key p n k.

(** The one case in which concatenating two keys of total length <= max_depth overflows: the shift
    amount 2 * 32 of tensor_key.rs:161. *)
Definition concat_overflow_corner (p : profile) (n : N) (u v : word) : Prop :=
  overflow_checks p = true /\ 2 ^ 31 <= n /\ u = [] /\ len v = 2.

(** The text of a list of numbers: "(a, b, c)" *)
Definition debug_text (l : list N) : string :=
  ("(" ++ String.concat ", " (map u32_text l) ++ ")")%string.

(** the items of iter_keys
    that one expects: the items of [m] calls, as the code's own index_to_key would give them *)
Definition items_by_index (p : profile) (n i : N) (m : nat) : outcome (list (option tkey)) :=
  mapM (fun j => k <- tb_index_to_key p n j ;; Ret (Some k)) (seqN i m).

(** Position of the first wrong item of the basis iterator (for n >= 2). *)
Definition prefix_len (n : N) : N := 1 + n + 3 * n.
Definition first_wrong (n : N) : N := if n =? 2 then 15 else prefix_len n.

