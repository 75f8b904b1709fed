(** Model of src/implementation.rs and src/free_tensor/tensor_basis/tensor_key.rs.
    [n] is the const generic NLetters : u32 throughout. *)
From Coq Require Import String DecimalString.
From Verif Require Import Machine.

(** src/implementation.rs:4-11 const_logn.  The const generic N is not used by the code.
    Recursion on n/2: a positive [xO q] or [xI q] is 2q or 2q+1, so [q] is n/2; n < 2 is 0 or 1. *)
Fixpoint const_logn_pos (m : positive) : N :=
  match m with
  | xH => 0
  | xO q | xI q => const_logn_pos q + 1
  end.
Definition const_logn (n : N) : N :=
  match n with N0 => 0 | Npos m => const_logn_pos m end.

(** src/implementation.rs:13-16 make_mask *)
Definition make_mask (p : profile) (n_bits shift : N) : outcome N :=
  a <- ushl 64 p 1 n_bits ;;
  b <- usub 64 p a 1 ;;
  ushl 64 p b shift.

(** tensor_key.rs:57-60 bits_per_letter.  (at most 32, no overflow possible for a u32) *)
Definition bits_per_letter (n : N) : N := const_logn n + 1.
(** tensor_key.rs:62-65 size_bits *)
Definition size_bits (n : N) : N := const_logn ((64 - 1) / bits_per_letter n).
(** tensor_key.rs:67-70 letter_mask *)
Definition letter_mask (p : profile) (n : N) : outcome N := make_mask p (bits_per_letter n) 0.
(** tensor_key.rs:72-75 size_mask *)
Definition size_mask (p : profile) (n : N) : outcome N :=
  make_mask p (size_bits n) (64 - size_bits n).
(** tensor_key.rs:77-80 max_depth *)
Definition max_depth (n : N) : N := (64 - size_bits n) / bits_per_letter n.

(** tensor_key.rs:25-30 struct TensorKey *)
Record tkey := mk_tkey { tk_size : N; tk_data : N }.

(** tensor_key.rs:25 derive(PartialEq) *)
Definition tkey_eqb (a b : tkey) : bool :=
  (tk_size a =? tk_size b) && (tk_data a =? tk_data b).

(** tensor_key.rs:82-85 new *)
Definition tk_new : tkey := mk_tkey 0 0.

(** tensor_key.rs:87-93 from_letter (letter is a u32; no range check in the code) *)
Definition tk_from_letter (p : profile) (letter : N) : outcome tkey :=
  d <- usub 64 p letter 1 ;;
  Ret (mk_tkey 1 d).

(** tensor_key.rs:105-108 update_size *)
Definition tk_update_size (k : tkey) (s : N) : tkey := mk_tkey s (tk_data k).

(** tensor_key.rs:110-120 set_letter.  Note that the mask is shifted by [letter], not by
    [letter * bits_per_letter]: this is what the code does. *)
Definition tk_set_letter (p : profile) (n : N) (k : tkey) (letter new_val : N) : outcome tkey :=
  if tk_size k <=? letter then Panic else
  m <- make_mask p (bits_per_letter n) letter ;;
  let mask := unot 64 m in
  let data := N.land (tk_data k) mask in
  v <- usub 64 p new_val 1 ;;
  sh <- umul 32 p (bits_per_letter n) letter ;;
  x <- ushl 64 p v sh ;;
  data' <- uadd 64 p data x ;;
  Ret (mk_tkey (tk_size k) data').

(** tensor_key.rs:122-139 from_letters: loop body *)
Definition from_letters_step (p : profile) (n : N) (data letter : N) : outcome N :=
  _ <- debug_assert p ((1 <=? letter) && (letter <=? n)) ;;
  data1 <- ushl 64 p data (bits_per_letter n) ;;
  l <- usub 32 p letter 1 ;;
  uadd 64 p data1 l.
(** tensor_key.rs:122-139 from_letters; [letters.len() as u32] *)
Definition tk_from_letters (p : profile) (n : N) (letters : list N) : outcome tkey :=
  if max_depth n <? len letters then Panic else
  data <- for_each letters (from_letters_step p n) 0 ;;
  Ret (mk_tkey (trunc 32 (len letters)) data).

(** tensor_key.rs:141-152 get_letter_unadjusted *)
Definition tk_get_letter_unadjusted (p : profile) (n : N) (k : tkey) (letter : N) : outcome N :=
  sh <- umul 32 p letter (bits_per_letter n) ;;
  mask <- make_mask p (bits_per_letter n) sh ;;
  let first_masked := N.land (tk_data k) mask in
  sh2 <- umul 32 p letter (bits_per_letter n) ;;
  second <- ushr 64 p first_masked sh2 ;;
  Ret (trunc 32 second).

(** tensor_key.rs:154-157 get_letter *)
Definition tk_get_letter (p : profile) (n : N) (k : tkey) (letter : N) : outcome N :=
  u <- tk_get_letter_unadjusted p n k letter ;;
  uadd 32 p u 1.

(** tensor_key.rs:159-165 concatenate *)
Definition tk_concatenate (p : profile) (n : N) (a b : tkey) : outcome tkey :=
  size <- uadd 32 p (tk_size a) (tk_size b) ;;
  sh <- umul 32 p (tk_size b) (bits_per_letter n) ;;
  hi <- ushl 64 p (tk_data a) sh ;;
  data <- uadd 64 p hi (tk_data b) ;;
  Ret (mk_tkey size data).

(** tensor_key.rs:167-176 to_letters (the debug_assert_eq on the length cannot fail) *)
Definition tk_to_letters (p : profile) (n : N) (k : tkey) : outcome (list N) :=
  mapM (tk_get_letter p n k) (range 0 (tk_size k)).

(** tensor_key.rs:178-185 push_front_raw *)
Definition tk_push_front_raw (p : profile) (n : N) (k : tkey) (letter : N) : outcome tkey :=
  m <- letter_mask p n ;;
  sh <- umul 32 p (tk_size k) (bits_per_letter n) ;;
  x <- ushl 64 p (N.land letter m) sh ;;
  data <- uadd 64 p (tk_data k) x ;;
  s <- uadd 32 p (tk_size k) 1 ;;
  Ret (mk_tkey s data).

(** tensor_key.rs:187-193 push_front *)
Definition tk_push_front (p : profile) (n : N) (k : tkey) (letter : N) : outcome tkey :=
  _ <- debug_assert p (tk_size k <? max_depth n) ;;
  _ <- debug_assert p ((1 <=? letter) && (letter <=? n)) ;;
  l <- usub 32 p letter 1 ;;
  tk_push_front_raw p n k l.

(** tensor_key.rs:207-219 TensorKeyIterator (struct and new) *)
Record tkiter := mk_tkiter { ti_index : N; ti_key : tkey }.
Definition ti_new (k : tkey) : tkiter := mk_tkiter 0 k.
(** tensor_key.rs:222-234 TensorKeyIterator::next *)
Definition ti_next (p : profile) (n : N) (it : tkiter) : outcome (tkiter * option N) :=
  if ti_index it =? tk_size (ti_key it) then Ret (it, None)
  else
    i <- uadd 32 p (ti_index it) 1 ;;
    pos <- usub 32 p (tk_size (ti_key it)) i ;;
    l <- tk_get_letter p n (ti_key it) pos ;;
    Ret (mk_tkiter i (ti_key it), Some l).

(** the first [m] calls of TensorKeyIterator::next: the items *)
Fixpoint ti_take (p : profile) (n : N) (it : tkiter) (m : nat) : outcome (list (option N)) :=
  match m with
  | O => Ret []
  | S m' =>
      '(it', x) <- ti_next p n it ;;
      xs <- ti_take p n it' m' ;;
      Ret (x :: xs)
  end.

(** `{}` of a u32 *)
Definition u32_text (x : N) : string := NilZero.string_of_uint (N.to_uint x).
(** tensor_key.rs:33-45 Debug::fmt: the text written *)
Definition tk_debug_step (p : profile) (n : N) (k : tkey) (acc : string) (i : N) : outcome string :=
  l <- tk_get_letter p n k i ;;
  if 0 <? i then Ret (acc ++ ", " ++ u32_text l)%string
  else Ret (acc ++ u32_text l)%string.
Definition tk_debug (p : profile) (n : N) (k : tkey) : outcome string :=
  body <- for_each (range 0 (tk_size k)) (tk_debug_step p n k) "("%string ;;
  Ret (body ++ ")")%string.

(** tensor_key.rs:47-52 Display::fmt.  The body is `Display::fmt(self, f)`, i.e. the very
    same function on the same arguments, before anything is written.  [None] after [fuel] nested calls
    means that no call has returned. *)
Fixpoint tk_display (fuel : nat) (k : tkey) : option string :=
  match fuel with
  | O => None
  | Datatypes.S f => tk_display f k
  end.
