(** Model of src/lie/lie_basis/hall_key.rs (except lparent and parent: M_HallSet.v) and make_mask of src/implementation.rs. *)
From Coq Require Import String.
From Verif Require Import Machine M_TensorKey.
Local Open Scope N_scope.

Section HallKey.
  Context (p : profile).

  (** implementation.rs:13-16 make_mask *)
  Definition make_mask (n_bits shift : N) : outcome N :=
    a <- ushl 64 p 1 n_bits ;; b <- usub 64 p a 1 ;; ushl 64 p b shift.

  (** hall_key.rs:11-17 the constants *)
  Definition KEY_BITS : N := 18.
  Definition PARENT_BITS : N := 18.
  Definition SIZE_BITS : N := 10.
  Definition LPARENT_SHIFT : N := KEY_BITS.
  Definition RPARENT_SHIFT : N := KEY_BITS + PARENT_BITS.
  Definition SIZE_SHIFT : N := KEY_BITS + 2 * PARENT_BITS.

  (** hall_key.rs:22 HallKey<NLETTERS>: its data; [n] below is NLETTERS *)
  Definition hkey := N.

  (** hall_key.rs:28-31 get_key *)
  Definition hk_get_key (k : hkey) : outcome N :=
    m <- make_mask KEY_BITS 0 ;; Ret (trunc 32 (N.land k m)).
  (** hall_key.rs:33-36 get_lparent *)
  Definition hk_get_lparent (k : hkey) : outcome N :=
    m <- make_mask PARENT_BITS LPARENT_SHIFT ;; s <- ushr 64 p (N.land k m) LPARENT_SHIFT ;; Ret (trunc 32 s).
  (** hall_key.rs:38-41 get_rparent *)
  Definition hk_get_rparent (k : hkey) : outcome N :=
    m <- make_mask PARENT_BITS RPARENT_SHIFT ;; s <- ushr 64 p (N.land k m) RPARENT_SHIFT ;; Ret (trunc 32 s).
  (** hall_key.rs:43-46 size *)
  Definition hk_size (k : hkey) : outcome N :=
    m <- make_mask SIZE_BITS SIZE_SHIFT ;; s <- ushr 64 p (N.land k m) SIZE_SHIFT ;; Ret (trunc 32 s).

  (** hall_key.rs:48-54 make_key_data: `key + mlparent + mrparent + msize`, from left to right *)
  Definition hk_make_key_data (key lparent rparent size : N) : outcome hkey :=
    msize <- ushl 64 p size SIZE_SHIFT ;;
    mlparent <- ushl 64 p lparent LPARENT_SHIFT ;;
    mrparent <- ushl 64 p rparent RPARENT_SHIFT ;;
    a <- uadd 64 p key mlparent ;; b <- uadd 64 p a mrparent ;; uadd 64 p b msize.

  (** hall_key.rs:57-60 new *)
  Definition hk_new : hkey := 0.
  (** hall_key.rs:62-66 from_letter *)
  Definition hk_from_letter (n letter : N) : outcome hkey :=
    _ <- debug_assert p ((1 <=? letter) && (letter <=? n)) ;; hk_make_key_data letter 0 letter 1.
  (** hall_key.rs:68-71 is_valid *)
  Definition hk_is_valid (k : hkey) : bool := negb (k =? 0).
  (** hall_key.rs:73-76 is_letter *)
  Definition hk_is_letter (k : hkey) : outcome bool := s <- hk_size k ;; Ret (s =? 1).
  (** hall_key.rs:78-81 to_index *)
  Definition hk_to_index (k : hkey) : outcome N := i <- hk_get_key k ;; usub 64 p i 1.

  (** hall_key.rs:103-108 Debug *)
  Definition hk_debug (k : hkey) : outcome string :=
    a <- hk_get_key k ;; l <- hk_get_lparent k ;; r <- hk_get_rparent k ;; s <- hk_size k ;;
    Ret ("HallKey(key=" ++ u32_text a ++ ", lparent=" ++ u32_text l ++ ", rparent=" ++ u32_text r ++ ", size=" ++ u32_text s ++ ")")%string.
  (** hall_key.rs:111-119 Display *)
  Definition hk_display (k : hkey) : outcome string :=
    b <- hk_is_letter k ;;
    if (b : bool) then a <- hk_get_key k ;; Ret (u32_text a)
    else l <- hk_get_lparent k ;; r <- hk_get_rparent k ;; Ret ("[" ++ u32_text l ++ ", " ++ u32_text r ++ "]")%string.
End HallKey.
