(** Property theorems (generated by tools/gen_props.py from L_PropHall.v, where the proofs are). *)
From Coq Require Import String.
From Verif Require Import Machine MachineLemmas M_TensorKey S_Hall M_DegreeRange M_HallKey M_HallSet L_HallMap L_HallKey L_HallSet.
From Verif Require Import L_PropHall.
Local Open Scope N_scope.

(** * C49: HallKey packs and unpacks its fields *)
Theorem C49_fields : forall p key lp rp sz, key < 2 ^ 18 -> lp < 2 ^ 18 -> rp < 2 ^ 18 -> sz < 2 ^ 10 ->
  exists k, hk_make_key_data p key lp rp sz = Ret k
  /\ hk_get_key p k = Ret key /\ hk_get_lparent p k = Ret lp /\ hk_get_rparent p k = Ret rp /\ hk_size p k = Ret sz.
Proof. exact c49_fields. Qed.
Print Assumptions C49_fields.
Theorem C49_fields_injective : forall p k k', k < 2 ^ 64 -> k' < 2 ^ 64 ->
  hk_get_key p k = hk_get_key p k' -> hk_get_lparent p k = hk_get_lparent p k' -> hk_get_rparent p k = hk_get_rparent p k' ->
  hk_size p k = hk_size p k' -> k = k'.
Proof. exact c49_fields_injective. Qed.
Print Assumptions C49_fields_injective.
Theorem C49_letter_partial : forall p n a, 1 <= a <= n -> a < 2 ^ 18 -> exists k, hk_from_letter p n a = Ret k
  /\ hk_is_valid k = true /\ hk_is_letter p k = Ret true /\ hk_to_index p k = Ret (a - 1).
Proof. exact c49_letter_partial. Qed.
Print Assumptions C49_letter_partial.
Theorem C49_letter_refuted : forall p n a, 2 ^ 18 <= a <= n -> n < 2 ^ 32 ->
  forall k, hk_from_letter p n a = Ret k -> hk_to_index p k <> Ret (a - 1).
Proof. exact c49_letter_refuted. Qed.
Print Assumptions C49_letter_refuted.
Example C49_example : (k <- hk_make_key_data dev 7 3 5 2 ;; a <- hk_get_key dev k ;; l <- hk_get_lparent dev k ;; r <- hk_get_rparent dev k ;;
    s <- hk_size dev k ;; Ret [a; l; r; s]) = Ret [7; 3; 5; 2]
  /\ (k <- hk_from_letter dev 300000 (2 ^ 18 + 5) ;; hk_to_index dev k) = Ret 4
  /\ (k <- hk_from_letter dev 5 5 ;; hk_to_index dev k) = Ret 4.
Proof. exact c49_example. Qed.

(** * C72: HallKey::from_letter and to_index for every letter *)
Theorem C72_from_letter : forall p n a, 1 <= a <= n -> n < 2 ^ 32 ->
  let high := (a mod 2 ^ 28) / 2 ^ 18 in
  (overflow_checks p = true -> high = 2 ^ 10 - 1 -> hk_from_letter p n a = Panic)
  /\ (overflow_checks p = false \/ high <> 2 ^ 10 - 1 -> exists k, hk_from_letter p n a = Ret k /\ hk_is_valid k = true
       /\ hk_get_key p k = Ret (a mod 2 ^ 18) /\ hk_get_lparent p k = Ret (a / 2 ^ 18) /\ hk_get_rparent p k = Ret (a mod 2 ^ 18)
       /\ hk_size p k = Ret ((1 + high) mod 2 ^ 10) /\ hk_is_letter p k = Ret (high =? 0)).
Proof. exact c72_from_letter. Qed.
Print Assumptions C72_from_letter.
Theorem C72_to_index : forall p k, let i := k mod 2 ^ 18 in
  (0 < i -> hk_to_index p k = Ret (i - 1))
  /\ (i = 0 -> hk_to_index p k = if overflow_checks p then Panic else Ret (2 ^ 64 - 1)).
Proof. exact c72_to_index. Qed.
Print Assumptions C72_to_index.
Theorem C72_outside : forall p n a, debug_assertions p = true -> a = 0 \/ n < a -> hk_from_letter p n a = Panic.
Proof. exact c72_outside. Qed.
Print Assumptions C72_outside.
Example C72_example : hk_from_letter dev (2 ^ 28) (2 ^ 28 - 1) = Panic /\ hk_from_letter dev 3 4 = Panic
  /\ (k <- hk_from_letter dev 300000 (2 ^ 18) ;; s <- hk_size dev k ;; b <- hk_is_letter dev k ;; Ret (s, b)) = Ret (2, false)
  /\ hk_to_index dev hk_new = Panic /\ hk_to_index release hk_new = Ret (2 ^ 64 - 1).
Proof. exact c72_example. Qed.

(** * C73: How Hall keys are printed *)
Theorem C73_display : forall p key lp rp sz, key < 2 ^ 18 -> lp < 2 ^ 18 -> rp < 2 ^ 18 -> sz < 2 ^ 10 ->
  exists k, hk_make_key_data p key lp rp sz = Ret k
  /\ hk_display p k = Ret (if (sz =? 1)%N then u32_text key else "[" ++ u32_text lp ++ ", " ++ u32_text rp ++ "]")%string
  /\ hk_debug p k = Ret ("HallKey(key=" ++ u32_text key ++ ", lparent=" ++ u32_text lp ++ ", rparent=" ++ u32_text rp
                         ++ ", size=" ++ u32_text sz ++ ")")%string.
Proof. exact c73_display. Qed.
Print Assumptions C73_display.
Example C73_example : (k <- hk_make_key_data dev 7 1 2 3 ;; hk_display dev k) = Ret "[1, 2]"%string
  /\ (k <- hk_from_letter dev 5 4 ;; hk_display dev k) = Ret "4"%string
  /\ (k <- hk_from_letter dev 5 4 ;; hk_debug dev k) = Ret "HallKey(key=4, lparent=0, rparent=4, size=1)"%string.
Proof. exact c73_example. Qed.

(** * C50: A Hall set can be created for every alphabet and knows its letters *)
Theorem C50_refuted : forall p n, 1 <= n < 2 ^ 32 ->
  never_returns (fun f => hi_new p f n)
  \/ exists h, converges (fun f => hi_new p f n) (Ret h) /\ forall a, 1 <= a <= n -> hi_key_details h a = Ret (inr HallSetTooSmall).
Proof. exact c50_refuted. Qed.
Print Assumptions C50_refuted.
Theorem C50_partial : forall p n, n < 2 ^ 32 -> n < 2 \/ 10 < n ->
  (exists h, converges (fun f => hi_new p f n) (Ret h)) /\ (forall k, hi_is_letter n k = inl true <-> 1 <= k <= n).
Proof. exact c50_partial. Qed.
Print Assumptions C50_partial.
Example C50_example : (h <- hi_new dev 40 12 ;; hi_key_details h 3) = Ret (inr HallSetTooSmall) /\ hi_new dev 40 2 = Diverge
  /\ (h <- hi_new dev 40 12 ;; hi_key_details h 0) = Ret (inl (0, 0, 0, 1)).
Proof. exact c50_example. Qed.

(** * C74: Everything a new Hall set answers *)
Theorem C74_new : forall p n, n < 2 ^ 32 ->
  (2 <= n <= 10 -> never_ends (fun f => hi_new p f n)) /\ (n < 2 \/ 10 < n -> exists h, converges (fun f => hi_new p f n) (Ret h)).
Proof. exact c74_new. Qed.
Print Assumptions C74_new.
Theorem C74_answers : forall p f n ds h k d, n < 2 ^ 32 -> Forall (fun d => d < 2 ^ 32) ds -> hi_history p f n ds = Ret h -> d < 2 ^ 32 ->
  let too_small := Ret (inr HallSetTooSmall) in
  hi_curr_degree h = fold_left N.max ds 0
  /\ (0 < k -> hi_key_details h k = too_small /\ hi_lparent_details h k = too_small /\ hi_rparent_details h k = too_small)
  /\ (forall z, z = Ret (inl (0, 0, 0, if n =? 0 then 2 else 1)) ->
       hi_key_details h 0 = z /\ hi_lparent_details h 0 = z /\ hi_rparent_details h 0 = z)
  /\ hi_degree_range p h d = Ret (if d =? 0 then inl (0, n)
                                  else if (d =? 1) && (11 <=? n) && (n <=? 20) then inl (n, n + n * (n - 1) / 2)
                                  else inr HallSetTooSmall).
Proof. exact c74_answers. Qed.
Print Assumptions C74_answers.
Theorem C74_parents : forall h k key l r d, hi_key_details h k = Ret (inl (key, l, r, d)) ->
  let as_of parent answer := (forall i, hi_key_details h parent = Ret (inl i) -> answer = Ret (inl i))
    /\ ((forall i, hi_key_details h parent <> Ret (inl i)) -> answer = Panic) in
  key = k /\ as_of l (hi_lparent_details h k) /\ as_of r (hi_rparent_details h k).
Proof. exact c74_parents. Qed.
Print Assumptions C74_parents.
Example C74_parents_example : let h := {| hi_current_degree := 2; hi_set := [(0, 0); (0, 1); (0, 2); (1, 2)]; hi_degrees := [0; 2; 3] |} in
  hi_key_details h 3 = Ret (inl (3, 1, 2, 3)) /\ hi_lparent_details h 3 = Ret (inl (1, 0, 1, 1))
  /\ hi_rparent_details h 3 = Ret (inl (2, 0, 2, 2)).
Proof. exact c74_parents_example. Qed.
Example C74_example : exists h, hi_history dev 60 15 [3; 20; 7] = Ret h /\ hi_curr_degree h = 20
  /\ hi_degree_range dev h 1 = Ret (inl (15, 120)) /\ hi_degree_range dev h 2 = Ret (inr HallSetTooSmall).
Proof. exact c74_example. Qed.

(** * C51: get_hall_set returns under every schedule *)
Theorem C51_refuted : forall p may_panic s, reaches p may_panic cache_start s ->
  (forall t n o, cs_pc s t <> Returned n o) /\ (forall n, cs_cache s n = None).
Proof. exact c51_refuted. Qed.
Print Assumptions C51_refuted.
Theorem C51_hit_partial : forall p may_panic s t n o, cs_pc s t = Idle -> cs_cache s n = Some o -> cs_poisoned s = false ->
  (forall u, holds_write (cs_pc s u) = false) ->
  exists s', reaches p may_panic s s' /\ cs_pc s' t = Returned n o.
Proof. exact c51_hit_partial. Qed.
Print Assumptions C51_hit_partial.
Theorem C51_hit_shared_partial : forall p may_panic s t n o o' s', cs_cache s n = Some o -> (exists pre, cs_pc s t = HasRead n pre) ->
  step p may_panic s t s' -> cs_pc s' t = Cloned n o' -> o' = o.
Proof. exact c51_hit_shared_partial. Qed.
Print Assumptions C51_hit_shared_partial.

(** * C75: What get_hall_set does instead of returning *)
Theorem C75_reaches_write : forall p may_panic n pre, n < 2 ^ 32 -> n < 2 \/ 10 < n ->
  match pre with Some d => d < 2 ^ 32 | None => True end ->
  exists s o, reaches p may_panic cache_start s /\ cs_pc s O = AtWrite n o.
Proof. exact c75_reaches_write. Qed.
Print Assumptions C75_reaches_write.
Theorem C75_write_blocks : forall p s t n o s', cs_pc s t = AtWrite n o -> reaches p false s s' -> cs_pc s' t = AtWrite n o.
Proof. exact c75_write_blocks. Qed.
Print Assumptions C75_write_blocks.
Theorem C75_write_panics : forall p s t n o s', cs_pc s t = AtWrite n o -> step p true s t s' -> cs_pc s' t = Unwound.
Proof. exact c75_write_panics. Qed.
Print Assumptions C75_write_panics.
Theorem C75_new_never_ends : forall p may_panic s t n pre s', 2 <= n <= 10 -> cs_pc s t = Creating n pre -> reaches p may_panic s s' ->
  cs_pc s' t = Creating n pre.
Proof. exact c75_new_never_ends. Qed.
Print Assumptions C75_new_never_ends.
Theorem C75_never_poisoned : forall p may_panic s, reaches p may_panic cache_start s -> cs_poisoned s = false.
Proof. exact c75_never_poisoned. Qed.
Print Assumptions C75_never_poisoned.
Example C75_example : exists s o, reaches dev false cache_start s /\ cs_pc s 0%nat = AtWrite 12 o.
Proof. exact c75_example. Qed.

(** * C51: get_hall_set returns under every schedule *)
Example C51_example : exists s', reaches dev true {| cs_pc := fun _ => Idle; cs_poisoned := false;
    cs_cache := fun n => if n =? 3 then Some (ho_new 3 {| hi_current_degree := 1; hi_set := [(0, 0)]; hi_degrees := [0; 3] |}) else None |} s'
  /\ cs_pc s' 5%nat = Returned 3 (ho_new 3 {| hi_current_degree := 1; hi_set := [(0, 0)]; hi_degrees := [0; 3] |}).
Proof. exact c51_example. Qed.

(** * C76: Every history of calls on a shared Hall set *)
Theorem C76_history : forall p f n pre o qs d cs, n < 2 ^ 32 -> degree_arg pre < 2 ^ 32 -> new_object p f n pre = Ret o ->
  Forall (fun c => is_grow c = false) qs -> Forall good_call qs ->
  exists answers, length answers = length qs
  /\ fst (ho_runs p o (qs ++ QGrow d :: cs)) = map Ret answers ++ Panic :: map poisoned_answer cs.
Proof. exact c76_history. Qed.
Print Assumptions C76_history.
Theorem C76_before : forall p f n pre o qs, n < 2 ^ 32 -> degree_arg pre < 2 ^ 32 -> new_object p f n pre = Ret o ->
  Forall (fun c => is_grow c = false) qs -> Forall good_call qs ->
  exists answers, fst (ho_runs p o qs) = map Ret answers /\ Forall2 (fun c a => fst (ho_runs p o [c]) = [Ret a]) qs answers.
Proof. exact c76_before. Qed.
Print Assumptions C76_before.
Theorem C76_poisoned : forall p o cs, ho_poisoned o = true -> ho_runs p o cs = (map poisoned_answer cs, o).
Proof. exact c76_poisoned. Qed.
Print Assumptions C76_poisoned.

(** * C52: A failed grow_up does not disable a shared Hall set *)
Theorem C52_refuted : forall p f n pre o d c, n < 2 ^ 32 -> degree_arg pre < 2 ^ 32 -> new_object p f n pre = Ret o -> is_grow c = false ->
  fst (ho_runs p o [QGrow d; c]) = [Panic; Ret (inr HallSetReadError)].
Proof. exact c52_refuted. Qed.
Print Assumptions C52_refuted.
Example C52_example : exists o, new_object dev 60 12 (Some 4) = Ret o
  /\ fst (ho_runs dev o [QIsLetter 12; QRange 1; QGrow 3; QIsLetter 12; QGrow 2])
     = [Ret (inl (VBool true)); Ret (inl (VRange 12 78)); Panic; Ret (inr HallSetReadError); Ret (inr HallSetWriteError)].
Proof. exact c52_example. Qed.

(** * C76: Every history of calls on a shared Hall set *)
Example C76_example : exists o, new_object release 60 1 None = Ret o
  /\ fst (ho_runs dev o [QKey 1; QKey 0; QGrow 3; QKey 0]) = [Ret (inr HallSetTooSmall); Ret (inl (VInfo (0, 0, 0, 1))); Panic; Ret (inr HallSetReadError)].
Proof. exact c76_example. Qed.

(** * C77: HallKey::lparent and parent *)
Theorem C77_same : forall p o k, hk_lparent p o k = hk_parent p o k.
Proof. exact c77_same. Qed.
Print Assumptions C77_same.
Theorem C77_parents : forall p f n pre o k, n < 2 ^ 32 -> degree_arg pre < 2 ^ 32 -> new_object p f n pre = Ret o ->
  (0 < field k 36 18 -> hk_parent p o k = Panic)
  /\ (field k 36 18 = 0 -> hk_parent p o k = Ret ((if n =? 0 then 2 else 1) * 2 ^ 54)).
Proof. exact c77_parents. Qed.
Print Assumptions C77_parents.
Theorem C77_letters : forall p f n pre o a k, n < 2 ^ 32 -> degree_arg pre < 2 ^ 32 -> new_object p f n pre = Ret o ->
  1 <= a <= n -> a mod 2 ^ 18 <> 0 -> hk_from_letter p n a = Ret k -> hk_parent p o k = Panic /\ hk_lparent p o k = Panic.
Proof. exact c77_letters. Qed.
Print Assumptions C77_letters.
Example C77_example : (o <- new_object dev 60 12 None ;; k <- hk_from_letter dev 12 5 ;; hk_parent dev o k) = Panic
  /\ (o <- new_object dev 60 12 None ;; hk_parent dev o hk_new) = Ret (2 ^ 54).
Proof. exact c77_example. Qed.
