(** Model of src/free_tensor/tensor_basis/mod.rs and key_iterator.rs. *)
From Verif Require Import Machine M_TensorKey.

(** mod.rs:24-27 max_degree *)
Definition tb_max_degree (n : N) : N := max_depth n.

(** mod.rs:29-32 start_of_degree *)
Definition tb_start_of_degree (p : profile) (n deg : N) : outcome N :=
  w <- upow 64 p n deg ;;
  a <- usub 64 p w 1 ;;
  b <- usub 64 p n 1 ;;
  udiv a b.

(** mod.rs:34-37 degree_range *)
Definition tb_degree_range (p : profile) (n deg : N) : outcome (N * N) :=
  a <- tb_start_of_degree p n deg ;;
  d1 <- uadd 32 p deg 1 ;;
  b <- tb_start_of_degree p n d1 ;;
  Ret (a, b).

(** mod.rs:39-46 index_to_degree_impl: one call; [inl d] is the tail call with degree d.
    `&&` is lazy: the second start_of_degree is only evaluated if the first test holds. *)
Definition tb_index_to_degree_step (p : profile) (n index : N) (deg : N) : N + outcome N :=
  let next : N + outcome N :=
    match uadd 32 p deg 1 with
    | Ret d => inl d
    | Panic => inr Panic | UB => inr UB | Diverge => inr Diverge
    end in
  match tb_start_of_degree p n deg with
  | Ret a =>
      if a <=? index then
        match (d1 <- uadd 32 p deg 1 ;; tb_start_of_degree p n d1) with
        | Ret b => if index <? b then inr (Ret deg) else next
        | Panic => inr Panic | UB => inr UB | Diverge => inr Diverge
        end
      else next
  | Panic => inr Panic | UB => inr UB | Diverge => inr Diverge
  end.
Definition tb_index_to_degree_impl (p : profile) (n index deg : N) : outcome N :=
  run_loop (tb_index_to_degree_step p n index) deg.

(** mod.rs:48-59 index_to_degree; [impl d] is what the call index_to_degree_impl(index, d) answers *)
Definition tb_index_to_degree_calling (impl : N -> outcome N) (p : profile) (n index : N) : outcome N :=
  if index =? 0 then Ret 0
  else if (1 <=? index) && (index <=? n) then Ret 1
  else
    s2 <- tb_start_of_degree p n 2 ;;
    if s2 <=? index then
      s3 <- tb_start_of_degree p n 3 ;;
      if index <? s3 then Ret 2 else impl 3
    else impl 3.
Definition tb_index_to_degree (p : profile) (n index : N) : outcome N :=
  tb_index_to_degree_calling (tb_index_to_degree_impl p n index) p n index.

(** mod.rs:71-73 compare *)
Definition tb_compare (a b : tkey) : comparison := N.compare (tk_data a) (tk_data b).

(** mod.rs:79-91 key_to_index; the `while i >= 1` loop, [i] being the value of `i` *)
Fixpoint tb_key_to_index_loop (p : profile) (n : N) (k : tkey) (i : nat) (result : N) : outcome N :=
  match i with
  | O => Ret result
  | S i' =>
      r1 <- umul 64 p result n ;;
      l <- tk_get_letter p n k (N.of_nat i') ;;
      r2 <- uadd 64 p r1 l ;;
      tb_key_to_index_loop p n k i' r2
  end.
Definition tb_key_to_index (p : profile) (n : N) (k : tkey) : outcome N :=
  tb_key_to_index_loop p n k (N.to_nat (tk_size k)) 0.

(** mod.rs:93-114 index_to_key; the `while pos > 0` loop (lines 107-111) *)
Definition tb_index_to_key_step (p : profile) (n : N) (st : N * tkey) : (N * tkey) + outcome tkey :=
  let '(pos, result) := st in
  if pos =? 0 then inr (Ret result)
  else
    let pos1 := pos - 1 in
    match (r <- urem pos1 n ;;
           result' <- tk_push_front_raw p n result (trunc 32 r) ;;
           q <- udiv pos1 n ;;
           Ret (q, result')) with
    | Ret st' => inl st'
    | Panic => inr Panic | UB => inr UB | Diverge => inr Diverge
    end.
Definition tb_index_to_key (p : profile) (n index : N) : outcome tkey :=
  if index =? 0 then Ret tk_new
  else if index <=? n then tk_from_letter p (trunc 32 index)
  else run_loop (tb_index_to_key_step p n) (index, tk_new).

(** mod.rs:125-129 degree *)
Definition tb_degree (k : tkey) : N := tk_size k.

(** mod.rs:116-118 vector_dimension_for_key *)
Definition tb_vector_dimension_for_key (p : profile) (n : N) (k : tkey) : outcome N :=
  d1 <- uadd 32 p (tb_degree k) 1 ;;
  tb_start_of_degree p n d1.

(** mod.rs:120-122 vector_dimension_for_index *)
Definition tb_vector_dimension_for_index (p : profile) (n index : N) : outcome N :=
  d <- tb_index_to_degree p n index ;;
  d1 <- uadd 32 p d 1 ;;
  tb_start_of_degree p n d1.

(** key_iterator.rs:6-28 TensorBasisIterator, new, starting_from *)
Record tbiter := mk_tbiter { bi_current : option tkey; bi_max_depth : N }.
Definition bi_new (n : N) : tbiter := mk_tbiter (Some tk_new) (max_depth n).
Definition bi_starting_from (n : N) (k : tkey) : tbiter := mk_tbiter (Some k) (max_depth n).

(** key_iterator.rs:41-59 the loop of next; state = (current, letter_i), result = new
    value of self.current *)
Definition bi_next_step (p : profile) (n max_d : N) (st : tkey * N)
  : (tkey * N) + outcome (option tkey) :=
  let '(cur, i) := st in
  if i =? tk_size cur then
    if i =? max_d then inr (Ret None)
    else inr (c <- tk_push_front p n cur 1 ;; Ret (Some c))
  else
    match tk_get_letter p n cur i with
    | Ret letter =>
        if letter =? n then
          match (c <- tk_set_letter p n cur i 1 ;; j <- uadd 32 p i 1 ;; Ret (c, j)) with
          | Ret st' => inl st'
          | Panic => inr Panic | UB => inr UB | Diverge => inr Diverge
          end
        else inr (l1 <- uadd 32 p letter 1 ;; c <- tk_set_letter p n cur i l1 ;; Ret (Some c))
    | Panic => inr Panic | UB => inr UB | Diverge => inr Diverge
    end.

(** key_iterator.rs:31-65 next *)
Definition bi_next (p : profile) (n : N) (it : tbiter) : outcome (tbiter * option tkey) :=
  match bi_current it with
  | Some current =>
      nc <- run_loop (bi_next_step p n (bi_max_depth it)) (current, 0) ;;
      Ret (mk_tbiter nc (bi_max_depth it), Some current)
  | None => Ret (it, None)
  end.

(** mod.rs:75-77 iter_keys *)
Definition tb_iter_keys (n : N) : tbiter := bi_new n.

(** The items of the first [m] calls of next. *)
Fixpoint bi_take (p : profile) (n : N) (it : tbiter) (m : nat) : outcome (list (option tkey)) :=
  match m with
  | O => Ret []
  | S m' =>
      '(it', x) <- bi_next p n it ;;
      xs <- bi_take p n it' m' ;;
      Ret (x :: xs)
  end.
