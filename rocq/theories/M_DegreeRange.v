(** Model of src/lie/lie_basis/degree_range_map.rs.

    The functions of the module `compute` call themselves and each other without a bound that is known in advance.  They
    are modelled with a number [fuel] of nested calls; [Diverge] is the answer when it is used up.  A Rust call returns
    [a] if the model returns [a] for all large enough fuel; it never ends (in practice: overflows the stack) if the model
    answers [Diverge] for every fuel.  The size of the real stack is not modelled. *)
From Verif Require Import Machine.
Local Open Scope N_scope.

(** isize: an operation with exact result [z] *)
Definition isize (p : profile) (z : Z) : outcome Z :=
  if ((- 2 ^ 63 <=? z) && (z <? 2 ^ 63))%Z then Ret z
  else if overflow_checks p then Panic else Ret ((z + 2 ^ 63) mod 2 ^ 64 - 2 ^ 63)%Z.
(** `x as isize` and `z as usize` *)
Definition as_isize (x : N) : Z := ((Z.of_N x + 2 ^ 63) mod 2 ^ 64 - 2 ^ 63)%Z.
Definition as_usize (z : Z) : N := Z.to_N (z mod 2 ^ 64).
(** `a / b` on isize: truncates; division by zero panics in every build *)
Definition isize_div (a b : Z) : outcome Z :=
  if (b =? 0)%Z then Panic
  else if ((a =? - 2 ^ 63) && (b =? -1))%Z then Panic else Ret (Z.quot a b).

Section Compute.
  Context (p : profile).

  (** degree_range_map.rs:15-18 is_squarefree_impl; `base * base` is written twice, with the same value *)
  Fixpoint is_squarefree_impl (fuel : nat) (n base : N) : outcome bool :=
    match fuel with
    | O => Diverge
    | S f =>
        sq <- umul 64 p base base ;;
        r <- urem n sq ;;
        if r =? 0 then Ret false
        else if n <=? sq then Ret true
        else base1 <- uadd 64 p base 1 ;; is_squarefree_impl f n base1
    end.
  (** degree_range_map.rs:20-23 *)
  Definition is_squarefree (fuel : nat) (n : N) : outcome bool := is_squarefree_impl fuel n 2.

  (** degree_range_map.rs:25-34 mobius_impl and 36-45 mobius *)
  Fixpoint mobius_impl (fuel : nat) (n divisor : N) {struct fuel} : outcome Z :=
    match fuel with
    | O => Diverge
    | S f =>
        if divisor =? n then Ret (-1)%Z
        else
          r <- urem n divisor ;;
          if r =? 0 then
            a <- mobius f n ;;
            m <- udiv n divisor ;;
            b <- mobius f m ;;
            isize p (a * b)
          else divisor1 <- uadd 64 p divisor 1 ;; mobius_impl f n divisor1
    end
  with mobius (fuel : nat) (n : N) {struct fuel} : outcome Z :=
    match fuel with
    | O => Diverge
    | S f =>
        if n =? 1 then Ret 1%Z
        else
          s <- is_squarefree f n ;;
          if negb s then Ret 0%Z else mobius_impl f n 2
    end.

  (** degree_range_map.rs:47-56 hall_set_level_term: `mobius * pow / level`, from left to right; `pow` overflows exactly
      when the power does not fit *)
  Definition hall_set_level_term (fuel : nat) (width level divisor : N) : outcome Z :=
    m <- mobius fuel divisor ;;
    e <- udiv level divisor ;;
    pw <- isize p (as_isize width ^ Z.of_N (trunc 32 e)) ;;
    pr <- isize p (m * pw) ;;
    isize_div pr (as_isize level).

  (** degree_range_map.rs:58-80 hall_set_level_size_impl *)
  Fixpoint hall_set_level_size_impl (fuel : nat) (width level divisor : N) : outcome Z :=
    match fuel with
    | O => Diverge
    | S f =>
        r <- urem level divisor ;;
        a <- (if r =? 0 then hall_set_level_term f width level divisor else Ret 0%Z) ;;
        b <- (if divisor <? level
              then divisor1 <- uadd 64 p divisor 1 ;; hall_set_level_size_impl f width level divisor1
              else Ret 0%Z) ;;
        isize p (a + b)
    end.
  (** degree_range_map.rs:82-85 *)
  Definition hall_set_level_size (fuel : nat) (width depth : N) : outcome N :=
    z <- hall_set_level_size_impl fuel width depth 1 ;; Ret (as_usize z).

  (** degree_range_map.rs:87-103 hall_set_size_impl *)
  Fixpoint hall_set_size_impl (fuel : nat) (width depth level : N) : outcome N :=
    match fuel with
    | O => Diverge
    | S f =>
        a <- hall_set_level_size f width level ;;
        b <- (if level <? depth
              then level1 <- uadd 64 p level 1 ;; hall_set_size_impl f width depth level1
              else Ret 0) ;;
        uadd 64 p a b
    end.
  (** degree_range_map.rs:105-112 hall_set_size *)
  Definition hall_set_size (fuel : nat) (width depth : N) : outcome N :=
    if depth =? 0 then Ret 0 else hall_set_size_impl fuel width depth 1.

  (** degree_range_map.rs:121-126 DegreeRangeMapError *)
  Inductive drm_error := MapIsEmpty | DegreeOutOfBounds.

  (** degree_range_map.rs:143 DegreeRangeMap<NLETTERS>: its vector of sizes.  [n] is NLETTERS. *)
  Definition drm := list N.

  (** degree_range_map.rs:147-154 new *)
  Definition drm_new (fuel : nat) (n degree : N) : outcome drm :=
    for_each (range 0 degree) (fun inner i => s <- hall_set_size fuel n i ;; Ret (inner ++ [s])) [].
  (** degree_range_map.rs:156-172 grow; the reservation `ureq + 1 - len` cannot overflow and is not observable *)
  Definition drm_grow (fuel : nat) (n : N) (m : drm) (requested : N) : outcome drm :=
    if requested <? len m then Ret m
    else for_each (range_incl (len m) requested) (fun inner d => s <- hall_set_size fuel n d ;; Ret (inner ++ [s])) m.
  (** degree_range_map.rs:174-181 get *)
  Definition drm_get (m : drm) (deg : N) : N + drm_error :=
    match slice_get m deg with Some v => inl v | None => inr DegreeOutOfBounds end.

  (** `partition_point(|&v| v <= dkey)`: the number of leading entries that satisfy the condition.  std leaves the result
      open if an entry that satisfies it follows one that does not. *)
  Fixpoint partition_point (m : list N) (dkey : N) : N :=
    match m with
    | [] => 0
    | v :: m' => if v <=? dkey then 1 + partition_point m' dkey else 0
    end.
  (** degree_range_map.rs:183-200 find_deg *)
  Definition drm_find_deg (m : drm) (key : N) : N + drm_error :=
    match rev m with
    | [] => inr MapIsEmpty
    | last :: _ => if last <? key then inr DegreeOutOfBounds else inl (trunc 32 (partition_point m key))
    end.
End Compute.
