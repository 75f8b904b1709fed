(** Machine-level vocabulary of the model: outcomes of a Rust computation, build profiles,
    fixed-width integer operations, bounded loops and slices.

    Nothing here models a particular function of /repo; the later M_*.v files do. *)
From Coq Require Export List NArith ZArith Bool Lia.
From Coq Require Export ZifyBool ZifyNat ZifyN.
Export ListNotations.
Open Scope N_scope.

(** Result of running a Rust function.
    - [Ret a]    : returns [a];
    - [Panic]    : panics (explicit panic!, failed assertion, checked overflow, failed
                   index, division by zero, unwrap on None, todo!());
    - [UB]       : performs an out-of-bounds unchecked access (undefined behaviour);
    - [Diverge]  : has not returned (endless loop or unbounded recursion, i.e. stack overflow). *)
Inductive outcome (A : Type) : Type :=
| Ret (a : A)
| Panic
| UB
| Diverge.
Arguments Ret {A} a.
Arguments Panic {A}.
Arguments UB {A}.
Arguments Diverge {A}.

Definition bind {A B} (m : outcome A) (f : A -> outcome B) : outcome B :=
  match m with
  | Ret a => f a
  | Panic => Panic
  | UB => UB
  | Diverge => Diverge
  end.
Notation "x <- e ;; f" := (bind e (fun x => f))
  (at level 62, e at next level, right associativity).
Notation "' p <- e ;; f" := (bind e (fun p => f))
  (at level 62, p pattern, e at next level, right associativity).

Definition returns {A} (m : outcome A) : Prop := exists a, m = Ret a.

(** Build profile.  Cargo's `dev` profile is [dev], `release` is [release]; the two switches
    can also be set independently. *)
Record profile := { overflow_checks : bool; debug_assertions : bool }.
Definition dev : profile := {| overflow_checks := true; debug_assertions := true |}.
Definition release : profile := {| overflow_checks := false; debug_assertions := false |}.

(** Overflow of a [w]-bit unsigned operation whose wrapped value is [v]. *)
Definition overflowed (p : profile) (v : N) : outcome N :=
  if overflow_checks p then Panic else Ret v.

(** `a + b` *)
Definition uadd (w : N) (p : profile) (a b : N) : outcome N :=
  if a + b <? 2 ^ w then Ret (a + b) else overflowed p ((a + b) mod 2 ^ w).
(** `a - b` *)
Definition usub (w : N) (p : profile) (a b : N) : outcome N :=
  if b <=? a then Ret (a - b) else overflowed p ((a + 2 ^ w - b) mod 2 ^ w).
(** `a * b` *)
Definition umul (w : N) (p : profile) (a b : N) : outcome N :=
  if a * b <? 2 ^ w then Ret (a * b) else overflowed p ((a * b) mod 2 ^ w).
(** `a.pow(e)` : std computes by repeated squaring; every intermediate product divides the
    final power, so a checked overflow happens exactly when the power itself does not fit, and the
    wrapped value is the power modulo 2^w. *)
Definition upow (w : N) (p : profile) (a e : N) : outcome N :=
  if a ^ e <? 2 ^ w then Ret (a ^ e) else overflowed p ((a ^ e) mod 2 ^ w).
(** `a / b`, `a % b` : division by zero panics in every profile. *)
Definition udiv (a b : N) : outcome N := if b =? 0 then Panic else Ret (a / b).
Definition urem (a b : N) : outcome N := if b =? 0 then Panic else Ret (a mod b).
(** `a << s` : bits shifted out are lost without any check; only a shift amount >= w is an
    overflow (without checks the amount is taken modulo w). *)
Definition ushl (w : N) (p : profile) (a s : N) : outcome N :=
  if s <? w then Ret ((a * 2 ^ s) mod 2 ^ w)
  else overflowed p ((a * 2 ^ (s mod w)) mod 2 ^ w).
(** `a >> s` *)
Definition ushr (w : N) (p : profile) (a s : N) : outcome N :=
  if s <? w then Ret (a / 2 ^ s) else overflowed p (a / 2 ^ (s mod w)).
(** `!a` *)
Definition unot (w a : N) : N := N.lxor a (N.ones w).
(** `a as u32` *)
Definition trunc (w a : N) : N := a mod 2 ^ w.

(** `debug_assert!(c)` *)
Definition debug_assert (p : profile) (c : bool) : outcome unit :=
  if debug_assertions p && negb c then Panic else Ret tt.

(** A loop whose body either continues with a new state ([inl]) or leaves ([inr]):
    [loop k] runs at most 2^k iterations and stops early.  *)
Fixpoint loop {S R} (k : nat) (step : S -> S + R) (s : S) : S + R :=
  match k with
  | O => step s
  | Datatypes.S k' =>
      match loop k' step s with
      | inl s' => loop k' step s'
      | inr r => inr r
      end
  end.
(** A Rust `loop`/`while`/tail recursion on machine integers: 2^64 iterations without leaving count
    as not returning. *)
Definition run_loop {S A} (step : S -> S + outcome A) (s : S) : outcome A :=
  match loop 64 step s with
  | inl _ => Diverge
  | inr r => r
  end.

(** `a..b` and `(a..=b).rev()` as lists *)
Fixpoint seqN (a : N) (len : nat) : list N :=
  match len with O => [] | Datatypes.S l => a :: seqN (a + 1) l end.
Definition range (a b : N) : list N := seqN a (N.to_nat (b - a)).
Definition range_incl (a b : N) : list N := seqN a (N.to_nat (b + 1 - a)).
Definition rev_range_incl (a b : N) : list N := rev (range_incl a b).

(** `for x in xs { s = body(s, x) }` *)
Fixpoint for_each {A S} (xs : list A) (body : S -> A -> outcome S) (s : S) : outcome S :=
  match xs with
  | [] => Ret s
  | x :: xs' => s' <- body s x ;; for_each xs' body s'
  end.

(** collect::<Vec<_>>() of a fallible map *)
Fixpoint mapM {A B} (f : A -> outcome B) (l : list A) : outcome (list B) :=
  match l with
  | [] => Ret []
  | x :: xs => y <- f x ;; ys <- mapM f xs ;; Ret (y :: ys)
  end.

(** slices of lists, with N indices *)
Definition len {A} (l : list A) : N := N.of_nat (length l).
(** `s.get(i)` *)
Definition slice_get {A} (l : list A) (i : N) : option A := nth_error l (N.to_nat i).
(** replacing one element; no effect outside the list *)
Fixpoint list_set {A} (l : list A) (i : nat) (x : A) : list A :=
  match l, i with
  | [], _ => []
  | _ :: t, O => x :: t
  | h :: t, Datatypes.S j => h :: list_set t j x
  end.
(** `*s.get_unchecked_mut(i) = x` *)
Definition set_unchecked {A} (l : list A) (i : N) (x : A) : outcome (list A) :=
  if i <? len l then Ret (list_set l (N.to_nat i) x) else UB.
(** `s.get_unchecked(a..b)` *)
Definition slice_unchecked {A} (l : list A) (a b : N) : outcome (list A) :=
  if (a <=? b) && (b <=? len l)
  then Ret (firstn (N.to_nat (b - a)) (skipn (N.to_nat a) l)) else UB.
(** content of the whole slice after the sub-slice starting at [a] has become [sub] *)
Definition splice {A} (l : list A) (a : N) (sub : list A) : list A :=
  firstn (N.to_nat a) l ++ sub ++ skipn (N.to_nat a + length sub) l.
(** `Vec::resize(n, x)` *)
Definition vec_resize {A} (l : list A) (n : N) (x : A) : list A :=
  firstn (N.to_nat n) l ++ repeat x (N.to_nat n - length l).
