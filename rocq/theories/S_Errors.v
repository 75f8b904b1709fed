(** Specification of errors that wrap other errors. *)
From Coq Require Import String.
From Verif Require Import Machine M_DegreeRange M_HallSet M_Errors.
Local Open Scope string_scope.

(** [k] times OtherError around [e] *)
Fixpoint wrapped (k : nat) (e : dyn_error) : dyn_error :=
  match k with O => e | Datatypes.S k' => DHall (OtherError (wrapped k' e)) end.
(** [k] copies of a text *)
Fixpoint copies (k : nat) (t : string) : string :=
  match k with O => "" | Datatypes.S k' => t ++ copies k' t end.
(** the errors met when a method giving the next error is followed to the end *)
Inductive chain (next : dyn_error -> option dyn_error) : dyn_error -> list dyn_error -> Prop :=
  | chain_end e : next e = None -> chain next e [e]
  | chain_next e e' l : next e = Some e' -> chain next e' l -> chain next e (e :: l).
(** no type of a user inside *)
Fixpoint own_hall (e : hall_error) : bool := match e with Plain _ => true | OtherError i => own i end
with own (e : dyn_error) : bool := match e with DMap _ => true | DHall e => own_hall e | DUser _ _ _ _ => false end.
(** the same error, except that errors of reading and of writing the lock count as the same *)
Fixpoint same_up_to_lock_hall (e e' : hall_error) : Prop :=
  match e, e' with
  | Plain a, Plain b => a = b \/ (a <> HallSetTooSmall /\ b <> HallSetTooSmall)
  | OtherError i, OtherError j => same_up_to_lock i j
  | _, _ => False
  end
with same_up_to_lock (e e' : dyn_error) : Prop :=
  match e, e' with
  | DMap a, DMap b => a = b
  | DHall a, DHall b => same_up_to_lock_hall a b
  | _, _ => False
  end.
(** the wrappers of [wrapped k e], from the outside to the inside *)
Fixpoint wraps (k : nat) (e : dyn_error) : list dyn_error :=
  match k with O => [] | Datatypes.S k' => wrapped k e :: wraps k' e end.
