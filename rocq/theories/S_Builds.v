(** Specification: builds with more and with fewer checks. *)
From Verif Require Import Machine M_AlgebraFn.

(** [p] checks everything that [p'] checks *)
Definition checks_more (p p' : profile) : Prop :=
  (overflow_checks p' = true -> overflow_checks p = true) /\ (debug_assertions p' = true -> debug_assertions p = true).
(** the first call panics or both do the same *)
Definition panics_or_same {A} (m m' : outcome A) : Prop := m = Panic \/ m' = m.
(** the same for a call that leaves something behind when it panics *)
Definition throws_or_same {X} (r r' : res X) : Prop := (exists x, r = Thrown x) \/ r' = r.
