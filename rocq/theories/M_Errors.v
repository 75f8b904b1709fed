(** Model of the error types of src/lie/lie_basis: DegreeRangeMapError (degree_range_map.rs:121-140) and HallSetError
    (hall_set.rs:23-58), with the methods of std's traits Error, Display and Debug that they implement or inherit. *)
From Coq Require Import String.
From Verif Require Import Machine M_DegreeRange M_HallSet.
Local Open Scope string_scope.

(** What Display or Debug has written to the formatter, and whether it returned Ok. *)
Definition written : Type := string * bool.

(** hall_set.rs:23-30 HallSetError with OtherError(Box<dyn Error>).  A `dyn Error` is an error of the crate or a type of a
    user: of the latter only what its methods show is modelled, and that is arbitrary. *)
Inductive hall_error := Plain (e : hs_error) | OtherError (inner : dyn_error)
with dyn_error := DMap (e : drm_error) | DHall (e : hall_error)
  | DUser (display debug : written) (cause source : option dyn_error).

(** degree_range_map.rs:129-137 Display; the wildcard arm is never reached *)
Definition drm_display (e : drm_error) : written :=
  match e with
  | MapIsEmpty => ("degree range map is empty", true)
  | DegreeOutOfBounds => ("requested degree is out of bounds", true)
  end.
(** `write!(f, "text{}", inner)` *)
Definition write_then (text : string) (inner : written) : written := (text ++ fst inner, snd inner).
(** hall_set.rs:34-43 Display; for dyn_error the call through the vtable *)
Fixpoint hs_display (e : hall_error) : written :=
  match e with
  | Plain HallSetTooSmall => ("the hall set is not sufficiently large", true)
  | OtherError inner => write_then "another error occurred: " (dyn_display inner)
  | _ => ("an unknown error occured", true)
  end
with dyn_display (e : dyn_error) : written :=
  match e with DMap e => drm_display e | DHall e => hs_display e | DUser display _ _ _ => display end.

(** degree_range_map.rs:121 and hall_set.rs:23 derive(Debug), printed with {:?} *)
Definition drm_debug (e : drm_error) : written :=
  match e with MapIsEmpty => ("MapIsEmpty", true) | DegreeOutOfBounds => ("DegreeOutOfBounds", true) end.
(** `debug_tuple(name).field(inner).finish()`: nothing is written after an error *)
Definition debug_tuple (name : string) (inner : written) : written :=
  (name ++ "(" ++ fst inner ++ (if snd inner then ")" else ""), snd inner).
Fixpoint hs_debug (e : hall_error) : written :=
  match e with
  | Plain HallSetTooSmall => ("HallSetTooSmall", true)
  | Plain HallSetReadError => ("HallSetReadError", true)
  | Plain HallSetWriteError => ("HallSetWriteError", true)
  | OtherError inner => debug_tuple "OtherError" (dyn_debug inner)
  end
with dyn_debug (e : dyn_error) : written :=
  match e with DMap e => drm_debug e | DHall e => hs_debug e | DUser _ debug _ _ => debug end.

(** hall_set.rs:45-52 cause *)
Definition hs_cause (e : hall_error) : option dyn_error :=
  match e with OtherError inner => Some inner | _ => None end.
(** std: the default of source, which HallSetError and DegreeRangeMapError do not override *)
Definition hs_source (e : hall_error) : option dyn_error := None.
Definition drm_source (e : drm_error) : option dyn_error := None.
(** std: the default of cause calls source (degree_range_map.rs:140) *)
Definition drm_cause (e : drm_error) : option dyn_error := drm_source e.
Definition dyn_cause (e : dyn_error) : option dyn_error :=
  match e with DMap e => drm_cause e | DHall e => hs_cause e | DUser _ _ cause _ => cause end.
Definition dyn_source (e : dyn_error) : option dyn_error :=
  match e with DMap e => drm_source e | DHall e => hs_source e | DUser _ _ _ source => source end.

(** std: to_string of a Display type panics if Display reports an error *)
Definition to_string (w : written) : outcome string := if snd w then Ret (fst w) else Panic.
