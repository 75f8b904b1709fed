(** Specification: concurrent calls. *)
From Verif Require Import Machine M_HallSet M_HallLock.

(** the calls that have returned, in the order of their returns *)
Definition returned (es : list hevent) : list (tid * ho_call * outcome (ho_value + hs_error)) :=
  flat_map (fun e => match e with EReturn t c r => [(t, c, r)] | ECall _ _ => [] end) es.
Definition call_of (x : tid * ho_call * outcome (ho_value + hs_error)) : ho_call := snd (fst x).
Definition result_of (x : tid * ho_call * outcome (ho_value + hs_error)) : outcome (ho_value + hs_error) := snd x.
(** the call of thread [t] that has not returned *)
Definition open_call (t : tid) (es : list hevent) : option ho_call :=
  fold_left (fun o e => match e with
                        | ECall u c => if Nat.eqb u t then Some c else o
                        | EReturn u _ _ => if Nat.eqb u t then None else o
                        end) es None.
(** a thread makes one call at a time, and what returns is the call it made *)
Definition well_bracketed (es : list hevent) : Prop :=
  forall before e after, es = before ++ e :: after ->
    match e with
    | ECall t _ => open_call t before = None
    | EReturn t c _ => open_call t before = Some c
    end.
(** no new call is made *)
Definition no_calls (es : list hevent) : Prop := Forall (fun e => match e with ECall _ _ => False | _ => True end) es.
