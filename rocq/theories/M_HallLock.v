(** Model of the locking in src/lie/lie_basis/hall_set.rs:76-124: any number of threads call the methods of clones of
    one HallSetObject.  Every method takes the RwLock, asks the Hall set and drops the guard.

    std's RwLock: any number of read guards or one write guard; a lock is poisoned when a thread unwinds while it has the
    write guard; read() and write() on a poisoned lock still take the lock and return an error with the guard in it.
    Not modelled: a read() that also waits for a waiting writer (the standard library leaves the order of waiting
    threads open; here any thread whose guard is compatible may go ahead), calls made while the thread already unwinds. *)
From Verif Require Import Machine M_HallKey M_HallSet.
Local Open Scope N_scope.

(** where a thread is in its call *)
Inductive hpc :=
  | HOut                                        (* in no method *)
  | HWaiting (c : ho_call)                      (* before read() or write() has returned *)
  | HHolds (c : ho_call) (poisoned : bool).     (* has the guard, alone or in the error that read() or write() returned *)
Record lock_state := { ls_pc : tid -> hpc; ls_poisoned : bool }.
(** grow_up takes the write guard (hall_set.rs:113-117), the other methods a read guard (89-111, 119-123) *)
Definition takes_write (c : ho_call) : bool := match c with QGrow _ => true | _ => false end.
Definition compatible (c : ho_call) (other : hpc) : bool :=
  match other with HHolds c' _ => negb (takes_write c) && negb (takes_write c') | _ => true end.
(** the method of the Hall set behind the lock *)
Definition hi_call (p : profile) (n : N) (h : hall_inner) (c : ho_call) : outcome (ho_value + hs_error) :=
  match c with
  | QIsLetter k => to_value VBool (Ret (hi_is_letter n k))
  | QLparent k => to_value VInfo (hi_lparent_details h k)
  | QRparent k => to_value VInfo (hi_rparent_details h k)
  | QKey k => to_value VInfo (hi_key_details h k)
  | QRange d => to_value (fun ab => VRange (fst ab) (snd ab)) (hi_degree_range p h d)
  | QGrow d => to_value (fun _ => VUnit) (hi_trait_grow_up h d)
  end.
(** what the method returns to its caller; `.map_err(|_| …)?` *)
Definition locked_call (p : profile) (n : N) (h : hall_inner) (c : ho_call) (poisoned : bool) : outcome (ho_value + hs_error) :=
  if poisoned then Ret (inr (if takes_write c then HallSetWriteError else HallSetReadError)) else hi_call p n h c.
(** dropping the write guard while unwinding poisons the lock *)
Definition poisons (c : ho_call) (r : outcome (ho_value + hs_error)) : bool :=
  takes_write c && match r with Panic => true | _ => false end.

(** what can be seen of an execution *)
Inductive hevent := ECall (t : tid) (c : ho_call) | EReturn (t : tid) (c : ho_call) (r : outcome (ho_value + hs_error)).
Definition ls_set (s : lock_state) (t : tid) (c : hpc) (poisoned : bool) : lock_state :=
  {| ls_pc := fun u => if Nat.eqb u t then c else ls_pc s u; ls_poisoned := poisoned |}.
(** one step of thread [t].  No method changes the Hall set [h]: the only one with `&mut self` is todo!() *)
Inductive lock_step (p : profile) (n : N) (h : hall_inner) (s : lock_state) (t : tid) : list hevent -> lock_state -> Prop :=
  | lock_call c : ls_pc s t = HOut -> lock_step p n h s t [ECall t c] (ls_set s t (HWaiting c) (ls_poisoned s))
  | lock_take c : ls_pc s t = HWaiting c -> (forall u, u <> t -> compatible c (ls_pc s u) = true) ->
      lock_step p n h s t [] (ls_set s t (HHolds c (ls_poisoned s)) (ls_poisoned s))
  | lock_return c b r : ls_pc s t = HHolds c b -> locked_call p n h c b = r ->
      lock_step p n h s t [EReturn t c r] (ls_set s t HOut (ls_poisoned s || poisons c r)).
(** executions: any interleaving; the events in the order in which they happen *)
Inductive lock_runs (p : profile) (n : N) (h : hall_inner) : lock_state -> list hevent -> lock_state -> Prop :=
  | lock_done s : lock_runs p n h s [] s
  | lock_next s s' s'' t es es' : lock_runs p n h s es s' -> lock_step p n h s' t es' s'' -> lock_runs p n h s (es ++ es') s''.
(** HallSetObject::new (hall_set.rs:81-84): nobody has the lock *)
Definition lock_start : lock_state := {| ls_pc := fun _ => HOut; ls_poisoned := false |}.
