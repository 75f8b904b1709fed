(** Model of src/lie/lie_basis/hall_set.rs and of HallKey::lparent, parent (hall_key.rs:83-98).

    The cache (get_hall_set) is a transition system with any number of threads at the end of this file. *)
From Verif Require Import Machine M_DegreeRange M_HallKey.
Local Open Scope N_scope.

(** hall_set.rs:25-30 HallSetError.  OtherError is never constructed by this crate; M_Errors.v adds it. *)
Inductive hs_error := HallSetTooSmall | HallSetReadError | HallSetWriteError.
(** hall_set.rs:54-58 From<DegreeRangeMapError> *)
Definition hs_from_drm (e : drm_error) : hs_error := HallSetTooSmall.

(** hall_set.rs:61 ParentInfo: key, left parent, right parent, degree *)
Definition parent_info : Type := N * N * N * N.

(** hall_set.rs:128-137 starting_size_for_width *)
Definition starting_size_for_width (letters : N) : N :=
  if letters =? 2 then 30
  else if (3 <=? letters) && (letters <=? 5) then 20
  else if (6 <=? letters) && (letters <=? 10) then 8
  else if (11 <=? letters) && (letters <=? 20) then 3
  else 2.

(** hall_set.rs:141-146 HallSetInner<NLETTERS>, without the field `reverse`: it is created empty and never used *)
Record hall_inner := { hi_current_degree : N; hi_set : list (N * N); hi_degrees : drm }.

(** hall_set.rs:150-157 new *)
Definition hi_new (p : profile) (fuel : nat) (n : N) : outcome hall_inner :=
  m <- drm_new p fuel n (starting_size_for_width n) ;;
  Ret {| hi_current_degree := 0; hi_set := [(0, 0)]; hi_degrees := m |}.
(** hall_set.rs:160-163 get_parents *)
Definition hi_get_parents (h : hall_inner) (key : N) : option (N * N) := slice_get (hi_set h) key.
(** hall_set.rs:165-168 degree *)
Definition hi_degree (h : hall_inner) (key : N) : option N :=
  match drm_find_deg (hi_degrees h) key with inl d => Some d | inr _ => None end.
(** hall_set.rs:170-173 curr_degree *)
Definition hi_curr_degree (h : hall_inner) : N := hi_current_degree h.
(** hall_set.rs:175-200 the inherent method grow_up; the body of the loop is commented out except for the increment *)
Fixpoint hi_grow_up (p : profile) (fuel : nat) (h : hall_inner) (new_degree : N) : outcome hall_inner :=
  match fuel with
  | O => Diverge
  | S f =>
      if hi_current_degree h <? new_degree
      then d <- uadd 32 p (hi_current_degree h) 1 ;;
           hi_grow_up p f {| hi_current_degree := d; hi_set := hi_set h; hi_degrees := hi_degrees h |} new_degree
      else Ret h
  end.

(** `.unwrap()` *)
Definition unwrap {A} (o : option A) : outcome A := match o with Some a => Ret a | None => Panic end.

(** hall_set.rs:205-207 is_letter; NLETTERS fits into u64 *)
Definition hi_is_letter (n key : N) : bool + hs_error := inl ((1 <=? key) && (key <=? n)).
(** hall_set.rs:209-218 lparent_details *)
Definition hi_lparent_details (h : hall_inner) (key : N) : outcome (parent_info + hs_error) :=
  match hi_get_parents h key with
  | Some (parent, _) =>
      lr <- unwrap (hi_get_parents h parent) ;; d <- unwrap (hi_degree h parent) ;;
      Ret (inl (parent, fst lr, snd lr, d))
  | None => Ret (inr HallSetTooSmall)
  end.
(** hall_set.rs:220-228 rparent_details *)
Definition hi_rparent_details (h : hall_inner) (key : N) : outcome (parent_info + hs_error) :=
  match hi_get_parents h key with
  | Some (_, parent) =>
      lr <- unwrap (hi_get_parents h parent) ;; d <- unwrap (hi_degree h parent) ;;
      Ret (inl (parent, fst lr, snd lr, d))
  | None => Ret (inr HallSetTooSmall)
  end.
(** hall_set.rs:230-236 key_details *)
Definition hi_key_details (h : hall_inner) (key : N) : outcome (parent_info + hs_error) :=
  match hi_get_parents h key with
  | Some (l, r) => d <- unwrap (hi_degree h key) ;; Ret (inl (key, l, r, d))
  | None => Ret (inr HallSetTooSmall)
  end.
(** hall_set.rs:238-240 the trait method grow_up: todo!() *)
Definition hi_trait_grow_up (h : hall_inner) (new_degree : N) : outcome (unit + hs_error) := Panic.
(** hall_set.rs:242-244 degree_range; `?` converts the error *)
Definition hi_degree_range (p : profile) (h : hall_inner) (deg : N) : outcome ((N * N) + hs_error) :=
  match drm_get (hi_degrees h) deg with
  | inr e => Ret (inr (hs_from_drm e))
  | inl a =>
      deg1 <- uadd 32 p deg 1 ;;
      match drm_get (hi_degrees h) deg1 with
      | inr e => Ret (inr (hs_from_drm e))
      | inl b => Ret (inl (a, b))
      end
  end.

(** ** HallSetObject (hall_set.rs:76-124): clones share one RwLock *)
(** The lock between two calls: its content and whether it is poisoned.  A panic while the write guard is alive poisons
    it; a panic under a read guard does not. *)
Record hall_object := { ho_n : N; ho_inner : hall_inner; ho_poisoned : bool }.
Inductive ho_call :=
  | QIsLetter (key : N) | QLparent (key : N) | QRparent (key : N) | QKey (key : N) | QRange (deg : N) | QGrow (deg : N).
(** the values the calls return *)
Inductive ho_value := VBool (b : bool) | VInfo (i : parent_info) | VRange (a b : N) | VUnit.
Definition to_value {A} (f : A -> ho_value) (m : outcome (A + hs_error)) : outcome (ho_value + hs_error) :=
  r <- m ;; match r with inl a => Ret (inl (f a)) | inr e => Ret (inr e) end.
(** one call on any clone: its outcome and the new state of the shared lock *)
Definition ho_run (p : profile) (o : hall_object) (c : ho_call) : outcome (ho_value + hs_error) * hall_object :=
  let h := ho_inner o in
  let query m := if ho_poisoned o then Ret (inr HallSetReadError) else m in
  match c with
  | QIsLetter k => (query (to_value VBool (Ret (hi_is_letter (ho_n o) k))), o)
  | QLparent k => (query (to_value VInfo (hi_lparent_details h k)), o)
  | QRparent k => (query (to_value VInfo (hi_rparent_details h k)), o)
  | QKey k => (query (to_value VInfo (hi_key_details h k)), o)
  | QRange d => (query (to_value (fun ab => VRange (fst ab) (snd ab)) (hi_degree_range p h d)), o)
  | QGrow d =>
      if ho_poisoned o then (Ret (inr HallSetWriteError), o)
      else match hi_trait_grow_up h d with
           | Panic => (Panic, {| ho_n := ho_n o; ho_inner := h; ho_poisoned := true |})
           | m => (to_value (fun _ => VUnit) m, o)
           end
  end.
(** a history of calls, whatever the clones and threads they are made from; a panic is caught by the caller *)
Fixpoint ho_runs (p : profile) (o : hall_object) (cs : list ho_call) : list (outcome (ho_value + hs_error)) * hall_object :=
  match cs with
  | [] => ([], o)
  | c :: cs' => let '(r, o1) := ho_run p o c in let '(rs, o2) := ho_runs p o1 cs' in (r :: rs, o2)
  end.
(** hall_set.rs:81-84 HallSetObject::new *)
Definition ho_new (n : N) (h : hall_inner) : hall_object := {| ho_n := n; ho_inner := h; ho_poisoned := false |}.

(** hall_key.rs:83-89 lparent and 91-98 parent, after get_hall_set has returned [o] *)
Definition hk_lparent (p : profile) (o : hall_object) (k : hkey) : outcome hkey :=
  r <- hk_get_rparent p k ;;
  i <- fst (ho_run p o (QRparent r)) ;;
  match i with
  | inl (VInfo (key, lparent, rparent, sz)) => hk_make_key_data p key lparent rparent sz
  | _ => Panic
  end.
Definition hk_parent (p : profile) (o : hall_object) (k : hkey) : outcome hkey :=
  r <- hk_get_rparent p k ;;
  i <- fst (ho_run p o (QRparent r)) ;;
  match i with
  | inl (VInfo (key, lparent, rparent, sz)) => hk_make_key_data p key lparent rparent sz
  | _ => Panic
  end.

(** ** get_hall_set (hall_set.rs:250-271) under any schedule

    HALL_SET_CACHE is an RwLock around a map from NLETTERS to objects.  The crate uses edition 2018: the read guard made in
    the scrutinee of `if let` lives until the end of the whole `if let … else …` expression, so it is still held when the
    else branch calls write().  std's documentation of write(): it blocks until no other reader or writer holds the lock,
    and it "might panic when called if the lock is already held by the current thread". *)
Definition tid := nat.
(** where a thread is in its call of get_hall_set::<n>(pre) *)
Inductive pc :=
  | Idle                                        (* not in the function *)
  | AtRead (n : N) (pre : option N)             (* line 252: before read() *)
  | HasRead (n : N) (pre : option N)            (* line 254: holds the read guard, before get *)
  | Cloned (n : N) (o : hall_object)            (* line 255: val.clone() made, guard not dropped yet *)
  | Creating (n : N) (pre : option N)           (* lines 257-263, holds the read guard *)
  | AtWrite (n : N) (new_hs : hall_object)      (* line 266: before write(), holds the read guard *)
  | HasWrite (n : N) (new_hs : hall_object)     (* line 267: holds the read and the write guard *)
  | Returning (n : N) (o : hall_object)         (* line 268: write guard dropped, read guard still held *)
  | Returned (n : N) (o : hall_object)          (* the call has returned *)
  | Unwound.                                    (* the call has panicked; its guards are dropped *)
Record cache_state := {
  cs_pc : tid -> pc;
  cs_cache : N -> option hall_object;           (* the map *)
  cs_poisoned : bool;
}.
Definition holds_read (c : pc) : bool :=
  match c with
  | HasRead _ _ | Cloned _ _ | Creating _ _ | AtWrite _ _ | HasWrite _ _ | Returning _ _ => true
  | _ => false
  end.
Definition holds_write (c : pc) : bool := match c with HasWrite _ _ => true | _ => false end.
Definition set_pc (s : cache_state) (t : tid) (c : pc) : cache_state :=
  {| cs_pc := fun u => if Nat.eqb u t then c else cs_pc s u; cs_cache := cs_cache s; cs_poisoned := cs_poisoned s |}.
Definition insert_cache (s : cache_state) (n : N) (o : hall_object) : cache_state :=
  {| cs_pc := cs_pc s; cs_cache := fun m => if m =? n then Some o else cs_cache s m; cs_poisoned := cs_poisoned s |}.

(** lines 257-265: the new object; [fuel] as in M_DegreeRange.v *)
Definition new_object (p : profile) (fuel : nat) (n : N) (pre : option N) : outcome hall_object :=
  h <- hi_new p fuel n ;;
  h' <- hi_grow_up p fuel h (match pre with Some deg => deg | None => 1 end) ;;
  Ret (ho_new n h').

(** one step of thread [t].  A thread that cannot step is blocked (or computes for ever).  [may_panic]: whether this
    platform's write() panics, rather than blocks, when the calling thread holds the lock. *)
Inductive step (p : profile) (may_panic : bool) (s : cache_state) (t : tid) : cache_state -> Prop :=
  | step_call n pre : cs_pc s t = Idle -> step p may_panic s t (set_pc s t (AtRead n pre))
  | step_again n o n' pre : cs_pc s t = Returned n o -> step p may_panic s t (set_pc s t (AtRead n' pre))
  | step_caught n pre : cs_pc s t = Unwound -> step p may_panic s t (set_pc s t (AtRead n pre))
  | step_read n pre : cs_pc s t = AtRead n pre -> cs_poisoned s = false ->
      (forall u, holds_write (cs_pc s u) = false) -> step p may_panic s t (set_pc s t (HasRead n pre))
  | step_read_poisoned n pre : cs_pc s t = AtRead n pre -> cs_poisoned s = true ->
      (forall u, holds_write (cs_pc s u) = false) -> step p may_panic s t (set_pc s t Unwound)
  | step_hit n pre o : cs_pc s t = HasRead n pre -> cs_cache s n = Some o -> step p may_panic s t (set_pc s t (Cloned n o))
  | step_hit_return n o : cs_pc s t = Cloned n o -> step p may_panic s t (set_pc s t (Returned n o))
  | step_miss n pre : cs_pc s t = HasRead n pre -> cs_cache s n = None -> step p may_panic s t (set_pc s t (Creating n pre))
  | step_create n pre f o : cs_pc s t = Creating n pre -> new_object p f n pre = Ret o ->
      step p may_panic s t (set_pc s t (AtWrite n o))
  | step_create_panic n pre f : cs_pc s t = Creating n pre -> new_object p f n pre = Panic ->
      step p may_panic s t (set_pc s t Unwound)
  | step_write n o : cs_pc s t = AtWrite n o -> cs_poisoned s = false ->
      (forall u, holds_read (cs_pc s u) = false) -> (forall u, holds_write (cs_pc s u) = false) ->
      step p may_panic s t (set_pc s t (HasWrite n o))
  | step_write_poisoned n o : cs_pc s t = AtWrite n o -> cs_poisoned s = true ->
      (forall u, holds_read (cs_pc s u) = false) -> (forall u, holds_write (cs_pc s u) = false) ->
      step p may_panic s t (set_pc s t Unwound)
  | step_write_panic n o : cs_pc s t = AtWrite n o -> may_panic = true -> holds_read (cs_pc s t) = true ->
      step p may_panic s t (set_pc s t Unwound)
  | step_insert n o : cs_pc s t = HasWrite n o -> step p may_panic s t (set_pc (insert_cache s n o) t (Returning n o))
  | step_return n o : cs_pc s t = Returning n o -> step p may_panic s t (set_pc s t (Returned n o)).
(** states reachable by any interleaving *)
Inductive reaches (p : profile) (may_panic : bool) : cache_state -> cache_state -> Prop :=
  | reaches_refl s : reaches p may_panic s s
  | reaches_step s s' s'' t : reaches p may_panic s s' -> step p may_panic s' t s'' -> reaches p may_panic s s''.
(** the program starts: no thread is in the function, the map is empty *)
Definition cache_start : cache_state := {| cs_pc := fun _ => Idle; cs_cache := fun _ => None; cs_poisoned := false |}.
