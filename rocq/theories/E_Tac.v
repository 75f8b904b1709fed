(** Tactics for the files E_*.v.  Each of those instantiates property theorems at concrete, non-trivial arguments and
    proves every hypothesis there: [use T] is the conclusion of the theorem T for those arguments.  It fails if some
    hypothesis does not hold. *)
From Coq Require Import Qcanon.
From Verif Require Import Machine S_Words M_TensorKey S_Vector I_Scalars.

(** the key of a word *)
Definition key (n : N) (w : word) : tkey := match tk_from_letters dev n w with Ret k => k | _ => tk_new end.

Ltac hyp_more := fail.
Ltac hyp :=
  cbv beta iota zeta;
  first
  [ assumption
  | lazymatch goal with
    | |- _ /\ _ => split; hyp
    | |- True => exact I
    | |- word_ok _ _ => unfold word_ok; repeat (constructor; [vm_compute; split; discriminate|]); constructor
    | |- Forall _ _ => repeat (constructor; [hyp|]); constructor
    | |- Forall2 _ _ _ => repeat (constructor; [hyp|]); constructor
    | |- (_ < _)%N => vm_compute; reflexivity
    | |- (_ <= _)%N => vm_compute; discriminate
    | |- (_ < _)%nat => vm_compute; repeat constructor
    | |- (_ <= _)%nat => vm_compute; repeat constructor
    | |- (_ < _)%Z => vm_compute; reflexivity
    | |- (_ <= _)%Z => vm_compute; discriminate
    | |- ~ (_ < _)%N => vm_compute; discriminate
    | |- field_laws qc_ops => exact qc_field
    | |- ring_laws qc_ops => exact qc_ring
    | |- _ = _ => vm_compute; reflexivity
    | |- _ <> _ => vm_compute; discriminate
    | |- ~ _ => vm_compute; solve [intuition congruence]
    | |- In _ _ => vm_compute; solve [repeat (first [left; reflexivity | right])]
    end
  | hyp_more
  | lazymatch goal with |- _ -> _ => intro; hyp end
  | lazymatch goal with |- _ \/ _ => first [left; hyp | right; hyp] end ].
Ltac use t :=
  let T := type of t in
  let T := eval cbv beta zeta in T in
  lazymatch T with
  | ?A -> ?B => let h := constr:(ltac:(hyp) : A) in use (t h)
  | _ => exact t
  end.
