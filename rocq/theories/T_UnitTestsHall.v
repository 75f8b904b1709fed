(** The #[test] functions of src/lie/lie_basis/degree_range_map.rs:209-259, run in the model. *)
From Verif Require Import Machine M_DegreeRange.
Local Open Scope N_scope.

(** `Map::new(6)` and `m.get(d).unwrap()` *)
Definition m_get (d : N) : outcome N :=
  m <- drm_new dev 40 5 6 ;; match drm_get m d with inl v => Ret v | inr _ => Panic end.
Example test_degree_range_depth_0 : m_get 0 = Ret 0.
Proof. vm_compute. reflexivity. Qed.
Example test_degree_range_depth_1 : m_get 1 = Ret 5.
Proof. vm_compute. reflexivity. Qed.
Example test_degree_range_depth_2 : m_get 2 = Ret 15.
Proof. vm_compute. reflexivity. Qed.
Example test_degree_range_depth_3 : m_get 3 = Ret 55.
Proof. vm_compute. reflexivity. Qed.
Example test_degree_range_depth_4 : m_get 4 = Ret 205.
Proof. vm_compute. reflexivity. Qed.
Example test_degree_range_depth_5 : m_get 5 = Ret 829.
Proof. vm_compute. reflexivity. Qed.
