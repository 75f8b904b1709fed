(** Property theorems (generated by tools/gen_props.py from L_PropSparse.v, where the proofs are). *)
From Coq Require Import QArith Qcanon Permutation.
From stdpp Require Import gmap.
From Verif Require Import Machine M_Scalar M_Vector M_Dense S_Vector I_Scalars L_Ring L_Dense M_Sparse S_Sparse L_Sparse L_PropHistory.
From Verif Require Import L_PropSparse.
Local Open Scope N_scope.

(** * C40: Sparse vectors behave like maps *)
Theorem C40_constructors : forall (K : Type) (E : EqDecision K) (C : Countable K) (S R : Type) (so : scalar_ops S R)
    (iter : gmap K S -> list (K * S)) (items : list (K * S)) (k j : K) (v : S),
  let vo := sparse_ops so iter in
  vr_get vo (vr_new vo) j = Ret None
  /\ (exists x, vr_from_key_scalar vo k v = Ret x /\ vr_get vo x j = Ret (if decide (j = k) then Some v else None))
  /\ (exists x, vr_from_key vo k = Ret x /\ vr_get vo x j = Ret (if decide (j = k) then Some (s_one so) else None))
  /\ (exists x, vr_from_iterator vo items = Ret x /\ vr_get vo x j = Ret (last_value j items)).
Proof. exact c40_constructors. Qed.
Print Assumptions C40_constructors.
Theorem C40_updates : forall (K : Type) (E : EqDecision K) (C : Countable K) (S R : Type) (so : scalar_ops S R)
    (iter : gmap K S -> list (K * S)) (x : gmap K S) (k j : K) (v : S),
  let vo := sparse_ops so iter in
  (exists z, vr_insert_single vo x k v = Ret z
     /\ vr_get vo z j = if decide (j = k) then Ret (Some v) else vr_get vo x j)
  /\ (exists ref, vr_get_mut vo x k = Ret (x, ref)
     /\ match ref with
        | Some (a, write) => vr_get vo x k = Ret (Some a)
            /\ vr_get vo (write v) j = if decide (j = k) then Ret (Some v) else vr_get vo x j
        | None => vr_get vo x k = Ret None
        end)
  /\ (exists z, vr_clear vo x = Ret z /\ vr_get vo z j = Ret None).
Proof. exact c40_updates. Qed.
Print Assumptions C40_updates.
Theorem C40_iteration : forall (K : Type) (E : EqDecision K) (C : Countable K) (S R : Type) (so : scalar_ops S R)
    (iter : gmap K S -> list (K * S)) (x : gmap K S),
  any_order iter ->
  List.NoDup (map fst (sv_into_iter iter x))
  /\ forall k v, In (k, v) (sv_into_iter iter x) <-> vr_get (sparse_ops so iter) x k = Ret (Some v).
Proof. exact c40_iteration. Qed.
Print Assumptions C40_iteration.
Example C40_example : let vo := sparse_ops qc_ops (fun m : gmap N Qc => rev (map_to_list m)) in
  any_order (fun m : gmap N Qc => rev (map_to_list m))
  /\ (x <- vr_from_iterator vo [(3, q 1); (7, q 2); (3, q 5)] ;; y <- vr_insert_single vo x 9 (q 4) ;;
      a <- vr_get vo y 3 ;; b <- vr_get vo y 9 ;; c <- vr_get vo y 8 ;; Ret (a, b, c, length (sv_into_iter (fun m => rev (map_to_list m)) y)))
     = Ret (Some (q 5), Some (q 4), None, 3%nat).
Proof. exact c40_example. Qed.

(** * C41: Sparse addition and subtraction are coefficientwise and independent of hash order *)
Theorem C41_add_inplace : forall (K : Type) (E : EqDecision K) (C : Countable K) (S R : Type) (so : scalar_ops S R)
    (iter : gmap K S -> list (K * S)) (x y : gmap K S),
  any_order iter ->
  exists z, vr_add_inplace (sparse_ops so iter) x y = Ret z
    /\ forall k, z !! k = merged so (s_add so) (fun v => v) (x !! k) (y !! k).
Proof. exact c41_add_inplace. Qed.
Print Assumptions C41_add_inplace.
Theorem C41_sub_inplace : forall (K : Type) (E : EqDecision K) (C : Countable K) (S R : Type) (so : scalar_ops S R)
    (iter : gmap K S -> list (K * S)) (x y : gmap K S),
  any_order iter ->
  exists z, vr_sub_inplace (sparse_ops so iter) x y = Ret z
    /\ forall k, z !! k = merged so (s_sub so) (s_uminus so) (x !! k) (y !! k).
Proof. exact c41_sub_inplace. Qed.
Print Assumptions C41_sub_inplace.
Theorem C41_order_independent : forall (K : Type) (E : EqDecision K) (C : Countable K) (S R : Type) (so : scalar_ops S R)
    (iter iter' : gmap K S -> list (K * S)) (x y : gmap K S) (s : S) (r : R),
  any_order iter -> any_order iter' ->
  vr_add_inplace (sparse_ops so iter) x y = vr_add_inplace (sparse_ops so iter') x y
  /\ vr_sub_inplace (sparse_ops so iter) x y = vr_sub_inplace (sparse_ops so iter') x y
  /\ vr_uminus_inplace (sparse_ops so iter) x = vr_uminus_inplace (sparse_ops so iter') x
  /\ vr_scalar_lmultiply_inplace (sparse_ops so iter) x s = vr_scalar_lmultiply_inplace (sparse_ops so iter') x s
  /\ vr_scalar_rdivide_inplace (sparse_ops so iter) x r = vr_scalar_rdivide_inplace (sparse_ops so iter') x r
  /\ sv_eq so iter x y = sv_eq so iter' x y.
Proof. exact c41_order_independent. Qed.
Print Assumptions C41_order_independent.
Theorem C41_scaling : forall (K : Type) (E : EqDecision K) (C : Countable K) (S R : Type) (so : scalar_ops S R)
    (iter : gmap K S -> list (K * S)) (x : gmap K S) (s : S) (r : R),
  any_order iter ->
  exists a b c, vr_uminus_inplace (sparse_ops so iter) x = Ret a
    /\ vr_scalar_lmultiply_inplace (sparse_ops so iter) x s = Ret b
    /\ vd_scalar_rmultiply_inplace (sparse_ops so iter) x s = Ret b
    /\ vr_scalar_rdivide_inplace (sparse_ops so iter) x r = Ret c
    /\ vd_scalar_ldivide_inplace (sparse_ops so iter) x r = Ret c
    /\ forall k, a !! k = option_map (s_uminus so) (x !! k)
         /\ b !! k = (if s_eqb so s (s_zero so) then None else option_map (fun v => s_mul so v s) (x !! k))
         /\ c !! k = option_map (fun v => s_div so v r) (x !! k).
Proof. exact c41_scaling. Qed.
Print Assumptions C41_scaling.
Example C41_example :
  let iter := (fun m : gmap N Qc => rev (map_to_list m)) in let vo := sparse_ops qc_ops iter in
  any_order iter
  /\ (x <- vr_from_iterator vo [(1, q 1); (2, q 2)] ;; y <- vr_from_iterator vo [(2, q (-2)); (3, q 3)] ;;
      z <- vr_add_inplace vo x y ;; w <- vr_sub_inplace vo x y ;;
      Ret (map (fun k => option_map this (z !! k)) [1; 2; 3], map (fun k => option_map this (w !! k)) [1; 2; 3]))
     = Ret ([Some 1; None; Some 3]%Q, [Some 1; Some 4; Some (-3 # 1)]%Q).
Proof. exact c41_example. Qed.

(** * C42: Sparse arithmetic does not store ZERO coefficients *)
Theorem C42_invariant : forall (K : Type) (E : EqDecision K) (C : Countable K) (S R : Type) (so : scalar_ops S R)
    (x : gmap K S) (os : list (sop K S R)),
  field_laws so -> no_zero so x -> Forall (sop_ok so) os ->
  exists z, for_each os (scall so) x = Ret z /\ no_zero so z.
Proof. exact c42_invariant. Qed.
Print Assumptions C42_invariant.
Theorem C42_equality : forall (K : Type) (E : EqDecision K) (C : Countable K) (S R : Type) (so : scalar_ops S R)
    (iter : gmap K S -> list (K * S)) (x y : gmap K S),
  ring_laws so -> any_order iter -> no_zero so x -> no_zero so y ->
  (sv_eq so iter x y = true <-> forall k, sv_coef so x k = sv_coef so y k).
Proof. exact c42_equality. Qed.
Print Assumptions C42_equality.
Theorem C42_stored_zero : forall (K : Type) (E : EqDecision K) (C : Countable K) (S R : Type) (so : scalar_ops S R)
    (iter : gmap K S -> list (K * S)) (k : K),
  any_order iter ->
  exists x, vr_from_key_scalar (sparse_ops so iter) k (s_zero so) = Ret x
    /\ (forall j, sv_coef so x j = sv_coef so (vr_new (sparse_ops so iter)) j)
    /\ sv_eq so iter x (vr_new (sparse_ops so iter)) = false.
Proof. exact c42_stored_zero. Qed.
Print Assumptions C42_stored_zero.
Example C42_example : let iter := (fun m : gmap N Qc => map_to_list m) in
  let x : gmap N Qc := <[1 := q 2]> (<[2 := q 3]> ∅) in let y : gmap N Qc := <[2 := q 3]> ∅ in
  field_laws qc_ops /\ no_zero qc_ops x /\ no_zero qc_ops y /\ any_order iter
  /\ (z <- for_each [SSub iter y; SScale iter (q 5); SNeg iter; SDiv iter (q 2)] (scall qc_ops) x ;;
      Ret (map (fun e => (fst e, this (snd e))) (map_to_list z))) = Ret [(1, (-5 # 1)%Q)].
Proof. exact c42_example. Qed.

(** * C43: Every Vector operation is available on sparse vectors *)
Theorem C43_refuted : exists x y : gmap N Qc, forall iter, any_order iter ->
  vd_add (sparse_ops qc_ops iter) x y = Panic /\ vr_to_owned (sparse_ops qc_ops iter) x = Panic.
Proof. exact c43_refuted. Qed.
Print Assumptions C43_refuted.

(** * C67: Exactly which operations of sparse vectors are available *)
Theorem C67_panics : forall (K : Type) (E : EqDecision K) (C : Countable K) (S R : Type) (so : scalar_ops S R)
    (iter : gmap K S -> list (K * S)) (x y : gmap K S) (k : K) (items : list (K * S)) (s : S) (r : R),
  let vo := sparse_ops so iter in
  vr_swap vo x y = Panic /\ vr_to_owned vo x = Panic /\ vr_insert vo x items = Panic /\ vr_erase vo x k = Panic
  /\ vd_uminus vo x = Panic /\ vd_add vo x y = Panic /\ vd_sub vo x y = Panic
  /\ vd_scalar_lmultiply vo x s = Panic /\ vd_scalar_rmultiply vo x s = Panic
  /\ vd_scalar_ldivide vo x r = Panic /\ vd_scalar_rdivide vo x r = Panic
  /\ vd_add_scalar_lmultiply vo x y s = Panic /\ vd_add_scalar_rmultiply vo x y s = Panic
  /\ vd_sub_scalar_lmultiply vo x y s = Panic /\ vd_sub_scalar_rmultiply vo x y s = Panic
  /\ vd_add_scalar_ldivide vo x y r = Panic /\ vd_add_scalar_rdivide vo x y r = Panic
  /\ vd_sub_scalar_ldivide vo x y r = Panic /\ vd_sub_scalar_rdivide vo x y r = Panic.
Proof. exact c67_panics. Qed.
Print Assumptions C67_panics.
Theorem C67_returns : forall (K : Type) (E : EqDecision K) (C : Countable K) (S R : Type) (so : scalar_ops S R)
    (iter : gmap K S -> list (K * S)) (x y : gmap K S) (k : K) (items : list (K * S)) (s : S) (r : R),
  any_order iter ->
  let vo := sparse_ops so iter in
  returns (vr_from_key vo k) /\ returns (vr_from_key_scalar vo k s) /\ returns (vr_from_iterator vo items)
  /\ returns (vr_clear vo x) /\ returns (vr_get vo x k) /\ returns (vr_get_mut vo x k) /\ returns (vr_insert_single vo x k s)
  /\ returns (vr_uminus_inplace vo x) /\ returns (vr_add_inplace vo x y) /\ returns (vr_sub_inplace vo x y)
  /\ returns (vr_scalar_lmultiply_inplace vo x s) /\ returns (vd_scalar_rmultiply_inplace vo x s)
  /\ returns (vr_scalar_rdivide_inplace vo x r) /\ returns (vd_scalar_ldivide_inplace vo x r).
Proof. exact c67_returns. Qed.
Print Assumptions C67_returns.
Example C67_example : any_order (fun m : gmap N Qc => map_to_list m)
  /\ vd_add (sparse_ops qc_ops (fun m : gmap N Qc => map_to_list m)) ∅ ∅ = Panic
  /\ vr_add_inplace (sparse_ops qc_ops (fun m : gmap N Qc => map_to_list m)) ∅ ∅ = Ret ∅.
Proof. exact c67_example. Qed.

(** * C66: VectorKeyExt on sparse vectors *)
Theorem C66_key_ext : forall (K : Type) (E : EqDecision K) (C : Countable K) (S R : Type) (so : scalar_ops S R)
    (iter : gmap K S -> list (K * S)) (x : gmap K S) (k : K) (v : S) (r : R),
  let vo := sparse_ops so iter in
  let becomes m stored absent := exists z, m = Ret z /\ forall j, z !! j =
    if decide (j = k) then Some (match x !! k with Some c => stored c | None => absent end) else x !! j in
  becomes (ke_add_scalar_multiply so vo x k v) (fun c => s_add so c v) v
  /\ becomes (ke_sub_scalar_multiply so vo x k v) (fun c => s_sub so c v) (s_uminus so v)
  /\ becomes (ke_add_scalar_divide so vo x k r) (fun c => s_add so c (s_div so (s_one so) r)) (s_div so (s_one so) r)
  /\ becomes (ke_sub_scalar_divide so vo x k r) (fun c => s_sub so c (s_div so (s_mone so) r)) (s_div so (s_mone so) r).
Proof. exact c66_key_ext. Qed.
Print Assumptions C66_key_ext.
Theorem C66_coefficients : forall (K : Type) (E : EqDecision K) (C : Countable K) (S R : Type) (so : scalar_ops S R)
    (iter : gmap K S -> list (K * S)) (x : gmap K S) (k : K) (v : S) (r : R),
  field_laws so ->
  let vo := sparse_ops so iter in
  let changes m d := exists z, m = Ret z /\ forall j, sv_coef so z j =
    if decide (j = k) then s_add so (sv_coef so x k) d else sv_coef so x j in
  changes (ke_add_scalar_multiply so vo x k v) v
  /\ changes (ke_sub_scalar_multiply so vo x k v) (s_uminus so v)
  /\ changes (ke_add_scalar_divide so vo x k r) (s_inv so r)
  /\ changes (ke_sub_scalar_divide so vo x k r)
       (match x !! k with Some _ => s_inv so r | None => s_uminus so (s_inv so r) end).
Proof. exact c66_coefficients. Qed.
Print Assumptions C66_coefficients.
Example C66_example : let iter := (fun m : gmap N Qc => map_to_list m) in let vo := sparse_ops qc_ops iter in
  let x : gmap N Qc := <[1 := q 3]> ∅ in
  (a <- ke_sub_scalar_divide qc_ops vo x 1 (q 1) ;; b <- ke_sub_scalar_divide qc_ops vo x 2 (q 1) ;;
   Ret (this (sv_coef qc_ops a 1), this (sv_coef qc_ops b 2))) = Ret (4%Q, (-1 # 1)%Q).
Proof. exact c66_example. Qed.

(** * C44: Sparse and dense vectors agree *)
Theorem C44_arithmetic_partial : forall (K : Type) (E : EqDecision K) (C : Countable K) (S R : Type) (so : scalar_ops S R) (ob : obasis K)
    (ok : K -> Prop) (f : K -> N) (d : dvec S) (m : gmap K S) (os : list (vop K S R)) (os' : list (sop K S R)),
  field_laws so -> dv_wf d -> agree so ok f d m -> Forall2 (same_op so ok f) os os' ->
  exists d' m', calls so ob d os = Ret d' /\ for_each os' (scall so) m = Ret m' /\ agree so ok f d' m'.
Proof. exact c44_arithmetic_partial. Qed.
Print Assumptions C44_arithmetic_partial.
Theorem C44_constructors_partial : forall (K : Type) (E : EqDecision K) (C : Countable K) (S R : Type) (so : scalar_ops S R) (ob : obasis K)
    (ok : K -> Prop) (f : K -> N) (iter : gmap K S -> list (K * S)) (items : list (K * S)) (k : K) (s : S),
  ring_laws so -> good_basis ob ok f -> ok k -> Forall (fun e => ok (fst e)) items -> List.NoDup (map fst items) ->
  (exists d m, vr_from_key_scalar (dense_ops so ob) k s = Ret d /\ vr_from_key_scalar (sparse_ops so iter) k s = Ret m
     /\ agree so ok f d m)
  /\ (exists d m, vr_from_iterator (dense_ops so ob) items = Ret d /\ vr_from_iterator (sparse_ops so iter) items = Ret m
     /\ agree so ok f d m).
Proof. exact c44_constructors_partial. Qed.
Print Assumptions C44_constructors_partial.
Theorem C44_from_iterator_refuted : exists (ob : obasis N) (k : N) (d : dvec Qc) (m : gmap N Qc),
  good_basis ob (fun _ => True) (fun k => k)
  /\ vr_from_iterator (dense_ops qc_ops ob) [(k, q 1); (k, q 1)] = Ret d
  /\ (forall iter, vr_from_iterator (sparse_ops qc_ops iter) [(k, q 1); (k, q 1)] = Ret m)
  /\ coef qc_ops d k <> sv_coef qc_ops m k.
Proof. exact c44_from_iterator_refuted. Qed.
Print Assumptions C44_from_iterator_refuted.
Theorem C44_insert_single_refuted : exists (ob : obasis N) (k : N) (d d' : dvec Qc) (m m' : gmap N Qc),
  good_basis ob (fun _ => True) (fun k => k) /\ agree qc_ops (fun _ => True) (fun k => k) d m
  /\ vr_insert_single (dense_ops qc_ops ob) d k (q 5) = Ret d'
  /\ (forall iter, vr_insert_single (sparse_ops qc_ops iter) m k (q 5) = Ret m')
  /\ coef qc_ops d' k <> sv_coef qc_ops m' k.
Proof. exact c44_insert_single_refuted. Qed.
Print Assumptions C44_insert_single_refuted.
Example C44_example : let iter := (fun m : gmap N Qc => map_to_list m) in
  let items := [(3, q 1); (1, q 2)] in
  field_laws qc_ops /\ good_basis nat_basis (fun _ => True) (fun k => k) /\ List.NoDup (map fst items)
  /\ (d <- vr_from_iterator (dense_ops qc_ops nat_basis) items ;; m <- vr_from_iterator (sparse_ops qc_ops iter) items ;;
      d' <- calls qc_ops nat_basis d [OLmul (q 2); OSub d] ;; m' <- for_each [SScale iter (q 2); SSub iter m] (scall qc_ops) m ;;
      Ret (vals d', map (fun k => this (sv_coef qc_ops m' k)) [0; 1; 2; 3])) = Ret (qz [0; 2; 0; 1]%Z, qz [0; 2; 0; 1]%Z).
Proof. exact c44_example. Qed.
