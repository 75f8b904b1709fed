(** Property theorems (generated by tools/gen_props.py from L_PropDense.v, where the proofs are). *)
From Coq Require Import QArith Qcanon.
From Verif Require Import Machine MachineLemmas S_Words L_Words M_TensorKey L_TensorKey M_TensorBasis
  L_TensorBasis M_Scalar M_Vector M_Dense M_Deref S_Vector I_Scalars L_Dense L_PropKey.
From Verif Require Import L_PropDense.
Local Open Scope N_scope.

(** * C16: from_key and from_key_scalar build the expected single-term dense vector *)
Theorem C16_from_key_scalar : forall (S R : Type) (so : scalar_ops S R) (p : profile) (n : N) (w : word)
    (k : tkey) (s : S),
  2 <= n < 2 ^ 32 -> word_ok n w -> tk_from_letters p n w = Ret k -> n ^ (len w + 1) < 2 ^ 64 ->
  exists v, vr_from_key_scalar (dense_ops so (tensor_basis p n)) k s = Ret v
    /\ ob_dim_for_key (tensor_basis p n) k = Ret (dv_size v)
    /\ forall w' k', word_ok n w' -> tk_from_letters p n w' = Ret k' ->
         vr_get (dense_ops so (tensor_basis p n)) v k'
         = Ret (if word_eqb w' w then Some s
                else if len w' <=? len w then Some (s_zero so) else None).
Proof. exact c16_from_key_scalar. Qed.
Print Assumptions C16_from_key_scalar.
Theorem C16_from_key : forall (S R : Type) (so : scalar_ops S R) (p : profile) (n : N) (k : tkey),
  vr_from_key (dense_ops so (tensor_basis p n)) k
  = vr_from_key_scalar (dense_ops so (tensor_basis p n)) k (s_one so).
Proof. exact c16_from_key. Qed.
Print Assumptions C16_from_key.
Theorem C16_overflow_panics : forall (S R : Type) (so : scalar_ops S R) (p : profile) (n : N) (w : word)
    (k : tkey) (s : S),
  overflow_checks p = true -> 2 <= n < 2 ^ 32 -> word_ok n w -> tk_from_letters p n w = Ret k ->
  2 ^ 64 <= n ^ (len w + 1) ->
  vr_from_key_scalar (dense_ops so (tensor_basis p n)) k s = Panic.
Proof. exact c16_overflow_panics. Qed.
Print Assumptions C16_overflow_panics.
Example C16_example :
  (v <- (k <- tk_from_letters dev 2 [2] ;; vr_from_key_scalar (dense_ops qc_ops (tensor_basis dev 2)) k (q 7)) ;;
   Ret (vals v)) = Ret (qz [0; 0; 7]%Z).
Proof. exact c16_example. Qed.

(** * C17: Dense from_iterator sums repeated keys in the order given *)
Theorem C17_from_iterator : forall (S R : Type) (so : scalar_ops S R) (p : profile) (n : N)
    (items : list (word * S)) (kitems : list (tkey * S)),
  2 <= n < 2 ^ 32 ->
  Forall2 (fun a b => word_ok n (fst a) /\ n ^ (len (fst a) + 1) < 2 ^ 64
                      /\ tk_from_letters p n (fst a) = Ret (fst b) /\ snd a = snd b) items kitems ->
  exists v, vr_from_iterator (dense_ops so (tensor_basis p n)) kitems = Ret v
    /\ (items = [] -> v = vr_new (dense_ops so (tensor_basis p n)))
    /\ forall w k, word_ok n w -> tk_from_letters p n w = Ret k ->
         vr_get (dense_ops so (tensor_basis p n)) v k
         = Ret (if existsb (fun e => len w <=? len (fst e)) items
                then Some (sum_from_zero so (given (word_eqb w) items)) else None).
Proof. exact c17_from_iterator. Qed.
Print Assumptions C17_from_iterator.
Example C17_example :
  let key l := match tk_from_letters dev 2 l with Ret k => k | _ => tk_new end in
  (v <- vr_from_iterator (dense_ops qc_ops (tensor_basis dev 2))
          [(key [2], q 5); (key [], q 1); (key [2], q 2); (key [1], q 3)] ;; Ret (vals v))
  = Ret (qz [1; 3; 7]%Z).
Proof. exact c17_example. Qed.

(** * C18: Dense addition and subtraction are coefficientwise whatever the sizes *)
Theorem C18_add_inplace : forall (S R K : Type) (so : scalar_ops S R) (ob : obasis K) (x y : dvec S),
  exists z, vr_add_inplace (dense_ops so ob) x y = Ret z
    /\ dv_size z = N.max (dv_size x) (dv_size y)
    /\ forall i, slice_get (dv_as_slice z) i
         = combine so (s_add so) (slice_get (dv_as_slice x) i) (slice_get (dv_as_slice y) i).
Proof. exact c18_add_inplace. Qed.
Print Assumptions C18_add_inplace.
Theorem C18_sub_inplace : forall (S R K : Type) (so : scalar_ops S R) (ob : obasis K) (x y : dvec S),
  exists z, vr_sub_inplace (dense_ops so ob) x y = Ret z
    /\ dv_size z = N.max (dv_size x) (dv_size y)
    /\ forall i, slice_get (dv_as_slice z) i
         = combine so (s_sub so) (slice_get (dv_as_slice x) i) (slice_get (dv_as_slice y) i).
Proof. exact c18_sub_inplace. Qed.
Print Assumptions C18_sub_inplace.
Theorem C18_add_sub : forall (S R K : Type) (so : scalar_ops S R) (ob : obasis K) (x y : dvec S),
  exists a b, vd_add (dense_ops so ob) x y = Ret a /\ vd_sub (dense_ops so ob) x y = Ret b
    /\ dv_kind a = Owned /\ dv_kind b = Owned
    /\ dv_size a = N.max (dv_size x) (dv_size y) /\ dv_size b = N.max (dv_size x) (dv_size y)
    /\ (forall i, slice_get (dv_as_slice a) i
         = combine so (s_add so) (slice_get (dv_as_slice x) i) (slice_get (dv_as_slice y) i))
    /\ (forall i, slice_get (dv_as_slice b) i
         = combine so (s_sub so) (slice_get (dv_as_slice x) i) (slice_get (dv_as_slice y) i)).
Proof. exact c18_add_sub. Qed.
Print Assumptions C18_add_sub.
Example C18_example :
  let ob := tensor_basis dev 2 in
  (z <- vr_sub_inplace (dense_ops qc_ops ob) (dv_from [q 1]) (dv_borrow [q 3; q 4; q 5]) ;; Ret (vals z))
    = Ret (qz [(-2); (-4); (-5)]%Z)
  /\ (z <- vd_add (dense_ops qc_ops ob) (dv_borrow_mut [q 3; q 4; q 5]) (dv_from [q 1]) ;; Ret (vals z))
    = Ret (qz [4; 4; 5]%Z).
Proof. exact c18_example. Qed.

(** * C19: Dense negation, scalar multiplication and scalar division are coefficientwise *)
Theorem C19_inplace : forall (S R K : Type) (so : scalar_ops S R) (ob : obasis K) (x : dvec S) (s : S) (r : R),
  exists a b c, vr_uminus_inplace (dense_ops so ob) x = Ret a
    /\ vr_scalar_lmultiply_inplace (dense_ops so ob) x s = Ret b
    /\ vd_scalar_rmultiply_inplace (dense_ops so ob) x s = Ret b
    /\ vr_scalar_rdivide_inplace (dense_ops so ob) x r = Ret c
    /\ vd_scalar_ldivide_inplace (dense_ops so ob) x r = Ret c
    /\ dv_size a = dv_size x /\ dv_size b = dv_size x /\ dv_size c = dv_size x
    /\ forall i, i < dv_size x ->
         coef so a i = s_uminus so (coef so x i)
         /\ coef so b i = s_mul so (coef so x i) s
         /\ coef so c i = s_div so (coef so x i) r.
Proof. exact c19_inplace. Qed.
Print Assumptions C19_inplace.
Theorem C19_owned : forall (S R K : Type) (so : scalar_ops S R) (ob : obasis K) (x : dvec S) (s : S) (r : R),
  exists a b c, vd_uminus (dense_ops so ob) x = Ret a
    /\ vd_scalar_lmultiply (dense_ops so ob) x s = Ret b
    /\ vd_scalar_rmultiply (dense_ops so ob) x s = Ret b
    /\ vd_scalar_rdivide (dense_ops so ob) x r = Ret c
    /\ vd_scalar_ldivide (dense_ops so ob) x r = Ret c
    /\ dv_kind a = Owned /\ dv_kind b = Owned /\ dv_kind c = Owned
    /\ dv_size a = dv_size x /\ dv_size b = dv_size x /\ dv_size c = dv_size x
    /\ forall i, i < dv_size x ->
         coef so a i = s_uminus so (coef so x i)
         /\ coef so b i = s_mul so (coef so x i) s
         /\ coef so c i = s_div so (coef so x i) r.
Proof. exact c19_owned. Qed.
Print Assumptions C19_owned.
Example C19_example :
  let vo := dense_ops qc_ops (tensor_basis dev 2) in
  (a <- vd_uminus vo (dv_borrow [q 1; q 2]) ;; b <- vd_scalar_rmultiply vo a (q 6) ;;
   c <- vd_scalar_ldivide vo b (q 3) ;; Ret (vals a, vals b, vals c))
  = Ret (qz [(-1); (-2)]%Z, qz [(-6); (-12)]%Z, qz [(-2); (-4)]%Z).
Proof. exact c19_example. Qed.

(** * C20: Fused multiply-add/divide-add equal their two-step forms *)
Theorem C20_fused : forall (S R K : Type) (so : scalar_ops S R) (ob : obasis K) (x y : dvec S) (s : S) (r : R),
  let vo := dense_ops so ob in
  let is_sum op f z := dv_size z = N.max (dv_size x) (dv_size y) /\
    forall i, slice_get (dv_as_slice z) i
      = combine so op (slice_get (dv_as_slice x) i) (option_map f (slice_get (dv_as_slice y) i)) in
  exists am sm ad sd,
    vd_add_scalar_rmultiply vo x y s = Ret am /\ vd_add_scalar_lmultiply vo x y s = Ret am
    /\ vd_sub_scalar_rmultiply vo x y s = Ret sm /\ vd_sub_scalar_lmultiply vo x y s = Ret sm
    /\ vd_add_scalar_rdivide vo x y r = Ret ad /\ vd_add_scalar_ldivide vo x y r = Ret ad
    /\ vd_sub_scalar_rdivide vo x y r = Ret sd /\ vd_sub_scalar_ldivide vo x y r = Ret sd
    /\ is_sum (s_add so) (fun c => s_mul so c s) am
    /\ is_sum (s_sub so) (fun c => s_mul so c s) sm
    /\ is_sum (s_add so) (fun c => s_div so c r) ad
    /\ is_sum (s_sub so) (fun c => s_div so c r) sd.
Proof. exact c20_fused. Qed.
Print Assumptions C20_fused.
Example C20_example :
  let vo := dense_ops qc_ops (tensor_basis dev 2) in
  (z <- vd_sub_scalar_ldivide vo (dv_from [q 1]) (dv_from [q 4; q 6]) (q 2) ;; Ret (vals z))
  = Ret (qz [(-1); (-3)]%Z).
Proof. exact c20_example. Qed.

(** * C21: erase, clear, swap and to_owned behave like on a map *)
Theorem C21_erase : forall (S R K : Type) (so : scalar_ops S R) (ob : obasis K) (x : dvec S) (k : K) (i : N),
  ob_key_to_index ob k = Ret i ->
  exists z, vr_erase (dense_ops so ob) x k = Ret z /\ dv_size z = dv_size x
    /\ forall j, slice_get (dv_as_slice z) j
         = (if (j =? i) && (i <? dv_size x) then Some (s_zero so) else slice_get (dv_as_slice x) j).
Proof. exact c21_erase. Qed.
Print Assumptions C21_erase.
Theorem C21_clear : forall (S R K : Type) (so : scalar_ops S R) (ob : obasis K) (x : dvec S),
  exists z, vr_clear (dense_ops so ob) x = Ret z /\ dv_size z <= dv_size x
    /\ (dv_kind x <> BorrowedMut -> dv_size z = 0) /\ forall j, coef so z j = s_zero so.
Proof. exact c21_clear. Qed.
Print Assumptions C21_clear.
Theorem C21_swap_owned : forall (S R K : Type) (so : scalar_ops S R) (ob : obasis K) (x y : dvec S),
  vr_swap (dense_ops so ob) x y = Ret (y, x)
  /\ exists z, vr_to_owned (dense_ops so ob) x = Ret z /\ dv_clone x = z
       /\ dv_kind z = Owned /\ dv_as_slice z = dv_as_slice x.
Proof. exact c21_swap_owned. Qed.
Print Assumptions C21_swap_owned.
Theorem C21_as_read : forall (S R K : Type) (so : scalar_ops S R) (ob : obasis K) (x : dvec S) (k k' : K) (i i' : N) (s : S),
  ob_key_to_index ob k = Ret i -> ob_key_to_index ob k' = Ret i' ->
  let vo := dense_ops so ob in
  vr_get vo x k' = Ret (if i' <? dv_size x then Some (coef so x i') else None)
  /\ (exists z, vr_erase vo x k = Ret z
       /\ vr_get vo z k' = if (i' =? i) && (i <? dv_size x) then Ret (Some (s_zero so)) else vr_get vo x k')
  /\ (exists z, vr_clear vo x = Ret z /\ (vr_get vo z k' = Ret None \/ vr_get vo z k' = Ret (Some (s_zero so))))
  /\ (exists z, vr_to_owned vo x = Ret z /\ vr_get vo z k' = vr_get vo x k')
  /\ (exists z ref, vr_get_mut vo x k = Ret (z, ref) /\ vr_get vo z k' = vr_get vo x k'
       /\ match ref with
          | Some (a, write) => vr_get vo x k = Ret (Some a)
              /\ vr_get vo (write s) k' = if i' =? i then Ret (Some s) else vr_get vo x k'
          | None => vr_get vo x k = Ret None
          end).
Proof. exact c21_as_read. Qed.
Print Assumptions C21_as_read.
Example C21_example :
  let vo := dense_ops qc_ops (tensor_basis dev 2) in
  (k <- tk_from_letter dev 2 ;; z <- vr_erase vo (dv_borrow [q 1; q 2; q 3]) k ;; c <- vr_clear vo z ;;
   d <- vr_clear vo (dv_borrow_mut [q 1; q 2]) ;; Ret (dv_kind z, vals z, map this (dv_lender z), vals c, vals d))
  = Ret (Owned, qz [1; 2; 0]%Z, qz [1; 2; 3]%Z, [], qz [0; 0]%Z).
Proof. exact c21_example. Qed.

(** * C22: Inserting a coefficient makes it readable *)
Theorem C22_insert_single_refuted : exists (p : profile) (n : N) (x : dvec Qc) (k : tkey) (v : Qc) (z : dvec Qc),
  vr_insert_single (dense_ops qc_ops (tensor_basis p n)) x k v = Ret z
  /\ vr_get (dense_ops qc_ops (tensor_basis p n)) z k <> Ret (Some v).
Proof. exact c22_insert_single_refuted. Qed.
Print Assumptions C22_insert_single_refuted.
Theorem C22_insert_exact : forall (S R K : Type) (so : scalar_ops S R) (ob : obasis K) (x : dvec S) (k : K) (i : N)
    (v : S) (items : list (K * S)),
  ob_key_to_index ob k = Ret i ->
  vr_insert_single (dense_ops so ob) x k v = Ret x /\ vr_insert (dense_ops so ob) x items = Panic.
Proof. exact c22_insert_exact. Qed.
Print Assumptions C22_insert_exact.
Example C22_example : ob_key_to_index (tensor_basis dev 2) (mk_tkey 2 3) = Ret 6.
Proof. exact c22_example. Qed.

(** * C23: VectorKeyExt adds or subtracts a multiple of a basis element *)
Theorem C23_key_ext_refuted : exists (p : profile) (n : N) (x z1 z2 : dvec Qc) (k : tkey) (v : Qc) (i : N),
  ob_key_to_index (tensor_basis p n) k = Ret i
  /\ ke_add_scalar_multiply qc_ops (dense_ops qc_ops (tensor_basis p n)) dv_new k v = Ret z1
  /\ coef qc_ops z1 i <> Qcplus (coef qc_ops (@dv_new Qc) i) v
  /\ ke_sub_scalar_divide qc_ops (dense_ops qc_ops (tensor_basis p n)) x k v = Ret z2
  /\ coef qc_ops z2 i <> Qcminus (coef qc_ops x i) (Qcdiv 1 v).
Proof. exact c23_key_ext_refuted. Qed.
Print Assumptions C23_key_ext_refuted.
Theorem C23_key_ext_exact : forall (S R K : Type) (so : scalar_ops S R) (ob : obasis K) (x : dvec S) (k : K)
    (i : N) (v : S) (r : R),
  ob_key_to_index ob k = Ret i ->
  let vo := dense_ops so ob in
  let becomes m f := exists z, m = Ret z /\ dv_size z = dv_size x /\
    forall j, slice_get (dv_as_slice z) j
      = (if j =? i then option_map f (slice_get (dv_as_slice x) i) else slice_get (dv_as_slice x) j) in
  becomes (ke_add_scalar_multiply so vo x k v) (fun c => s_add so c v)
  /\ becomes (ke_sub_scalar_multiply so vo x k v) (fun c => s_sub so c v)
  /\ becomes (ke_add_scalar_divide so vo x k r) (fun c => s_add so c (s_div so (s_one so) r))
  /\ becomes (ke_sub_scalar_divide so vo x k r) (fun c => s_sub so c (s_div so (s_mone so) r)).
Proof. exact c23_key_ext_exact. Qed.
Print Assumptions C23_key_ext_exact.
Theorem C23_key_ext_partial : forall (S R K : Type) (so : scalar_ops S R) (ob : obasis K) (x : dvec S) (k : K)
    (i : N) (v : S) (r : R),
  field_laws so -> ob_key_to_index ob k = Ret i -> i < dv_size x ->
  let vo := dense_ops so ob in
  let changes m d := exists z, m = Ret z /\ dv_size z = dv_size x /\
    (forall j, coef so z j = if j =? i then s_add so (coef so x i) d else coef so x j) in
  changes (ke_add_scalar_multiply so vo x k v) v
  /\ changes (ke_sub_scalar_multiply so vo x k v) (s_uminus so v)
  /\ changes (ke_add_scalar_divide so vo x k r) (s_inv so r)
  /\ changes (ke_sub_scalar_divide so vo x k r) (s_inv so r).
Proof. exact c23_key_ext_partial. Qed.
Print Assumptions C23_key_ext_partial.
Example C23_example : field_laws qc_ops /\ ob_key_to_index (tensor_basis dev 2) (mk_tkey 1 1) = Ret 2
  /\ (z <- ke_sub_scalar_divide qc_ops (dense_ops qc_ops (tensor_basis dev 2))
             (dv_from [q 1; q 2; q 3]) (mk_tkey 1 1) (Qcinv (q 4)) ;; Ret (vals z)) = Ret (qz [1; 2; 7]%Z).
Proof. exact c23_example. Qed.

(** * C24: Equality of dense vectors is equality of coefficients *)
Theorem C24_equality_refuted : exists x y : dvec Qc,
  (forall i, coef qc_ops x i = coef qc_ops y i) /\ dv_eq qc_ops x y = false.
Proof. exact c24_equality_refuted. Qed.
Print Assumptions C24_equality_refuted.
Theorem C24_equality_exact : forall (S R : Type) (so : scalar_ops S R) (x y : dvec S),
  dv_eq so x y = true <->
  dv_size x = dv_size y /\ forall i, i < dv_size x -> s_eqb so (coef so x i) (coef so y i) = true.
Proof. exact c24_equality_exact. Qed.
Print Assumptions C24_equality_exact.
Theorem C24_same_size_partial : forall (S R : Type) (so : scalar_ops S R) (x y : dvec S),
  ring_laws so -> dv_size x = dv_size y ->
  (dv_eq so x y = true <-> forall i, coef so x i = coef so y i).
Proof. exact c24_same_size_partial. Qed.
Print Assumptions C24_same_size_partial.
Example C24_example : ring_laws qc_ops /\ dv_size (dv_from [q 1; q 2]) = dv_size (dv_borrow [q 1; q 2])
  /\ dv_eq qc_ops (dv_from [q 1; q 2]) (dv_borrow [q 1; q 2]) = true
  /\ (z <- vd_sub (dense_ops qc_ops (tensor_basis dev 2)) (dv_from [q 1]) (dv_from [q 1]) ;; Ret (dv_eq qc_ops z dv_new))
     = Ret false.
Proof. exact c24_example. Qed.
