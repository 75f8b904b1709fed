(** Property theorems (generated by tools/gen_props.py from L_PropSlices.v, where the proofs are). *)
From Coq Require Import QArith Qcanon.
From Verif Require Import Machine MachineLemmas S_Words L_Words M_TensorKey L_TensorKey M_TensorBasis
  L_TensorBasis M_Scalar M_Vector M_Dense M_Slices S_Slices S_Vector S_Tensor I_Scalars L_Dense L_PropKey L_Algebra
  L_Inplace L_PropSafe.
From Verif Require Import L_PropSlices.
Local Open Scope N_scope.

(** * C87: get_slice reads exactly the named positions *)
Theorem C87_get : forall (S : Type) (v : dvec S) (ix : slice_index), dv_size v < 2 ^ 64 ->
  (fits (dv_size v) ix -> exists s, dv_get_slice v ix = Some s
     /\ (forall j, names ix (first_of ix + j) -> slice_get s j = slice_get (dv_as_slice v) (first_of ix + j))
     /\ (forall j, ~ names ix (first_of ix + j) -> slice_get s j = None))
  /\ (~ fits (dv_size v) ix -> dv_get_slice v ix = None).
Proof. exact c87_get. Qed.
Print Assumptions C87_get.
Theorem C87_degree : forall (S R : Type) (so : scalar_ops S R) (p : profile) (n d a b : N) (v : dvec S),
  2 <= n < 2 ^ 32 -> n ^ (d + 1) < 2 ^ 64 ->
  tb_start_of_degree p n d = Ret a -> tb_start_of_degree p n (d + 1) = Ret b ->
  (stored_to n v d -> exists s, dv_get_slice v (IRange a b) = Some s /\ len s = n ^ d
     /\ forall w k, word_ok n w -> len w = d -> tk_from_letters p n w = Ret k ->
          exists i, tb_key_to_index p n k = Ret (a + i) /\ i < n ^ d
            /\ vr_get (dense_ops so (tensor_basis p n)) v k = Ret (slice_get s i))
  /\ (~ stored_to n v d -> dv_get_slice v (IRange a b) = None).
Proof. exact c87_degree. Qed.
Print Assumptions C87_degree.
Example C87_example :
  let v := dv_from (map q [1; 2; 3; 4; 5; 6; 7; 8]%Z) in
  dv_get_slice v (IRange 1 3) = Some [q 2; q 3] /\ dv_get_slice v (IIncl 3 6) = Some (map q [4; 5; 6; 7]%Z)
  /\ dv_get_slice v (IRange 3 2) = None /\ dv_get_slice v (IIncl 3 2) = Some [] /\ dv_get_slice v (IRange 8 8) = Some []
  /\ dv_get_slice v (IFrom 9) = None /\ dv_get_slice v (IAt 7) = Some [q 8]
  /\ (a <- tb_start_of_degree dev 2 2 ;; b <- tb_start_of_degree dev 2 3 ;; Ret (dv_get_slice v (IRange a b)))
     = Ret (Some (map q [4; 5; 6; 7]%Z))
  /\ (a <- tb_start_of_degree dev 2 3 ;; b <- tb_start_of_degree dev 2 4 ;; Ret (dv_get_slice v (IRange a b))) = Ret None.
Proof. exact c87_example. Qed.

(** * C88: get_mut_slice: copy on write and writes through *)
Theorem C88_access : forall (S : Type) (v z : dvec S) (ix : slice_index) r, dv_size v < 2 ^ 64 ->
  dv_get_mut_slice v ix = (z, r) ->
  dv_elems z = dv_elems v /\ dv_lender z = dv_lender v
  /\ dv_kind z = match dv_kind v with Borrowed => Owned | kd => kd end
  /\ ((exists s f, r = Some (s, f)) <-> fits (dv_size v) ix)
  /\ option_map fst r = dv_get_slice v ix.
Proof. exact c88_access. Qed.
Print Assumptions C88_access.
Theorem C88_write : forall (S : Type) (v z : dvec S) (ix : slice_index) (s s' : list S) f, dv_size v < 2 ^ 64 ->
  dv_get_mut_slice v ix = (z, Some (s, f)) -> length s' = length s ->
  dv_size (f s') = dv_size v /\ dv_kind (f s') = dv_kind z
  /\ dv_lender (f s') = match dv_kind v with BorrowedMut => dv_elems (f s') | _ => dv_lender v end
  /\ (forall i, first_of ix <= i -> names ix i -> i < dv_size v ->
        slice_get (dv_elems (f s')) i = slice_get s' (i - first_of ix))
  /\ (forall i, i < first_of ix \/ ~ names ix i -> slice_get (dv_elems (f s')) i = slice_get (dv_elems v) i)
  /\ dv_elems (f s) = dv_elems v.
Proof. exact c88_write. Qed.
Print Assumptions C88_write.
Example C88_example :
  (let '(z, r) := dv_get_mut_slice (dv_borrow_mut (map q [1; 2; 3; 4]%Z)) (IRange 1 3) in
   option_map (fun '(s, f) => (s, f [q 8; q 9])) r)
  = Some ([q 2; q 3], mk_dvec BorrowedMut (map q [1; 8; 9; 4]%Z) (map q [1; 8; 9; 4]%Z))
  /\ (let '(z, r) := dv_get_mut_slice (dv_borrow (map q [1; 2; 3; 4]%Z)) (IIncl 2 3) in
      option_map (fun '(s, f) => (s, f [q 8; q 9])) r)
     = Some ([q 3; q 4], mk_dvec Owned (map q [1; 2; 8; 9]%Z) (map q [1; 2; 3; 4]%Z))
  /\ (let '(z, r) := dv_get_mut_slice (dv_borrow (map q [1; 2; 3; 4]%Z)) (IFrom 5) in (dv_kind z, r)) = (Owned, None).
Proof. exact c88_example. Qed.

(** * C89: from_degree of a dense tensor *)
Theorem C89_from_degree : forall (S R : Type) (so : scalar_ops S R) (p : profile) (n d : N),
  2 <= n < 2 ^ 32 -> n ^ d < 2 ^ 64 ->
  exists v, dv_from_degree so (tensor_basis p n) d = Ret v
    /\ dv_kind v = Owned
    /\ dv_degree (tensor_basis p n) v = Ret (d - 1)
    /\ forall w k, word_ok n w -> tk_from_letters p n w = Ret k ->
         vr_get (dense_ops so (tensor_basis p n)) v k = Ret (if len w <? d then Some (s_zero so) else None).
Proof. exact c89_from_degree. Qed.
Print Assumptions C89_from_degree.
Example C89_example : (v <- dv_from_degree qc_ops (tensor_basis dev 3) 2 ;; Ret (dv_elems v)) = Ret (repeat (q 0) 4).
Proof. exact c89_example. Qed.
