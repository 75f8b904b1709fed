(** Model of src/algebra/mod.rs and of the tensor product of
    src/free_tensor/implementation/dense.rs:60-92 and 258-420, for SimpleDenseVector over TensorBasis
    (the only type of the crate that satisfies the bounds of the impl at dense.rs:257-261).
    The closures `func` passed by the crate are pure; they are modelled as functions. *)
From Verif Require Import Machine M_Scalar M_Vector M_Dense M_TensorKey M_TensorBasis.

Section Algebra.
  Context {S R : Type} (so : scalar_ops S R) (p : profile) (n : N).
  Notation V := (dvec S).
  Notation degree := (dv_degree (tensor_basis p n)).

  (** dense.rs:64-79 dense_tensor_multiply_into_buffer.  The state is the buffer and the offset of out_ptr.
      Accessing *out_ptr beyond `out` is undefined: the pointer comes from the slice `out`. *)
  Definition multiply_into_buffer (out lhs rhs : list S) (func : S -> S) : outcome (list S) :=
    '(o, _) <- for_each lhs (fun st lhs_v =>
        for_each rhs (fun '(o, i) rhs_v =>
          match slice_get o i with
          | Some x => Ret (list_set o (N.to_nat i) (s_add so x (func (s_mul so lhs_v rhs_v))), i + 1)
          | None => UB
          end) st) (out, 0) ;;
    Ret o.
  (** dense.rs:81-92 dense_tensor_multiply_inplace *)
  Definition multiply_buffer_inplace (out rhs : list S) (func : S -> S) : list S :=
    map (fun x => fold_left (fun y rhs_v => func (s_mul so y rhs_v)) rhs x) out.

  (** dense.rs:285-287 and 341-343 `if self.degree() < max_deg { self.resize(...) }` *)
  Definition grow_to_degree (self : V) (max_deg : N) : outcome V :=
    d <- degree self ;;
    if d <? max_deg then
      m1 <- uadd 32 p max_deg 1 ;;
      size <- tb_start_of_degree p n m1 ;;
      dv_resize so self size
    else Ret self.
  (** dense.rs:280-283 and 336-339 `cmp::min(to_degree.expect(..), lhs_deg + rhs_deg)` *)
  Definition product_degree (lhs_deg rhs_deg : N) (to_degree : option N) : outcome N :=
    match to_degree with
    | None => Panic
    | Some t => s <- uadd 32 p lhs_deg rhs_deg ;; Ret (N.min t s)
    end.

  (** dense.rs:302-318 body of the inner loop *)
  Definition mul_add_body (lhs rhs : V) (func : S -> S) (out_deg : N) (self : V) (lhs_d : N) : outcome V :=
    let rhs_d := out_deg - lhs_d in   (* lhs_d <= lhs_deg_max <= out_deg *)
    let v := dv_as_mut self in
    '(oa, ob) <- tb_degree_range p n out_deg ;;
    out <- slice_unchecked (dv_elems v) oa ob ;;
    '(la, lb) <- tb_degree_range p n lhs_d ;;
    l <- slice_unchecked (dv_as_slice lhs) la lb ;;
    '(ra, rb) <- tb_degree_range p n rhs_d ;;
    r <- slice_unchecked (dv_as_slice rhs) ra rb ;;
    out' <- multiply_into_buffer out l r func ;;
    Ret (dv_write v (splice (dv_elems v) oa out')).
  (** dense.rs:264-320 multiply_and_add_into_impl *)
  Definition multiply_and_add_into_impl (self lhs rhs : V) (func : S -> S) (to_degree : option N)
    : outcome V :=
    lhs_deg <- degree lhs ;;
    rhs_deg <- degree rhs ;;
    max_deg <- product_degree lhs_deg rhs_deg to_degree ;;
    self1 <- grow_to_degree self max_deg ;;
    for_each (rev_range_incl 0 max_deg) (fun v out_deg =>
      let lhs_deg_min := if rhs_deg <? out_deg then out_deg - rhs_deg else 0 in
      let lhs_deg_max := N.min out_deg lhs_deg in
      for_each (rev_range_incl lhs_deg_min lhs_deg_max) (mul_add_body lhs rhs func out_deg) v) self1.

  (** `slice.split_at_mut(mid)` *)
  Definition split_at_mut (l : list S) (mid : N) : outcome (list S * list S) :=
    if mid <=? len l then Ret (firstn (N.to_nat mid) l, skipn (N.to_nat mid) l) else Panic.

  (** dense.rs:370-381 and 404-414: split self at start_of_degree(lhs_deg_max) into a and b, and multiply the
      range [lr] of a and the range [rr] of rhs into the range [or] of b *)
  Definition mul_split (rhs : V) (func : S -> S) (self : V) (lhs_deg_max : N)
      (lr rr or : N * N) : outcome V :=
    let v := dv_as_mut self in
    mid <- tb_start_of_degree p n lhs_deg_max ;;
    '(a, b) <- split_at_mut (dv_elems v) mid ;;
    out <- slice_unchecked b (fst or) (snd or) ;;
    l <- slice_unchecked a (fst lr) (snd lr) ;;
    r <- slice_unchecked (dv_as_slice rhs) (fst rr) (snd rr) ;;
    out' <- multiply_into_buffer out l r func ;;
    Ret (dv_write v (a ++ splice b (fst or) out')).
  (** dense.rs:394-415 body of the inner loop *)
  Definition mul_into_inner (rhs : V) (func : S -> S) (out_deg lhs_deg_max : N) (self : V) (lhs_d : N)
    : outcome V :=
    rhs_d <- usub 32 p out_deg lhs_d ;;
    rd <- usub 32 p out_deg lhs_d ;;
    rr <- tb_degree_range p n rd ;;
    or <- tb_degree_range p n rhs_d ;;
    lr <- tb_degree_range p n lhs_d ;;
    mul_split rhs func self lhs_deg_max lr rr or.
  (** dense.rs:351-417 body of the outer loop *)
  Definition mul_into_body (rhs : V) (func : S -> S) (lhs_deg rhs_deg offset : N) (assign : bool)
      (self : V) (out_deg : N) : outcome V :=
    lhs_deg_min <- usub 32 p out_deg rhs_deg ;;       (* cmp::max(0, _) is the identity on u32 *)
    oo <- usub 32 p out_deg offset ;;
    let lhs_deg_max := N.min oo lhs_deg in
    self1 <- (if assign then
                d <- usub 32 p out_deg lhs_deg_max ;;
                rr <- tb_degree_range p n d ;;
                or <- tb_degree_range p n out_deg ;;
                if offset =? 1 then
                  lr <- tb_degree_range p n lhs_deg_max ;;
                  mul_split rhs func self lhs_deg_max lr rr or
                else
                  let v := dv_as_mut self in
                  out <- slice_unchecked (dv_elems v) (fst or) (snd or) ;;
                  r <- slice_unchecked (dv_as_slice rhs) (fst rr) (snd rr) ;;
                  Ret (dv_write v (splice (dv_elems v) (fst or) (multiply_buffer_inplace out r func)))
              else Ret self) ;;
    last <- usub 32 p lhs_deg_max (if assign then 1 else 0) ;;
    for_each (rev_range_incl lhs_deg_min last) (mul_into_inner rhs func out_deg lhs_deg_max) self1.
  (** dense.rs:345-349 *)
  Definition offset_assign (rhs : V) : N * bool :=
    match slice_get (dv_as_slice rhs) 0 with
    | Some val => if s_eqb so val (s_zero so) then (1, true)
                  else if s_eqb so val (s_one so) then (1, false)
                  else (0, true)
    | None => (0, true)
    end.
  (** dense.rs:322-418 multiply_into_impl *)
  Definition multiply_into_impl (self rhs : V) (func : S -> S) (to_degree : option N) : outcome V :=
    lhs_deg <- degree self ;;
    rhs_deg <- degree rhs ;;
    max_deg <- product_degree lhs_deg rhs_deg to_degree ;;
    self1 <- grow_to_degree self max_deg ;;
    let '(offset, assign) := offset_assign rhs in
    for_each (rev_range_incl 1 max_deg) (mul_into_body rhs func lhs_deg rhs_deg offset assign) self1.

  (** algebra/mod.rs:31-40 multiply *)
  Definition alg_multiply (self rhs : V) (t : option N) : outcome V :=
    multiply_and_add_into_impl dv_new self rhs (fun v => v) t.
  (** algebra/mod.rs:42-50 multiply_inplace *)
  Definition alg_multiply_inplace (self rhs : V) (t : option N) : outcome V :=
    multiply_into_impl self rhs (fun v => v) t.
  (** algebra/mod.rs:52-66 add_mul *)
  Definition alg_add_mul (self lhs rhs : V) (t : option N) : outcome V :=
    multiply_and_add_into_impl self lhs rhs (fun v => v) t.
  (** algebra/mod.rs:68-81 sub_mul *)
  Definition alg_sub_mul (self lhs rhs : V) (t : option N) : outcome V :=
    multiply_and_add_into_impl self lhs rhs (s_uminus so) t.
  (** algebra/mod.rs:83-95 commutator *)
  Definition alg_commutator (self rhs : V) (t : option N) : outcome V :=
    a <- alg_add_mul dv_new self rhs t ;;
    alg_sub_mul a rhs self t.
  (** algebra/mod.rs:97-111 mul_scal_lprod *)
  Definition alg_mul_scal_lprod (self rhs : V) (sca : S) (t : option N) : outcome V :=
    multiply_into_impl self rhs (fun v => s_mul so sca v) t.
  (** algebra/mod.rs:113-127 mul_scal_rprod *)
  Definition alg_mul_scal_rprod (self rhs : V) (sca : S) (t : option N) : outcome V :=
    multiply_into_impl self rhs (fun v => s_mul so v sca) t.
  (** algebra/mod.rs:129-143 mul_rat_ldiv *)
  Definition alg_mul_rat_ldiv (self rhs : V) (sca : R) (t : option N) : outcome V :=
    multiply_into_impl self rhs (fun v => s_div so v sca) t.
  (** algebra/mod.rs:145-159 mul_rat_rdiv: takes a scalar and multiplies by it *)
  Definition alg_mul_rat_rdiv (self rhs : V) (sca : S) (t : option N) : outcome V :=
    multiply_into_impl self rhs (fun v => s_mul so v sca) t.
End Algebra.
