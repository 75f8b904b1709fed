(** The tensor products of src/free_tensor/implementation/dense.rs once more, for closures `func: impl FnMut(&S) -> S`
    of every kind: closures with a state, and closures that panic.  What a panic leaves in self is kept, since the
    caller that catches it sees it.  (M_Algebra.v has the same functions for pure closures, which are the only ones
    the crate passes; C90 and C91 say that it is this model with such closures.) *)
From Verif Require Import Machine M_Scalar M_Vector M_Dense M_TensorKey M_TensorBasis M_Algebra.

(** a computation on a state: finished, or panicked and left the state so, or undefined, or running forever *)
Inductive res (X : Type) := Done (x : X) | Thrown (x : X) | Undefined | Endless.
Arguments Done {X}. Arguments Thrown {X}. Arguments Undefined {X}. Arguments Endless {X}.

(** evaluate [m], which does not touch the state [x], then go on *)
Definition eval {A X} (m : outcome A) (x : X) (k : A -> res X) : res X :=
  match m with Ret a => k a | Panic => Thrown x | UB => Undefined | Diverge => Endless end.
(** `for a in xs { body }` *)
Fixpoint loop {A X} (xs : list A) (body : X -> A -> res X) (x : X) : res X :=
  match xs with
  | [] => Done x
  | a :: xs' => match body x a with Done x' => loop xs' body x' | r => r end
  end.

Section AlgebraFn.
  Context {S R St : Type} (so : scalar_ops S R) (p : profile) (n : N).
  (** `func`: from its state and the argument to its new state and the result, None if it panics *)
  Context (func : St -> S -> St * option S).
  Notation V := (dvec S).
  Notation degree := (dv_degree (tensor_basis p n)).

  (** dense.rs:64-79 dense_tensor_multiply_into_buffer *)
  Definition multiply_into_buffer_fn (out lhs rhs : list S) (st : St) : res (list S * St) :=
    match loop lhs (fun x lhs_v => loop rhs (fun '(o, i, st) rhs_v =>
              match slice_get o i with   (* `&mut *out_ptr` is evaluated before func is called *)
              | None => Undefined
              | Some y => let '(st', r) := func st (s_mul so lhs_v rhs_v) in
                          match r with
                          | None => Thrown (o, i, st')
                          | Some b => Done (list_set o (N.to_nat i) (s_add so y b), i + 1, st')
                          end
              end) x) (out, 0, st) with
    | Done (o, _, st') => Done (o, st')
    | Thrown (o, _, st') => Thrown (o, st')
    | Undefined => Undefined
    | Endless => Endless
    end.
  (** dense.rs:81-92 dense_tensor_multiply_inplace: [o] is written back element by element *)
  Definition multiply_inplace_fn (out rhs : list S) (st : St) : res (list S * St) :=
    loop (range 0 (len out)) (fun x i => loop rhs (fun '(o, st) rhs_v =>
            match slice_get o i with
            | None => Undefined
            | Some y => let '(st', r) := func st (s_mul so y rhs_v) in
                        match r with
                        | None => Thrown (o, st')
                        | Some b => Done (list_set o (N.to_nat i) b, st')
                        end
            end) x) (out, st).

  (** what a buffer becomes in the vector it is part of *)
  Definition put_back (f : list S -> V) (r : res (list S * St)) : res (V * St) :=
    match r with
    | Done (o, st) => Done (f o, st)
    | Thrown (o, st) => Thrown (f o, st)
    | Undefined => Undefined
    | Endless => Endless
    end.

  (** dense.rs:302-318 body of the inner loop *)
  Definition mul_add_body_fn (lhs rhs : V) (out_deg : N) (x : V * St) (lhs_d : N) : res (V * St) :=
    let '(self, st) := x in
    let rhs_d := out_deg - lhs_d in
    let v := dv_as_mut self in
    eval (tb_degree_range p n out_deg) (v, st) (fun '(oa, ob) =>
    eval (slice_unchecked (dv_elems v) oa ob) (v, st) (fun out =>
    eval (tb_degree_range p n lhs_d) (v, st) (fun '(la, lb) =>
    eval (slice_unchecked (dv_as_slice lhs) la lb) (v, st) (fun l =>
    eval (tb_degree_range p n rhs_d) (v, st) (fun '(ra, rb) =>
    eval (slice_unchecked (dv_as_slice rhs) ra rb) (v, st) (fun r =>
    put_back (fun o => dv_write v (splice (dv_elems v) oa o)) (multiply_into_buffer_fn out l r st))))))).
  (** dense.rs:264-320 multiply_and_add_into_impl *)
  Definition multiply_and_add_into_impl_fn (self lhs rhs : V) (st : St) (to_degree : option N) : res (V * St) :=
    eval (degree lhs) (self, st) (fun lhs_deg =>
    eval (degree rhs) (self, st) (fun rhs_deg =>
    eval (product_degree p lhs_deg rhs_deg to_degree) (self, st) (fun max_deg =>
    eval (grow_to_degree so p n self max_deg) (self, st) (fun self1 =>
    loop (rev_range_incl 0 max_deg) (fun x out_deg =>
      let lhs_deg_min := if rhs_deg <? out_deg then out_deg - rhs_deg else 0 in
      let lhs_deg_max := N.min out_deg lhs_deg in
      loop (rev_range_incl lhs_deg_min lhs_deg_max) (mul_add_body_fn lhs rhs out_deg) x) (self1, st))))).

  (** dense.rs:370-381 and 404-414 *)
  Definition mul_split_fn (rhs : V) (x : V * St) (lhs_deg_max : N) (lr rr or : N * N) : res (V * St) :=
    let '(self, st) := x in
    let v := dv_as_mut self in
    eval (tb_start_of_degree p n lhs_deg_max) (v, st) (fun mid =>
    eval (split_at_mut (dv_elems v) mid) (v, st) (fun '(a, b) =>
    eval (slice_unchecked b (fst or) (snd or)) (v, st) (fun out =>
    eval (slice_unchecked a (fst lr) (snd lr)) (v, st) (fun l =>
    eval (slice_unchecked (dv_as_slice rhs) (fst rr) (snd rr)) (v, st) (fun r =>
    put_back (fun o => dv_write v (a ++ splice b (fst or) o)) (multiply_into_buffer_fn out l r st)))))).
  (** dense.rs:394-415 body of the inner loop *)
  Definition mul_into_inner_fn (rhs : V) (out_deg lhs_deg_max : N) (x : V * St) (lhs_d : N) : res (V * St) :=
    eval (usub 32 p out_deg lhs_d) x (fun rhs_d =>
    eval (usub 32 p out_deg lhs_d) x (fun rd =>
    eval (tb_degree_range p n rd) x (fun rr =>
    eval (tb_degree_range p n rhs_d) x (fun or =>
    eval (tb_degree_range p n lhs_d) x (fun lr =>
    mul_split_fn rhs x lhs_deg_max lr rr or))))).
  (** dense.rs:351-417 body of the outer loop *)
  Definition mul_into_body_fn (rhs : V) (lhs_deg rhs_deg offset : N) (assign : bool) (x : V * St) (out_deg : N)
    : res (V * St) :=
    eval (usub 32 p out_deg rhs_deg) x (fun lhs_deg_min =>
    eval (usub 32 p out_deg offset) x (fun oo =>
    let lhs_deg_max := N.min oo lhs_deg in
    match (if assign then
             eval (usub 32 p out_deg lhs_deg_max) x (fun d =>
             eval (tb_degree_range p n d) x (fun rr =>
             eval (tb_degree_range p n out_deg) x (fun or =>
             if offset =? 1 then
               eval (tb_degree_range p n lhs_deg_max) x (fun lr => mul_split_fn rhs x lhs_deg_max lr rr or)
             else
               let v := dv_as_mut (fst x) in
               eval (slice_unchecked (dv_elems v) (fst or) (snd or)) (v, snd x) (fun out =>
               eval (slice_unchecked (dv_as_slice rhs) (fst rr) (snd rr)) (v, snd x) (fun r =>
               put_back (fun o => dv_write v (splice (dv_elems v) (fst or) o)) (multiply_inplace_fn out r (snd x)))))))
           else Done x) with
    | Done x1 =>
        eval (usub 32 p lhs_deg_max (if assign then 1 else 0)) x1 (fun last =>
        loop (rev_range_incl lhs_deg_min last) (mul_into_inner_fn rhs out_deg lhs_deg_max) x1)
    | r => r
    end)).
  (** dense.rs:322-418 multiply_into_impl *)
  Definition multiply_into_impl_fn (self rhs : V) (st : St) (to_degree : option N) : res (V * St) :=
    eval (degree self) (self, st) (fun lhs_deg =>
    eval (degree rhs) (self, st) (fun rhs_deg =>
    eval (product_degree p lhs_deg rhs_deg to_degree) (self, st) (fun max_deg =>
    eval (grow_to_degree so p n self max_deg) (self, st) (fun self1 =>
    let '(offset, assign) := offset_assign so rhs in
    loop (rev_range_incl 1 max_deg) (mul_into_body_fn rhs lhs_deg rhs_deg offset assign) (self1, st))))).
End AlgebraFn.
