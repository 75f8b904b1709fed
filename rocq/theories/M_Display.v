(** Model of Display for SimpleDenseVector (src/vector/implementation/simple_dense_vector.rs:378-390), for
    the tensor basis. *)
From Coq Require Import String.
From Verif Require Import Machine M_TensorKey M_TensorBasis M_Dense.

(** simple_dense_vector.rs:384-386 the loop over `B::iter_keys().zip(self.as_slice())`: Zip asks the keys
    first.  [show] prints a scalar; [fuel] bounds the nested calls of Display for keys; [text] is what has
    been written so far. *)
Fixpoint display_loop {S} (p : profile) (n : N) (fuel : nat) (show : S -> string)
  (it : tbiter) (l : list S) (text : string) {struct l} : outcome string :=
  '(it1, key) <- bi_next p n it ;;
  match key, l with
  | Some k, v :: l' =>
      match tk_display fuel k with
      | Some t => display_loop p n fuel show it1 l' (text ++ show v ++ t)
      | None => Diverge
      end
  | _, _ => Ret text
  end.
(** simple_dense_vector.rs:378-390 *)
Definition dv_display {S} (p : profile) (n : N) (fuel : nat) (show : S -> string) (v : dvec S) : outcome string :=
  display_loop p n fuel show (tb_iter_keys n) (dv_as_slice v) EmptyString.
