(** Straight-line programs on dense tensors over scalars without laws: which scalar operations produce each
    coefficient, and how large rounding errors can get. *)
From Coq Require Import ZArith QArith Qabs Floats.SpecFloat.
From Verif Require Import Machine S_Words M_Scalar M_Dense S_Vector S_Tensor M_Float S_Float S_TensorProg.

(** ** The scalar operations of a program, in their order
    As [mean_cmd], but a coefficient is only computed with if it is stored, and the terms of a product are added
    one after the other in the order of [terms]. *)
Section Steps.
  Context {S R : Type} (so : scalar_ops S R).
  Notation zero := (s_zero so).

  Definition r_map (a : atensor S) (h : S -> S) : atensor S :=
    mk_atensor (t_deg a) (fun w => if stores a w then h (t_fun a w) else zero).
  Definition r_zip (a b : atensor S) (h : S -> S -> S) : atensor S :=
    mk_atensor (join (t_deg a) (t_deg b)) (fun w => if stores b w then h (t_fun a w) (t_fun b w) else t_fun a w).
  (** x + f(t1) + f(t2) + ... for the terms of a b *)
  Definition r_product (x a b : atensor S) (f : S -> S) (t : option N) : outcome (atensor S) :=
    match t, t_deg a, t_deg b with
    | None, _, _ => Panic
    | Some t, Some l, Some r =>
        let m := N.min t (l + r) in
        d <- d_product (t_deg x) (Some l) (Some r) (Some t) ;;
        Ret (mk_atensor d (fun w =>
          if len w <=? m then fold_left (fun s c => s_add so s (f c)) (terms so l r (t_fun a) (t_fun b) w) (t_fun x w)
          else t_fun x w))
    | Some _, _, _ => UB
    end.

  Definition step_cmd (st : nat -> atensor S) (c : tcmd S R) : outcome (nat -> atensor S) :=
    match c with
    | CNew d | CClear d => Ret (set_var st d (t_zero so))
    | CKey d w c => Ret (set_var st d (mk_atensor (Some (len w)) (fun u => if word_eqb u w then c else zero)))
    | CCopy d a => Ret (set_var st d (st a))
    | CErase d w => Ret (set_var st d (mk_atensor (t_deg (st d))
                           (fun u => if word_eqb u w then zero else t_fun (st d) u)))
    | CNeg d => Ret (set_var st d (r_map (st d) (s_uminus so)))
    | CScale d c => Ret (set_var st d (r_map (st d) (fun x => s_mul so x c)))
    | CDivide d r => Ret (set_var st d (r_map (st d) (fun x => s_div so x r)))
    | CAdd d a => Ret (set_var st d (r_zip (st d) (st a) (s_add so)))
    | CSub d a => Ret (set_var st d (r_zip (st d) (st a) (s_sub so)))
    | CAddScaled d a c => Ret (set_var st d (r_zip (st d) (st a) (fun x y => s_add so x (s_mul so y c))))
    | CSubDivided d a r => Ret (set_var st d (r_zip (st d) (st a) (fun x y => s_sub so x (s_div so y r))))
    | CMul d a b t => v <- r_product (t_zero so) (st a) (st b) (fun c => c) t ;; Ret (set_var st d v)
    | CComm d a b t => u <- r_product (t_zero so) (st a) (st b) (fun c => c) t ;;
                       v <- r_product u (st b) (st a) (s_uminus so) t ;; Ret (set_var st d v)
    | CAddMul d a b t => v <- r_product (st d) (st a) (st b) (fun c => c) t ;; Ret (set_var st d v)
    | CSubMul d a b t => v <- r_product (st d) (st a) (st b) (s_uminus so) t ;; Ret (set_var st d v)
    | CSubScaled d a c => Ret (set_var st d (r_zip (st d) (st a) (fun x y => s_sub so x (s_mul so y c))))
    | CAddDivided d a r => Ret (set_var st d (r_zip (st d) (st a) (fun x y => s_add so x (s_div so y r))))
    | CDegree d e => Ret (set_var st d (mk_atensor (deg_below e) (fun _ => zero)))
    | CPairs d l => Ret (set_var st d (mk_atensor (deg_pairs l) (fun u => sum_from_zero so (given (word_eqb u) l))))
    | CSet d w c => Ret (set_var st d (t_at (st d) w (fun _ => c)))
    | CKeyAdd d w c => Ret (set_var st d (t_at (st d) w (fun x => s_add so x c)))
    | CKeySub d w c => Ret (set_var st d (t_at (st d) w (fun x => s_sub so x c)))
    end.
  Fixpoint step_prog (st : nat -> atensor S) (cs : list (tcmd S R)) : outcome (nat -> atensor S) :=
    match cs with [] => Ret st | c :: cs => st' <- step_cmd st c ;; step_prog st' cs end.
End Steps.

(** ** Programs on floats and the same programs on rational numbers *)
(** a program with its constants replaced *)
Definition cmd_map {S S' : Type} (g : S -> S') (c : tcmd S S) : tcmd S' S' :=
  match c with
  | CNew d => CNew d | CKey d w c => CKey d w (g c) | CCopy d a => CCopy d a | CClear d => CClear d
  | CErase d w => CErase d w | CNeg d => CNeg d | CScale d c => CScale d (g c) | CDivide d r => CDivide d (g r)
  | CAdd d a => CAdd d a | CSub d a => CSub d a | CAddScaled d a c => CAddScaled d a (g c)
  | CSubDivided d a r => CSubDivided d a (g r) | CMul d a b t => CMul d a b t | CComm d a b t => CComm d a b t
  | CAddMul d a b t => CAddMul d a b t | CSubMul d a b t => CSubMul d a b t
  | CSubScaled d a c => CSubScaled d a (g c) | CAddDivided d a r => CAddDivided d a (g r) | CDegree d e => CDegree d e
  | CPairs d l => CPairs d (map (fun e => (fst e, g (snd e))) l) | CSet d w c => CSet d w (g c)
  | CKeyAdd d w c => CKeyAdd d w (g c) | CKeySub d w c => CKeySub d w (g c)
  end.
(** the constants of a program are finite floats and nothing is divided by zero *)
Definition cmd_finite (f : fmt) (c : tcmd spec_float spec_float) : Prop :=
  match c with
  | CKey _ _ c | CScale _ c | CAddScaled _ _ c | CSubScaled _ _ c | CSet _ _ c | CKeyAdd _ _ c | CKeySub _ _ c =>
      is_float f c /\ finite c
  | CPairs _ l => Forall (fun e => is_float f (snd e) /\ finite (snd e)) l
  | CDivide _ r | CSubDivided _ _ r | CAddDivided _ _ r => is_float f r /\ finite r /\ ~ (fl_val r == 0)%Q
  | _ => True
  end.

Local Open Scope Q_scope.
(** exact arithmetic *)
Definition q_ops : scalar_ops Q Q := {|
  s_zero := 0; s_one := 1; s_mone := - (1); s_uminus := Qopp; s_inv := Qinv; s_add := Qplus; s_sub := Qminus;
  s_mul := Qmult; s_div := Qdiv; s_eqb := Qeq_bool; s_from_degree := Q_of_N; r_from_degree := Q_of_N |}.
(** the same without signs: every subtraction is an addition *)
Definition size_ops : scalar_ops Q Q := {|
  s_zero := 0; s_one := 1; s_mone := 1; s_uminus := fun x => x; s_inv := Qinv; s_add := Qplus; s_sub := Qplus;
  s_mul := Qmult; s_div := Qdiv; s_eqb := Qeq_bool; s_from_degree := Q_of_N; r_from_degree := Q_of_N |}.

(** the program with the numbers the constants stand for, and with their absolute values *)
Definition exact_cmd (c : tcmd spec_float spec_float) : tcmd Q Q := cmd_map fl_val c.
Definition size_cmd (c : tcmd spec_float spec_float) : tcmd Q Q := cmd_map (fun x => Qabs (fl_val x)) c.

(** the variable a command changes *)
Definition target {S R} (c : tcmd S R) : nat :=
  match c with
  | CNew d | CKey d _ _ | CCopy d _ | CClear d | CErase d _ | CNeg d | CScale d _ | CDivide d _ | CAdd d _ | CSub d _
  | CAddScaled d _ _ | CSubDivided d _ _ | CMul d _ _ _ | CComm d _ _ _ | CAddMul d _ _ _ | CSubMul d _ _ _
  | CSubScaled d _ _ | CAddDivided d _ _ | CDegree d _ | CPairs d _ | CSet d _ _ | CKeyAdd d _ _ | CKeySub d _ _ => d
  end.
(** how many roundings follow each other on the way to the coefficient of [w], and how many of the values added
    up there are rounded products or quotients; adding to 0 does not round *)
Definition roundings {S R} (c : tcmd S R) (w : word) : N :=
  match c with
  | CScale _ _ | CDivide _ _ | CAdd _ _ | CSub _ _ => 1
  | CAddScaled _ _ _ | CSubDivided _ _ _ | CSubScaled _ _ _ | CAddDivided _ _ _ => 2
  | CKeyAdd _ u _ | CKeySub _ u _ => if word_eqb w u then 1 else 0
  | CPairs _ l => len (given (word_eqb w) l) - 1
  | CMul _ _ _ _ => len w + 1
  | CAddMul _ _ _ _ | CSubMul _ _ _ _ => len w + 2
  | CComm _ _ _ _ => 2 * len w + 2
  | _ => 0
  end%N.
Definition products {S R} (c : tcmd S R) (w : word) : N :=
  match c with
  | CScale _ _ | CDivide _ _ | CAddScaled _ _ _ | CSubDivided _ _ _ | CSubScaled _ _ _ | CAddDivided _ _ _ => 1
  | CMul _ _ _ _ | CAddMul _ _ _ _ | CSubMul _ _ _ _ => len w + 1
  | CComm _ _ _ _ => 2 * len w + 2
  | _ => 0
  end%N.

(** [m] with relative errors and underflow *)
Definition inflated (f : fmt) (k j : N) (m : Q) : Q :=
  (1 + unit_roundoff f) ^ Z.of_N k * (m + Q_of_N j * half_smallest f).

(** A variable is known by its exact value [v_exact] and a bound [v_error] for the distance from it.  One command:
    the exact values are those of exact arithmetic; the bound is how much larger the sum of the sizes of all terms gets
    when every input has its largest possible size and every operation is rounded. *)
Record known := mk_known { v_exact : nat -> atensor Q; v_error : nat -> word -> Q }.
Definition sizes (v : nat -> atensor Q) : nat -> atensor Q :=
  fun i => mk_atensor (t_deg (v i)) (fun w => Qabs (t_fun (v i) w)).
Definition largest (k : known) : nat -> atensor Q :=
  fun i => mk_atensor (t_deg (v_exact k i)) (fun w => Qabs (t_fun (v_exact k i) w) + v_error k i w).
Definition know_cmd (f : fmt) (k : known) (c : tcmd spec_float spec_float) : outcome known :=
  v <- mean_cmd q_ops (v_exact k) (exact_cmd c) ;;
  s <- mean_cmd size_ops (sizes (v_exact k)) (size_cmd c) ;;
  m <- mean_cmd size_ops (largest k) (size_cmd c) ;;
  let d := target c in
  Ret (mk_known v (set_var (v_error k) d (fun w =>
         inflated f (roundings c w) (products c w) (t_fun (m d) w) - t_fun (s d) w))).
Fixpoint know_prog (f : fmt) (k : known) (cs : list (tcmd spec_float spec_float)) : outcome known :=
  match cs with [] => Ret k | c :: cs => k' <- know_cmd f k c ;; know_prog f k' cs end.

(** nothing overflows: on the way every possible size stays below the limit of the format *)
Fixpoint no_overflow (f : fmt) (n : N) (k : known) (cs : list (tcmd spec_float spec_float)) : Prop :=
  match cs with
  | [] => True
  | c :: cs =>
      (forall m w, mean_cmd size_ops (largest k) (size_cmd c) = Ret m -> word_ok n w -> stores (m (target c)) w = true ->
         inflated f (roundings c w) (products c w) (t_fun (m (target c)) w) < fl_limit f)
      /\ forall k', know_cmd f k c = Ret k' -> no_overflow f n k' cs
  end.

(** the float tensor [v] is within the error of the exact one, wherever it is a number *)
Definition knows (f : fmt) (n D : N) (v : dvec spec_float) (a : atensor Q) (e : word -> Q) : Prop :=
  shaped n D v (t_deg a)
  /\ forall w, word_ok n w -> is_float f (wcoef (fl_ops f) n v w) /\ 0 <= e w
       /\ forall c, has_value (wcoef (fl_ops f) n v w) c -> Qabs (c - t_fun a w) <= e w.

(** ** Integers *)
Definition cmd_integer (f : fmt) (c : tcmd spec_float spec_float) : Prop :=
  match c with
  | CKey _ _ c | CScale _ c | CAddScaled _ _ c | CSubScaled _ _ c | CSet _ _ c | CKeyAdd _ _ c | CKeySub _ _ c =>
      exists z, fl_int f c z
  | CPairs _ l => Forall (fun e => exists z, fl_int f (snd e) z) l
  | CDivide _ _ | CSubDivided _ _ _ | CAddDivided _ _ _ => False
  | _ => True
  end.
(** on the way the sums of the sizes of all terms stay below 2^precision *)
Fixpoint sizes_fit (f : fmt) (n : N) (v : nat -> atensor Q) (cs : list (tcmd spec_float spec_float)) : Prop :=
  match cs with
  | [] => True
  | c :: cs =>
      (forall s w, mean_cmd size_ops (sizes v) (size_cmd c) = Ret s -> word_ok n w -> stores (s (target c)) w = true ->
         t_fun (s (target c)) w < inject_Z (2 ^ f_prec f))
      /\ forall v', mean_cmd q_ops v (exact_cmd c) = Ret v' -> sizes_fit f n v' cs
  end.
(** the float tensor [v] is exactly the tensor of integers [a] *)
Definition is_exactly (f : fmt) (n D : N) (v : dvec spec_float) (a : atensor Q) : Prop :=
  shaped n D v (t_deg a)
  /\ forall w, word_ok n w -> exists z, (t_fun a w == inject_Z z)%Q /\ fl_int f (wcoef (fl_ops f) n v w) z.
