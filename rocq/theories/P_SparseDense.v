(** Property theorems (generated by tools/gen_props.py from L_PropSparseDense.v, where the proofs are). *)
From Coq Require Import QArith Qpower SpecFloat.
From stdpp Require Import gmap.
From Verif Require Import Machine MachineLemmas M_Scalar M_Vector M_Dense S_Vector L_Dense M_Sparse S_Sparse L_Sparse L_PropSparse
  S_SparseHist L_PropSparseHist M_Float S_Float L_Float L_PropHistory S_SparseDense.
From Verif Require Import L_PropSparseDense.
Local Open Scope N_scope.

(** * C117: Sparse and dense vectors of floats agree *)
Theorem C117_agree : forall (K : Type) (E : EqDecision K) (C : Countable K) (fm : fmt) (ob : obasis K) (ok : K -> Prop) (f : K -> N)
    (os : list (vop K spec_float spec_float))
    (hs : list ((gmap K spec_float -> list (K * spec_float)) * hop (gmap K spec_float) K spec_float spec_float))
    (d : dvec spec_float) (m : gmap K spec_float),
  dv_wf d -> fl_agree fm ok f d m ->
  List.Forall2 (fun o e => any_order (fst e) /\ fl_same_op fm ok f o (snd e)) os hs ->
  exists d' m', calls (fl_ops fm) ob d os = Ret d' /\ hcalls (fl_ops fm) m hs = Ret m' /\ fl_agree fm ok f d' m'.
Proof. exact c117_agree. Qed.
Print Assumptions C117_agree.
Theorem C117_zero : forall (K : Type) (E : EqDecision K) (C : Countable K) (fm : fmt) (ob : obasis K) (ok : K -> Prop) (f : K -> N)
    (iter : gmap K spec_float -> list (K * spec_float)) (d : dvec spec_float) (m : gmap K spec_float) (s : spec_float)
    (o : vop K spec_float spec_float) (h : hop (gmap K spec_float) K spec_float spec_float),
  dv_wf d -> any_order iter -> fl_agree fm ok f d m -> has_value s 0 ->
  o = OLmul s \/ o = ORmul s -> h = HLmul s \/ h = HRmul s ->
  exists d' m', call (fl_ops fm) ob d o = Ret d' /\ hcall (fl_ops fm) (sparse_ops (fl_ops fm) iter) m h = Ret m'
    /\ forall k, ok k -> (fl_same (coef (fl_ops fm) d' (f k)) (sv_coef (fl_ops fm) m' k) <-> finite (coef (fl_ops fm) d (f k))).
Proof. exact c117_zero. Qed.
Print Assumptions C117_zero.
Theorem C117_storage : forall (K : Type) (E : EqDecision K) (C : Countable K) (fm : fmt) (ob : obasis K) (ok : K -> Prop) (f : K -> N)
    (iter : gmap K spec_float -> list (K * spec_float)) (d : dvec spec_float) (m : gmap K spec_float) (s : spec_float)
    (o : vop K spec_float spec_float) (h : hop (gmap K spec_float) K spec_float spec_float),
  dv_wf d -> any_order iter -> fl_agree fm ok f d m ->
  (~ finite s /\ (o = OLmul s \/ o = ORmul s) /\ (h = HLmul s \/ h = HRmul s)
   \/ (has_value s 0 \/ s = S754_nan) /\ (o = ORdiv s \/ o = OLdiv s) /\ (h = HRdiv s \/ h = HLdiv s)) ->
  exists d' m', call (fl_ops fm) ob d o = Ret d' /\ hcall (fl_ops fm) (sparse_ops (fl_ops fm) iter) m h = Ret m'
    /\ forall k, ok k -> (fl_same (coef (fl_ops fm) d' (f k)) (sv_coef (fl_ops fm) m' k)
                          <-> (is_Some (m !! k) <-> (f k < dv_size d)%N)).
Proof. exact c117_storage. Qed.
Print Assumptions C117_storage.
Theorem C117_constructors : forall (K : Type) (E : EqDecision K) (C : Countable K) (fm : fmt) (ob : obasis K) (ok : K -> Prop) (f : K -> N)
    (iter : gmap K spec_float -> list (K * spec_float)) (items : list (K * spec_float)) (k : K) (s : spec_float),
  good_basis ob ok f -> ok k -> List.Forall (fun e => ok (fst e)) items -> List.NoDup (map fst items) ->
  (exists d m, vr_from_key_scalar (dense_ops (fl_ops fm) ob) k s = Ret d /\ vr_from_key_scalar (sparse_ops (fl_ops fm) iter) k s = Ret m
     /\ dv_wf d /\ fl_agree fm ok f d m)
  /\ (exists d m, vr_from_iterator (dense_ops (fl_ops fm) ob) items = Ret d /\ vr_from_iterator (sparse_ops (fl_ops fm) iter) items = Ret m
     /\ dv_wf d /\ fl_agree fm ok f d m).
Proof. exact c117_constructors. Qed.
Print Assumptions C117_constructors.
Example C117_example :
  let so := fl_ops f32 in let i := fl_of_Z f32 in let big := i (2 ^ 127)%Z in let inf := S754_infinity false in
  let up := fun m : gmap N spec_float => map_to_list m in let down := fun m : gmap N spec_float => rev (map_to_list m) in
  let d := dv_from [S754_zero true; i 3%Z; i (-2)%Z; big] in
  let m : gmap N spec_float := {[ 1 := i 3%Z; 2 := i (-2)%Z; 3 := big ]} in
  let y : gmap N spec_float := {[ 2 := i (-2)%Z; 3 := big ]} in
  let both o h := d' <- calls so nat_basis d o ;; m' <- hcalls so m h ;;
    Ret (map (coef so d') [0; 1; 2; 3; 4], map (sv_coef so m') [0; 1; 2; 3; 4]) in
  good_basis nat_basis (fun _ => True) (fun k => k)
  (* the entry 3 overflows; the entry 2 is removed from the sparse vector and becomes 0 in the dense one *)
  /\ both [OAdd (dv_from [i 0%Z; i 0%Z; i 0%Z; big]); OSub (dv_from [i 0%Z; i 0%Z; i (-2)%Z; big]); OUminus; ORdiv (i 7%Z)]
          [(up, HAdd {[ 3 := big ]}); (down, HSub y); (up, HUminus); (up, HRdiv (i 7%Z))]
     = Ret ([S754_zero true; s_div so (i (-3)%Z) (i 7%Z); S754_zero true; S754_infinity true; S754_zero false],
            [S754_zero false; s_div so (i (-3)%Z) (i 7%Z); S754_zero false; S754_infinity true; S754_zero false])
  (* multiplication by infinity, then by zero *)
  /\ both [OLmul inf] [(up, HLmul inf)]
     = Ret ([S754_nan; inf; S754_infinity true; inf; S754_zero false],
            [S754_zero false; inf; S754_infinity true; inf; S754_zero false])
  /\ both [OLmul big; OLmul (i 0%Z)] [(up, HLmul big); (down, HLmul (i 0%Z))]
     = Ret ([S754_zero true; S754_nan; S754_nan; S754_nan; S754_zero false],
            [S754_zero false; S754_zero false; S754_zero false; S754_zero false; S754_zero false]).
Proof. exact c117_example. Qed.
