(** Specification: sparse vectors with other keys and other scalars. *)
From stdpp Require Import gmap.
From Verif Require Import Machine M_Scalar M_Vector M_Sparse S_SparseHist.

Definition opt_rel {A B} (P : A -> B -> Prop) (x : option A) (y : option B) : Prop :=
  match x, y with Some a, Some b => P a b | None, None => True | _, _ => False end.

Section Rel.
  Context {K K' : Type} `{Countable K, Countable K'} {S R S' R' : Type} (P : S -> S' -> Prop) (Q : R -> R' -> Prop) (g : K -> K').
  (** the second vector has at [g k] what the first has at [k]; at other keys it may have anything *)
  Definition map_rel (x : gmap K S) (x' : gmap K' S') : Prop := forall k, opt_rel P (x !! k) (x' !! g k).
  (** the second vector has nothing else *)
  Definition only_keys (x' : gmap K' S') : Prop := forall k' v, x' !! k' = Some v -> exists k, k' = g k.
  (** the same call with the other keys and scalars *)
  Definition hop_rel (o : hop (gmap K S) K S R) (o' : hop (gmap K' S') K' S' R') : Prop :=
    match o, o' with
    | HClear, HClear | HUminus, HUminus => True
    | HErase k, HErase k' => k' = g k
    | HSet k s, HSet k' s' | HInsertSingle k s, HInsertSingle k' s' | HKeyAddMul k s, HKeyAddMul k' s' | HKeySubMul k s, HKeySubMul k' s' =>
        k' = g k /\ P s s'
    | HKeyAddDiv k r, HKeyAddDiv k' r' | HKeySubDiv k r, HKeySubDiv k' r' => k' = g k /\ Q r r'
    | HInsert l, HInsert l' => Forall2 (fun e e' => fst e' = g (fst e) /\ P (snd e) (snd e')) l l'
    | HSwap y, HSwap y' | HAdd y, HAdd y' | HSub y, HSub y' => map_rel y y'
    | HLmul s, HLmul s' | HRmul s, HRmul s' => P s s'
    | HRdiv r, HRdiv r' | HLdiv r, HLdiv r' => Q r r'
    | HAddRmul y s, HAddRmul y' s' | HAddLmul y s, HAddLmul y' s' | HSubRmul y s, HSubRmul y' s' | HSubLmul y s, HSubLmul y' s' => map_rel y y' /\ P s s'
    | HAddRdiv y r, HAddRdiv y' r' | HAddLdiv y r, HAddLdiv y' r' | HSubRdiv y r, HSubRdiv y' r' | HSubLdiv y r, HSubLdiv y' r' => map_rel y y' /\ Q r r'
    | _, _ => False
    end.
End Rel.
