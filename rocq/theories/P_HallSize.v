(** Property theorems (generated by tools/gen_props.py from L_PropHallSize.v, where the proofs are). *)
From Verif Require Import Machine MachineLemmas S_Hall L_Moebius M_DegreeRange L_HallSize L_HallSums L_HallMap L_HallWrap.
From Verif Require Import L_PropHallSize.
Local Open Scope N_scope.

(** * C45: The Moebius function used for Hall set sizes is correct and terminates *)
Theorem C45_refuted : forall p, never_ends (fun f => mobius p f 6) /\ is_mobius 6 1.
Proof. exact c45_refuted. Qed.
Print Assumptions C45_refuted.
Theorem C45_partial : forall p n, 0 < n < 2 ^ 64 -> n <= top_square ->
  (squarefree n -> converges (fun f => is_squarefree p f n) (Ret true))
  /\ (~ squarefree n -> converges (fun f => is_squarefree p f n) (Ret false))
  /\ (n = 1 \/ nprime n \/ ~ squarefree n -> exists z, is_mobius n z /\ converges (fun f => mobius p f n) (Ret z)).
Proof. exact c45_partial. Qed.
Print Assumptions C45_partial.
Example C45_example : nprime 7 /\ ~ squarefree 12 /\ is_mobius 7 (-1) /\ (mobius dev 30 7 = Ret (-1)%Z) /\ (mobius release 30 12 = Ret 0%Z).
Proof. exact c45_example. Qed.

(** * C68: Exactly what is_squarefree and mobius do *)
Theorem C68_is_squarefree : forall p n, n < 2 ^ 64 ->
  (squarefree n /\ n <= top_square /\ converges (fun f => is_squarefree p f n) (Ret true))
  \/ (~ squarefree n /\ converges (fun f => is_squarefree p f n) (Ret false))
  \/ (squarefree n /\ top_square < n /\ converges (fun f => is_squarefree p f n) Panic).
Proof. exact c68_is_squarefree. Qed.
Print Assumptions C68_is_squarefree.
Theorem C68_mobius : forall p n, 0 < n < 2 ^ 64 ->
  (n = 1 /\ converges (fun f => mobius p f n) (Ret 1%Z))
  \/ (~ squarefree n /\ converges (fun f => mobius p f n) (Ret 0%Z))
  \/ (nprime n /\ n <= top_square /\ converges (fun f => mobius p f n) (Ret (-1)%Z))
  \/ (squarefree n /\ 2 <= n <= top_square /\ ~ nprime n /\ never_ends (fun f => mobius p f n))
  \/ (squarefree n /\ top_square < n /\ converges (fun f => mobius p f n) Panic).
Proof. exact c68_mobius. Qed.
Print Assumptions C68_mobius.
Theorem C68_sound : forall p f n z, 0 < n < 2 ^ 64 -> mobius p f n = Ret z -> is_mobius n z.
Proof. exact c68_sound. Qed.
Print Assumptions C68_sound.
Example C68_example : is_squarefree dev 30 30 = Ret true /\ is_squarefree release 30 98 = Ret false /\ mobius dev 30 1 = Ret 1%Z
  /\ mobius dev 30 9 = Ret 0%Z /\ mobius dev 30 13 = Ret (-1)%Z /\ mobius dev 30 6 = Diverge.
Proof. exact c68_example. Qed.

(** * C46: hall_set_size is the dimension of the free Lie algebra up to a depth *)
Theorem C46_refuted : forall p w d, 6 <= d -> never_returns (fun f => hall_set_size p f w d).
Proof. exact c46_refuted. Qed.
Print Assumptions C46_refuted.
Theorem C46_partial : forall p mu w d, mobius_function mu -> w < 2 ^ 32 -> d <= 5 -> (Z.of_N w ^ Z.of_N d < 2 ^ 63)%Z ->
  exists v, converges (fun f => hall_set_size p f w d) (Ret v) /\ Z.of_N v = witt_sum mu w d.
Proof. exact c46_partial. Qed.
Print Assumptions C46_partial.
Theorem C46_exact_division : forall mu w n, mobius_function mu -> 1 <= n <= 5 -> (Z.of_N n * witt mu w n = necklace mu w n)%Z.
Proof. exact c46_exact_division. Qed.
Print Assumptions C46_exact_division.
Theorem C46_mobius_function_exists : exists mu, mobius_function mu.
Proof. exact c46_mobius_function_exists. Qed.
Print Assumptions C46_mobius_function_exists.
Example C46_example : hall_set_size dev 40 5 5 = Ret 829 /\ witt_sum mu_fun 5 5 = 829%Z
  /\ hall_set_size release 40 3 4 = Ret 32 /\ witt_sum mu_fun 3 4 = 32%Z /\ (5 ^ 5 < 2 ^ 63)%Z.
Proof. exact c46_example. Qed.

(** * C69: Exactly when hall_set_size returns *)
Theorem C69_checked : forall p w d, overflow_checks p = true -> w < 2 ^ 32 ->
  let top := (Z.of_N w ^ Z.of_N (N.min d 6))%Z in
  (d <= 5 -> (top < 2 ^ 63)%Z -> exists v, converges (fun f => hall_set_size p f w d) (Ret v))
  /\ (6 <= d -> (top < 2 ^ 63)%Z -> never_ends (fun f => hall_set_size p f w d))
  /\ ((2 ^ 63 <= top)%Z -> converges (fun f => hall_set_size p f w d) Panic).
Proof. exact c69_checked. Qed.
Print Assumptions C69_checked.
Theorem C69_unchecked : forall p mu w d, mobius_function mu -> overflow_checks p = false ->
  (d <= 5 -> converges (fun f => hall_set_size p f w d) (Ret (Z.to_N (wrapped_sum mu w d))))
  /\ (6 <= d -> never_ends (fun f => hall_set_size p f w d)).
Proof. exact c69_unchecked. Qed.
Print Assumptions C69_unchecked.
Theorem C69_unchecked_wrong : forall mu, mobius_function mu -> exists w d v, d <= 5 /\ w < 2 ^ 32
  /\ converges (fun f => hall_set_size release f w d) (Ret v) /\ Z.of_N v <> witt_sum mu w d.
Proof. exact c69_unchecked_wrong. Qed.
Print Assumptions C69_unchecked_wrong.
Example C69_example : hall_set_size dev 40 (2 ^ 31) 3 = Panic /\ hall_set_size dev 40 2 5 = Ret 14 /\ hall_set_size release 40 2 6 = Diverge
  /\ hall_set_size release 40 (2 ^ 31) 3 = Ret 2305843009571607894 /\ wrapped_sum mu_fun (2 ^ 31) 3 = 2305843009571607894%Z.
Proof. exact c69_example. Qed.

(** * C47: DegreeRangeMap grows monotonically and answers consistently *)
Theorem C47_history : forall p f n d reqs m, drm_history p f n d reqs = Ret m ->
  (forall i, i < degrees_after d reqs -> exists v, drm_get m i = inl v /\ converges (fun f => hall_set_size p f n i) (Ret v))
  /\ (forall i, degrees_after d reqs <= i -> drm_get m i = inr DegreeOutOfBounds).
Proof. exact c47_history. Qed.
Print Assumptions C47_history.
Theorem C47_grow_keeps : forall p f n m r m' i v, drm_grow p f n m r = Ret m' -> drm_get m i = inl v -> drm_get m' i = inl v.
Proof. exact c47_grow_keeps. Qed.
Print Assumptions C47_grow_keeps.
Example C47_example : exists m, drm_history dev 40 3 2 [1; 4; 3] = Ret m /\ degrees_after 2 [1; 4; 3] = 5
  /\ drm_get m 4 = inl 32 /\ drm_get m 5 = inr DegreeOutOfBounds.
Proof. exact c47_example. Qed.

(** * C70: When DegreeRangeMap::new and grow return *)
Theorem C70_new : forall p n d, (Z.of_N n ^ 5 < 2 ^ 63)%Z \/ overflow_checks p = false ->
  (d <= 6 -> exists m, converges (fun f => drm_new p f n d) (Ret m)) /\ (7 <= d -> never_returns (fun f => drm_new p f n d)).
Proof. exact c70_new. Qed.
Print Assumptions C70_new.
Theorem C70_grow : forall p n m r, (Z.of_N n ^ 5 < 2 ^ 63)%Z \/ overflow_checks p = false ->
  (r <= 5 \/ r < len m -> exists m', converges (fun f => drm_grow p f n m r) (Ret m'))
  /\ (6 <= r -> len m <= r -> never_returns (fun f => drm_grow p f n m r)).
Proof. exact c70_grow. Qed.
Print Assumptions C70_grow.
Example C70_example : (6208 ^ 5 < 2 ^ 63)%Z /\ returns (drm_new dev 40 6208 6) /\ drm_new dev 40 6208 7 <> Ret [].
Proof. exact c70_example. Qed.

(** * C48: find_deg returns the degree of a Hall key *)
Theorem C48_refuted : forall p f n d m mu, mobius_function mu -> 1 <= n -> (Z.of_N n ^ 5 < 2 ^ 63)%Z -> 2 <= d ->
  drm_new p f n d = Ret m ->
  (* the last letter is given a wrong degree *)
  (key_degree mu n n 1 /\ exists e, drm_find_deg m n = inl e /\ e <> 1)
  (* the last key of the map is given a degree that is not in the map *)
  /\ exists k e, drm_get m (d - 1) = inl k /\ drm_find_deg m k = inl e /\ drm_get m e = inr DegreeOutOfBounds.
Proof. exact c48_refuted. Qed.
Print Assumptions C48_refuted.
Theorem C48_partial : forall p f n d reqs m mu k e, mobius_function mu -> (Z.of_N n ^ 5 < 2 ^ 63)%Z -> drm_history p f n d reqs = Ret m ->
  e < degrees_after d reqs -> key_degree mu n k e -> Z.of_N k <> witt_sum mu n e -> drm_find_deg m k = inl e /\ exists v, drm_get m e = inl v.
Proof. exact c48_partial. Qed.
Print Assumptions C48_partial.
Example C48_example : exists m, drm_history dev 40 3 4 [] = Ret m /\ degrees_after 4 [] = 4 /\ key_degree mu_fun 3 5 2
  /\ drm_find_deg m 5 = inl 2 /\ key_degree mu_fun 3 3 1 /\ drm_find_deg m 3 = inl 2.
Proof. exact c48_example. Qed.

(** * C71: Exactly what find_deg returns *)
Theorem C71_find_deg : forall p f n d reqs m mu k, mobius_function mu -> (Z.of_N n ^ 5 < 2 ^ 63)%Z -> drm_history p f n d reqs = Ret m ->
  let L := degrees_after d reqs in
  (L = 0 -> drm_find_deg m k = inr MapIsEmpty)
  /\ (0 < L -> (witt_sum mu n (L - 1) < Z.of_N k)%Z -> drm_find_deg m k = inr DegreeOutOfBounds)
  /\ (0 < L -> (Z.of_N k <= witt_sum mu n (L - 1))%Z -> exists e, drm_find_deg m k = inl e /\ e <= L
       /\ (forall i, i < e -> (witt_sum mu n i <= Z.of_N k)%Z) /\ (forall i, e <= i < L -> (Z.of_N k < witt_sum mu n i)%Z)).
Proof. exact c71_find_deg. Qed.
Print Assumptions C71_find_deg.
Theorem C71_correct_iff : forall p f n d reqs m mu k e, mobius_function mu -> (Z.of_N n ^ 5 < 2 ^ 63)%Z -> drm_history p f n d reqs = Ret m ->
  e < degrees_after d reqs -> key_degree mu n k e -> (drm_find_deg m k = inl e <-> Z.of_N k <> witt_sum mu n e).
Proof. exact c71_correct_iff. Qed.
Print Assumptions C71_correct_iff.
Example C71_example : exists m, drm_history dev 40 3 4 [] = Ret m /\ drm_find_deg m 14 = inl 4 /\ drm_find_deg m 15 = inr DegreeOutOfBounds
  /\ drm_find_deg m 13 = inl 3 /\ drm_find_deg [] 13 = inr MapIsEmpty.
Proof. exact c71_example. Qed.
