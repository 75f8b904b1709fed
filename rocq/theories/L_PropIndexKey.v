(** Property lemmas C107 (restated as theorems in P_IndexKey.v). *)
From Verif Require Import Machine MachineLemmas S_Words L_Words M_TensorKey M_TensorBasis S_KeyRaw L_KeyRaw L_IndexKey.
Local Open Scope N_scope.

(** * C107: index_to_key for every index *)
(** [w] is the word with index [i] *)
Lemma c107_index_to_key : forall (p : profile) (n i : N), 1 <= n < 2 ^ 32 -> i < 2 ^ 64 ->
  exists w, word_ok n w /\ windex n w = i /\
  let b := letter_bits n in
  (overflow_checks p = true -> tb_index_to_key p n i =
     if (len w - 1) * b <? 64 then Ret (mk_tkey (len w) (packed b w mod 2 ^ 64)) else Panic)
  /\ (overflow_checks p = false -> tb_index_to_key p n i = Ret (mk_tkey (len w mod 2 ^ 32) (packed_around b w mod 2 ^ 64))).
Proof.
  intros p n i Hn Hi. destruct (word_at n i ltac:(lia)) as (w & Hw & <-). exists w. split; [exact Hw|]. split; [reflexivity|].
  cbv zeta. split; intros Hp.
  - rewrite (packed_enc _ n) by exact Hw. apply index_to_key_checked; assumption.
  - apply index_to_key_around; assumption.
Qed.
(** there and back *)
Lemma c107_round_trip : forall (p : profile) (n : N) (w : word),
  let b := letter_bits n in let i := windex n w in
  1 <= n < 2 ^ 32 -> word_ok n w -> i < 2 ^ 64 -> (len w - 1) * b < 64 ->
  exists k j, tb_index_to_key p n i = Ret k /\ tb_key_to_index p n k = Ret j /\ j <= i /\ (j = i <-> packed b w < 2 ^ 64).
Proof.
  intros p n w b i Hn Hw Hi Hs. exists (key_cut n w), (windex n (cut_first n w)).
  destruct (cut_first_ok n Hn w Hw Hs) as (Hc & _ & _ & Hf & Hle).
  split; [apply index_to_key_cut; assumption|]. split; [apply key_to_index_cut; assumption|]. split; [exact Hle|].
  rewrite (packed_enc _ n) by exact Hw. fold b in Hf. rewrite <- Hf. split; [|intros ->; reflexivity].
  apply windex_inj; assumption.
Qed.
(** beyond the words that fit into 64 bits the way back leads elsewhere, in every build *)
Lemma c107_collision : exists n i k j, i < 2 ^ 64 /\ i <> j /\ forall p : profile,
  tb_index_to_key p n i = Ret k /\ tb_key_to_index p n k = Ret j /\ tb_index_to_key p n j = Ret k.
Proof.
  exists 4, (windex 4 (4 :: repeat 1 21)), (key_cut 4 (4 :: repeat 1 21)), (windex 4 (2 :: repeat 1 21)).
  assert (W : forall a, 1 <= a <= 4 -> word_ok 4 (a :: repeat 1 21)).
  { intros a Ha. constructor; [exact Ha|]. apply Forall_forall. intros x Hx. apply repeat_spec in Hx. subst x. lia. }
  split; [vm_compute; reflexivity|]. split; [vm_compute; discriminate|]. intros p. repeat apply conj.
  - apply index_to_key_cut; [lia|apply W; lia|vm_compute; reflexivity|vm_compute; reflexivity].
  - rewrite key_to_index_cut; [|lia|apply W; lia|vm_compute; reflexivity|vm_compute; reflexivity]. vm_compute. reflexivity.
  - rewrite index_to_key_cut; [|lia|apply W; lia|vm_compute; reflexivity|vm_compute; reflexivity]. vm_compute. reflexivity.
Qed.
(** no letters *)
Lemma c107_no_letters : forall (p : profile) (i : N), 0 < i -> tb_index_to_key p 0 i = Panic.
Proof.
  intros p i Hi. unfold tb_index_to_key. destruct (N.eqb_spec i 0); [lia|]. destruct (N.leb_spec i 0); [lia|].
  apply (run_loop_steps 1); [|vm_compute; discriminate]. cbn [steps tb_index_to_key_step].
  destruct (N.eqb_spec i 0); [lia|]. reflexivity.
Qed.
(** over two letters the 33rd letter of a word falls outside: panic with overflow checks, and without them it is added to
    the first *)
Example c107_example :
  let i := windex 2 (2 :: repeat 1 32) in let j := windex 2 (1 :: repeat 1 31 ++ [2]) in
  i < 2 ^ 64 /\ tb_index_to_key dev 2 i = Panic /\ tb_index_to_key release 2 i = Ret (mk_tkey 33 1)
  /\ tb_index_to_key release 2 j = Ret (mk_tkey 33 1) /\ i <> j
  /\ tb_index_to_key dev 3 (3 ^ 20) = Ret (mk_tkey 20 366503875926)
  /\ tb_key_to_index dev 3 (mk_tkey 20 366503875926) = Ret (3 ^ 20).
Proof. repeat apply conj; try (vm_compute; reflexivity). vm_compute. discriminate. Qed.
