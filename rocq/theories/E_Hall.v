(** Cases that meet the hypotheses of the theorems of P_Hall.v, P_HallSize.v and P_Errors.v. *)
From Verif Require Import Machine M_DegreeRange M_HallKey M_HallSet M_Errors S_Hall S_Errors L_Moebius L_PropHallSize L_PropHall L_PropErrors
  P_HallSize P_Hall P_Errors E_Tac.
Local Open Scope N_scope.

Definition hk (key lp rp sz : N) : N := match hk_make_key_data dev key lp rp sz with Ret k => k | _ => 0 end.
Definition letter (n a : N) : N := match hk_from_letter dev n a with Ret k => k | _ => 0 end.
Definition no_inner : hall_inner := {| hi_current_degree := 0; hi_set := []; hi_degrees := [] |}.
Definition obj (n : N) (pre : option N) : hall_object := match new_object dev 60 n pre with Ret o => o | _ => ho_new 0 no_inner end.
Definition drm (n d : N) (reqs : list N) : list N := match drm_history dev 40 n d reqs with Ret m => m | _ => [] end.
(** thread 0 is at the point c, thread 1 starts a call *)
Definition at_pc (c : pc) : cache_state := set_pc cache_start O c.
Definition then_call (s : cache_state) : cache_state := set_pc s 1%nat (AtRead 3 None).
Definition hit : cache_state := set_pc {| cs_pc := fun _ => Idle; cs_poisoned := false;
  cs_cache := fun n => if n =? 3 then Some (obj 12 None) else None |} O (HasRead 3 (Some 7)).
Ltac hyp_more ::=
  lazymatch goal with
  | |- mobius_function _ => intros ? ?; apply mu_fun_mobius; assumption
  | |- key_degree _ _ _ _ => vm_compute; repeat split; first [reflexivity | discriminate]
  | |- good_call _ => vm_compute; first [exact I | reflexivity]
  | |- reaches _ _ _ (then_call _) => eapply reaches_step; [apply reaches_refl|apply step_call; reflexivity]
  | |- forall u : tid, _ => let u := fresh in intros u; destruct u; reflexivity
  | |- step _ _ (at_pc _) _ _ => apply step_write_panic with (n := 12) (o := obj 12 None); reflexivity
  | |- step _ _ hit _ _ => apply step_hit with (pre := Some 7); reflexivity
  | |- exists pre, _ = HasRead _ pre => eexists; reflexivity
  | |- chain _ _ _ => repeat econstructor
  end.

Example case_C49_fields := ltac:(use (C49_fields dev 7 3 5 2)).
Example case_C49_fields_injective := ltac:(use (C49_fields_injective dev (hk 7 3 5 2) 36029140617134087)).
Example case_C49_letter_partial := ltac:(use (C49_letter_partial dev 300000 200000)).
Example case_C49_letter_refuted := ltac:(use (C49_letter_refuted dev 300000 262149 ltac:(hyp) ltac:(hyp) (letter 300000 262149))).
Example case_C72_from_letter := ltac:(use (C72_from_letter dev 300000 262149)).
Example case_C72_outside := ltac:(use (C72_outside dev 5 6)).
Example case_C73_display := ltac:(use (C73_display dev 7 3 5 2)).
Example case_C50_refuted := ltac:(use (C50_refuted dev 12)).
Example case_C50_partial := ltac:(use (C50_partial dev 12)).
Example case_C74_new := ltac:(use (C74_new dev 12)).
Example case_C74_answers :=
  ltac:(use (C74_answers dev 60 15 [3; 20; 7] (match hi_history dev 60 15 [3; 20; 7] with Ret h => h | _ => no_inner end) 5 1)).
Example case_C74_parents := ltac:(use (C74_parents
  {| hi_current_degree := 2; hi_set := [(0, 0); (0, 1); (0, 2); (1, 2)]; hi_degrees := [0; 2; 3] |} 3 3 1 2 3)).
Example case_C51_refuted := ltac:(use (C51_refuted dev true (then_call cache_start))).
Example case_C51_hit_partial := ltac:(use (C51_hit_partial dev true hit 5%nat 3 (obj 12 None))).
Example case_C51_hit_shared_partial := ltac:(use (C51_hit_shared_partial dev true hit O 3 (obj 12 None) (obj 12 None)
  (set_pc hit O (Cloned 3 (obj 12 None))))).
Example case_C75_reaches_write := ltac:(use (C75_reaches_write dev false 12 (Some 4))).
Example case_C75_write_blocks := ltac:(use (C75_write_blocks dev (at_pc (AtWrite 12 (obj 12 None))) O 12 (obj 12 None)
  (then_call (at_pc (AtWrite 12 (obj 12 None)))))).
Example case_C75_write_panics := ltac:(use (C75_write_panics dev (at_pc (AtWrite 12 (obj 12 None))) O 12 (obj 12 None)
  (set_pc (at_pc (AtWrite 12 (obj 12 None))) O Unwound))).
Example case_C75_new_never_ends := ltac:(use (C75_new_never_ends dev true (at_pc (Creating 3 None)) O 3 None
  (then_call (at_pc (Creating 3 None))))).
Example case_C75_never_poisoned := ltac:(use (C75_never_poisoned dev true (then_call cache_start))).
Definition queries : list ho_call := [QKey 1; QIsLetter 12; QRange 1].
Example case_C76_history := ltac:(use (C76_history dev 60 12 (Some 4) (obj 12 (Some 4)) queries 3 [QKey 0; QGrow 7])).
Example case_C76_before := ltac:(use (C76_before dev 60 12 (Some 4) (obj 12 (Some 4)) queries)).
Example case_C76_poisoned := ltac:(use (C76_poisoned dev (snd (ho_runs dev (obj 12 None) [QGrow 3])) (QGrow 7 :: queries))).
Example case_C52_refuted := ltac:(use (C52_refuted dev 60 12 (Some 4) (obj 12 (Some 4)) 3 (QKey 0))).
Example case_C77_parents := ltac:(use (C77_parents dev 60 12 None (obj 12 None) (letter 12 5))).
Example case_C77_letters := ltac:(use (C77_letters dev 60 12 None (obj 12 None) 5 (letter 12 5))).

Example case_C45_partial := ltac:(use (C45_partial dev 30)).
Example case_C68_is_squarefree := ltac:(use (C68_is_squarefree dev 30)).
Example case_C68_mobius := ltac:(use (C68_mobius dev 30)).
Example case_C68_sound := ltac:(use (C68_sound dev 30 13 (-1))).
Example case_C46_refuted := ltac:(use (C46_refuted dev 3 6)).
Example case_C46_partial := ltac:(use (C46_partial dev mu_fun 5 5)).
Example case_C46_exact_division := ltac:(use (C46_exact_division mu_fun 7 4)).
Example case_C69_checked := ltac:(use (C69_checked dev 3 5)).
Example case_C69_unchecked := ltac:(use (C69_unchecked release mu_fun (2 ^ 31) 3)).
Example case_C69_unchecked_wrong := ltac:(use (C69_unchecked_wrong mu_fun)).
Example case_C47_history := ltac:(use (C47_history dev 40 3 2 [1; 4; 3] (drm 3 2 [1; 4; 3]))).
Example case_C47_grow_keeps := ltac:(use (C47_grow_keeps dev 40 3 (drm 3 2 []) 4 (drm 3 2 [4]) 1 3)).
Example case_C70_new := ltac:(use (C70_new dev 6208 6)).
Example case_C70_grow := ltac:(use (C70_grow dev 6208 (drm 3 2 []) 5)).
Example case_C48_refuted :=
  ltac:(use (C48_refuted dev 40 3 4 (match drm_new dev 40 3 4 with Ret m => m | _ => [] end) mu_fun)).
Example case_C48_partial := ltac:(use (C48_partial dev 40 3 4 [] (drm 3 4 []) mu_fun 5 2)).
Example case_C71_find_deg := ltac:(use (C71_find_deg dev 40 3 4 [] (drm 3 4 []) mu_fun 13)).
Example case_C71_correct_iff := ltac:(use (C71_correct_iff dev 40 3 4 [] (drm 3 4 []) mu_fun 5 2)).

Example case_C97_own_never_panics := ltac:(use (C97_own_never_panics (DHall (OtherError (DMap MapIsEmpty))))).
Example case_C97_after_grow := ltac:(use (C97_after_grow dev 60 12 (Some 4) (obj 12 (Some 4)) queries 3 [QKey 0; QGrow 7])).
Example case_C98_text_partial := ltac:(use
  (C98_text_partial (OtherError (DHall (Plain HallSetReadError))) (OtherError (DHall (Plain HallSetWriteError))))).
Example case_C98_debug := ltac:(use
  (C98_debug (OtherError (DHall (Plain HallSetReadError))) (OtherError (DHall (Plain HallSetReadError))))).
Example case_C99_cause_partial := ltac:(use (C99_cause_partial 3 (wrapped 2 (DMap MapIsEmpty))
  [wrapped 2 (DMap MapIsEmpty); wrapped 1 (DMap MapIsEmpty); DMap MapIsEmpty])).
Example case_C99_source_refuted := ltac:(use (C99_source_refuted 3 (DMap MapIsEmpty))).
