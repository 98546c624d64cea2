(** C71 for windows whose system handle was used before. *)
From Coq Require Import NArith ZArith List Bool Lia.
From Verif Require Import Base KeySpec KeyModel WindowSpec WindowModel WindowText WindowLemmas WindowLemmas2 WindowLemmas3 WindowProps ReuseSpec ReuseLemmas.
Import ListNotations.
Open Scope N_scope.

(** The system may give the handle of a window that is gone to a new window. Cut any history
    of C56 at a moment [d1] when no window has the handle h. If from then on at most one window
    gets the handle h, everything told about h since is honest: the totals start again from
    zero, no matter what was told about h before. Missing: the histories C56 leaves out. *)
Theorem C71_reused_partial : forall t l1 l2 d1 d s h,
  history t (l1 ++ l2) d s -> expected_all t l1 empty_desk = Some d1 ->
  window_at h d1 = None -> (count_occ N.eq_dec (flat_map creations l2) h <= 1)%nat ->
  exists since, story d = story d1 ++ since /\ calls s = map (as_call t) (story d1) ++ map (as_call t) since /\ honest_about h since.
Proof.
  intros t l1 l2 d1 d s h H E1 W N. pose proof (ag_story _ _ _ (history_agrees _ _ _ _ H)) as A. destruct H as [E _].
  destruct (expected_split _ _ _ _ _ E) as (d1' & E1' & E2). assert (d1' = d1) by congruence. subst d1'.
  destruct (honest_since _ _ _ _ _ _ E1 E2 W N) as (since & S & Hn). exists since. split; [assumption|]. split; [|assumption].
  now rewrite A, S, map_app.
Qed.
Print Assumptions C71_reused_partial.

(** Window 7 lives for 4 ticks and closes. A second window 7 is told 2 and 5, not 6 and 9. *)
Definition first_life : list action := [New 1 (Some 7); Show 1; Pass 4; Idle []; UserClose 7 true []].
Definition second_life : list action := [Pass 6; New 2 (Some 7); Show 2; Pass 2; Idle []; MoveConstruct 3 2; Pass 3; Idle []].

Example C71_reused_example : forall t, exists d1 d s,
  history t (first_life ++ second_life) d s /\ expected_all t first_life empty_desk = Some d1 /\ window_at 7 d1 = None /\
  (count_occ N.eq_dec (flat_map creations second_life) 7%N <= 1)%nat /\ ~ NoDup (flat_map creations (first_life ++ second_life)) /\
  calls s = [(1, 7, UpdateCall 4 4); (1, 7, CloseEvent); (2, 7, UpdateCall 2 2); (3, 7, UpdateCall 3 5)].
Proof.
  intros []; eexists; eexists; eexists; (split; [split; vm_compute; reflexivity|]; split; [vm_compute; reflexivity|]; split; [reflexivity|];
    split; [vm_compute; repeat constructor|]; split; [|vm_compute; reflexivity]);
    intro H; apply NoDup_cons_iff in H; destruct H as [H _]; apply H; vm_compute; now left.
Qed.
