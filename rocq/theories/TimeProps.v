(** The times update functions are told, and the counter of the example program: the
    properties. *)
From Coq Require Import NArith ZArith List Bool Lia.
From Coq Require Import ZifyBool ZifyNat ZifyN.
From Verif Require Import Base Integers UnicodeModel NumberModel NumeralSpec NumberText FloatModel KeySpec
  WindowSpec WindowModel WindowText WindowProps TimeSpec TimeModel TimeText TimeLemmas.
Import ListNotations.
Open Scope Z_scope.
Ltac Zify.zify_post_hook ::= idtac.

(* ------------------------------------------------------------------ C105 *)

(** In every history of C71, and as long as the window has been open for less than 2^63
    nanoseconds: the delta and the total an update function is told are finite, not
    negative, within one part in 2^51 of the times measured; the delta is not greater than
    the total; and the total is not less than any total the window was told before. *)
Theorem C105_told : forall t l d s before x after delta total, history t l d s -> NoDup (flat_map creations l) ->
  story d = before ++ x :: after -> what x = Updated delta total -> total < 2 ^ 63 ->
  exists u v, seconds delta = Fin u /\ seconds total = Fin v /\ 0 <= u <= v /\
    within 1 51 u (one F64) delta /\ within 1 51 v (one F64) total /\
    (forall before1 y before2 delta' total', before = before1 ++ y :: before2 -> about y = about x ->
       what y = Updated delta' total' -> exists v', seconds total' = Fin v' /\ v' <= v).
Proof.
  intros t l d s before x after delta total H ND S W L. destruct (C71_times_partial t l d s H ND) as [_ Hn].
  destruct (Hn _ _ _ _ _ S W) as [D T].
  assert (Tp : forall h p, (exists q, story d = p ++ q) -> 0 <= told_so_far h p).
  { intros h p. induction p as [|y p IH] using rev_ind; intros (q & Q); [reflexivity|].
    assert (Ta : forall a b, told_so_far h (a ++ b) = told_so_far h a + told_so_far h b).
    { clear. induction a as [|z a IHa]; intro b; cbn [app told_so_far]; [reflexivity|]. rewrite IHa. ring. }
    rewrite Ta. cbn [told_so_far]. rewrite <- app_assoc in Q. specialize (IH (ex_intro _ _ Q)).
    destruct (about y =? h)%N; [|lia]. destruct (what y) as [| |dy ty] eqn:Wy; [lia|lia|].
    cbn [app] in Q. destruct (Hn _ _ _ _ _ Q Wy). lia. }
  assert (Ta : forall h a b, told_so_far h (a ++ b) = told_so_far h a + told_so_far h b).
  { clear. intros h. induction a as [|z a IHa]; intro b; cbn [app told_so_far]; [reflexivity|]. rewrite IHa. ring. }
  pose proof (Tp (about x) before ltac:(eexists; exact S)) as T0.
  rewrite !seconds_units by lia. exists (second_units delta), (second_units total).
  split; [reflexivity|]. split; [reflexivity|]. split; [split; [apply second_nonneg; lia|apply second_mono; lia]|].
  unfold within. fold U. rewrite !Z.mul_1_l. split; [apply second_close; lia|]. split; [apply second_close; lia|].
  intros b1 y b2 delta' total' B A Wy. subst before. rewrite <- app_assoc in S. cbn [app] in S.
  destruct (Hn _ _ _ _ _ S Wy) as [D' T']. pose proof (Tp (about y) b1 ltac:(eexists; exact S)) as T1.
  rewrite A in *. rewrite Ta in T. cbn [told_so_far] in T. rewrite A, N.eqb_refl, Wy in T.
  assert (T2 : 0 <= told_so_far (about x) b2).
  { pose proof (Tp (about x) (b1 ++ y :: b2) ltac:(exists (x :: after); now rewrite S, <- app_assoc)) as X.
    clear X. assert (G : forall p q, story d = (b1 ++ y :: p) ++ q -> 0 <= told_so_far (about x) p).
    { induction p as [|z p IH] using rev_ind; intros q Q; [reflexivity|]. rewrite Ta. cbn [told_so_far].
      assert (Q' : story d = (b1 ++ y :: p) ++ z :: q) by (rewrite Q; rewrite <- !app_assoc; cbn [app]; rewrite <- app_assoc; reflexivity).
      specialize (IH _ Q'). destruct (about z =? about x)%N; [|lia]. destruct (what z) as [| |dz tz] eqn:Wz; [lia|lia|].
      destruct (Hn _ _ _ _ _ Q' Wz). lia. }
    apply (G b2 (x :: after)). now rewrite S, <- app_assoc. }
  rewrite seconds_units by lia. exists (second_units total'). split; [reflexivity|]. apply second_mono. lia.
Qed.
Print Assumptions C105_told.

Example C105_told_example : exists d s before x, history Gtk [New 1 (Some 7%N); Pass 4; Idle []; Pass 5; Idle []] d s /\
  NoDup (flat_map creations [New 1 (Some 7%N); Pass 4; Idle []; Pass 5; Idle []]) /\
  story d = before ++ x :: [] /\ what x = Updated 5 9 /\ List.length before = 1%nat.
Proof.
  eexists _, _, [_], _. split; [split; [vm_compute; reflexivity|vm_compute; reflexivity]|].
  split; [constructor; [easy|constructor]|]. split; [reflexivity|]. split; reflexivity.
Qed.

(** An update function that adds up the deltas it is told need not get the total. *)
Theorem C105_sum_refuted : exists ds, seconds (total_of ds) <> accumulate (map seconds ds).
Proof.
  exists [100000000; 200000000]. unfold accumulate. cbn [map fold_left total_of fold_right]. rewrite !seconds_units by (vm_compute; split; congruence).
  vm_compute. discriminate.
Qed.
Print Assumptions C105_sum_refuted.

(** It gets the time measured to within k + 2 parts in 2^52 after k updates. *)
Theorem C105_sum_partial : forall ds, Forall (fun d => 0 <= d) ds -> total_of ds < 2 ^ 63 ->
  Z.of_nat (List.length ds) + 4 <= 2 ^ 52 ->
  exists x, accumulate (map seconds ds) = Fin x /\ within (Z.of_nat (List.length ds) + 2) 52 x (one F64) (total_of ds).
Proof.
  intros ds F T L. pose proof U_pos.
  destruct (sum_within ds 0 0 0 F) as (r & E & _ & R); try lia.
  { rewrite Z.add_0_l. apply Z.mul_lt_mono_pos_r; assumption. }
  exists r. split; [exact E|]. unfold within. fold U. rewrite !Z.add_0_l in R. exact R.
Qed.
Print Assumptions C105_sum_partial.

Example C105_sum_example : Forall (fun d => 0 <= d) [100000000; 200000000] /\ total_of [100000000; 200000000] = 300000000.
Proof. split; [repeat constructor; discriminate|reflexivity]. Qed.

(* ------------------------------------------------------------------ C106 *)

(** Rounding a total down gives the whole seconds that have passed, as long as fewer than
    2^53 nanoseconds (104 days) have. *)
Theorem C106_whole_partial : forall n, 0 <= n < 2 ^ 53 -> exists x, seconds n = Fin x /\ whole F64 x = n / billion.
Proof.
  intros n H. exists (second_units n). split; [|now apply second_whole]. apply seconds_units.
  change (2 ^ 53) with 9007199254740992 in H. change (2 ^ 63) with 9223372036854775808. lia.
Qed.
Print Assumptions C106_whole_partial.

Example C106_whole_example : 0 <= 86399999999999 < 2 ^ 53 /\ 86399999999999 / billion = 86399.
Proof. split; [split; [discriminate|reflexivity]|reflexivity]. Qed.

(** Later, a second may be announced before it is over. *)
Theorem C106_whole_refuted : exists n x, 0 <= n < 2 ^ 63 /\ seconds n = Fin x /\ n / billion = 9007199 /\ whole F64 x = 9007200.
Proof.
  exists 9007199999999999, (9007200 * one F64). split; [split; reflexivity || discriminate|]. split.
  { rewrite seconds_units by (split; reflexivity || discriminate). unfold second_units.
    assert (E : ticks_units 9007199999999999 = 9007200 * U * billion) by (vm_compute; reflexivity).
    rewrite E, CompareLemmas.rr_cancel by (pose proof U_pos; unfold billion; lia).
    rewrite FloatLemmas.round_ratio_1, <- FloatLemmas.round_units_nonneg by (pose proof U_pos; lia).
    fold (ticks_units 9007200). rewrite ticks_exact by (split; reflexivity || discriminate). reflexivity. }
  split; [reflexivity|]. unfold whole. apply Z.div_mul. pose proof U_pos. unfold U in *. lia.
Qed.
Print Assumptions C106_whole_refuted.

(* ------------------------------------------------------------------ C107 *)

(** The example program, for every sequence of updates and keys within 104 days: nothing
    is undefined, and the title of its window is as described.  Missing: that the title is
    the number of seconds always when the counter is on, see below. *)
Theorem C107_title_partial : forall cs l, forward 0 l -> before_time (2 ^ 53) l ->
  exists w, demo_run cs l new_demo = Ok w /\ titled demo_name l (shown_title w).
Proof. intros cs l F B. destruct (demo_invariant cs l F B) as (w & R & _ & _ & T). eauto. Qed.
Print Assumptions C107_title_partial.

(** In particular: when the counter was switched on once and for all, the title after an
    update is the number of whole seconds. *)
Theorem C107_counter_partial : forall cs l1 l2 n, forward 0 (l1 ++ SpaceBar :: l2 ++ [Update n]) -> n < 2 ^ 53 ->
  Forall (fun o => o <> SpaceBar) l1 -> Forall (fun o => o <> SpaceBar) l2 ->
  exists w, demo_run cs (l1 ++ SpaceBar :: l2 ++ [Update n]) new_demo = Ok w /\ seconds_text (n / billion) (shown_title w).
Proof.
  intros cs l1 l2 n F L Q1 Q2. set (l := l1 ++ SpaceBar :: l2 ++ [Update n]) in *.
  assert (B : before_time (2 ^ 53) l).
  { assert (G : forall k from, forward from (k ++ [Update n]) -> before_time (2 ^ 53) (k ++ [Update n])).
    { induction k as [|o k IH]; intros from Fk; [constructor; [exact L|constructor]|].
      cbn [app] in *. assert (E : exists from', forward from' (k ++ [Update n])) by (destruct o; cbn [forward] in Fk; [destruct Fk|..]; eauto).
      destruct E as (from' & E). constructor; [|now apply (IH from')].
      destruct o; auto. cbn [forward] in Fk. destruct Fk as [_ Fk]. apply forward_app in Fk as [F1 [F2 _]].
      pose proof (last_time_ge _ _ F1). lia. }
    unfold l in *. replace (l1 ++ SpaceBar :: l2 ++ [Update n]) with ((l1 ++ SpaceBar :: l2) ++ [Update n]) in * by now rewrite <- app_assoc.
    now apply (G _ 0). }
  destruct (C107_title_partial cs l F B) as (w & R & T). exists w. split; [exact R|].
  assert (N1 : Forall (fun o => is_space o = false) l1) by (eapply Forall_impl; [|exact Q1]; intros [] X; cbn; congruence).
  assert (N2 : Forall (fun o => is_space o = false) l2) by (eapply Forall_impl; [|exact Q2]; intros [] X; cbn; congruence).
  assert (C1 : counted false l1 = []).
  { clear - N1. induction l1 as [|[] l1 IH]; [reflexivity| | |]; apply Forall_cons_iff in N1 as [N0 N1]; cbn [counted app]; auto; discriminate. }
  assert (Sp : since_space l = l2 ++ [Update n]).
  { unfold l. replace (l1 ++ SpaceBar :: l2 ++ [Update n]) with ((l1 ++ SpaceBar :: l2) ++ [Update n]) by now rewrite <- app_assoc.
    rewrite since_space_snoc. cbn [is_space]. f_equal. clear - N2.
    induction l2 as [|o l2 IH] using rev_ind.
    - rewrite since_space_snoc. reflexivity.
    - apply Forall_app in N2 as [N2 No]. apply Forall_inv in No.
      replace (l1 ++ SpaceBar :: l2 ++ [o]) with ((l1 ++ SpaceBar :: l2) ++ [o]) by now rewrite <- app_assoc.
      rewrite since_space_snoc, No, IH by exact N2. reflexivity. }
  assert (C2 : counted false l = counted true (l2 ++ [Update n])).
  { unfold l. rewrite counted_app, C1, quiet_counting by exact N1. reflexivity. }
  assert (C3 : counting false l = true).
  { unfold l. rewrite counting_app, (quiet_counting l1) by exact N1. cbn [counting negb]. apply quiet_counting. apply Forall_app. split; [exact N2|]. constructor; [reflexivity|constructor]. }
  unfold titled in T. rewrite C3, Sp, C2, Nat.sub_diag in T. cbn [firstn forallb] in T.
  rewrite counted_app, quiet_counting in T by exact N2. cbn [counted app] in T. rewrite rev_unit in T. exact T.
Qed.
Print Assumptions C107_counter_partial.

Example C107_example :
  let l := [Update 1; SpaceBar; Update 1500000000; Update 1234000000000] in
  forward 0 l /\ before_time (2 ^ 53) l /\ seconds_text 1234 [49; 44; 50; 51; 52; 115]%N.
Proof.
  cbn zeta. split; [cbn [forward]; repeat split; discriminate|]. split; [repeat constructor|].
  exists [49; 44; 50; 51; 52]%N. split; [|reflexivity]. exists [1; 2; 3; 4]%N. repeat split; discriminate || (repeat constructor).
Qed.

(** Switched off and on again within a second, the counter is on but the title is not
    the number of seconds. *)
Theorem C107_title_refuted : forall cs, exists l n w, forward 0 (l ++ [Update n]) /\ n < 2 ^ 53 /\ counting false l = true /\
  demo_run cs (l ++ [Update n]) new_demo = Ok w /\ ~ seconds_text (n / billion) (shown_title w).
Proof.
  intro cs. set (l := [SpaceBar; Update 1500000000; SpaceBar; SpaceBar]). exists l, 1700000000.
  assert (F : forward 0 (l ++ [Update 1700000000])) by (cbn; repeat split; discriminate).
  destruct (C107_title_partial cs (l ++ [Update 1700000000]) F) as (w & R & T); [repeat constructor|].
  exists w. split; [exact F|]. split; [reflexivity|]. split; [reflexivity|]. split; [exact R|].
  unfold titled in T. cbn in T. rewrite T. intros (digits & (ds & _ & _ & E) & D). 
  apply (f_equal (fun s => last s 0%N)) in D. rewrite last_last in D. vm_compute in D. discriminate D.
Qed.
Print Assumptions C107_title_refuted.
