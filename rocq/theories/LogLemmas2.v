(** Lemmas on tests that log: what is shown, and the lines of it. *)
From Coq Require Import NArith ZArith List Bool Ascii String Lia.
From Coq Require Import ZifyBool ZifyNat ZifyN.
From Verif Require Import Base Integers NumeralSpec NumberLemmas CompareLemmas TestSpec TestModel TestText TestLemmas TestLemmas2
  ReportSpec ReportModel ReportLemmas LogSpec LogModel LogLemmas.
Import ListNotations.
Open Scope N_scope.
Ltac Zify.zify_post_hook ::= idtac.

Lemma events_of_cons : forall h hs, events_of (h :: hs) = match h with Announced e => [e] | _ => [] end ++ events_of hs.
Proof. reflexivity. Qed.

Lemma run_ltest_shown : forall t m w before hs ob, wide m w -> TestLemmas2.agrees m before ->
  heard t (queue m) = (hs, ob) -> starts (before ++ events_of hs) < 10 ^ N.of_nat w -> starts (before ++ events_of hs) < 2 ^ 16 ->
  happenings_shown w before hs (flat_map emission_text (fst (run_ltest t m))) /\
  map ended_emission (fst (run_ltest t m)) = map ended_happening hs /\
  (ob = None -> snd (run_ltest t m) = Terminate).
Proof.
  induction t as [b0| |name t IH|t IH|x t IH|k IH|t IH|k IH|x e t IH|x e t IH]; intros m w before hs ob W A O S1 S2;
    cbn [heard run_ltest] in *.
  - injection O as <- <-. repeat split. discriminate.
  - injection O as <- <-. repeat split.
  - destruct (heard t (queue m)) as [hs' b'] eqn:E. injection O as <- <-. rewrite events_of_cons in S1, S2. cbn [app] in S1, S2.
    unfold start_test. destruct A as (A1 & A2 & A3).
    assert (S : starts before + 1 <= starts (before ++ Started name :: events_of hs')).
    { rewrite starts_app. cbn [starts]. lia. }
    rewrite A1, N.add_mod_idemp_l by lia.
    rewrite (N.mod_small (starts before + 1)) by lia.
    destruct (pad_padded m w (starts before + 1) W) as (text & T & P).
    { change (2 ^ 16) with 65536 in *. change (2 ^ 31) with 2147483648. lia. }
    { lia. }
    rewrite T. cbn [bind].
    match goal with |- context [run_ltest t ?x] => set (m1 := x) end.
    assert (Eb : before ++ Started name :: events_of hs' = (before ++ [Started name]) ++ events_of hs') by (rewrite <- app_assoc; reflexivity).
    destruct (IH m1 w (before ++ [Started name]) hs' b') as (R1 & R2 & R3); try assumption.
    + unfold TestLemmas2.agrees, m1. cbn [current_index current_name current_stage].
      rewrite starts_app, last_started_app, stages_since_app. cbn [starts last_started stages_since].
      split; [|split; reflexivity]. rewrite N.mod_small by lia. lia.
    + now rewrite Eb in S1.
    + now rewrite Eb in S2.
    + replace (new_lines m m1) with [StartLine text name] by (symmetry; apply new_lines_app; reflexivity).
      destruct (run_ltest t m1) as [es o]. cbn [fst snd] in *. split; [|split; [cbn [map]; now rewrite R2|exact R3]].
      cbn [happenings_shown]. exists (line_text (StartLine text name)), (flat_map emission_text es). split.
      { cbn [events_text]. exists text, []. split; [exact P|]. split; [|reflexivity]. rewrite app_nil_r.
        cbn [line_text]. unfold ln, newline. rewrite <- !app_assoc. reflexivity. }
      split; [|exact R1]. cbn [flat_map emission_text printed]. now rewrite app_nil_r.
  - destruct (heard t (queue m)) as [hs' b'] eqn:E. injection O as <- <-. rewrite events_of_cons in S1, S2. cbn [app] in S1, S2.
    destruct A as (A1 & A2 & A3).
    assert (Eb : before ++ StageEnded :: events_of hs' = (before ++ [StageEnded]) ++ events_of hs') by (rewrite <- app_assoc; reflexivity).
    destruct (IH (end_stage m) w (before ++ [StageEnded]) hs' b') as (R1 & R2 & R3); try assumption.
    + unfold TestLemmas2.agrees, end_stage. cbn [current_index current_name current_stage].
      rewrite starts_app, last_started_app, stages_since_app. cbn [starts last_started stages_since].
      split; [now rewrite N.add_0_r|]. split; [assumption|]. rewrite A3. now rewrite N.add_mod_idemp_l by lia.
    + now rewrite Eb in S1.
    + now rewrite Eb in S2.
    + replace (new_lines m (end_stage m)) with [StageLine ((current_stage m + 1) mod 2 ^ 16)] by (symmetry; apply new_lines_app; reflexivity).
      destruct (run_ltest t (end_stage m)) as [es o]. cbn [fst snd] in *. split; [|split; [cbn [map]; now rewrite R2|exact R3]].
      cbn [happenings_shown]. exists (line_text (StageLine ((current_stage m + 1) mod 2 ^ 16))), (flat_map emission_text es). split.
      { cbn [events_text]. exists (put_number ((current_stage m + 1) mod 2 ^ 16)), [].
        split; [rewrite A3, N.add_mod_idemp_l by lia; apply put_number_ok|]. split; [|reflexivity]. rewrite app_nil_r.
        cbn [line_text]. unfold ln, newline. rewrite <- !app_assoc. reflexivity. }
      split; [|exact R1]. cbn [flat_map emission_text printed]. now rewrite app_nil_r.
  - apply (IH (push_message m x) w before hs ob); auto.
  - unfold pop_message. destruct (queue m) as [|x q] eqn:Q.
    + apply (IH EmptyMessage m w before hs ob); auto. now rewrite Q.
    + apply (IH x (set_queue m q) w before hs ob); auto.
  - apply (IH (clear_message_queue m) w before hs ob); auto.
  - apply (IH (get_message_count m) m w before hs ob); auto.
  - destruct (heard t (queue m)) as [hs' b'] eqn:E. injection O as <- <-. rewrite events_of_cons in S1, S2. cbn [app] in S1, S2.
    destruct (IH m w before hs' b') as (R1 & R2 & R3); try assumption. destruct (run_ltest t m) as [es o]. cbn [fst snd] in *.
    split; [|split; [cbn [map]; now rewrite R2|exact R3]]. cbn [happenings_shown]. exists (flat_map emission_text es). now split.
  - destruct (heard t (queue m)) as [hs' b'] eqn:E. injection O as <- <-. rewrite events_of_cons in S1, S2. cbn [app] in S1, S2.
    destruct (IH m w before hs' b') as (R1 & R2 & R3); try assumption. destruct (run_ltest t m) as [es o]. cbn [fst snd] in *.
    split; [|split; [cbn [map]; now rewrite R2|exact R3]]. cbn [happenings_shown]. exists (flat_map emission_text es). now split.
Qed.

Lemma all_heard_observed : forall ts hss bs, all_heard ts hss bs -> observed (map silent ts) (map events_of hss) bs.
Proof.
  intros ts hss bs (H & L1 & L2). split; [|rewrite !map_length; lia]. clear - H L1 L2.
  revert hss bs H L1 L2. induction ts as [|t ts IH]; intros [|hs hss] [|b bs] H L1 L2; try discriminate; [reflexivity|].
  cbn [map combine] in *. injection H as H1 H2. rewrite heard_observe, H1. cbn [List.length] in *. f_equal. apply IH; [assumption|lia|lia].
Qed.

Lemma flat_emission_app : forall a b, flat_map emission_text (a ++ b) = flat_map emission_text a ++ flat_map emission_text b.
Proof. intros. apply flat_map_app. Qed.

Lemma run_lall_shown : forall ts hss bs m w before, wide m w -> TestLemmas2.agrees m before -> queue m = [] ->
  all_heard ts hss bs -> starts (before ++ List.concat (map events_of hss)) < 10 ^ N.of_nat w ->
  starts (before ++ List.concat (map events_of hss)) < 2 ^ 16 ->
  tests_shown w before hss bs (flat_map emission_text (fst (run_lall ts m))).
Proof.
  induction ts as [|t ts IH]; intros hss bs m w before W A Q (O & L1 & L2) S1 S2.
  - destruct hss; [|discriminate]. destruct bs; [|discriminate]. reflexivity.
  - destruct hss as [|hs hss]; [discriminate|]. destruct bs as [|b bs]; [discriminate|].
    cbn [map combine] in O. injection O as O1 O2. cbn [List.length] in L1, L2.
    cbn [map List.concat] in S1, S2. rewrite app_assoc in S1, S2.
    pose proof (starts_app (before ++ events_of hs) (List.concat (map events_of hss))) as SA.
    assert (Ob : observe (silent t) (queue m) = Some (events_of hs, b)) by now rewrite heard_observe, Q, O1.
    destruct (run_test_ok (silent t) m w before (events_of hs) b W A Ob) as (m1 & R1 & R2 & R3 & _); [lia|lia|].
    destruct (run_ltest_shown t m w before hs (Some b) W A) as (R4 & _ & _); [now rewrite Q|lia|lia|].
    pose proof (same_wide _ _ _ R3 W) as W1.
    destruct (end_test_ok m1 w (before ++ events_of hs) b W1 R2) as (m2 & E1 & E2 & E3 & E4 & _); [lia|lia|].
    destruct (end_test_text m1 w (before ++ events_of hs) b W1 R2) as (m2' & ls2 & E1' & E7 & E8); [lia|lia|].
    assert (m2' = m2) by congruence. subst m2'.
    assert (W2 : wide m2 w) by (unfold wide; rewrite E3; exact W1).
    assert (F : tests_shown w (before ++ events_of hs) hss bs (flat_map emission_text (fst (run_lall ts m2)))).
    { apply IH; try assumption. split; [assumption|]. split; lia. }
    cbn [run_lall]. destruct (run_ltest_silent t m) as [Si _]. rewrite R1 in Si.
    destruct (run_ltest t m) as [es o]. cbn [fst snd] in *. subst o. rewrite E1.
    destruct (run_lall ts m2) as [es' o']. cbn [fst] in *. cbn [tests_shown].
    exists (flat_map emission_text es), (printed ls2), (flat_map emission_text es').
    split; [exact R4|]. split; [exact E8|]. split; [|exact F].
    rewrite flat_emission_app. cbn [flat_map emission_text]. now rewrite (new_lines_app _ _ _ E7).
Qed.

(* ------------------------------------------------------------------- lines *)

Lemma lines_ln : forall s rest, one_line s -> lines (ln s ++ rest) = ln s :: lines rest.
Proof.
  intros s rest O. unfold lines. assert (G : forall a, lines_of a (ln s ++ rest) = (a ++ ln s) :: lines_of [] rest).
  { induction s as [|c s IH]; intro a; cbn [ln app lines_of].
    - reflexivity.
    - destruct (N.eqb_spec c 10) as [->|Ne]; [exfalso; apply O; now left|].
      change (s ++ [10]) with (ln s). rewrite IH; [|intro H; apply O; now right]. now rewrite <- app_assoc. }
  apply G.
Qed.

Lemma without_ln : forall s rest, one_line s ->
  without_messages (ln s ++ rest) = (if begins_with (lit "info: ") (ln s) then [] else ln s) ++ without_messages rest.
Proof.
  intros s rest O. unfold without_messages. rewrite lines_ln by assumption. cbn [filter].
  destruct (begins_with (lit "info: ") (ln s)); reflexivity.
Qed.

Lemma without_kept : forall s rest, one_line s -> begins_with (lit "info: ") (ln s) = false ->
  without_messages (ln s ++ rest) = ln s ++ without_messages rest.
Proof. intros s rest O B. rewrite without_ln by assumption. now rewrite B. Qed.

Lemma one_line_app : forall a b, one_line a -> one_line b -> one_line (a ++ b).
Proof. intros a b A B H. apply in_app_or in H as [H|H]; auto. Qed.

Lemma one_line_lit : forall s, forallb (fun c => negb (c =? 10)) (lit s) = true -> one_line (lit s).
Proof. intros s H I. rewrite forallb_forall in H. apply H in I. discriminate. Qed.

Lemma one_line_digits : forall n, one_line (put_number n).
Proof.
  intro n. destruct (put_number_ok n) as (ds & (_ & D & _) & _ & ->). intro H. apply in_map_iff in H as (d & E & I).
  unfold digit_char in E. destruct (d <? 10) eqn:?; lia.
Qed.

Lemma one_line_repeat : forall k c, c <> 10 -> one_line (repeat c k).
Proof. intros k c C H. apply repeat_spec in H. congruence. Qed.

(** Lines of the report that are lines of text. *)
Definition line_ok (l : line) : Prop :=
  match l with
  | StartLine i n => one_line i /\ one_line n
  | EndLine i n _ _ => one_line i /\ one_line n
  | FailedLine _ n _ => one_line n
  | _ => True
  end.

Lemma without_line : forall l rest, line_ok l -> without_messages (line_text l ++ rest) = line_text l ++ without_messages rest.
Proof.
  assert (K : forall s text rest, text = ln s -> one_line s -> begins_with (lit "info: ") (ln s) = false ->
    without_messages (text ++ rest) = text ++ without_messages rest).
  { intros s text rest -> O B. now apply without_kept. }
  assert (Li : forall s, forallb (fun c => negb (c =? 10)) (lit s) = true -> one_line (put s)) by (intros; now apply one_line_lit).
  intros l rest H. destruct l as [i n|n|i n b k|n|a b|i n k]; cbn [line_ok line_text] in *.
  - apply (K (put "Test #" ++ i ++ put " - '" ++ n ++ put "' starting.")); [unfold ln, newline; now rewrite <- !app_assoc| |reflexivity].
    repeat apply one_line_app; try tauto; now apply Li.
  - apply (K (put "Stage " ++ put_number n ++ put " completed successfully.")); [unfold ln, newline; now rewrite <- !app_assoc| |reflexivity].
    repeat apply one_line_app; try apply one_line_digits; now apply Li.
  - apply (K (put "Test #" ++ i ++ put " - '" ++ n ++ put "' " ++ (if b then put "succeeded" else put "failed") ++ put " with " ++ put_number k ++
       (if k =? 1 then put " successful stage." else put " successful stages."))); [unfold ln, newline; now rewrite <- !app_assoc| |reflexivity].
    repeat apply one_line_app; try apply one_line_digits; try tauto; try (now apply Li); [destruct b|destruct (k =? 1)]; now apply Li.
  - apply (K (repeat 61 (N.to_nat n))); [reflexivity|apply one_line_repeat; lia|]. now destruct (N.to_nat n).
  - unfold newline. rewrite <- !app_assoc.
    replace (put "Successful tests: " ++ put_number a ++ [10] ++ put "Failed tests: " ++ put_number b ++ [10] ++ [10] ++ rest)
      with (ln (put "Successful tests: " ++ put_number a) ++ ln (put "Failed tests: " ++ put_number b) ++ ln [] ++ rest)
      by (unfold ln; rewrite <- !app_assoc; reflexivity).
    rewrite without_kept; [|apply one_line_app; [now apply Li|apply one_line_digits]|reflexivity].
    rewrite without_kept; [|apply one_line_app; [now apply Li|apply one_line_digits]|reflexivity].
    rewrite without_kept; [|intros []|reflexivity]. unfold ln. rewrite <- !app_assoc. reflexivity.
  - apply (K (put "Test #" ++ put_number i ++ put " - '" ++ n ++ put "' failed on stage " ++ put_number k)); [unfold ln, newline; now rewrite <- !app_assoc| |reflexivity].
    repeat apply one_line_app; try apply one_line_digits; try tauto; now apply Li.
Qed.

Lemma without_printed : forall ls rest, Forall line_ok ls -> without_messages (printed ls ++ rest) = printed ls ++ without_messages rest.
Proof.
  induction ls as [|l ls IH]; intros rest H; [reflexivity|]. apply Forall_cons_iff in H as [H1 H2].
  unfold printed. cbn [flat_map]. rewrite <- !app_assoc. rewrite without_line by assumption. f_equal. now apply IH.
Qed.

Definition emission_ok (e : emission) : Prop :=
  match e with
  | Said ls => Forall line_ok ls
  | Info text ended => whole_line text ended
  | Err _ _ => True
  end.

Lemma normal_app : forall a b, normal (a ++ b) = normal a ++ normal b.
Proof. intros. unfold normal. now rewrite filter_app, map_app. Qed.

Lemma normal_on : forall c s, normal (on c s) = if is_normal c then s else [].
Proof.
  intros [] s; unfold normal, on; induction s as [|x s IH]; cbn [map filter fst is_normal snd] in *; try reflexivity; [now rewrite IH|exact IH].
Qed.

Lemma without_emissions : forall es, Forall emission_ok es ->
  without_messages (normal (flat_map emission_text es)) = printed (said es).
Proof.
  induction es as [|e es IH]; intro H; [reflexivity|]. apply Forall_cons_iff in H as [H1 H2]. specialize (IH H2).
  cbn [flat_map]. rewrite normal_app. destruct e as [ls|text ended|text ended]; cbn [emission_text emission_ok said flat_map] in *; rewrite normal_on; cbn [is_normal].
  - rewrite without_printed by assumption. rewrite printed_app. now rewrite IH.
  - destruct H1 as (s & O & E). rewrite E.
    replace (lit "info: " ++ ln s) with (ln (lit "info: " ++ s)) by (unfold ln; now rewrite <- app_assoc).
    rewrite without_ln by (apply one_line_app; [now apply one_line_lit|assumption]).
    replace (begins_with (lit "info: ") (ln (lit "info: " ++ s))) with true by reflexivity. exact IH.
  - exact IH.
Qed.
