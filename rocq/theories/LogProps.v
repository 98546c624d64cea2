(** C135: what tests log. *)
From Coq Require Import NArith ZArith List Bool Ascii String Lia.
From Coq Require Import ZifyBool ZifyNat ZifyN.
From Verif Require Import Base Integers NumeralSpec NumberLemmas CompareLemmas TestSpec TestModel TestText TestLemmas TestLemmas2 TestProps
  ReportSpec ReportModel ReportLemmas ReportProps LogSpec LogModel LogLemmas LogLemmas2 LogLemmas3.
Import ListNotations.
Open Scope N_scope.
Ltac Zify.zify_post_hook ::= idtac.

(* --------------------------------------------------------------------- C135 *)

(** Messages have no influence on the result: whatever test functions log, the program ends
    as it does if they log nothing (with the same exit status, or by the same exception
    or undefined behaviour). *)
Theorem C135_results : forall h ts,
  snd (log_program h ts) = bind (test_program h (map silent ts)) (fun '(_, status) => Ok status).
Proof.
  intros h ts. unfold log_program, test_program. destruct (run_ltests_silent ts) as [A _].
  destruct (run_ltests ts) as [es o]. cbn [snd] in A. rewrite <- A.
  destruct (fold_left emit es ([], [])) as [s b]. destruct o as [[m n]| | | |]; reflexivity.
Qed.
Print Assumptions C135_results.

(** Two tests; the second fails. *)
Definition talkative : list ltest :=
  [LStartTest (lit "A") (LogInfo (lit "one") true (LEndStage (LogError (lit "two") true (LReturn true))));
   LogInfo (lit "three" ++ [10]) false (LStartTest (lit "B") (LogInfo (lit "four" ++ [10]) false (LReturn false)))].

Example C135_results_example :
  snd (log_program UnixHost talkative) = Ok 1%Z /\
  exists text, test_program UnixHost (map silent talkative) = Ok (text, 1%Z).
Proof. split; [vm_compute; reflexivity|]. eexists. vm_compute. reflexivity. Qed.

(** If every test function returns, the terminal shows everything in the order in which
    it happened: the announcements, the messages, the ends of tests and the totals. *)
Theorem C135_shown : forall h ts hss bs count_text, all_heard ts hss bs -> N.of_nat (List.length ts) < 2 ^ 31 ->
  decimal (N.of_nat (List.length ts)) count_text ->
  starts (List.concat (map events_of hss)) < 10 ^ N.of_nat (List.length count_text) ->
  starts (List.concat (map events_of hss)) < 2 ^ 16 ->
  exists screen status, log_program h ts = (screen, Ok status) /\ report_shown (List.length count_text) hss bs screen.
Proof.
  intros h ts hss bs dt H L D S1 S2. pose proof (all_heard_observed _ _ _ H) as O.
  assert (W : wide (new_module (map silent ts)) (List.length dt)).
  { split; cbn [new_module tests]; rewrite map_length; [exact L|]. exists dt. auto. }
  pose proof (run_lall_shown ts hss bs (new_module (map silent ts)) (List.length dt) [] W) as R.
  destruct (run_all_ok (map silent ts) (map events_of hss) bs (new_module (map silent ts)) (List.length dt) []) as (m & E & _ & _ & X1 & X2 & X3 & _); try assumption;
    [repeat split|reflexivity|].
  unfold log_program, run_ltests. destruct (run_lall_silent ts (new_module (map silent ts))) as [A _].
  destruct (run_lall ts (new_module (map silent ts))) as [es o]. cbn [fst snd] in *. rewrite E in A. subst o.
  destruct (fold_left emit _ ([], [])) as [s b] eqn:F. apply emit_all in F as [F _]. cbn [app on map] in F.
  eexists _, _. split; [reflexivity|]. rewrite F. rewrite flat_emission_app. cbn [flat_map emission_text]. rewrite app_nil_r.
  exists (flat_map emission_text es), (printed [TotalsLine (count_true bs mod 2 ^ 16) (count_false bs)]), (printed (map failed_line (failures [] (map events_of hss) bs))).
  split; [apply R; try assumption; [repeat split|reflexivity]|]. split; [apply totals_printed|]. split; [apply failures_printed|].
  rewrite <- printed_app. cbn [app]. cbn [new_module failed successes app] in X1, X2, X3.
  assert (Q1 : successes m = count_true bs mod 2 ^ 16).
  { rewrite N.add_0_l in X1. rewrite <- X1. symmetry. apply N.mod_small. apply X2. reflexivity. }
  rewrite X3, Q1, failures_count; [reflexivity|]. destruct H as (_ & Q3 & Q4). rewrite map_length. lia.
Qed.
Print Assumptions C135_shown.

Example C135_shown_example :
  all_heard talkative
    [[Announced (Started (lit "A")); Informed (lit "one") true; Announced StageEnded; Warned (lit "two") true];
     [Informed (lit "three" ++ [10]) false; Announced (Started (lit "B")); Informed (lit "four" ++ [10]) false]] [true; false] /\
  decimal 2 [50] /\
  fst (log_program UnixHost talkative) =
    on Normal (ln (lit "Test #1 - 'A' starting.") ++ ln (lit "info: one") ++ ln (lit "Stage 1 completed successfully.")) ++
    on Error (ln (lit "error: two")) ++
    on Normal (ln (lit "Test #1 - 'A' succeeded with 1 successful stage.") ++ ln (lit "=======") ++
      ln (lit "info: three") ++ ln (lit "Test #2 - 'B' starting.") ++ ln (lit "info: four") ++
      ln (lit "Test #2 - 'B' failed with 0 successful stages.") ++ ln (lit "=======") ++
      ln (lit "Successful tests: 1") ++ ln (lit "Failed tests: 1") ++ ln [] ++
      ln (lit "Test #2 - 'B' failed on stage 1")).
Proof.
  split; [repeat split|]. split; [exists [2]; split; [apply canonical_one; lia|auto]|]. vm_compute. reflexivity.
Qed.

(** The report can be told from the messages: if every test function returns, and names
    and informational messages are one line each, the lines of the standard output
    that do not begin with "info: " are the report of the tests without messages.  Missing:
    messages that are not whole lines, see below. *)
Theorem C135_report_partial : forall h ts hss bs screen status text status',
  all_heard ts hss bs -> Forall (Forall orderly) hss ->
  log_program h ts = (screen, Ok status) -> test_program h (map silent ts) = Ok (text, status') ->
  without_messages (normal screen) = text.
Proof.
  intros h ts hss bs screen status text status' H F E T.
  pose proof (run_ltests_lines ts hss bs H F) as K. destruct (run_ltests_silent ts) as [A B].
  unfold log_program in E. unfold test_program in T. destruct (run_ltests ts) as [es o]. cbn [fst snd] in *. rewrite <- A in T.
  destruct (fold_left emit es ([], [])) as [s b] eqn:G. apply emit_all in G as [G _]. cbn [app on map] in G.
  destruct o as [[m n]| | | |]; cbn [bind] in T; try discriminate. injection T as <- _. injection E as <- _.
  rewrite G, (B m n eq_refl). now apply without_emissions.
Qed.
Print Assumptions C135_report_partial.

Example C135_report_example :
  Forall (Forall orderly)
    [[Announced (Started (lit "A")); Informed (lit "one") true; Announced StageEnded; Warned (lit "two") true];
     [Informed (lit "three" ++ [10]) false; Announced (Started (lit "B")); Informed (lit "four" ++ [10]) false]] /\
  exists text, test_program UnixHost (map silent talkative) = Ok (text, 1%Z) /\
    without_messages (normal (fst (log_program UnixHost talkative))) = text /\ text <> [].
Proof.
  split.
  - repeat (apply Forall_cons || apply Forall_nil); cbn [orderly]; try exact I; try (apply one_line_lit; reflexivity).
    + exists (lit "one"). split; [apply one_line_lit|]; reflexivity.
    + exists (lit "three"). split; [apply one_line_lit|]; reflexivity.
    + exists (lit "four"). split; [apply one_line_lit|]; reflexivity.
  - eexists. split; [vm_compute; reflexivity|]. split; [vm_compute; reflexivity|discriminate].
Qed.

(** False for a message without end of line: the next announcement is part of its line. *)
Theorem C135_glued_refuted : exists ts hss bs screen status text,
  all_heard ts hss bs /\ log_program UnixHost ts = (screen, Ok status) /\
  test_program UnixHost (map silent ts) = Ok (text, status) /\ without_messages (normal screen) <> text.
Proof.
  exists [LStartTest (lit "A") (LogInfo (lit "one") false (LEndStage (LReturn true)))],
    [[Announced (Started (lit "A")); Informed (lit "one") false; Announced StageEnded]], [true].
  eexists _, _, _. split; [repeat split|]. split; [vm_compute; reflexivity|]. split; [vm_compute; reflexivity|].
  vm_compute. discriminate.
Qed.
Print Assumptions C135_glued_refuted.

(** A test function that throws ends the program abnormally.  What had happened before is
    shown, if its last message ended with std::endl or was an error, or something was
    announced after it.  Missing: other messages, see below. *)
Theorem C135_abort_partial : forall h ts hss bs t hs later count_text,
  let program := ts ++ t :: later in
  all_heard ts hss bs -> heard t [] = (hs, None) -> settled hs ->
  N.of_nat (List.length program) < 2 ^ 31 -> decimal (N.of_nat (List.length program)) count_text ->
  starts (List.concat (map events_of hss) ++ events_of hs) < 10 ^ N.of_nat (List.length count_text) ->
  starts (List.concat (map events_of hss) ++ events_of hs) < 2 ^ 16 ->
  exists before now, log_program h program = (before ++ now, Terminate) /\
    tests_shown (List.length count_text) [] hss bs before /\
    happenings_shown (List.length count_text) (List.concat (map events_of hss)) hs now.
Proof.
  intros h ts hss bs t hs later dt program H T Se L D S1 S2. set (m0 := new_module (map silent program)).
  set (w := List.length dt) in *.
  assert (W : wide m0 w).
  { split; cbn [m0 new_module tests]; rewrite map_length; [exact L|]. exists dt. auto. }
  pose proof (starts_app (List.concat (map events_of hss)) (events_of hs)) as SA.
  pose proof (all_heard_observed _ _ _ H) as O.
  destruct (run_all_agrees (map silent ts) (map events_of hss) bs m0 w []) as (m1 & R1 & R2 & R3 & R4); try assumption;
    [repeat split|reflexivity|cbn [app]; lia|cbn [app]; lia|]. cbn [app] in R2.
  pose proof (run_lall_shown ts hss bs m0 w [] W) as Sh1.
  destruct (run_ltest_shown t m1 w (List.concat (map events_of hss)) hs None R3 R2) as (Sh2 & En & Te);
    [now rewrite R4|assumption|assumption|]. specialize (Te eq_refl).
  destruct (run_lall_silent ts m0) as [A _]. rewrite R1 in A.
  destruct (run_lall ts m0) as [es1 o1] eqn:E1. cbn [fst snd] in *. subst o1.
  pose proof (run_lall_ended _ _ _ _ E1) as En1.
  assert (E2 : run_lall (t :: later) m1 = (fst (run_ltest t m1), Terminate)).
  { cbn [run_lall]. destruct (run_ltest t m1) as [es o]. cbn [fst snd] in *. now subst o. }
  pose proof (run_lall_app ts (t :: later) m0 es1 m1 E1) as E3. rewrite E2 in E3. cbn [fst snd] in E3.
  exists (flat_map emission_text es1), (flat_map emission_text (fst (run_ltest t m1))).
  split; [|split; [apply Sh1; try assumption; [repeat split|reflexivity|cbn [app]; lia|cbn [app]; lia]|exact Sh2]].
  unfold log_program, run_ltests. fold program. fold m0. unfold program at 1. rewrite E3.
  set (es2 := fst (run_ltest t m1)) in *.
  destruct (fold_left emit (es1 ++ es2) ([], [])) as [s b] eqn:F. apply emit_all in F as [F1 F2].
  cbn [app on map] in F1. rewrite <- flat_emission_app, <- F1. f_equal.
  assert (B : es1 ++ es2 = [] \/ es1 ++ es2 <> []) by (destruct (es1 ++ es2); [now left|right; discriminate]).
  destruct B as [B|B].
  - rewrite B in F1. cbn [flat_map] in F1. apply app_eq_nil in F1 as [-> F1]. now rewrite F1.
  - rewrite F2; [cbn [on map]; now rewrite app_nil_r|exact B|].
    rewrite map_app, En. destruct hs as [|h0 hs0]; [rewrite app_nil_r; exact En1|].
    rewrite last_app_ne by discriminate. change true with (ended_happening (Announced StageEnded)). rewrite last_map.
    unfold settled in Se. destruct (last (h0 :: hs0) (Announced StageEnded)); [reflexivity|exact Se|reflexivity].
Qed.
Print Assumptions C135_abort_partial.

Example C135_abort_example :
  heard (LStartTest (lit "C") (LogInfo (lit "five") true LRaise)) [] = ([Announced (Started (lit "C")); Informed (lit "five") true], None) /\
  settled [Announced (Started (lit "C")); Informed (lit "five") true] /\ decimal 2 [50] /\
  log_program WindowsHost [LStartTest (lit "A") (LReturn true); LStartTest (lit "C") (LogInfo (lit "five") true LRaise)] =
    (on Normal (ln (lit "Test #1 - 'A' starting.") ++ ln (lit "Test #1 - 'A' succeeded with 0 successful stages.") ++
       ln (lit "=======") ++ ln (lit "Test #2 - 'C' starting.") ++ ln (lit "info: five")), Terminate).
Proof.
  split; [reflexivity|]. split; [reflexivity|]. split; [exists [2]; split; [apply canonical_one; lia|auto]|].
  vm_compute. reflexivity.
Qed.

(** False for an informational message that ends with a newline character: it is lost. *)
Theorem C135_lost_refuted : exists t text screen, heard t [] = ([Announced (Started (lit "A")); Informed (ln text) false], None) /\
  one_line text /\ log_program UnixHost [t] = (screen, Terminate) /\
  screen = on Normal (ln (lit "Test #1 - 'A' starting.")).
Proof.
  exists (LStartTest (lit "A") (LogInfo (ln (lit "now")) false LRaise)), (lit "now"). eexists. split; [reflexivity|].
  split; [apply one_line_lit; reflexivity|]. split; vm_compute; reflexivity.
Qed.
Print Assumptions C135_lost_refuted.
