(** What a test program prints and its exit status: the properties. *)
From Coq Require Import NArith ZArith List Bool Ascii String Lia.
From Coq Require Import ZifyBool ZifyNat ZifyN.
From Verif Require Import Base Integers NumeralSpec NumberLemmas CompareLemmas TestSpec TestModel TestText TestLemmas TestLemmas2 TestProps
  ReportSpec ReportModel ReportLemmas.
Import ListNotations.
Open Scope N_scope.
Ltac Zify.zify_post_hook ::= idtac.

(* ------------------------------------------------------------------ C103 *)

(** A program that runs a module of at most 65535 plain tests and returns the result of
    the run from main: on Windows, and on Unix-like systems as long as fewer than 256
    tests fail, its exit status is zero exactly if every test succeeded.  Missing: more
    failures on Unix-like systems, see below. *)
Theorem C103_exit_status_partial : forall h ts ps, Forall2 is_plain ts ps -> N.of_nat (List.length ts) < 2 ^ 16 ->
  Forall (fun p => N.of_nat (plain_stages p) + 1 < 2 ^ 16) ps ->
  (h = UnixHost -> count_false (map plain_success ps) < 256) ->
  exists text status, test_program h ts = Ok (text, status) /\
  (status = 0%Z <-> Forall (fun p => plain_success p = true) ps).
Proof.
  intros h ts ps F L St B. destruct (C52_plain ts ps F L St) as (m & o & R & _ & T).
  unfold test_program. rewrite R. cbn [bind]. eexists _, _. split; [reflexivity|].
  assert (Z : exit_status h (Z.of_N (count_false (map plain_success ps))) = Z.of_N (count_false (map plain_success ps))).
  { change (2 ^ 16) with 65536 in L. destruct h; cbn [exit_status]; apply Z.mod_small; [specialize (B eq_refl)|change (2 ^ 32)%Z with 4294967296%Z]; lia. }
  rewrite Z. clear. transitivity (count_false (map plain_success ps) = 0); [lia|]. unfold count_false.
  induction ps as [|p ps IH]; [cbn; split; [constructor|reflexivity]|]. cbn [map filter]. rewrite Forall_cons_iff.
  destruct (plain_success p); cbn [negb List.length]; [rewrite IH; intuition|]. split; [lia|]. intros [Q _]. discriminate.
Qed.
Print Assumptions C103_exit_status_partial.

Example C103_exit_status_example :
  Forall2 is_plain [StartTest [65] (EndStage (Return false))] [Plain [65] 1 false] /\
  count_false (map plain_success [Plain [65] 1 false]) < 256 /\
  (exists text, test_program UnixHost [StartTest [65] (EndStage (Return false))] = Ok (text, 1%Z)) /\
  (exists text, test_program WindowsHost [StartTest [65] (EndStage (Return true))] = Ok (text, 0%Z)).
Proof.
  split; [repeat constructor|]. split; [reflexivity|]. split; eexists; vm_compute; reflexivity.
Qed.

(** False for more failures: if 256 tests fail and no other, a Unix-like system reports
    success. *)
Theorem C103_exit_status_refuted : exists ts ps, Forall2 is_plain ts ps /\ List.length ts = 256%nat /\
  Forall (fun p => plain_success p = false) ps /\
  exists text, test_program UnixHost ts = Ok (text, 0%Z).
Proof.
  exists (repeat (StartTest [65] (Return false)) 256), (repeat (Plain [65] 0 false) 256).
  assert (F : Forall2 is_plain (repeat (StartTest [65] (Return false)) 256) (repeat (Plain [65] 0 false) 256)).
  { generalize 256%nat. induction n; cbn [repeat]; constructor; [reflexivity|exact IHn]. }
  split; [exact F|]. split; [apply repeat_length|]. split.
  { apply Forall_forall. intros p I. now apply repeat_spec in I as ->. }
  destruct (C52_plain _ _ F) as (m & o & R & _).
  - rewrite repeat_length. reflexivity.
  - apply Forall_forall. intros p I. now apply repeat_spec in I as ->.
  - unfold test_program. rewrite R. cbn [bind]. eexists. f_equal.
Qed.
Print Assumptions C103_exit_status_refuted.

(** Exactly which status: for whatever sequence of tests, stages and messages the test
    functions perform, the number of failed test functions on Windows, and its remainder
    modulo 256 on Unix-like systems.  So success is reported exactly if no test failed on
    Windows, and exactly if the number of failures is a multiple of 256 on the others. *)
Theorem C103_status : forall h ts ess bs count_text, observed ts ess bs -> N.of_nat (List.length ts) < 2 ^ 31 ->
  decimal (N.of_nat (List.length ts)) count_text ->
  starts (List.concat ess) < 10 ^ N.of_nat (List.length count_text) -> starts (List.concat ess) < 2 ^ 16 ->
  exists text, test_program h ts =
    Ok (text, Z.of_N match h with UnixHost => count_false bs mod 256 | WindowsHost => count_false bs end).
Proof.
  intros h ts ess bs dt O L D S1 S2.
  destruct (C52_first_run_partial ts ess bs dt O L D S1 S2) as (m & o & R & _).
  unfold test_program. rewrite R. cbn [bind]. eexists. f_equal. f_equal.
  destruct h; cbn [exit_status].
  - rewrite N2Z.inj_mod. reflexivity.
  - apply Z.mod_small. destruct O as (_ & L1 & L2).
    assert (count_false bs <= N.of_nat (List.length bs)).
    { clear. unfold count_false. induction bs as [|[|] bs IH]; cbn [filter negb List.length]; lia. }
    change (2 ^ 31) with 2147483648 in L. change (2 ^ 32)%Z with 4294967296%Z. lia.
Qed.
Print Assumptions C103_status.

Example C103_status_example :
  observed sample_tests [[Started [65]; StageEnded]; [Started [66]; StageEnded]; [StageEnded]] [true; false; false] /\
  decimal 3 [51] /\ count_false [true; false; false] = 2 /\
  exists text, test_program WindowsHost sample_tests = Ok (text, 2%Z).
Proof.
  split; [repeat split|]. split; [exists [3]; split; [apply canonical_one; lia|auto]|].
  split; [reflexivity|]. eexists. vm_compute. reflexivity.
Qed.

(** A test that throws ends the program abnormally: there is no exit status. *)
Theorem C103_throwing : forall h t ts, observe t [] = None ->
  match test_program h (t :: ts) with Ok _ => False | _ => True end.
Proof.
  intros h t ts O. pose proof (C52_throwing_test t ts (new_module (t :: ts)) O) as H.
  unfold test_program, run_tests. cbn [tests new_module]. change (Module uninitialized 0 0 0 [] (t :: ts) [] []) with (new_module (t :: ts)).
  destruct (run_all (t :: ts) (new_module (t :: ts))); cbn [bind]; auto.
Qed.
Print Assumptions C103_throwing.

Example C103_throwing_example :
  observe (StartTest [65] Raise) [] = None /\ test_program UnixHost [StartTest [65] Raise] = Terminate.
Proof. split; reflexivity. Qed.

(* ------------------------------------------------------------------ C104 *)

(** What the first run of a module prints, character by character. *)
Theorem C104_printed : forall h ts ess bs count_text, observed ts ess bs -> N.of_nat (List.length ts) < 2 ^ 31 ->
  decimal (N.of_nat (List.length ts)) count_text ->
  starts (List.concat ess) < 10 ^ N.of_nat (List.length count_text) -> starts (List.concat ess) < 2 ^ 16 ->
  exists text status, test_program h ts = Ok (text, status) /\ report_text (List.length count_text) ess bs text.
Proof.
  intros h ts ess bs dt O L D S1 S2.
  destruct (C52_first_run_partial ts ess bs dt O L D S1 S2) as (m & o & R & Om & _).
  destruct (run_all_text ts ess bs (new_module ts) (List.length dt) []) as (m1 & ls & R1 & R2 & R3); try assumption.
  { split; [exact L|]. exists dt. auto. } { repeat split. } { reflexivity. }
  unfold test_program. rewrite R. cbn [bind]. eexists _, _. split; [reflexivity|].
  assert (Eo : o = ls).
  { unfold run_tests in R. cbn [tests new_module] in R.
    change (Module uninitialized 0 0 0 [] ts [] []) with (new_module ts) in R. rewrite R1 in R. cbn [bind] in R.
    injection R as R _. assert (E : out m = (out m1 ++ TotalsLine (successes m1) (N.of_nat (List.length (failed m1))) :: map failed_line (failed m1))) by now rewrite <- R.
    rewrite R2 in E. cbn [out new_module app] in E. rewrite Om in E.
    assert (K : forall (a b : list line) x y u v, a ++ x :: u = b ++ y :: v -> Forall (fun l => match l with TotalsLine _ _ => False | _ => True end) u ->
                Forall (fun l => match l with TotalsLine _ _ => False | _ => True end) v ->
                match x with TotalsLine _ _ => True | _ => False end -> match y with TotalsLine _ _ => True | _ => False end -> a = b).
    { clear. induction a as [|p a IH]; intros [|q b] x y u v E U V X Y; cbn [app] in E.
      - reflexivity.
      - injection E as _ E. exfalso. rewrite E in U. apply Forall_app in U as [_ U]. apply Forall_cons_iff in U as [U _]. destruct y; auto.
      - injection E as _ E. exfalso. rewrite <- E in V. apply Forall_app in V as [_ V]. apply Forall_cons_iff in V as [V _]. destruct x; auto.
      - injection E as -> E. f_equal. now apply (IH b x y u v). }
    assert (J : forall fs, Forall (fun l => match l with TotalsLine _ _ => False | _ => True end) (map failed_line fs)).
    { clear. intro fs. apply Forall_map. apply Forall_forall. intros [[i n] k] _. exact I. }
    exact (K o ls _ _ _ _ E (J _) (J _) I I). }
  exists (printed ls), (printed [TotalsLine (count_true bs mod 2 ^ 16) (count_false bs)]), (printed (map failed_line (failures [] ess bs))).
  split; [exact R3|]. split; [apply totals_printed|]. split; [apply failures_printed|].
  rewrite Om, Eo. rewrite <- !printed_app. reflexivity.
Qed.
Print Assumptions C104_printed.

Example C104_printed_example :
  observed sample_tests [[Started [65]; StageEnded]; [Started [66]; StageEnded]; [StageEnded]] [true; false; false] /\
  decimal 3 [51] /\
  test_program UnixHost sample_tests = Ok (
    ln (lit "Test #1 - 'A' starting.") ++ ln (lit "Stage 1 completed successfully.") ++
    ln (lit "Test #1 - 'A' succeeded with 1 successful stage.") ++ ln (lit "=======") ++
    ln (lit "Test #2 - 'B' starting.") ++ ln (lit "Stage 1 completed successfully.") ++
    ln (lit "Test #2 - 'B' failed with 1 successful stage.") ++ ln (lit "=======") ++
    ln (lit "Stage 2 completed successfully.") ++
    ln (lit "Test #2 - 'B' failed with 2 successful stages.") ++ ln (lit "=======") ++
    ln (lit "Successful tests: 1") ++ ln (lit "Failed tests: 2") ++ ln [] ++
    ln (lit "Test #2 - 'B' failed on stage 2") ++ ln (lit "Test #2 - 'B' failed on stage 3"), 2%Z).
Proof.
  split; [repeat split|]. split.
  { exists [3]. split; [apply canonical_one; lia|]. auto. }
  vm_compute. reflexivity.
Qed.

(** The tests can be read back from the text: two programs of plain tests, whose names are
    one line each, that print the same have run tests of the same names, with the same
    numbers of stages and the same verdicts, in the same order. *)
Theorem C104_readable : forall h ts us ps qs text s s', Forall2 is_plain ts ps -> Forall2 is_plain us qs ->
  N.of_nat (List.length ts) < 2 ^ 16 -> N.of_nat (List.length us) < 2 ^ 16 ->
  Forall (fun p => one_line (plain_name p)) ps -> Forall (fun p => one_line (plain_name p)) qs ->
  test_program h ts = Ok (text, s) -> test_program h us = Ok (text, s') -> ps = qs.
Proof.
  assert (G : forall h ts ps text s, Forall2 is_plain ts ps -> N.of_nat (List.length ts) < 2 ^ 16 -> test_program h ts = Ok (text, s) ->
    exists w, report_text w (map plain_events ps) (map plain_success ps) text).
  { intros h ts ps text s F L E. destruct (decimal_exists (N.of_nat (List.length ts))) as (ds & C & V).
    assert (D : decimal (N.of_nat (List.length ts)) (map digit_char ds)) by (exists ds; auto).
    assert (LL : List.length ps = List.length ts) by (clear -F; induction F; cbn; congruence).
    pose proof (width_bound _ _ D) as W. exists (List.length (map digit_char ds)).
    destruct (C104_printed h ts (map plain_events ps) (map plain_success ps) (map digit_char ds)) as (t & st & E' & T).
    - now apply plain_observed.
    - change (2 ^ 16) with 65536 in L. change (2 ^ 31) with 2147483648. lia.
    - exact D.
    - rewrite plain_starts, LL. exact W.
    - rewrite plain_starts, LL. exact L.
    - rewrite E in E'. injection E' as -> _. exact T. }
  intros h ts us ps qs text s s' F F' L L' O O' E E'.
  destruct (G h ts ps text s F L E) as (w & t1 & t2 & t3 & T1 & (a & b & _ & _ & ->) & _ & ->).
  destruct (G h us qs _ s' F' L' E') as (w' & u1 & u2 & u3 & U1 & (a' & b' & _ & _ & ->) & _ & Eq).
  rewrite <- !app_assoc in Eq.
  change (lit "Successful tests: ") with (83 :: lit "uccessful tests: ") in Eq. unfold ln in Eq. cbn [app] in Eq.
  exact (plain_back ps qs w w' [] [] t1 u1 _ _ O O' T1 U1 Eq).
Qed.
Print Assumptions C104_readable.

Example C104_readable_example :
  Forall2 is_plain [StartTest [65] (EndStage (Return false))] [Plain [65] 1 false] /\
  Forall (fun p => one_line (plain_name p)) [Plain [65] 1 false] /\
  exists text, test_program UnixHost [StartTest [65] (EndStage (Return false))] = Ok (text, 1%Z).
Proof.
  split; [repeat constructor|]. split.
  - repeat constructor. intros [H|[]]. discriminate.
  - eexists. vm_compute. reflexivity.
Qed.
