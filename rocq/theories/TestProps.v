(** The test module: the properties. *)
From Coq Require Import NArith ZArith List Bool Lia ZifyBool ZifyNat ZifyN.
From Verif Require Import Base Integers NumeralSpec NumberLemmas CompareLemmas TestSpec TestModel TestText TestLemmas TestLemmas2.
Import ListNotations.
Open Scope N_scope.
Ltac Zify.zify_post_hook ::= idtac.

(* ------------------------------------------------------------------- C52 *)

(** The first run of a module, for any test functions, as long as the tests they
    start are not more than the width of the number of test functions allows
    (e.g. at most 99 for 10 to 99 functions).  It returns the number of functions
    that returned false; it reports the totals (the successes as an unsigned
    short) and then every failure; started tests are announced with consecutive
    numbers; no message is left. *)
Theorem C52_first_run_partial : forall ts ess bs count_text,
  observed ts ess bs -> N.of_nat (length ts) < 2 ^ 31 ->
  decimal (N.of_nat (length ts)) count_text ->
  starts (concat ess) < 10 ^ N.of_nat (length count_text) -> starts (concat ess) < 2 ^ 16 ->
  exists m o, run_tests (new_module ts) = Ok (m, Z.of_N (count_false bs)) /\
  out m = o ++ TotalsLine (count_true bs mod 2 ^ 16) (count_false bs)
            :: map failed_line (failures [] ess bs) /\
  announced (length count_text) 0 (names (concat ess)) (start_lines o) /\
  queue m = [].
Proof.
  intros ts ess bs dt O L D S1 S2.
  destruct (run_all_ok ts ess bs (new_module ts) (length dt) []) as (m & R1 & R2 & R3 & R4 & R4' & R5 & ls & R6 & R7);
    try assumption.
  - split; [exact L|]. exists dt. split; [exact D|reflexivity].
  - repeat split.
  - reflexivity.
  - unfold run_tests. cbn [tests new_module]. rewrite R1. cbn [bind].
    destruct O as (_ & L1 & L2).
    assert (F : N.of_nat (length (failed m)) = count_false bs).
    { rewrite R5. cbn [failed new_module app]. apply failures_count. congruence. }
    eexists _, ls. split.
    { f_equal. f_equal. cbn [failed print]. rewrite convert_id.
      - lia.
      - vm_compute. tauto.
      - unfold in_range. change (min_of I32) with (-2147483648)%Z. change (max_of I32) with 2147483647%Z.
        assert (count_false bs <= N.of_nat (length bs)).
        { clear. unfold count_false. induction bs as [|[|] bs IH]; cbn [filter negb length]; lia. }
        change (2 ^ 31) with 2147483648 in L. lia. }
    split.
    { cbn [out print]. rewrite R6. cbn [out new_module app]. f_equal. f_equal; [|now rewrite R5].
      f_equal; [|assumption]. cbn [successes new_module] in R4, R4'. rewrite N.add_0_l in R4.
      rewrite <- R4. symmetry. apply N.mod_small. apply R4'. reflexivity. }
    split; [exact R7|]. exact R3.
Qed.
Print Assumptions C52_first_run_partial.

(** Three functions: one pops a message it pushed and ends a stage, one fails in
    its second stage, one starts nothing. *)
Definition sample_tests : list test :=
  [StartTest [65] (PushMessage DestructorCalled (PopMessage (fun m =>
     match m with DestructorCalled => EndStage (Return true) | _ => Return false end)));
   StartTest [66] (EndStage (PushMessage ConstructorCalled (Return false)));
   EndStage (Return false)].

Example C52_first_run_example :
  observed sample_tests [[Started [65]; StageEnded]; [Started [66]; StageEnded]; [StageEnded]] [true; false; false] /\
  decimal 3 [51] /\
  (exists m, run_tests (new_module sample_tests) = Ok (m, 2%Z)) /\
  failures [] [[Started [65]; StageEnded]; [Started [66]; StageEnded]; [StageEnded]] [true; false; false]
  = [(2, [66], 2); (2, [66], 3)].
Proof.
  split; [repeat split|]. split.
  { exists [3]. split; [apply canonical_one; lia|]. auto. }
  split; [eexists; vm_compute; reflexivity|]. reflexivity.
Qed.

(** The usual case: at most 65535 test functions, each of which starts one test
    and then ends some stages.  The i-th test has index i, and a failure is
    reported with the stage after the last ended one. *)
Theorem C52_plain : forall ts ps, Forall2 is_plain ts ps -> N.of_nat (length ts) < 2 ^ 16 ->
  Forall (fun p => N.of_nat (plain_stages p) + 1 < 2 ^ 16) ps ->
  exists m o, run_tests (new_module ts) = Ok (m, Z.of_N (count_false (map plain_success ps))) /\
  out m = o ++ TotalsLine (count_true (map plain_success ps)) (count_false (map plain_success ps))
            :: map failed_line (plain_failures 1 ps) /\
  count_true (map plain_success ps) + count_false (map plain_success ps) = N.of_nat (length ts).
Proof.
  intros ts ps F L St.
  assert (LL : length ps = length ts) by (clear -F; induction F; cbn; congruence).
  destruct (decimal_exists (N.of_nat (length ts))) as (ds & C & V).
  assert (D : decimal (N.of_nat (length ts)) (map digit_char ds)) by (exists ds; auto).
  pose proof (width_bound _ _ D) as W.
  assert (T : count_true (map plain_success ps) + count_false (map plain_success ps) = N.of_nat (length ts)).
  { rewrite <- LL. clear. unfold count_true, count_false. induction ps as [|[n k [|]] ps IH]; cbn [map filter negb plain_success length] in *; lia. }
  destruct (C52_first_run_partial ts (map plain_events ps) (map plain_success ps) (map digit_char ds))
    as (m & o & R1 & R2 & _); try assumption.
  - now apply plain_observed.
  - change (2 ^ 31) with 2147483648. change (2 ^ 16) with 65536 in L. lia.
  - rewrite plain_starts, LL. assumption.
  - rewrite plain_starts, LL. assumption.
  - exists m, o. split; [assumption|]. rewrite plain_failures_ok in R2 by (assumption || (cbn [starts]; lia)).
    rewrite N.mod_small in R2 by lia. auto.
Qed.
Print Assumptions C52_plain.

Example C52_plain_example :
  Forall2 is_plain [StartTest [65] (EndStage (EndStage (Return false))); StartTest [66] (Return true)]
                   [Plain [65] 2 false; Plain [66] 0 true].
Proof. repeat constructor. Qed.

(** A second run does not count its own failures only: the first run's are
    reported again. *)
Theorem C52_second_run_refuted : exists ts m1 m2,
  observed ts [[Started [65]]] [false] /\
  run_tests (new_module ts) = Ok (m1, 1%Z) /\ run_tests m1 = Ok (m2, 2%Z) /\
  out m2 = out m1 ++ [StartLine [50] [65]; EndLine [50] [65] false 0; RulerLine 7; TotalsLine 0 2;
                      FailedLine 1 [65] 1; FailedLine 2 [65] 1].
Proof.
  exists [StartTest [65] (Return false)]. eexists _, _. split; [repeat split|].
  split; [vm_compute; reflexivity|]. split; [vm_compute; reflexivity|]. vm_compute. reflexivity.
Qed.
Print Assumptions C52_second_run_refuted.

(** A test function that throws ends the program. *)
Theorem C52_throwing_test : forall t ts m, observe t (queue m) = None ->
  match run_all (t :: ts) m with Ok _ => False | _ => True end.
Proof.
  intros t ts m O. cbn [run_all].
  assert (H : match run_test t m with Ok _ => False | _ => True end).
  { clear ts. revert m O. induction t as [b0| |name t IH|t IH|x t IH|k IH|t IH|k IH]; intros m O; cbn [observe run_test] in *.
    - discriminate.
    - exact I.
    - destruct (observe t (queue m)) as [[? ?]|] eqn:E; [discriminate|].
      destruct (start_test m name) as [m'| | | |] eqn:S; cbn [bind]; try exact I. apply IH.
      unfold start_test in S. destruct (zero_pad _ _); cbn [bind] in S; try discriminate. injection S as <-. exact E.
    - destruct (observe t (queue m)) as [[? ?]|] eqn:E; [discriminate|]. apply IH. exact E.
    - apply IH. exact O.
    - unfold pop_message. destruct (queue m) as [|x q] eqn:Q.
      + apply IH. rewrite Q. exact O.
      + apply IH. exact O.
    - apply IH. exact O.
    - apply IH. exact O. }
  destruct (run_test t m) as [[m' b]| | | |]; cbn [bind]; [contradiction|exact I..].
Qed.
Print Assumptions C52_throwing_test.

Example C52_throwing_example :
  run_all [StartTest [65] Raise] (new_module [StartTest [65] Raise]) = Terminate.
Proof. vm_compute. reflexivity. Qed.

(* ------------------------------------------------------------------- C53 *)

(** Any sequence of calls on the message queue of a fresh module is answered as by
    a first-in first-out queue. *)
Theorem C53_fifo : forall ts cs, queue_run (new_module ts) cs = queue_answers [] 0 cs.
Proof. intros ts cs. apply queue_run_ok; [reflexivity|cbn; lia]. Qed.
Print Assumptions C53_fifo.

Example C53_fifo_example :
  queue_run (new_module []) [QPush ConstructorCalled; QPush DestructorCalled; QCount; QPop; QPush MoveConstructorCalled;
                             QPop; QPop; QPop; QPush ConstructorCalled; QClear; QPop] =
  [ACount 2; APopped ConstructorCalled; APopped DestructorCalled; APopped MoveConstructorCalled;
   APopped EmptyMessage; APopped EmptyMessage].
Proof. reflexivity. Qed.

(** Whatever state the module is in, after the end of a test it answers like a
    module whose queue has always been empty. *)
Theorem C53_empty_after_test : forall m b m' cs, end_test m b = Ok m' ->
  queue_run m' cs = queue_answers [] 0 cs.
Proof.
  intros m b m' cs H. apply queue_run_ok; [|cbn; lia]. unfold end_test in H.
  destruct (zero_pad m (current_index m)); try discriminate. cbn [bind] in H. injection H as <-. reflexivity.
Qed.
Print Assumptions C53_empty_after_test.

Example C53_empty_example : exists m', 
  end_test (push_message (new_module sample_tests) DestructorCalled) true = Ok m' /\
  queue_run m' [QCount; QPop] = [ACount 0; APopped EmptyMessage].
Proof. eexists. split; [vm_compute; reflexivity|]. vm_compute. reflexivity. Qed.

(* ------------------------------------------------------------------- C54 *)

(** The index text is the decimal number padded with zeros to the width of the
    number of tests, if it fits that width; otherwise memory outside the string
    is written. *)
Theorem C54_zero_pad_partial : forall m n number count_text,
  n < 2 ^ 31 -> N.of_nat (length (tests m)) < 2 ^ 31 ->
  decimal n number -> decimal (N.of_nat (length (tests m))) count_text ->
  ((length number <= length count_text)%nat ->
     exists text, zero_pad m n = Ok text /\ padded (length count_text) n text /\
                  length text = length count_text) /\
  ((length count_text < length number)%nat -> zero_pad m n = UB OutOfBoundsWrite).
Proof.
  intros m n number ct B T (dn & Cn & Vn & ->) (dt & Ct & Vt & ->).
  pose proof (zero_pad_ok m n dn dt B T Cn Vn Ct Vt) as Z. rewrite !map_length. split; intro H.
  - apply Nat.leb_le in H as H'. rewrite H' in Z. eexists. split; [exact Z|]. split.
    + exists (map digit_char dn). split; [exists dn; auto|]. now rewrite map_length.
    + rewrite app_length, repeat_length, map_length. lia.
  - apply Nat.leb_gt in H. now rewrite H in Z.
Qed.
Print Assumptions C54_zero_pad_partial.

Example C54_zero_pad_example :
  zero_pad (new_module (repeat (Return true) 12)) 7 = Ok [48; 55] /\
  zero_pad (new_module (repeat (Return true) 9)) 10 = UB OutOfBoundsWrite.
Proof. split; vm_compute; reflexivity. Qed.

(** The bad case is reachable: nine passing tests, run twice. *)
Theorem C54_outside_refuted : exists ts m1,
  Forall2 is_plain ts (repeat (Plain [65] 0 true) 9) /\
  run_tests (new_module ts) = Ok (m1, 0%Z) /\ run_tests m1 = UB OutOfBoundsWrite.
Proof.
  exists (repeat (StartTest [65] (Return true)) 9). eexists.
  split; [repeat constructor|]. split; [vm_compute; reflexivity|]. vm_compute. reflexivity.
Qed.
Print Assumptions C54_outside_refuted.
