(** The project's tests, run: each test function starts one test and returns true. *)
From Coq Require Import NArith ZArith List Bool String Lia.
From Coq Require Import ZifyBool ZifyNat ZifyN.
From Verif Require Import Base NumeralSpec NumberLemmas TestSpec TestModel TestText TestLemmas2 ReportModel ReportProps CompareModel StreamModel FileModel.
From Verif Require Import SuiteModel SuiteModel2.
From Verif Require TypeModel.
Import ListNotations.

Definition passes (t : test) : bool :=
  match observe t [] with Some (es, b) => b && (TestSpec.starts es =? 1)%N | None => false end.

Definition pass (ts : list test) : bool := forallb passes ts.

Lemma core_pass : pass [test_count_decimal_digits; test_count_hexadecimal_digits] = true.
Proof. vm_compute. reflexivity. Qed.

Lemma examiners_pass : pass examiners_tests = true.
Proof. vm_compute. reflexivity. Qed.

Lemma algorithms_pass : pass algorithms_tests = true.
Proof. vm_compute. reflexivity. Qed.

Lemma code_points_pass : forall m, pass (by_code_point_tests m) = true.
Proof. intros [[|] [|] p]; vm_compute; reflexivity. Qed.

Lemma formatters_pass : forall m, pass [test_format_bool; test_format_integer m] = true.
Proof. intros [[|] [|] p]; vm_compute; reflexivity. Qed.

Lemma parsers_pass : pass [test_parse_bool; test_parse_integer] = true.
Proof. vm_compute. reflexivity. Qed.

Lemma traits_pass : forall z, TypeModel.wide_size z = 2%N \/ TypeModel.wide_size z = 4%N ->
  pass (type_traits_tests z) = true.
Proof. intros [w o] [E|E]; cbn in E; subst w; vm_compute; reflexivity. Qed.

Lemma general_pass : forall c, pass (io_general_tests c) = true.
Proof. intros [m [|] pl cap]; vm_compute; reflexivity. Qed.

Lemma containers_pass : forall c, native c = Little -> pass (container_transfer_resources_tests c) = true.
Proof. intros [[[|] [|] p] [|] pl cap] E; try discriminate E; vm_compute; reflexivity. Qed.

Lemma data_io_pass : forall c, pass (data_io_stream_tests c) = true.
Proof. intros [m [|] pl cap]; vm_compute; reflexivity. Qed.

Lemma files_pass : forall c, default_capacity c = 1024%nat -> pass (file_tests c) = true.
Proof. intros [[[|] [|] p] [|] [|] cap] E; cbn in E; subst cap; vm_compute; reflexivity. Qed.

Lemma data_input_pass : forall c, default_capacity c = 1024%nat -> pass (data_input_stream_tests c) = true.
Proof. intros [[[|] [|] p] [|] [|] cap] E; cbn in E; subst cap; vm_compute; reflexivity. Qed.

Lemma data_output_pass : forall c, default_capacity c = 1024%nat -> pass (data_output_stream_tests c) = true.
Proof. intros [[[|] [|] p] [|] [|] cap] E; cbn in E; subst cap; vm_compute; reflexivity. Qed.

Lemma text_strings_pass : forall c, pass (firstn 5 (text_input_stream_tests c)) = true.
Proof. intros [[[|] [|] p] [|] pl cap]; vm_compute; reflexivity. Qed.

Lemma text_output_pass : forall c, default_capacity c = 1024%nat -> pass (text_output_stream_tests c) = true.
Proof. intros [[[|] [|] p] [|] [|] cap] E; cbn in E; subst cap; vm_compute; reflexivity. Qed.

Lemma text_io_pass : forall c, default_capacity c = 1024%nat -> pass (text_io_stream_tests c) = true.
Proof. intros [m [|] [|] cap] E; cbn in E; subst cap; vm_compute; reflexivity. Qed.

(** A program of passing tests ends with status 0. *)
Lemma observed_passing : forall ts, pass ts = true ->
  exists ess, observed ts ess (repeat true (List.length ts)) /\
  TestSpec.starts (List.concat ess) = N.of_nat (List.length ts).
Proof.
  assert (A : forall a b, TestSpec.starts (a ++ b) = (TestSpec.starts a + TestSpec.starts b)%N).
  { induction a as [|[n|] a IH]; intros b; cbn [app TestSpec.starts]; rewrite ?IH; lia. }
  induction ts as [|t ts IH]; intros P; [exists []; repeat split|].
  cbn [pass forallb] in P. apply andb_prop in P as [P Q]. destruct (IH Q) as (ess & (O1 & O2 & O3) & S).
  unfold passes in P. destruct (observe t []) as [[es b]|] eqn:E; [|discriminate P].
  apply andb_prop in P as [P1 P2]. destruct b; [|discriminate P1]. exists (es :: ess). split.
  - split; [|split].
    + cbn [map List.length repeat combine]. now rewrite E, O1.
    + cbn [List.length]. now rewrite O2.
    + cbn [List.length repeat]. now rewrite O3.
  - cbn [List.concat List.length]. rewrite A, S. lia.
Qed.

Lemma count_false_repeat : forall n, count_false (repeat true n) = 0%N.
Proof. intros n. unfold count_false. induction n; [reflexivity|exact IHn]. Qed.

Lemma passing_status : forall h ts, pass ts = true -> (List.length ts <= 100)%nat ->
  exists report, test_program h ts = Ok (report, 0%Z).
Proof.
  intros h ts P L. destruct (observed_passing ts P) as (ess & O & S).
  destruct (decimal_exists (N.of_nat (List.length ts))) as (ds & C & V).
  assert (B : (value 10 ds < 10 ^ N.of_nat (List.length ds))%N) by (apply value_bound; [lia|apply C]).
  destruct (C103_status h ts ess _ (map digit_char ds) O) as (text & T).
  - lia.
  - exists ds. auto.
  - rewrite map_length. lia.
  - lia.
  - rewrite count_false_repeat in T. exists text. rewrite T. destruct h; reflexivity.
Qed.
