(** Property C131: the project's own automated tests, run in the model. *)
From Coq Require Import NArith ZArith List Bool String Lia.
From Coq Require Import ZifyBool ZifyNat ZifyN.
From Verif Require Import Base TestSpec TestModel ReportModel CompareModel StreamModel FileModel.
From Verif Require Import SuiteModel SuiteModel2 SuiteSpec SuiteLemmas SuiteLemmas2.
From Verif Require TypeModel.
Import ListNotations.

(** The test programs of /repo/tests/automated, without the three test functions that
    compute with floating-point numbers: test_cmp_equal, test_format_floating_point and
    test_parse_floating_point. *)
Definition suite (c : computer) (z : TypeModel.sizes) : list (list test) :=
  [[test_count_decimal_digits; test_count_hexadecimal_digits];
   examiners_tests;
   algorithms_tests;
   by_code_point_tests (processor c);
   [test_format_bool; test_format_integer (processor c)];
   [test_parse_bool; test_parse_integer];
   type_traits_tests z;
   io_general_tests c;
   file_tests c;
   data_input_stream_tests c;
   data_output_stream_tests c;
   data_io_stream_tests c;
   text_input_stream_tests c;
   text_output_stream_tests c;
   text_io_stream_tests c].

Lemma passes_succeeds : forall ts, pass ts = true -> Forall succeeds ts.
Proof.
  intros ts P. apply Forall_forall. intros t I. unfold pass in P. rewrite forallb_forall in P. specialize (P t I).
  unfold passes in P. unfold succeeds. destruct (observe t []) as [[es [|]]|]; [|discriminate P|discriminate P]. now exists es.
Qed.

Lemma suite_passes : forall c z, default_capacity c = 1024%nat -> TypeModel.wide_size z = 2%N \/ TypeModel.wide_size z = 4%N ->
  Forall (fun ts => pass ts = true) (suite c z).
Proof.
  intros c z E Z. unfold suite.
  apply Forall_cons; [exact core_pass|]. apply Forall_cons; [exact examiners_pass|]. apply Forall_cons; [exact algorithms_pass|].
  apply Forall_cons; [apply code_points_pass|]. apply Forall_cons; [apply formatters_pass|]. apply Forall_cons; [exact parsers_pass|].
  apply Forall_cons; [now apply traits_pass|]. apply Forall_cons; [apply general_pass|]. apply Forall_cons; [now apply files_pass|].
  apply Forall_cons; [now apply data_input_pass|]. apply Forall_cons; [now apply data_output_pass|]. apply Forall_cons; [apply data_io_pass|].
  apply Forall_cons; [apply text_input_pass|].
  { rewrite E. right. lia. }
  { rewrite E. destruct (system c); vm_compute; discriminate. }
  apply Forall_cons; [now apply text_output_pass|]. apply Forall_cons; [now apply text_io_pass|]. apply Forall_nil.
Qed.

(* --------------------------------------------------------------------- C131 *)

(** Every automated test succeeds, and every test program ends with exit status 0,
    whatever the signedness of char, the size of wchar_t, the byte order, the operating
    system and the sizes of other types.  Missing: the buffer capacity is the default one
    (see C131_small_buffer_refuted), the tests of containers need a little-endian
    machine (C131_containers_partial, C131_big_endian_refuted), and the three tests that
    compute with floating-point numbers are left out. *)
Theorem C131_suite_partial : forall c z, default_capacity c = 1024%nat ->
  TypeModel.wide_size z = 2%N \/ TypeModel.wide_size z = 4%N ->
  Forall (fun program => Forall succeeds program /\ program_succeeds program) (suite c z).
Proof.
  intros c z E Z. pose proof (suite_passes c z E Z) as P.
  assert (L : Forall (fun ts : list test => (List.length ts <= 100)%nat) (suite c z)).
  { unfold suite. repeat (apply Forall_cons; [cbn; lia|]). apply Forall_nil. }
  revert P L. generalize (suite c z). induction l as [|ts l IH]; intros P L; constructor; inversion P; inversion L; subst.
  - split; [now apply passes_succeeds|]. intro h. now apply passing_status.
  - now apply IH.
Qed.
Print Assumptions C131_suite_partial.

(** The tests of reading texts succeed with any buffer that holds a code unit, and
    without one. *)
Theorem C131_text_input_partial : forall c, default_capacity c = 0%nat \/ (4 <= default_capacity c)%nat ->
  (Z.of_nat (default_capacity c) <= chunk_max (system c))%Z ->
  Forall succeeds (text_input_stream_tests c) /\ program_succeeds (text_input_stream_tests c).
Proof.
  intros c U C. pose proof (text_input_pass c U C) as P. split; [now apply passes_succeeds|].
  intro h. apply passing_status; [exact P|]. cbn. lia.
Qed.
Print Assumptions C131_text_input_partial.

Theorem C131_containers_partial : forall c, native c = Little ->
  Forall succeeds (container_transfer_resources_tests c) /\ program_succeeds (container_transfer_resources_tests c).
Proof.
  intros c E. pose proof (containers_pass c E) as P. split; [now apply passes_succeeds|].
  intro h. apply passing_status; [exact P|]. cbn. lia.
Qed.
Print Assumptions C131_containers_partial.

Definition pc : computer := Computer (Machine true true rounded_pow10) Little UnixLike 1024.
Definition old_mac : computer := Computer (Machine true true rounded_pow10) Big UnixLike 1024.
Definition wide_4 : TypeModel.sizes := TypeModel.Sizes 4 (fun _ => 8%N).

(** 15 programs, 51 tests; the first test of files starts and ends five stages. *)
Example C131_example : default_capacity pc = 1024%nat /\ native pc = Little /\ TypeModel.wide_size wide_4 = 4%N /\
  List.length (suite pc wide_4) = 15%nat /\ List.length (List.concat (suite pc wide_4)) = 51%nat /\
  exists events, observe (test_open pc) [] = Some (events, true) /\ List.length events = 6%nat.
Proof.
  split; [reflexivity|]. split; [reflexivity|]. split; [reflexivity|]. split; [reflexivity|].
  split; [vm_compute; reflexivity|]. eexists. split; [vm_compute; reflexivity|reflexivity].
Qed.

(** On a big-endian machine three tests of containers fail: they compare the bytes of
    code units with those of a little-endian machine. *)
Theorem C131_big_endian_refuted : forall c, native c = Big ->
  exists report, test_program UnixHost (container_transfer_resources_tests c) = Ok (report, 3%Z).
Proof. intros [[[|] [|] p] [|] pl cap] E; try discriminate E; eexists; vm_compute; reflexivity. Qed.
Print Assumptions C131_big_endian_refuted.

(** With a configured default capacity of one byte, a test of reading data fails and the
    program that tests reading texts is terminated: a read of several bytes through a
    smaller buffer gives too few of them (C33). *)
Definition small_buffer : computer := Computer (Machine true true rounded_pow10) Little UnixLike 1.
Theorem C131_small_buffer_refuted :
  (exists report, test_program UnixHost (data_input_stream_tests small_buffer) = Ok (report, 1%Z)) /\
  test_program UnixHost (text_input_stream_tests small_buffer) = Terminate.
Proof. split; [eexists|]; vm_compute; reflexivity. Qed.
Print Assumptions C131_small_buffer_refuted.

(** The three tests with floating-point numbers, evaluated here but not part of a theorem
    (the checker without a virtual machine would need minutes for them): all pass. *)
Eval vm_compute in
  let m := Machine true true rounded_pow10 in
  map passes [test_cmp_equal m; test_format_floating_point m; test_parse_floating_point m].
