(** Model of the interactive test of the standard streams:
    T: /repo/tests/manual/test_uio.cpp

    The test module is that of TestModel.v, its output that of ReportModel.v, the streams are
    those of StdioModel.v, the numbers those of NumberModel.v and FloatModel.v (double is
    F64, int is I32).  The compiler encodes the string literals. *)
From Coq Require Import NArith ZArith List Bool Ascii String.
From Verif Require Import Base Integers UnicodeModel UnicodeText NumberModel FloatModel ResourceModel StreamModel FloatStreamModel
  TestSpec TestModel ReportModel LogModel StdioSpec StdioModel DemoModel.
Import ListNotations.
Open Scope list_scope.
Open Scope N_scope.

(** The test module and the standard streams.  T 9-26. *)
Definition state : Type := module * stdio.

(** What the module prints ends with std::endl, which flushes std::cout: it is shown at once.
    test_module.ipp 186-191, 219-222, 361-387, 154-156, 411-417. *)
Definition module_prints (m m' : module) (s : stdio) : stdio := cout_show s (printed (new_lines m m')).

(** start_test(name).  T 34, 61, 84. *)
Definition begin_test (name : string) (x : state) : outcome state :=
  let '(m, s) := x in
  bind (start_test m (literal name)) (fun m' => Ok (m', module_prints m m' s)).

(** end_stage().  T 45, 52, 75, 100, 113. *)
Definition stage_done (x : state) : state := let '(m, s) := x in (end_stage m, module_prints m (end_stage m) s).

(** The line that says why a test fails.  T 69-70, 94-95, 107-108. *)
Definition complain (text : string) (x : state) : state := let '(m, s) := x in (m, cout_show s (literal text ++ newline)).

(** uout << str, uerr << str.  text_output_stream.ipp 174-380, used in T 40-42, 47-49, 63, 66, 89,
    91, 102, 104. *)
Definition show_on (pl : platform) (native : endian) (ch : channel) (k : ukind) (str : list N) (x : state) : outcome state :=
  let '(m, s) := x in
  bind (write_string native (out_sink pl ch) k (uout_or_uerr native s) str) (fun st => Ok (m, out_res st)).

(** uout << '\n' << cmp::flush.  T 66, 91, 104. *)
Definition finish_line (pl : platform) (native : endian) (cs : bool) (x : state) : outcome state :=
  let '(m, s) := x in
  bind (StreamModel.write_char native (out_sink pl StandardOutput) cs (uout_or_uerr native s) 10) (fun st =>
  bind (out_flush pl StandardOutput (out_res st)) (fun s => Ok (m, s))).

(** T 36-38: the macron is U+00AF, the katakana letter tu U+30C4 *)
Definition shrug (last : N) : list N := [0xAF] ++ literal "\_(" ++ [0x30C4] ++ literal ")_/" ++ [0xAF; last].

(** T 40-43 for uout, 47-50 for uerr *)
Definition show_shrugs (pl : platform) (native : endian) (ch : channel) (x : state) : outcome state :=
  bind (show_on pl native ch K8 (units K8 (shrug 49)) x) (fun x =>
  bind (show_on pl native ch K8 (units K8 [46; 10]) x) (fun x =>
  bind (show_on pl native ch K16 (units K16 (shrug 50)) x) (fun x =>
  bind (show_on pl native ch K16 (units K16 [46; 10]) x) (fun x =>
  bind (show_on pl native ch K32 (units K32 (shrug 51)) x) (fun x =>
  bind (show_on pl native ch K32 (units K32 [46; 10]) x) (fun '(m, s) =>
  bind (out_flush pl ch s) (fun s => Ok (m, s)))))))).

(** T 30-55 *)
Definition test_output (pl : platform) (native : endian) (x : state) : outcome (state * bool) :=
  bind (begin_test "test_output" x) (fun x =>
  bind (show_shrugs pl native StandardOutput x) (fun x =>
  bind (show_shrugs pl native StandardError (stage_done x)) (fun x =>
  Ok (stage_done x, true)))).

(** T 57-78.  input != u8"..." compares code units. *)
Definition test_input (pl : platform) (native : endian) (cs : bool) (fuel : nat) (x : state) : outcome (state * bool) :=
  bind (begin_test "test_input" x) (fun x =>
  bind (show_on pl native StandardOutput K8 (units K8 (literal "Enter " ++ [0x30C4] ++ literal ": ")) x) (fun '(m, s) =>
  bind (read_line native (uin_source pl) fuel K8 (uin pl native s)) (fun '(st, input) =>
  bind (show_on pl native StandardOutput (KChar cs) (units (KChar cs) (literal "Entered line: ")) (m, in_res st)) (fun x =>
  bind (show_on pl native StandardOutput K8 input x) (fun x =>
  bind (finish_line pl native cs x) (fun x =>
  if list_eq_dec N.eq_dec input (units K8 [0x30C4]) then Ok (stage_done x, true)
  else Ok (complain "The input does not match the expected content." x, false))))))).

(** The literal 5.5.  T 93. *)
Definition five_and_a_half : fval := Fin (11 * 2 ^ (scale F64 - 1)).

(** input1 != 5.5, negated.  T 93. *)
Definition equals_double (x y : fval) : bool := match x, y with Fin a, Fin b => (a =? b)%Z | _, _ => false end.

(** T 104-115: what becomes of the second number *)
Definition judge_second (pl : platform) (native : endian) (cs : bool) (x : state) (input2 : Z) : outcome (state * bool) :=
  bind (show_on pl native StandardOutput (KChar cs) (units (KChar cs) (literal "Entered value: ")) x) (fun '(m, s) =>
  bind (write_integer native (out_sink pl StandardOutput) cs I32 (uout_or_uerr native s) input2) (fun st =>
  bind (finish_line pl native cs (m, out_res st)) (fun x =>
  if (input2 =? -75)%Z then Ok (stage_done x, true)
  else Ok (complain "The parsed input does not match the expected value." x, false)))).

(** T 91-103: what becomes of the first number, and the second question *)
Definition judge_first (pl : platform) (native : endian) (cs : bool) (fuel : nat) (x : state) (input1 : fval) : outcome (state * bool) :=
  bind (show_on pl native StandardOutput (KChar cs) (units (KChar cs) (literal "Entered value: ")) x) (fun '(m, s) =>
  bind (write_float native (out_sink pl StandardOutput) cs F64 (uout_or_uerr native s) input1) (fun st =>
  bind (finish_line pl native cs (m, out_res st)) (fun x =>
  if equals_double input1 five_and_a_half then
    bind (show_on pl native StandardOutput K8 (units K8 (literal "Enter -75: ")) (stage_done x)) (fun '(m, s) =>
    bind (read_integer native (uin_source pl) fuel I32 (uin pl native s)) (fun '(st, input2) =>
    judge_second pl native cs (m, in_res st) input2))
  else Ok (complain "The parsed input does not match the expected value." x, false)))).

(** T 80-116: the two numbers, in two functions more *)
Definition test_parsing_and_formatting (pl : platform) (native : endian) (cs : bool) (fuel : nat) (x : state) : outcome (state * bool) :=
  bind (begin_test "test_parsing_and_formatting" x) (fun x =>
  bind (show_on pl native StandardOutput K8 (units K8 (literal "Enter 5.5: ")) x) (fun '(m, s) =>
  bind (read_float native (uin_source pl) fuel F64 (uin pl native s)) (fun '(st, input1) =>
  judge_first pl native cs fuel (m, in_res st) input1))).

(** test_module.ipp 147-149: the loop over the test functions.  They are noexcept (T 32, 59, 82). *)
Fixpoint run_functions (fs : list (state -> outcome (state * bool))) (x : state) : outcome state :=
  match fs with
  | [] => Ok x
  | f :: fs =>
      bind (noexcept (f x)) (fun '((m, s), success) =>
      bind (end_test m success) (fun m' => run_functions fs (m', module_prints m m' s)))
  end.

(** T 13-26, 121-125 and test_module.ipp 136-169: the module, its tests, the totals and the exit
    status; before main the static objects are constructed, and afterwards destroyed.  Of the
    tests a module knows only the number matters to it. *)
Definition manual_test (pl : platform) (native : endian) (cs : bool) (b : build) (h : host) (fuel : nat) (s : stdio)
  : outcome (stdio * Z) :=
  bind (start_program b) (fun _ =>
  bind (run_functions [test_output pl native; test_input pl native cs fuel; test_parsing_and_formatting pl native cs fuel]
          (new_module [Return true; Return true; Return true], s)) (fun '(m, s) =>
  let last := TotalsLine (successes m) (N.of_nat (List.length (failed m))) :: map failed_line (failed m) in
  bind (end_program pl b (cout_show s (printed last))) (fun s =>
  Ok (s, exit_status h (convert I32 (Z.of_nat (List.length (failed m)))))))).
