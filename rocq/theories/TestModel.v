(** Model of the test module:
    /repo/api/include/cmp/core/test_module.hpp, src/cmp/core/test_module.ipp. *)
From Coq Require Import NArith ZArith List Bool.
From Verif Require Import Base Integers CompareModel TestSpec.
Import ListNotations.
Open Scope N_scope.

(** What is written to std::cout, line by line.  test_module.ipp 154-156, 186-191, 219-222, 361-387,
    411-417. *)
Inductive line : Type :=
| StartLine (index name : list N)                     (* test_module.ipp 186-191 *)
| StageLine (n : N)                                   (* 219-222 *)
| EndLine (index name : list N) (success : bool) (stages : N)  (* 361-373 *)
| RulerLine (length : N)                              (* 375-387 *)
| TotalsLine (successes failures : N)                 (* 154-156 *)
| FailedLine (index : N) (name : list N) (stage : N). (* 411-417 *)

(** class test_module: the private data, and the output so far.  The message queue
    holds ints there; each is a message value.  test_module.hpp 352-359. *)
Record module : Type := Module {
  current_name : list N;
  current_index : N;        (* unsigned short *)
  current_stage : N;        (* unsigned short *)
  successes : N;            (* unsigned short *)
  failed : list (N * list N * N);
  tests : list test;
  queue : list message;
  out : list line }.

(** test_module.ipp 101-120 *)
Definition new_module (ts : list test) : module :=
  Module uninitialized 0 0 0 [] ts [] [].

Definition set_queue (m : module) (q : list message) : module :=
  Module (current_name m) (current_index m) (current_stage m) (successes m) (failed m) (tests m) q (out m).

Definition print (m : module) (ls : list line) : module :=
  Module (current_name m) (current_index m) (current_stage m) (successes m) (failed m) (tests m) (queue m)
    (out m ++ ls).

(** 124-132: the size as an unsigned int *)
Definition get_message_count (m : module) : N := N.of_nat (length (queue m)) mod 2 ^ 32.

(** 225-235 *)
Definition push_message (m : module) (x : message) : module := set_queue m (queue m ++ [x]).

(** 237-250 *)
Definition pop_message (m : module) : module * message :=
  match queue m with
  | [] => (m, EmptyMessage)
  | x :: q => (set_queue m q, x)
  end.

(** 252-262 *)
Definition clear_message_queue (m : module) : module := set_queue m [].

(** 288-303: the parameter is an int; the loop is that of the free function. *)
Definition test_count_digits (n : N) : outcome Z := count_digits I32 (convert I32 (Z.of_N n)) 10.

(** zero_padded_number[i] = c (337, 342).  Writing anything but '\0' at or past
    the end is undefined. *)
Fixpoint write_at (s : list N) (i : nat) (c : N) : outcome (list N) :=
  match s, i with
  | [], _ => UB OutOfBoundsWrite
  | _ :: s', O => Ok (c :: s')
  | x :: s', S i' => bind (write_at s' i' c) (fun s'' => Ok (x :: s''))
  end.

(** An index too large for any string here is past the end, too.  No code of /repo: operator [] of
    std::string, used in 335-345. *)
Definition write_char (s : list N) (i : N) (c : N) : outcome (list N) :=
  if i <? N.of_nat (length s) then write_at s (N.to_nat i) c else UB OutOfBoundsWrite.

(** 335-338: while (digit_difference--) *)
Fixpoint zero_loop (fuel : nat) (s : list N) (difference i : N) : outcome (list N) :=
  match fuel with
  | O => Diverge
  | S fuel' =>
    if difference =? 0 then Ok s
    else bind (write_char s i 48) (fun s => zero_loop fuel' s (difference - 1) ((i + 1) mod 2 ^ 32))
  end.

(** 340-345: the digits from the right *)
Fixpoint digit_loop (fuel : nat) (s : list N) (string_length digit_index number : N)
  : outcome (list N) :=
  match fuel with
  | O => Diverge
  | S fuel' =>
    let position := Z.to_N (convert U32 (Z.of_N string_length - Z.of_N digit_index)) in
    bind (write_char s position (number mod 10 + 48)) (fun s =>
    let number := number / 10 in
    if number =? 0 then Ok s
    else digit_loop fuel' s string_length ((digit_index + 1) mod 2 ^ 32) number)
  end.

(** 305-348 *)
Definition zero_pad (m : module) (number : N) : outcome (list N) :=
  bind (test_count_digits number) (fun input =>
  bind (test_count_digits (N.of_nat (length (tests m)))) (fun total =>
  let difference := Z.to_N (convert U32 (total - input)) in
  let string_length := Z.to_N total in
  let s := repeat 0 (N.to_nat string_length) in
  bind (zero_loop (N.to_nat string_length + 2) s difference 0) (fun s =>
  digit_loop 11 s string_length 1 number))).

(** 171-206 *)
Definition start_test (m : module) (name : list N) : outcome module :=
  let index := (current_index m + 1) mod 2 ^ 16 in
  bind (zero_pad m index) (fun text =>
  Ok (Module name index 0 (successes m) (failed m) (tests m) (queue m)
        (out m ++ [StartLine text name]))).

(** 208-223 *)
Definition end_stage (m : module) : module :=
  let stage := (current_stage m + 1) mod 2 ^ 16 in
  Module (current_name m) (current_index m) stage (successes m) (failed m) (tests m) (queue m)
    (out m ++ [StageLine stage]).

(** 350-400 *)
Definition end_test (m : module) (success : bool) : outcome module :=
  bind (zero_pad m (current_index m)) (fun text =>
  let m := print m [EndLine text (current_name m) success (current_stage m);
                    RulerLine (6 + N.of_nat (length text))] in
  let m :=
    if success then
      Module (current_name m) (current_index m) (current_stage m) ((successes m + 1) mod 2 ^ 16)
        (failed m) (tests m) (queue m) (out m)
    else
      Module (current_name m) (current_index m) (current_stage m) (successes m)
        (failed m ++ [(current_index m, current_name m, (current_stage m + 1) mod 2 ^ 16)])
        (tests m) (queue m) (out m) in
  Ok (clear_message_queue m)).

(** The calls of a test function on its module.  All of them are noexcept, and so
    is run_tests, their caller: an exception of the function's own ends the
    program.  Test functions are not in the class; they call 171-262. *)
Fixpoint run_test (t : test) (m : module) : outcome (module * bool) :=
  match t with
  | Return b => Ok (m, b)
  | Raise => Terminate
  | StartTest n t' => bind (start_test m n) (run_test t')
  | EndStage t' => run_test t' (end_stage m)
  | PushMessage x t' => run_test t' (push_message m x)
  | PopMessage k => let '(m, x) := pop_message m in run_test (k x) m
  | ClearMessages t' => run_test t' (clear_message_queue m)
  | CountMessages k => run_test (k (get_message_count m)) m
  end.

(** 147-149 *)
Fixpoint run_all (ts : list test) (m : module) : outcome module :=
  match ts with
  | [] => Ok m
  | t :: ts' =>
    bind (run_test t m) (fun '(m, b) =>
    bind (end_test m b) (fun m => run_all ts' m))
  end.

(** 402-418 *)
Definition failed_line (f : N * list N * N) : line :=
  let '(i, n, s) := f in FailedLine i n s.

(** 136-169: the number of failed tests as an int *)
Definition run_tests (m : module) : outcome (module * Z) :=
  bind (run_all (tests m) m) (fun m =>
  let m := print m (TotalsLine (successes m) (N.of_nat (length (failed m)))
                    :: map failed_line (failed m)) in
  Ok (m, convert I32 (Z.of_nat (length (failed m))))).

(** Calls on the message queue and their answers.  No code of /repo: the calls of 124-132 and
    225-262 one after the other. *)
Fixpoint queue_run (m : module) (cs : list queue_call) : list queue_answer :=
  match cs with
  | [] => []
  | QPush x :: cs' => queue_run (push_message m x) cs'
  | QPop :: cs' => let '(m, x) := pop_message m in APopped x :: queue_run m cs'
  | QClear :: cs' => queue_run (clear_message_queue m) cs'
  | QCount :: cs' => ACount (get_message_count m) :: queue_run m cs'
  end.
