(** What the interactive test of the standard streams shows.  Independent of the model. *)
From Coq Require Import NArith List Ascii String.
From Verif Require Import DemoSpec.
Import ListNotations.
Open Scope list_scope.
Open Scope N_scope.

(** On the standard output before the first question, and on the standard error. *)
Definition until_line : list N := bytes_of "Test #1 - 'test_output' starting.
¯\_(ツ)_/¯1.
¯\_(ツ)_/¯2.
¯\_(ツ)_/¯3.
Stage 1 completed successfully.
Stage 2 completed successfully.
Test #1 - 'test_output' succeeded with 2 successful stages.
=======
Test #2 - 'test_input' starting.
Enter ツ: ".

Definition shown_as_errors : list N := bytes_of "¯\_(ツ)_/¯1.
¯\_(ツ)_/¯2.
¯\_(ツ)_/¯3.
".

(** After the line with these bytes was typed, up to the next question. *)
Definition after_line (right : bool) (line : list N) : list N :=
  bytes_of "Entered line: " ++ line ++
  (if right then bytes_of "
Stage 1 completed successfully.
Test #2 - 'test_input' succeeded with 1 successful stage.
=======
" else bytes_of "
The input does not match the expected content.
Test #2 - 'test_input' failed with 0 successful stages.
=======
") ++ bytes_of "Test #3 - 'test_parsing_and_formatting' starting.
Enter 5.5: ".

(** After the first number, which is shown as [text], up to the next question, if there is
    one. *)
Definition after_first (right : bool) (text : list N) : list N :=
  bytes_of "Entered value: " ++ text ++
  (if right then bytes_of "
Stage 1 completed successfully.
Enter -75: " else bytes_of "
The parsed input does not match the expected value.
Test #3 - 'test_parsing_and_formatting' failed with 0 successful stages.
=======
").

(** After the second number. *)
Definition after_second (right : bool) (text : list N) : list N :=
  bytes_of "Entered value: " ++ text ++
  (if right then bytes_of "
Stage 2 completed successfully.
Test #3 - 'test_parsing_and_formatting' succeeded with 2 successful stages.
=======
" else bytes_of "
The parsed input does not match the expected value.
Test #3 - 'test_parsing_and_formatting' failed with 1 successful stage.
=======
").

(** The results.  [stage]: the stage of the third test that failed, if one did. *)
Definition results (line_right : bool) (stage : option string) : list N :=
  (match line_right, stage with
   | true, None => bytes_of "Successful tests: 3
Failed tests: 0
"
   | true, Some _ | false, None => bytes_of "Successful tests: 2
Failed tests: 1
"
   | false, Some _ => bytes_of "Successful tests: 1
Failed tests: 2
"
   end) ++ bytes_of "
" ++
  (if line_right then [] else bytes_of "Test #2 - 'test_input' failed on stage 1
") ++
  (match stage with
   | None => []
   | Some s => bytes_of "Test #3 - 'test_parsing_and_formatting' failed on stage " ++ bytes_of s ++ bytes_of "
"
   end).

(** The character asked for. *)
Definition katakana_tu : list N := [0x30C4].
