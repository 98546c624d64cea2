(** Model of what a test program prints and of its exit status:
    /repo/api/src/cmp/core/test_module.ipp 136-223, 350-418 and the main functions of
    /repo/tests/automated, e.g. core/test_core_general.cpp 200-204. *)
From Coq Require Import NArith ZArith List Bool Ascii String.
From Verif Require Import Base TestSpec TestModel.
Import ListNotations.
Open Scope N_scope.

(** std::cout << n for an unsigned integer, in decimal (the "C" locale): the digits from the right.
    Used in test_module.ipp 154-155, 411-417. *)
Fixpoint put_digits (fuel : nat) (n : N) (text : list N) : list N :=
  match fuel with
  | O => text
  | S fuel' =>
    let text := (n mod 10 + 48) :: text in
    if n / 10 =? 0 then text else put_digits fuel' (n / 10) text
  end.
(** The same with enough fuel for every digit; used in test_module.ipp 154-155, 411-417 *)
Definition put_number (n : N) : list N := put_digits (S (N.to_nat (N.log2 n))) n [].

(** std::cout << "...".  Used in test_module.ipp 154-155, 186-191, 219-222, 361-373, 411-417. *)
Definition put (s : string) : list N := map N_of_ascii (list_ascii_of_string s).

(** '\n', or std::endl.  test_module.ipp 154-156, 191, 222, 387, 417. *)
Definition newline : list N := [10].

(** The characters of what is written to std::cout; the lines in /repo are those given at
    the constructors of [line]. *)
Definition line_text (l : line) : list N :=
  match l with
  | StartLine index name => put "Test #" ++ index ++ put " - '" ++ name ++ put "' starting." ++ newline
  | StageLine n => put "Stage " ++ put_number n ++ put " completed successfully." ++ newline
  | EndLine index name success stages =>
      put "Test #" ++ index ++ put " - '" ++ name ++ put "' " ++
      (if success then put "succeeded" else put "failed") ++ put " with " ++ put_number stages ++
      (if stages =? 1 then put " successful stage." else put " successful stages.") ++ newline
  | RulerLine n => repeat 61 (N.to_nat n) ++ newline
  | TotalsLine successes failures =>
      put "Successful tests: " ++ put_number successes ++ newline ++
      put "Failed tests: " ++ put_number failures ++ newline ++ newline
  | FailedLine index name stage =>
      put "Test #" ++ put_number index ++ put " - '" ++ name ++ put "' failed on stage " ++ put_number stage ++ newline
  end.

Definition printed (ls : list line) : list N := flat_map line_text ls.

(** How the program ends, on a Unix-like system or on Windows, when main returns n: what
    the parent process is told.  A Unix-like system keeps 8 bits, Windows all 32. *)
Inductive host : Type := UnixHost | WindowsHost.
Definition exit_status (h : host) (n : Z) : Z :=
  match h with UnixHost => n mod 256 | WindowsHost => n mod 2 ^ 32 end%Z.

(** int main () { return cmp::core_general_test_module{}.run_tests(); }
    (tests/automated/core/test_core_general.cpp 200-204, and the others): the text on std::cout and
    the exit status.  Simplification: what the test functions print themselves is left out. *)
Definition test_program (h : host) (ts : list test) : outcome (list N * Z) :=
  bind (run_tests (new_module ts)) (fun '(m, n) => Ok (printed (out m), exit_status h n)).
