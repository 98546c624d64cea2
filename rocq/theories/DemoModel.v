(** Model of the example program of /repo/examples/unicode_stdio_example:
    M: /repo/examples/unicode_stdio_example/src/main.cpp

    The compiler encodes the string literals (UnicodeText.units). *)
From Coq Require Import NArith ZArith List Bool Ascii String.
From Verif Require Import Base Integers UnicodeModel UnicodeText ResourceModel StreamModel StdioSpec StdioModel.
Import ListNotations.
Open Scope N_scope.

(** The characters of an ASCII literal.  The literals of examples/unicode_stdio_example/src/main.cpp
    10-16. *)
Definition literal (s : string) : list N := map N_of_ascii (list_ascii_of_string s).

(** M 10 to 16: the literals.  U+00AF is the macron, U+30C4 the katakana letter tu. *)
Definition first_line : list N := literal "How easy does CCL make it to do Unicode in C++?" ++ [10].
Definition second_line : list N :=
  literal "I dunno, try it " ++ [0xAF] ++ literal "\_(" ++ [0x30C4] ++ literal ")_/" ++ [0xAF; 10].
Definition prompt : list N := literal "Huh, let me see. Say something in Unicode: ".
Definition reply_start : list N := literal "You said: ".
Definition last_line : list N := literal "Cool." ++ [10].

(** std::cout, not part of /repo: on a terminal a line is shown when it is complete; text that
    goes to a file or a pipe is kept until the program exits, after the destructors of
    static objects.  (On Windows line feeds are converted; this is left out.) *)
Inductive cout_mode : Type := ByLines | AtExit.

Definition cout_show (s : stdio) (line : list N) : stdio :=
  Stdio (fst (sys_write StandardOutput (os s) line)) (uin_buffer s) (uout_buffer s) (uerr_buffer s).

(** uout << str.  text_output_stream.ipp 174-380, used in
    examples/unicode_stdio_example/src/main.cpp 11-16. *)
Definition print (pl : platform) (native : endian) (k : ukind) (str : list N) (s : stdio) : outcome stdio :=
  bind (write_string native (out_sink pl StandardOutput) k (uout_or_uerr native s) str) (fun st => Ok (out_res st)).

(** uout << c.  text_output_stream.ipp 150-172, used in examples/unicode_stdio_example/src/main.cpp
    15. *)
Definition print_char (pl : platform) (native : endian) (is_signed : bool) (c : N) (s : stdio) : outcome stdio :=
  bind (write_char native (out_sink pl StandardOutput) is_signed (uout_or_uerr native s) c) (fun st => Ok (out_res st)).

(** M 11-16: from the second line on; the function returns or throws *)
Definition main_body (pl : platform) (native : endian) (is_signed : bool) (fuel : nat) (s : stdio) : outcome stdio :=
  bind (print pl native K8 (units K8 second_line) s) (fun s =>
  bind (print pl native K16 (units K16 prompt) s) (fun s =>
  bind (read_word native (uin_source pl) fuel K8 (uin pl native s)) (fun '(st, input) =>
  bind (print pl native K32 (units K32 reply_start) (in_res st)) (fun s =>
  bind (print pl native K8 input s) (fun s =>
  bind (print_char pl native is_signed 10 s) (fun s =>
  print pl native (KChar is_signed) (units (KChar is_signed) last_line) s)))))).

(** The whole program: static objects, main (an exception leaving it ends the program
    with std::terminate), destructors, what is left of std::cout.
    examples/unicode_stdio_example/src/main.cpp 7-19. *)
Definition demo (pl : platform) (native : endian) (is_signed : bool) (b : build) (m : cout_mode) (fuel : nat) (s : stdio)
  : outcome stdio :=
  bind (start_program b) (fun _ =>
  let s := match m with ByLines => cout_show s first_line | AtExit => s end in
  bind (noexcept (main_body pl native is_signed fuel s)) (fun s =>
  bind (end_program pl b s) (fun s =>
  Ok (match m with ByLines => s | AtExit => cout_show s first_line end)))).
