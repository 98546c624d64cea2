(** The project's automated tests of the core and Unicode modules, transcribed:
    /repo/tests/automated/core/test_core_general.cpp and
    /repo/tests/automated/unicode/*.cpp.  Each test function is a [test] of TestSpec.v
    that calls the model of the library where the original calls the library.  What
    the test functions print themselves is left out, and what they have in common
    is written once. *)
From Coq Require Import NArith ZArith List Bool Ascii String.
From Verif Require Import Base Integers UnicodeSpec UnicodeModel UnicodeText NumberModel FloatModel CompareModel.
From Verif Require Import TestSpec ReportSpec.
From Verif Require TypeSpec TypeModel.
Import ListNotations.
Open Scope N_scope.

(** Not part of /repo: what the compiler and the machine decide.  Whether char is signed;
    whether wchar_t has 4 bytes, not 2; std::pow(10, n) as a double. *)
Record machine : Type := Machine {
  char_signed : bool;
  wide_is_4 : bool;
  power_of_ten : N -> fval }.

Definition wide (m : machine) : ukind := if wide_is_4 m then KW4 else KW2.

(** if (!b) { ...; return false; }.  The form of all checks in tests/automated/core and
    tests/automated/unicode of /repo. *)
Definition must (b : bool) (rest : test) : test := if b then rest else Return false.

(** A call within a noexcept test function.  An exception ends the program; undefined
    behaviour and an endless loop are not success either and are not told apart here.  The test
    functions of tests/automated/core and tests/automated/unicode of /repo. *)
Definition call {A : Type} (o : outcome A) (rest : A -> test) : test :=
  match o with Ok a => rest a | _ => Raise end.

(** A string literal: u8"...", u"...", U"...", L"...".  Those of tests/automated/unicode of /repo. *)
Definition text (k : ukind) (s : string) : list N := units k (lit s).

(** == of strings, used in tests/automated/unicode/test_algorithms.cpp 170-360 and the like *)
Definition same_string (a b : list N) : bool := if list_eq_dec N.eq_dec a b then true else false.

(* ---------------------------------------------------------------------- core *)

(** A decimal literal n / d of type double.  Those of tests/automated/unicode/test_formatters.cpp
    175-384 and test_parsers.cpp 390-665. *)
Definition literal (n d : Z) : fval := pack F64 (round_ratio (prec F64) (n * one F64) d).

(** core/test_core_general.cpp 30-77 *)
Definition test_cmp_equal (m : machine) : test :=
  StartTest (lit "test_cmp_equal") (
  must (cmp_equal (power_of_ten m) F64 F64 (literal 1123 1000) (literal 1124 1000) 2) (
  EndStage (
  must (cmp_equal (power_of_ten m) F64 F64 (literal 11234 10000) (literal 11235 10000) 3) (
  EndStage (
  must (negb (cmp_equal (power_of_ten m) F64 F64 (literal 112 100) (literal 114 100) 2)) (
  EndStage (
  must (negb (cmp_equal (power_of_ten m) F64 F64 (literal 1123 1000) (literal 1124 1000) 3)) (
  EndStage (Return true))))))))).

(** count_digits(n, radix) == k.  tests/automated/core/test_core_general.cpp 79-195. *)
Definition has_digits (n r k : Z) (rest : test) : test :=
  call (count_digits I32 n r) (fun d => must (d =? k)%Z (EndStage rest)).

(** core/test_core_general.cpp 79-136 *)
Definition test_count_decimal_digits : test :=
  StartTest (lit "test_count_decimal_digits") (
  has_digits 0 10 1 (has_digits 9 10 1 (has_digits 15 10 2 (has_digits (-15) 10 2 (has_digits 1024 10 4 (
  Return true)))))).

(** core/test_core_general.cpp 138-195 *)
Definition test_count_hexadecimal_digits : test :=
  StartTest (lit "test_count_hexadecimal_digits") (
  has_digits 0 16 1 (has_digits 0xC 16 1 (has_digits 0x21 16 2 (has_digits (-0x21) 16 2 (has_digits 0xCAFE 16 4 (
  Return true)))))).

Definition core_general_tests (m : machine) : list test :=
  [test_cmp_equal m; test_count_decimal_digits; test_count_hexadecimal_digits].

(* ----------------------------------------------------------------- examiners *)

(** unicode/test_examiners.cpp 36-61 *)
Definition test_fits_in_7_bits : test :=
  StartTest (lit "test_fits_in_7_bits") (
  must (negb (fits_in_7_bits 0x81)) (
  must (fits_in_7_bits 0x40) (
  EndStage (Return true)))).

(** 63-88 *)
Definition test_is_standalone_byte : test :=
  StartTest (lit "test_is_standalone_byte") (
  must (negb (is_standalone_byte 0x81)) (
  must (is_standalone_byte 0x40) (
  EndStage (Return true)))).

(** 90-139 *)
Definition test_is_leading_byte : test :=
  StartTest (lit "test_is_leading_byte") (
  must (negb (is_leading_byte 0)) (
  must (negb (is_leading_byte 0x80)) (
  must (is_leading_byte 0xC0) (
  must (is_leading_byte 0xE0) (
  must (is_leading_byte 0xF0) (
  EndStage (Return true))))))).

(** 141-190 *)
Definition test_is_trailing_byte : test :=
  StartTest (lit "test_is_trailing_byte") (
  must (negb (is_trailing_byte 0)) (
  must (negb (is_trailing_byte 0x40)) (
  must (negb (is_trailing_byte 0xC0)) (
  must (is_trailing_byte 0x80) (
  must (is_trailing_byte 0x81) (
  EndStage (Return true))))))).

Definition digit_of (c r : N) (expected : bool) (rest : test) : test :=
  call (is_radix_digit c r) (fun b => must (Bool.eqb b expected) rest).

(** 192-273 *)
Definition test_is_radix_digit : test :=
  StartTest (lit "test_is_radix_digit") (
  digit_of 0x30 8 true (
  digit_of 0x30 10 true (
  digit_of 0x30 12 true (
  digit_of 0x39 8 false (
  digit_of 0x39 10 true (
  digit_of 0x61 10 false (
  digit_of 0x43 16 true (
  digit_of 0x70 26 true (
  digit_of 0x51 26 false (
  EndStage (
  Return true))))))))))).

Definition examiners_tests : list test :=
  [test_fits_in_7_bits; test_is_standalone_byte; test_is_leading_byte; test_is_trailing_byte; test_is_radix_digit].

(* ---------------------------------------------------------------- algorithms *)

(** A check of tests/automated/unicode/test_algorithms.cpp 36-101 *)
Definition starts (s t : string) (expected : bool) (rest : test) : test :=
  call (starts_with K8 (text K8 s) K8 (text K8 t)) (fun b => must (Bool.eqb b expected) rest).
(** A check of tests/automated/unicode/test_algorithms.cpp 103-168 *)
Definition ends (s t : string) (expected : bool) (rest : test) : test :=
  call (ends_with K8 (text K8 s) K8 (text K8 t)) (fun b => must (Bool.eqb b expected) rest).

(** unicode/test_algorithms.cpp 36-101 *)
Definition test_starts_with : test :=
  StartTest (lit "test_starts_with") (
  starts "starts with" "starts" true (EndStage (
  starts "starts with" "with" false (EndStage (
  starts "starts with" "starts with" true (EndStage (
  starts "starts with" "starts with!!!" false (EndStage (
  starts "" "something" false (
  starts "something" "" true (EndStage (
  Return true)))))))))))).

(** 103-168 *)
Definition test_ends_with : test :=
  StartTest (lit "test_ends_with") (
  ends "ends with" "with" true (EndStage (
  ends "ends with" "ends" false (EndStage (
  ends "ends with" "ends with" true (EndStage (
  ends "ends with" "!!!ends with" false (EndStage (
  ends "" "something" false (
  ends "something" "" true (EndStage (
  Return true)))))))))))).

(** A function that changes its string argument.  Used in
    tests/automated/unicode/test_algorithms.cpp 170-264. *)
Definition changed (r : list N * outcome unit) : outcome (list N) := let '(s, o) := r in bind o (fun _ => Ok s).

(** A check of tests/automated/unicode/test_algorithms.cpp 170-216 *)
Definition appends (k : ukind) (rest : test) : test :=
  call (changed (append_code_point k [] 0x63)) (fun s =>
  call (changed (append_code_point k s 0x1F600)) (fun s =>
  must (same_string s (units k [0x63; 0x1F600])) (EndStage rest))).
(** A check of tests/automated/unicode/test_algorithms.cpp 218-264 *)
Definition prepends (k : ukind) (rest : test) : test :=
  call (changed (prepend_code_point k [] 0x1F600)) (fun s =>
  call (changed (prepend_code_point k s 0x63)) (fun s =>
  must (same_string s (units k [0x63; 0x1F600])) (EndStage rest))).

(** 170-216 *)
Definition test_append_code_point : test :=
  StartTest (lit "test_append_code_point") (appends K8 (appends K16 (appends K32 (Return true)))).

(** 218-264 *)
Definition test_prepend_code_point : test :=
  StartTest (lit "test_prepend_code_point") (prepends K8 (prepends K16 (prepends K32 (Return true)))).

(** validate_string(s) == by_code_point{s}.cend().  tests/automated/unicode/test_algorithms.cpp
    266-360. *)
Definition validated (k : ukind) (s : list N) (expected : bool) (rest : test) : test :=
  call (validate_string k s) (fun i => must (Bool.eqb (Nat.eqb i (List.length s)) expected) rest).
(** A string of tests/automated/unicode/test_by_code_point.cpp 112-200 *)
Definition abc_xyz : list N := lit "abc" ++ [10] ++ lit "xyz".

(** 266-360 *)
Definition test_validate_string : test :=
  StartTest (lit "test_validate_string") (
  validated K8 (units K8 abc_xyz) true (
  validated K8 (text K8 "valid portion" ++ [0x80]) false (EndStage (
  validated K16 (units K16 abc_xyz) true (
  validated K16 (text K16 "valid portion" ++ [0xD83D]) false (
  validated K16 (text K16 "valid portion" ++ [0xDC69]) false (EndStage (
  validated K32 (units K32 abc_xyz) true (
  validated K32 (text K32 "valid portion" ++ [maximum_code_point + 1]) false (EndStage (
  Return true))))))))))).

Definition algorithms_tests : list test :=
  [test_starts_with; test_ends_with; test_append_code_point; test_prepend_code_point; test_validate_string].

(* ------------------------------------------------------------- by_code_point *)

(** unicode/test_by_code_point.cpp 36-108: test_by_code_point_generic.  An exception of
    the two kinds that are caught there makes it return false. *)
Definition finds_s (r : list N * outcome unit) : test -> test :=
  let '(l, o) := r in
  match o with
  | Ok _ => must (existsb (N.eqb 0x73) l)
  | Throw InvalidUnicodeEncoding | Throw IteratedPastEnd => must false
  | _ => fun _ => Raise
  end.
Definition by_code_point_generic (k : ukind) (s : list N) (rest : test) : test :=
  finds_s (visit k s) (finds_s (rvisit k s) (EndStage rest)).

(** test\n and a shrug: U+00AF \ _ ( U+30C4 ) _ / U+00AF.  A string of
    tests/automated/unicode/test_by_code_point.cpp 112-200. *)
Definition shrug : list N := [0xAF; 0x5C; 0x5F; 0x28; 0x30C4; 0x29; 0x5F; 0x2F; 0xAF].
(** A string of tests/automated/unicode/test_by_code_point.cpp 112-200 *)
Definition test_shrug : list N := lit "test" ++ [10] ++ shrug.

(** 112-200 *)
Definition by_code_point_tests (m : machine) : list test :=
  [StartTest (lit "test_by_code_point_char")
     (by_code_point_generic (KChar (char_signed m)) (lit "test" ++ [10] ++ lit "xyz") (Return true));
   StartTest (lit "test_by_code_point_utf8") (by_code_point_generic K8 (units K8 test_shrug) (Return true));
   StartTest (lit "test_by_code_point_utf16") (by_code_point_generic K16 (units K16 test_shrug) (Return true));
   StartTest (lit "test_by_code_point_utf32") (by_code_point_generic K32 (units K32 test_shrug) (Return true));
   StartTest (lit "test_by_code_point_wchar")
     (by_code_point_generic (wide m) (units (wide m) test_shrug) (Return true))].

(* ---------------------------------------------------------------- formatters *)

(** unicode/test_formatters.cpp 30-69 *)
Definition test_format_bool : test :=
  StartTest (lit "test_format_bool") (
  call (format_bool K8 true (BoolFormat (text K8 "yes") (false_string default_bool_format))) (fun s =>
  must (same_string s (text K8 "yes")) (EndStage (
  call (format_bool K8 false (BoolFormat (text K8 "yes") (text K8 "no"))) (fun s =>
  must (same_string s (text K8 "no")) (EndStage (
  Return true))))))).

Definition formats (m : machine) (t : int_type) (x : Z) (f : integer_format) (s : string) (rest : test) : test :=
  call (format_integer K8 (char_signed m) t x f) (fun s' => must (same_string s' (text K8 s)) (EndStage rest)).

(** 71-173 *)
Definition test_format_integer (m : machine) : test :=
  StartTest (lit "test_format_integer") (
  formats m I32 9 (IntegerFormat 8 AlwaysShow SepComma) "+11" (
  formats m I32 (-1231) (IntegerFormat 8 AlwaysShow SepComma) "-2,317" (
  formats m I32 138 (IntegerFormat 16 OnlyWhenNegative SepComma) "8A" (
  formats m I32 (-36) (IntegerFormat 36 OnlyWhenNegative SepComma) "-10" (
  formats m I32 (-100) (IntegerFormat 10 OnlyWhenNegative SepComma) "-100" (
  formats m U32 97 (IntegerFormat 10 OnlyWhenNegative SepComma) "97" (
  Return true))))))).

Definition float_format_of (r : N) (s : sign_status) (t : thousands_separator) (l : radix_place_limit) (n : N)
  : float_format := FloatFormat (IntegerFormat r s t) RadixPeriod l n.

(** A test value num / den of type double.  tests/automated/unicode/test_formatters.cpp 175-384. *)
Definition formats_float (m : machine) (num den : Z) (f : float_format) (s : string) (rest : test) : test :=
  call (format_floating_point K8 (char_signed m) F64
    (Fin (num * one F64 / den)) f) (fun s' => must (same_string s' (text K8 s)) (EndStage rest)).

(** 175-384 *)
Definition test_format_floating_point (m : machine) : test :=
  StartTest (lit "test_format_floating_point") (
  formats_float m 9 1 (float_format_of 8 AlwaysShow SepComma NoLimit 0) "+11" (
  formats_float m (-1231) 1 (float_format_of 8 AlwaysShow SepComma NoLimit 0) "-2,317" (
  formats_float m 138 1 (float_format_of 16 OnlyWhenNegative SepComma NoLimit 0) "8A" (
  formats_float m (-36) 1 (float_format_of 36 OnlyWhenNegative SepComma NoLimit 0) "-10" (
  formats_float m (-100) 1 (float_format_of 10 OnlyWhenNegative SepComma NoLimit 0) "-100" (
  formats_float m 83 2 (float_format_of 10 OnlyWhenNegative SepComma NoLimit 0) "41.5" (
  formats_float m 761 8 (float_format_of 10 OnlyWhenNegative SepNone NoLimit 0) "95.125" (
  formats_float m 529 16 (float_format_of 10 AlwaysShow SepNone NoLimit 0) "+33.0625" (
  formats_float m 529 16 (float_format_of 10 AlwaysShow SepNone UpTo 2) "+33.06" (
  formats_float m 529 16 (float_format_of 10 AlwaysShow SepNone ExactlyEqual 5) "+33.06250" (
  formats_float m 33 2 (float_format_of 16 OnlyWhenNegative SepNone NoLimit 0) "10.8" (
  Return true)))))))))))).

Definition formatters_tests (m : machine) : list test :=
  [test_format_bool; test_format_integer m; test_format_floating_point m].

(* ------------------------------------------------------------------- parsers *)

(** unicode/test_parsers.cpp 30-170: the functions expect_...; a parse_failed is caught
    there. *)
Definition expect_value {A : Type} (o : outcome A) (good : A -> bool) (rest : test) : test :=
  match o with
  | Ok a => must (good a) (EndStage rest)
  | Throw (ParseFailed _) => Return false
  | _ => Raise
  end.
Definition failure_code (k : parse_failure) : N :=
  match k with
  | EmptyInput => 0 | DigitCharacterExpected => 1 | MultipleSigns => 2 | ThousandsSeparatorMissing => 3
  | NegativeUnsigned => 4 | WrongPlaceLimit => 5 | NeitherBoolean => 6
  end.
Definition expect_failure {A : Type} (o : outcome A) (k : parse_failure) (rest : test) : test :=
  match o with
  | Ok _ => Return false
  | Throw (ParseFailed k') => must (failure_code k' =? failure_code k) (EndStage rest)
  | _ => Raise
  end.

(** 174-226 *)
Definition test_parse_bool : test :=
  StartTest (lit "test_parse_bool") (
  expect_value (parse_bool K8 (text K8 "yes") (BoolFormat (text K8 "yes") (text K8 "no"))) (Bool.eqb true) (
  expect_value (parse_bool K8 (text K8 "no") (BoolFormat (text K8 "yes") (text K8 "no"))) (Bool.eqb false) (
  expect_failure (parse_bool K8 (text K8 "1") (BoolFormat (text K8 "true") (text K8 "false"))) NeitherBoolean (
  Return true)))).

Definition parses (t : int_type) (s : string) (f : integer_format) (x : Z) (rest : test) : test :=
  expect_value (parse_integer K8 t (text K8 s) f) (Z.eqb x) rest.

(** 228-388 *)
Definition test_parse_integer : test :=
  StartTest (lit "test_parse_integer") (
  parses I32 "+11" (IntegerFormat 8 AlwaysShow SepNone) 9 (
  parses I32 "-2,317" (IntegerFormat 8 AlwaysShow SepComma) (-1231) (
  parses I32 "8A" (IntegerFormat 16 OnlyWhenNegative SepComma) 138 (
  parses I32 "-10" (IntegerFormat 36 OnlyWhenNegative SepComma) (-36) (
  parses I32 "-100" (IntegerFormat 10 OnlyWhenNegative SepComma) (-100) (
  parses I32 "97" (IntegerFormat 10 OnlyWhenNegative SepComma) 97 (
  expect_failure (parse_integer K8 U32 (text K8 "-1000") (IntegerFormat 10 OnlyWhenNegative SepNone)) NegativeUnsigned (
  parses U32 "+101" (IntegerFormat 16 AlwaysShow SepComma) 257 (
  expect_failure (parse_integer K8 U32 (text K8 "+") (IntegerFormat 20 AlwaysShow SepPeriod)) DigitCharacterExpected (
  expect_failure (parse_integer K8 U32 (text K8 "59") (IntegerFormat 8 OnlyWhenNegative SepPeriod)) DigitCharacterExpected (
  Return true))))))))))).

Definition same_double (a b : fval) : bool :=
  match a, b with
  | Fin x, Fin y => (x =? y)%Z
  | Inf x, Inf y => Bool.eqb x y
  | _, _ => false
  end.
Definition parses_float (s : string) (f : float_format) (num den : Z) (rest : test) : test :=
  expect_value (parse_floating_point K8 F64 (text K8 s) f) (same_double (literal num den)) rest.
Definition parses_about (m : machine) (s : string) (f : float_format) (num den : Z) (n : N) (rest : test) : test :=
  expect_value (parse_floating_point K8 F64 (text K8 s) f)
    (fun x => cmp_equal (power_of_ten m) F64 F64 x (literal num den) n) rest.

(** The sign of the literal is applied to the magnitude.
    tests/automated/unicode/test_formatters.cpp 175-384, test_parsers.cpp 390-665. *)
Definition negative (x : fval) : fval := match x with Fin n => Fin (- n) | x => x end.
(** A check of tests/automated/unicode/test_parsers.cpp 390-665 *)
Definition parses_negative (s : string) (f : float_format) (num den : Z) (rest : test) : test :=
  expect_value (parse_floating_point K8 F64 (text K8 s) f) (same_double (negative (literal num den))) rest.

(** 390-665 *)
Definition test_parse_floating_point (m : machine) : test :=
  StartTest (lit "test_parse_floating_point") (
  parses_float "+11" (float_format_of 8 AlwaysShow SepComma NoLimit 0) 9 1 (
  parses_negative "-2,317" (float_format_of 8 AlwaysShow SepComma NoLimit 0) 1231 1 (
  parses_float "8A" (float_format_of 16 OnlyWhenNegative SepComma NoLimit 0) 138 1 (
  parses_negative "-10" (float_format_of 36 OnlyWhenNegative SepComma NoLimit 0) 36 1 (
  parses_negative "-100" (float_format_of 10 OnlyWhenNegative SepComma NoLimit 0) 100 1 (
  parses_float "41.5" (float_format_of 10 OnlyWhenNegative SepComma NoLimit 0) 83 2 (
  parses_about m "95.124" (float_format_of 10 OnlyWhenNegative SepNone NoLimit 0) 95124 1000 3 (
  parses_about m "+33.0625" (float_format_of 10 AlwaysShow SepNone NoLimit 0) 330625 10000 4 (
  parses_about m "+33.06" (float_format_of 10 AlwaysShow SepNone UpTo 2) 3306 100 2 (
  parses_about m "+33.06250" (float_format_of 10 AlwaysShow SepNone ExactlyEqual 5) 330625 10000 4 (
  parses_about m "10.8" (float_format_of 16 OnlyWhenNegative SepNone NoLimit 0) 165 10 1 (
  expect_failure (parse_floating_point K8 F64 (text K8 "59.8") (float_format_of 8 OnlyWhenNegative SepPeriod NoLimit 0))
    DigitCharacterExpected (
  Return true))))))))))))).

Definition parsers_tests (m : machine) : list test :=
  [test_parse_bool; test_parse_integer; test_parse_floating_point m].

(* --------------------------------------------------------------- type traits *)

Section Traits.
Import TypeSpec TypeModel.

(** if (trait<T> != expected) return false; a trait that does not compile is no success.
    tests/automated/unicode/test_type_traits.cpp 30-1165. *)
Definition trait (o : option bool) (expected : bool) (rest : test) : test :=
  match o with Some b => must (Bool.eqb b expected) rest | None => Raise end.

(** const in the types of tests/automated/unicode/test_type_traits.cpp 30-1165 *)
Definition c : cv := Cv true false.
(** volatile in the types of tests/automated/unicode/test_type_traits.cpp 30-1165 *)
Definition v : cv := Cv false true.
(** const volatile in the types of tests/automated/unicode/test_type_traits.cpp 30-1165 *)
Definition c_v : cv := Cv true true.
(** Pointers among the types of tests/automated/unicode/test_type_traits.cpp 30-1165 *)
Definition p_to (q : cv) (u : unit_type) (p : cv) : ty := Pointer p (Basic q (Unit u)).
(** int in tests/automated/unicode/test_type_traits.cpp 30-1165 *)
Definition int_type : ty := Basic plain (Integer 0).
(** double in tests/automated/unicode/test_type_traits.cpp 30-1165 *)
Definition double_type : ty := Basic plain (Floating 0).

(** unicode/test_type_traits.cpp 30-635 *)
Definition test_is_unicode_text_object_v (z : sizes) : test :=
  StartTest (lit "test_is_unicode_text_object_v") (
  trait (is_unicode_text_object_v z (Text plain Char8)) true (
  trait (is_unicode_text_object_v z (Text c Char8)) true (
  trait (is_unicode_text_object_v z (Text v Char8)) true (
  trait (is_unicode_text_object_v z (Text c_v Char8)) true (
  EndStage (
  trait (is_unicode_text_object_v z (Text plain Char16)) true (
  trait (is_unicode_text_object_v z (Text c Char16)) true (
  trait (is_unicode_text_object_v z (Text v Char16)) true (
  trait (is_unicode_text_object_v z (Text c_v Char16)) true (
  EndStage (
  trait (is_unicode_text_object_v z (Text plain Char32)) true (
  trait (is_unicode_text_object_v z (Text c Char32)) true (
  trait (is_unicode_text_object_v z (Text v Char32)) true (
  trait (is_unicode_text_object_v z (Text c_v Char32)) true (
  EndStage (
  trait (is_unicode_text_object_v z (View plain Char8)) true (
  trait (is_unicode_text_object_v z (View c Char8)) true (
  trait (is_unicode_text_object_v z (View v Char8)) true (
  trait (is_unicode_text_object_v z (View c_v Char8)) true (
  EndStage (
  trait (is_unicode_text_object_v z (View plain Char16)) true (
  trait (is_unicode_text_object_v z (View c Char16)) true (
  trait (is_unicode_text_object_v z (View v Char16)) true (
  trait (is_unicode_text_object_v z (View c_v Char16)) true (
  EndStage (
  trait (is_unicode_text_object_v z (View plain Char32)) true (
  trait (is_unicode_text_object_v z (View c Char32)) true (
  trait (is_unicode_text_object_v z (View v Char32)) true (
  trait (is_unicode_text_object_v z (View c_v Char32)) true (
  EndStage (
  trait (is_unicode_text_object_v z (p_to plain Char8 plain)) true (
  trait (is_unicode_text_object_v z (p_to c Char8 plain)) true (
  trait (is_unicode_text_object_v z (p_to v Char8 plain)) true (
  trait (is_unicode_text_object_v z (p_to c_v Char8 plain)) true (
  EndStage (
  trait (is_unicode_text_object_v z (p_to plain Char8 c)) true (
  trait (is_unicode_text_object_v z (p_to c Char8 c)) true (
  trait (is_unicode_text_object_v z (p_to v Char8 c)) true (
  trait (is_unicode_text_object_v z (p_to c_v Char8 c)) true (
  EndStage (
  trait (is_unicode_text_object_v z (p_to plain Char16 plain)) true (
  trait (is_unicode_text_object_v z (p_to c Char16 plain)) true (
  trait (is_unicode_text_object_v z (p_to v Char16 plain)) true (
  trait (is_unicode_text_object_v z (p_to c_v Char16 plain)) true (
  EndStage (
  trait (is_unicode_text_object_v z (p_to plain Char16 c)) true (
  trait (is_unicode_text_object_v z (p_to c Char16 c)) true (
  trait (is_unicode_text_object_v z (p_to v Char16 c)) true (
  trait (is_unicode_text_object_v z (p_to c_v Char16 c)) true (
  EndStage (
  trait (is_unicode_text_object_v z (p_to plain Char32 plain)) true (
  trait (is_unicode_text_object_v z (p_to c Char32 plain)) true (
  trait (is_unicode_text_object_v z (p_to v Char32 plain)) true (
  trait (is_unicode_text_object_v z (p_to c_v Char32 plain)) true (
  EndStage (
  trait (is_unicode_text_object_v z (p_to plain Char32 c)) true (
  trait (is_unicode_text_object_v z (p_to c Char32 c)) true (
  trait (is_unicode_text_object_v z (p_to v Char32 c)) true (
  trait (is_unicode_text_object_v z (p_to c_v Char32 c)) true (
  EndStage (
  trait (is_unicode_text_object_v z (Text plain Char)) false (
  trait (is_unicode_text_object_v z (Basic plain (Unit Char))) false (
  trait (is_unicode_text_object_v z int_type) false (
  trait (is_unicode_text_object_v z double_type) false (
  EndStage (
  Return true)))))))))))))))))))))))))))))))))))))))))))))))))))))))))))))))))).

(** unicode/test_type_traits.cpp 637-900 *)
Definition test_is_raii_unicode_text_object_v (z : sizes) : test :=
  StartTest (lit "test_is_raii_unicode_text_object_v") (
  trait (is_raii_unicode_text_object_v z (Text plain Char8)) true (
  trait (is_raii_unicode_text_object_v z (Text c Char8)) true (
  EndStage (
  trait (is_raii_unicode_text_object_v z (Text plain Char16)) true (
  trait (is_raii_unicode_text_object_v z (Text c Char16)) true (
  EndStage (
  trait (is_raii_unicode_text_object_v z (Text plain Char32)) true (
  trait (is_raii_unicode_text_object_v z (Text c Char32)) true (
  EndStage (
  trait (is_raii_unicode_text_object_v z (View plain Char8)) false (
  trait (is_raii_unicode_text_object_v z (View c Char8)) false (
  EndStage (
  trait (is_raii_unicode_text_object_v z (View plain Char16)) false (
  trait (is_raii_unicode_text_object_v z (View c Char16)) false (
  EndStage (
  trait (is_raii_unicode_text_object_v z (View plain Char32)) false (
  trait (is_raii_unicode_text_object_v z (View c Char32)) false (
  EndStage (
  trait (is_raii_unicode_text_object_v z (Array (Basic plain (Unit Char8)) 3)) false (
  trait (is_raii_unicode_text_object_v z (Array (Basic c (Unit Char8)) 3)) false (
  trait (is_raii_unicode_text_object_v z (p_to plain Char8 plain)) false (
  trait (is_raii_unicode_text_object_v z (p_to c Char8 plain)) false (
  trait (is_raii_unicode_text_object_v z (p_to plain Char8 c)) false (
  trait (is_raii_unicode_text_object_v z (p_to c Char8 c)) false (
  trait (is_raii_unicode_text_object_v z (Text plain Char)) false (
  trait (is_raii_unicode_text_object_v z (Basic plain (Unit Char))) false (
  trait (is_raii_unicode_text_object_v z int_type) false (
  trait (is_raii_unicode_text_object_v z double_type) false (
  EndStage (
  Return true)))))))))))))))))))))))))))))).

(** unicode/test_type_traits.cpp 902-1165 *)
Definition test_is_writable_raii_unicode_text_object_v (z : sizes) : test :=
  StartTest (lit "test_is_writable_raii_unicode_text_object_v") (
  trait (is_writable_raii_unicode_text_object_v z (Text plain Char8)) true (
  trait (is_writable_raii_unicode_text_object_v z (Text c Char8)) false (
  EndStage (
  trait (is_writable_raii_unicode_text_object_v z (Text plain Char16)) true (
  trait (is_writable_raii_unicode_text_object_v z (Text c Char16)) false (
  EndStage (
  trait (is_writable_raii_unicode_text_object_v z (Text plain Char32)) true (
  trait (is_writable_raii_unicode_text_object_v z (Text c Char32)) false (
  EndStage (
  trait (is_writable_raii_unicode_text_object_v z (View plain Char8)) false (
  trait (is_writable_raii_unicode_text_object_v z (View c Char8)) false (
  EndStage (
  trait (is_writable_raii_unicode_text_object_v z (View plain Char16)) false (
  trait (is_writable_raii_unicode_text_object_v z (View c Char16)) false (
  EndStage (
  trait (is_writable_raii_unicode_text_object_v z (View plain Char32)) false (
  trait (is_writable_raii_unicode_text_object_v z (View c Char32)) false (
  EndStage (
  trait (is_writable_raii_unicode_text_object_v z (Array (Basic plain (Unit Char8)) 3)) false (
  trait (is_writable_raii_unicode_text_object_v z (Array (Basic c (Unit Char8)) 3)) false (
  trait (is_writable_raii_unicode_text_object_v z (p_to plain Char8 plain)) false (
  trait (is_writable_raii_unicode_text_object_v z (p_to c Char8 plain)) false (
  trait (is_writable_raii_unicode_text_object_v z (p_to plain Char8 c)) false (
  trait (is_writable_raii_unicode_text_object_v z (p_to c Char8 c)) false (
  trait (is_writable_raii_unicode_text_object_v z (Text plain Char)) false (
  trait (is_writable_raii_unicode_text_object_v z (Basic plain (Unit Char))) false (
  trait (is_writable_raii_unicode_text_object_v z int_type) false (
  trait (is_writable_raii_unicode_text_object_v z double_type) false (
  EndStage (
  Return true)))))))))))))))))))))))))))))).

Definition type_traits_tests (z : sizes) : list test :=
  [test_is_unicode_text_object_v z; test_is_raii_unicode_text_object_v z; test_is_writable_raii_unicode_text_object_v z].
End Traits.
