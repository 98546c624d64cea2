(** Model of integer and bool formatting and parsing:
    /repo/api/src/cmp/unicode/formats.cpp, formatters.ipp, parsers.ipp and
    parsers.cpp (floating point: FloatModel.v). *)
From Coq Require Import NArith ZArith List Bool.
From Verif Require Import Base Integers UnicodeModel.
Import ListNotations.
Open Scope N_scope.

(** include/cmp/unicode/formats.hpp: enum class sign_status,
    thousands_separator. *)
Inductive sign_status : Type := AlwaysShow | OnlyWhenNegative.
Inductive thousands_separator : Type := SepNone | SepComma | SepPeriod.

(** class integer_format; the radix is an unsigned int.  formats.hpp 298-495. *)
Record integer_format : Type := IntegerFormat {
  radix : N;
  sign : sign_status;
  separator : thousands_separator }.

(** formats.cpp 78-84 *)
Definition default_integer_format : integer_format :=
  IntegerFormat 10 OnlyWhenNegative SepNone.

(** formats.cpp 86-98 *)
Definition new_integer_format (r : N) (s : sign_status) (t : thousands_separator)
  : outcome integer_format :=
  if (r <? 2) || (36 <? r) then Throw InvalidRadix else Ok (IntegerFormat r s t).

(** formats.cpp 109-116, 125-132, 141-148: the setters (no validation) *)
Definition set_radix (f : integer_format) (r : N) : integer_format :=
  IntegerFormat r (sign f) (separator f).
Definition set_sign_status (f : integer_format) (s : sign_status) : integer_format :=
  IntegerFormat (radix f) s (separator f).
Definition set_thousands_separator (f : integer_format) (t : thousands_separator)
  : integer_format := IntegerFormat (radix f) (sign f) t.

(* ------------------------------------------------------------ formatting *)

(** Plain char: signed or not, by platform ([true] = signed).  No code of /repo: a choice of the
    compiler. *)
Definition char_type (cs : bool) : int_type := if cs then I8 else U8.

(** char to char32_t at the call of prepend_code_point.  formatters.ipp 38-68. *)
Definition char_to_char32 (c : Z) : N := Z.to_N (convert U32 c).

(** std::abs on a signed type (formatters.ipp 35-37): narrow types go through
    abs(int) and are converted back. *)
Definition std_abs (t : int_type) (x : Z) : outcome Z :=
  bind (arith (promote t) (Z.abs x)) (fun y => Ok (convert t y)).

(** formatters.ipp 39-44: from the remainder to the digit character. *)
Definition digit_character (cs : bool) (rem : Z) : Z :=
  let c := convert (char_type cs) rem in
  if (c <=? 9)%Z then convert (char_type cs) (c + 48)
  else convert (char_type cs) (c + (65 - 10)).

(** prepend_code_point(output, character) on the local string.  formatters.ipp 38-68, with
    algorithms.ipp 199-208. *)
Definition prepend_to (k : ukind) (out : list N) (c : N) : outcome (list N) :=
  let '(out', r) := prepend_code_point k out c in bind r (fun _ => Ok out').

(** formatters.ipp 52-61: the switch on the thousands separator *)
Definition prepend_separator (k : ukind) (sep : thousands_separator) (out : list N)
  : outcome (list N) :=
  match sep with
  | SepComma => prepend_to k out 44
  | SepPeriod => prepend_to k out 46
  | SepNone => Ok out
  end.

(** formatters.ipp 38-64: while (input != 0).  [counted] = digits_counted. *)
Fixpoint format_loop (fuel : nat) (k : ukind) (cs : bool) (t : int_type) (r : N)
  (sep : thousands_separator) (input : Z) (counted : N) (out : list N)
  : outcome (list N) :=
  match fuel with
  | O => Diverge
  | S fuel' =>
    if (input =? 0)%Z then Ok out
    else
      let u := with_unsigned t in
      bind (remainder u (convert u input) (convert u (Z.of_N r))) (fun rem =>
      bind (prepend_to k out (char_to_char32 (digit_character cs rem))) (fun out =>
      bind (divide u (convert u input) (convert u (Z.of_N r))) (fun q =>
      let input := convert t q in
      let counted := counted + 1 in
      if counted =? 3 then
        if negb (input =? 0)%Z then
          bind (prepend_separator k sep out) (fun out =>
            format_loop fuel' k cs t r sep input 0 out)
        else format_loop fuel' k cs t r sep input 0 out
      else format_loop fuel' k cs t r sep input counted out)))
  end.

(** formatters.ipp 14-70.  sign_character ' ' (no sign) is None. *)
Definition format_integer_with (fuel : nat) (k : ukind) (cs : bool) (t : int_type)
  (input : Z) (f : integer_format) : outcome (list N) :=
  if (input =? 0)%Z then
    let '(out, r) := append_code_point k [] 48 in bind r (fun _ => Ok out)
  else
    let sign_character :=
      if (input <? 0)%Z then Some 45
      else match sign f with AlwaysShow => Some 43 | OnlyWhenNegative => None end in
    bind (if is_signed t then std_abs t input else Ok input) (fun input =>
    bind (format_loop fuel k cs t (radix f) (separator f) input 0 []) (fun out =>
      match sign_character with
      | Some c => prepend_to k out c
      | None => Ok out
      end)).

(** More iterations than a 64-bit value has digits in any radix. *)
Definition format_fuel : nat := 65.
Definition format_integer := format_integer_with format_fuel.

(* --------------------------------------------------------------- parsing *)

(** parsers.cpp 14-31.  The int result is never negative except -1 (None). *)
Definition digit_character_to_integer (c r : N) : outcome (option N) :=
  bind (is_radix_digit c r) (fun ok =>
    if negb ok then Ok None
    else if (48 <=? c) && (c <=? 57) then Ok (Some (c - 48))
    else if (97 <=? c) && (c <=? 122) then Ok (Some (c - 97 + 10))
    else if (65 <=? c) && (c <=? 90) then Ok (Some (c - 65 + 10))
    else UB NoReturn).

(** parsers.cpp 33-41 *)
Definition report_non_digit_character {A} : outcome A :=
  Throw (ParseFailed DigitCharacterExpected).

(** parsers.cpp 43-56 *)
Definition get_next_digit (c r : N) : outcome N :=
  bind (digit_character_to_integer c r) (fun d =>
    match d with Some d => Ok d | None => report_non_digit_character end).

(** parsers.cpp 58-65 *)
Definition is_sign_character (c : N) : bool := (c =? 45) || (c =? 43).

(** The local variables of parse_integer: sign_found, negate, power,
    digits_counted, output.  digits_counted is an unsigned int; it is only
    compared (with 3) when a separator is set, and then never exceeds 3, so it is
    not reduced modulo 2^32 here. *)
Record parse_state : Type := ParseState {
  sign_found : bool;
  negate : bool;
  power : Z;
  digits_counted : N;
  output : Z }.

Definition with_counted (st : parse_state) (n : N) : parse_state :=
  ParseState (sign_found st) (negate st) (power st) n (output st).

(** parsers.cpp 67-94: Some = true with the flags updated, None = false *)
Definition check_for_sign (c : N) (s : sign_status) (st : parse_state)
  : outcome (option parse_state) :=
  if is_sign_character c then
    if sign_found st then Throw (ParseFailed MultipleSigns)
    else if match s with AlwaysShow => true | OnlyWhenNegative => false end || (c =? 45)
    then Ok (Some (ParseState true (negate st || (c =? 45)) (power st)
                              (digits_counted st) (output st)))
    else Ok None
  else Ok None.

(** parsers.cpp 96-113 *)
Definition check_for_thousands_separator (c : N) (sep : thousands_separator)
  : outcome unit :=
  if match sep with
     | SepComma => negb (c =? 44)
     | SepPeriod => negb (c =? 46)
     | SepNone => false
     end
  then Throw (ParseFailed ThousandsSeparatorMissing)
  else Ok tt.

(** parsers.ipp 198-214:
    power *= radix; output += current_digit * power; ++digits_counted *)
Definition prepend_digit (t : int_type) (r d : N) (st : parse_state)
  : outcome parse_state :=
  let u := with_unsigned t in
  let i := with_int t in
  bind (arith u (convert u (power st) * convert u (Z.of_N r))) (fun p =>
  let power := convert t p in
  bind (arith i (convert i (Z.of_N d) * power)) (fun m =>
  bind (arith i (output st + m)) (fun o =>
    Ok (ParseState (sign_found st) (negate st) power (digits_counted st + 1)
                   (convert t o))))).

(** parsers.ipp 52-93: the body of the for loop *)
Definition parse_step (t : int_type) (f : integer_format) (c : N) (st : parse_state)
  : outcome parse_state :=
  if (digits_counted st =? 3)
     && match separator f with SepNone => false | _ => true end then
    let st := with_counted st 0 in
    bind (check_for_sign c (sign f) st) (fun o =>
      match o with
      | Some st => Ok st
      | None => bind (check_for_thousands_separator c (separator f)) (fun _ => Ok st)
      end)
  else
    bind (check_for_sign c (sign f) st) (fun o =>
      match o with
      | Some st => Ok st
      | None =>
        bind (is_radix_digit c (radix f)) (fun ok =>
          if negb ok then report_non_digit_character
          else bind (get_next_digit c (radix f)) (fun d =>
                 prepend_digit t (radix f) d st))
      end).

(** parsers.ipp 52-93: for (; it != crend(); ++it), from the unit index [i] of
    the reverse iterator *)
Fixpoint parse_loop (fuel : nat) (k : ukind) (s : list N) (i : nat) (t : int_type)
  (f : integer_format) (st : parse_state) : outcome parse_state :=
  match fuel with
  | O => Diverge
  | S fuel' =>
    if Nat.eqb i 0 then Ok st
    else bind (rderef k s i) (fun c =>
         bind (parse_step t f c st) (fun st =>
         match retreat k s i with
         | (i', Ok _) => parse_loop fuel' k s i' t f st
         | (_, r) => bind (noexcept r) (fun _ => Diverge)
         end))
  end.

(** parsers.ipp 94-106 *)
Definition finish_integer (t : int_type) (st : parse_state) : outcome Z :=
  if negate st then
    if is_signed t then
      bind (arith (promote t) (- output st)) (fun o => Ok (convert t o))
    else Throw (ParseFailed NegativeUnsigned)
  else Ok (output st).

(** parsers.ipp 14-108.  [s] holds the units of the input string, without a
    terminating null. *)
Definition parse_integer (k : ukind) (t : int_type) (s : list N) (f : integer_format)
  : outcome Z :=
  if Nat.eqb (length s) 0 then Throw (ParseFailed EmptyInput)
  else
    let i := length s in
    bind (rderef k s i) (fun c =>
    bind (get_next_digit c (radix f)) (fun d =>
    let out := convert t (Z.of_N d) in
    match retreat k s i with
    | (i', Ok _) =>
      if Nat.eqb i' 0 then Ok out
      else bind (parse_loop (S (length s)) k s i' t f
                   (ParseState false false 1 1 out)) (finish_integer t)
    | (_, r) => bind (noexcept r) (fun _ => Diverge)
    end)).

(* ------------------------------------------------------------------ bool *)

(** formats.cpp 24-38: class bool_format (two u8strings) and its default *)
Record bool_format : Type := BoolFormat { true_string : list N; false_string : list N }.
Definition default_bool_format : bool_format := BoolFormat [49] [48].

(** formatters.ipp 151-162; the stored strings are u8strings *)
Definition format_bool (k : ukind) (b : bool) (f : bool_format) : outcome (list N) :=
  convert_string k K8 (if b then true_string f else false_string f).

Definition str_eqb (a b : list N) : bool := if list_eq_dec N.eq_dec a b then true else false.

(** parsers.ipp 238-274.  A u8string input is compared as it is. *)
Definition parse_bool (k : ukind) (s : list N) (f : bool_format) : outcome bool :=
  if Nat.eqb (length s) 0 then Throw (ParseFailed EmptyInput)
  else bind (match k with K8 => Ok s | _ => convert_string K8 k s end) (fun u =>
    if str_eqb u (true_string f) then Ok true
    else if str_eqb u (false_string f) then Ok false
    else Throw (ParseFailed NeitherBoolean)).
