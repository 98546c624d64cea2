(** The functions of UnicodeModel.v, NumberModel.v and FloatModel.v that read numbers, with the
    locale of the program (std::setlocale) as a parameter. *)
From Coq Require Import NArith ZArith List Bool.
From Verif Require Import Base Integers UnicodeModel NumberModel FloatModel LocaleSpec.
Import ListNotations.
Open Scope N_scope.

(** std::tolower(static_cast<int>(c)), called in examiners.ipp 140-144: defined for the values of
    an unsigned char and for EOF, which stays as it is *)
Definition tolower_in (lc : locale) (c : N) : outcome N :=
  if c <=? 255 then Ok (lc c)
  else if c =? 0xFFFFFFFF then Ok c
  else UB CtypeDomain.

(** examiners.ipp 130-152 *)
Definition is_radix_digit_in (lc : locale) (c radix : N) : outcome bool :=
  if radix <? 10 then Ok ((48 <=? c) && (c <? 48 + radix))
  else
    bind (tolower_in lc c) (fun lower =>
      Ok (((48 <=? c) && (c <=? 57)) ||
          ((97 <=? lower) && (lower <? to_char32 (97 + radix - 10))))).

(** parsers.cpp 14-31: for a digit that is none of the three the end of the function is reached
    without a return *)
Definition digit_in (lc : locale) (c r : N) : outcome (option N) :=
  bind (is_radix_digit_in lc c r) (fun ok =>
    if negb ok then Ok None
    else if (48 <=? c) && (c <=? 57) then Ok (Some (c - 48))
    else if (97 <=? c) && (c <=? 122) then Ok (Some (c - 97 + 10))
    else if (65 <=? c) && (c <=? 90) then Ok (Some (c - 65 + 10))
    else UB NoReturn).

(** parsers.cpp 43-56 *)
Definition next_digit_in (lc : locale) (c r : N) : outcome N :=
  bind (digit_in lc c r) (fun d => match d with Some d => Ok d | None => report_non_digit_character end).

(** parsers.ipp 52-93: the body of the for loop *)
Definition parse_step_in (lc : locale) (t : int_type) (f : integer_format) (c : N) (st : parse_state)
  : outcome parse_state :=
  if (digits_counted st =? 3)
     && match separator f with SepNone => false | _ => true end then
    let st := with_counted st 0 in
    bind (check_for_sign c (sign f) st) (fun o =>
      match o with
      | Some st => Ok st
      | None => bind (check_for_thousands_separator c (separator f)) (fun _ => Ok st)
      end)
  else
    bind (check_for_sign c (sign f) st) (fun o =>
      match o with
      | Some st => Ok st
      | None =>
        bind (is_radix_digit_in lc c (radix f)) (fun ok =>
          if negb ok then report_non_digit_character
          else bind (next_digit_in lc c (radix f)) (fun d =>
                 prepend_digit t (radix f) d st))
      end).

(** parsers.ipp 52-93: the loop *)
Fixpoint parse_loop_in (lc : locale) (fuel : nat) (k : ukind) (s : list N) (i : nat) (t : int_type)
  (f : integer_format) (st : parse_state) : outcome parse_state :=
  match fuel with
  | O => Diverge
  | S fuel' =>
    if Nat.eqb i 0 then Ok st
    else bind (rderef k s i) (fun c =>
         bind (parse_step_in lc t f c st) (fun st =>
         match retreat k s i with
         | (i', Ok _) => parse_loop_in lc fuel' k s i' t f st
         | (_, r) => bind (noexcept r) (fun _ => Diverge)
         end))
  end.

(** parsers.ipp 14-108 *)
Definition parse_integer_in (lc : locale) (k : ukind) (t : int_type) (s : list N) (f : integer_format)
  : outcome Z :=
  if Nat.eqb (length s) 0 then Throw (ParseFailed EmptyInput)
  else
    let i := length s in
    bind (rderef k s i) (fun c =>
    bind (next_digit_in lc c (radix f)) (fun d =>
    let out := convert t (Z.of_N d) in
    match retreat k s i with
    | (i', Ok _) =>
      if Nat.eqb i' 0 then Ok out
      else bind (parse_loop_in lc (S (length s)) k s i' t f
                   (ParseState false false 1 1 out)) (finish_integer t)
    | (_, r) => bind (noexcept r) (fun _ => Diverge)
    end)).

(** parsers.ipp 167-190: the loop over the fraction *)
Fixpoint fraction_digits_in (lc : locale) (t : float_type) (r : N) (s : list N) (root output : fval)
  : outcome fval :=
  match s with
  | [] => Ok output
  | c :: s' =>
    bind (digit_in lc c r) (fun d =>
      match d with
      | None => Throw (ParseFailed WrongPlaceLimit)
      | Some d =>
        let '(root, output) := append_digit t r d root output in
        fraction_digits_in lc t r s' root output
      end)
  end.

(** parsers.ipp 110-194 *)
Definition parse_floating_point_in (lc : locale) (k : ukind) (t : float_type) (s : list N)
  (f : float_format) : outcome fval :=
  bind (convert_string K32 k s) (fun u =>
  bind (equivalent_format f) (fun ef =>
  match split_at (point_char (point f)) u with
  | None => bind (parse_integer_in lc K32 I64 u ef) (fun i => Ok (from_long_long t i))
  | Some (integral, fraction) =>
    bind (parse_integer_in lc K32 I64 integral ef) (fun i =>
    let output := from_long_long t i in
    match fraction, limit f with
    | [], NoLimit => Ok output
    | [], _ => if 0 <? places f then Throw (ParseFailed WrongPlaceLimit) else Ok output
    | _, _ => fraction_digits_in lc t (radix (base f)) fraction (Fin (one t)) output
    end)
  end)).
