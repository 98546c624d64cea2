(** Model of floating-point formatting and parsing:
    /repo/api/src/cmp/unicode/formats.cpp 150-312, formatters.ipp 72-145,
    parsers.ipp 110-232.

    A finite value of a binary IEEE 754 type is an integer number of units
    2^-scale (the smallest positive value of the type), with at most [prec]
    significant bits.  Operations are exact and then rounded to nearest, ties to
    even, as in IEEE 754; no excess precision (FLT_EVAL_METHOD = 0).  The sign of
    zero is not kept: no modelled operation depends on it. *)
From Coq Require Import NArith ZArith List Bool.
From Verif Require Import Base Integers UnicodeModel NumberModel.
Import ListNotations.
Open Scope N_scope.

(* ------------------------------------------------------------- arithmetic *)

(** Models no function of /repo: the types std::floating_point ranges over. *)
Record float_type : Type := FloatType { prec : Z; emax : Z }.
Definition F32 := FloatType 24 128.       (* float *)
(** No code of /repo: the IEEE 754 format binary64 *)
Definition F64 := FloatType 53 1024.      (* double, or long double *)
(** No code of /repo: the x87 extended format *)
Definition F80 := FloatType 64 16384.     (* long double, x87 *)
(** No code of /repo: the IEEE 754 format binary128 *)
Definition F128 := FloatType 113 16384.   (* long double, quadruple *)

(** The smallest positive value is 2^-scale. *)
Definition scale (t : float_type) : Z := (emax t + prec t - 3)%Z.
Definition one (t : float_type) : Z := (2 ^ scale t)%Z.

Inductive fval : Type :=
| Fin (n : Z)          (* n * 2^-scale *)
| Inf (negative : bool)
| NaN.

(** a / b to the nearest integer, ties to even; 0 <= a, 0 < b. *)
Definition nearest (a b : Z) : Z :=
  let q := (a / b)%Z in
  let r := (a mod b)%Z in
  if (2 * r <? b)%Z then q
  else if (b <? 2 * r)%Z then (q + 1)%Z
  else if Z.even q then q else (q + 1)%Z.

(** a / b (0 <= a, 0 < b) to the nearest integer with at most p significant
    bits. *)
Definition round_ratio (p a b : Z) : Z :=
  let e := Z.max 0 (Z.log2 (a / b) + 1 - p) in
  (nearest a (b * 2 ^ e) * 2 ^ e)%Z.

(** The same for a number of units of either sign.  No code of /repo: IEEE 754 rounding. *)
Definition round_units (p n : Z) : Z := (Z.sgn n * round_ratio p (Z.abs n) 1)%Z.

(** Overflow to infinity.  No code of /repo: IEEE 754 rounding. *)
Definition pack (t : float_type) (n : Z) : fval :=
  if (Z.abs n <? 2 ^ (emax t + scale t))%Z then Fin n else Inf (n <? 0)%Z.

(** No code of /repo: the value of type t nearest to n units *)
Definition fround (t : float_type) (n : Z) : fval := pack t (round_units (prec t) n).

(** std::floor of a finite value, in whole ones.  Used in formatters.ipp 88, 95, 104, 105. *)
Definition whole (t : float_type) (n : Z) : Z := (n / one t)%Z.

(* ---------------------------------------------------------------- formats *)

(** include/cmp/unicode/formats.hpp *)
Inductive radix_character : Type := RadixComma | RadixPeriod.
Inductive radix_place_limit : Type := NoLimit | ExactlyEqual | UpTo.

(** class floating_point_format: the integer part of the format and the rest.
    The place count is an unsigned int.  formats.hpp 498-783. *)
Record float_format : Type := FloatFormat {
  base : integer_format;
  point : radix_character;
  limit : radix_place_limit;
  places : N }.

(** formats.cpp 153-163 *)
Definition default_float_format : float_format :=
  FloatFormat default_integer_format RadixPeriod NoLimit 0.

(** formats.cpp 165-183 *)
Definition new_float_format (r : N) (s : sign_status) (t : thousands_separator)
  (p : radix_character) (l : radix_place_limit) (n : N) : outcome float_format :=
  if (r <? 2) || (36 <? r) then Throw InvalidRadix
  else Ok (FloatFormat (IntegerFormat r s t) p l n).

(** formats.cpp 194-201 *)
Definition set_float_radix (f : float_format) (r : N) : float_format :=
  FloatFormat (set_radix (base f) r) (point f) (limit f) (places f).

(** formatters.ipp 81-85, parsers.ipp 132-136: the local integer_format; its
    constructor validates the radix. *)
Definition equivalent_format (f : float_format) : outcome integer_format :=
  new_integer_format (radix (base f)) (sign (base f)) (separator (base f)).

(** formatters.ipp 141, parsers.ipp 126-128 *)
Definition point_char (p : radix_character) : N :=
  match p with RadixPeriod => 46 | RadixComma => 44 end.

(* ------------------------------------------------------------- formatting *)

(** append_code_point(string, character) on a local string.  formatters.ipp 107-143, with
    algorithms.ipp 188-197. *)
Definition append_to (k : ukind) (out : list N) (c : N) : outcome (list N) :=
  let '(out', r) := append_code_point k out c in bind r (fun _ => Ok out').

(** static_cast<long long>(std::floor(input)), formatters.ipp 88 *)
Definition to_long_long (t : float_type) (n : Z) : outcome Z :=
  let i := whole t n in
  if ((min_of I64 <=? i) && (i <=? max_of I64))%Z then Ok i else UB FloatCast.

(** static_cast<char>(std::floor(fractional_part)), formatters.ipp 105 *)
Definition to_char (t : float_type) (cs : bool) (n : Z) : outcome Z :=
  let i := whole t n in
  if ((min_of (char_type cs) <=? i) && (i <=? max_of (char_type cs)))%Z then Ok i
  else UB FloatCast.

(** formatters.ipp 120-130: the switch on the separator in the fraction *)
Definition append_separator (k : ukind) (sep : thousands_separator) (out : list N)
  : outcome (list N) :=
  match sep with
  | SepComma => append_to k out 44
  | SepPeriod => append_to k out 46
  | SepNone => Ok out
  end.

Definition limited (f : float_format) : bool :=
  match limit f with NoLimit => false | _ => true end.

(** formatters.ipp 103-132: while (fractional_part != 0).  [counted] =
    digits_counted, [done] = radix_places_counted; returns the string and the
    place count.  A product cannot overflow: it is below 36 (pack is the
    identity there), so the fractional part stays a finite number. *)
Fixpoint fraction_loop (fuel : nat) (k : ukind) (cs : bool) (t : float_type)
  (f : float_format) (fraction : Z) (counted done : N) (out : list N)
  : outcome (list N * N) :=
  match fuel with
  | O => Diverge
  | S fuel' =>
    if (fraction =? 0)%Z then Ok (out, done)
    else
      let fraction := round_units (prec t) (fraction * Z.of_N (radix (base f))) in
      bind (to_char t cs fraction) (fun d =>
      let character := char_to_char32 (digit_character cs d) in
      let fraction := round_units (prec t) (fraction - whole t fraction * one t) in
      if limited f && (done =? places f) then Ok (out, done + 1)
      else
        let done := if limited f then done + 1 else done in
        bind (append_to k out character) (fun out =>
        let counted := counted + 1 in
        if counted =? 3 then
          bind (append_separator k (separator (base f)) out) (fun out =>
            fraction_loop fuel' k cs t f fraction 0 done out)
        else fraction_loop fuel' k cs t f fraction counted done out))
  end.

(** formatters.ipp 134-136: while (radix_places_counted++ < count) append '0' *)
Fixpoint append_zeros (n : nat) (k : ukind) (out : list N) : outcome (list N) :=
  match n with
  | O => Ok out
  | S n' => bind (append_to k out 48) (append_zeros n' k)
  end.

(** formatters.ipp 72-145 *)
Definition format_floating_point_with (fuel : nat) (k : ukind) (cs : bool)
  (t : float_type) (x : fval) (f : float_format) : outcome (list N) :=
  bind (equivalent_format f) (fun ef =>
  match x with
  | Inf _ | NaN => UB FloatCast
  | Fin n =>
    bind (to_long_long t n) (fun i =>
    bind (format_integer k cs I64 i ef) (fun out =>
    let n := if (n <? 0)%Z then (- n)%Z else n in
    let fraction := round_units (prec t) (n - whole t n * one t) in
    if (fraction =? 0)%Z then Ok out
    else
      bind (fraction_loop fuel k cs t f fraction 0 0 []) (fun '(s, done) =>
      bind (match limit f with
            | ExactlyEqual => append_zeros (N.to_nat (places f - done)) k s
            | _ => Ok s
            end) (fun s =>
      bind (append_to k out (point_char (point f))) (fun out => Ok (out ++ s))))))
  end).

(** More digits than any value has in an even radix.  No code of /repo: a bound for the loop of
    formatters.ipp 103-132. *)
Definition fraction_fuel (t : float_type) (f : float_format) : nat :=
  Z.to_nat (scale t) + N.to_nat (places f) + 2.

(** formatters.ipp 72-145 *)
Definition format_floating_point (k : ukind) (cs : bool) (t : float_type) (x : fval)
  (f : float_format) : outcome (list N) :=
  format_floating_point_with (fraction_fuel t f) k cs t x f.

(* ---------------------------------------------------------------- parsing *)

(** Conversion of a long long to the type (parsers.ipp 138, 149). *)
Definition from_long_long (t : float_type) (i : Z) : fval := fround t (i * one t).

(** a / b for an int a >= 0 and b > 0 or infinite. *)
Definition divide_digit (t : float_type) (d : N) (root : fval) : fval :=
  match root with
  | Fin m => pack t (round_ratio (prec t) (Z.of_N d * one t * one t) m)
  | _ => Fin 0
  end.

(** a * b for b an unsigned int > 0. *)
Definition times_radix (t : float_type) (x : fval) (r : N) : fval :=
  match x with Fin n => fround t (n * Z.of_N r) | _ => x end.

(** a + b; the sums formed here are never of opposite infinities.  Used in parsers.ipp 167-194. *)
Definition fadd (t : float_type) (a b : fval) : fval :=
  match a, b with
  | Fin x, Fin y => fround t (x + y)
  | Fin _, _ => b
  | _, _ => a
  end.

(** parsers.ipp 216-232 *)
Definition append_digit (t : float_type) (r d : N) (root output : fval) : fval * fval :=
  let root := times_radix t root r in
  (root, fadd t output (divide_digit t d root)).

(** parsers.ipp 167-190: the loop over the fraction *)
Fixpoint fraction_digits (t : float_type) (r : N) (s : list N) (root output : fval)
  : outcome fval :=
  match s with
  | [] => Ok output
  | c :: s' =>
    bind (digit_character_to_integer c r) (fun d =>
      match d with
      | None => Throw (ParseFailed WrongPlaceLimit)
      | Some d =>
        let '(root, output) := append_digit t r d root output in
        fraction_digits t r s' root output
      end)
  end.

(** std::find of the radix character: the text before it and after it.  parsers.ipp 120-131. *)
Fixpoint split_at (c : N) (s : list N) : option (list N * list N) :=
  match s with
  | [] => None
  | x :: s' =>
    if x =? c then Some ([], s')
    else match split_at c s' with
         | Some (a, b) => Some (x :: a, b)
         | None => None
         end
  end.

(** parsers.ipp 110-194 *)
Definition parse_floating_point (k : ukind) (t : float_type) (s : list N)
  (f : float_format) : outcome fval :=
  bind (convert_string K32 k s) (fun u =>
  bind (equivalent_format f) (fun ef =>
  match split_at (point_char (point f)) u with
  | None => bind (parse_integer K32 I64 u ef) (fun i => Ok (from_long_long t i))
  | Some (integral, fraction) =>
    bind (parse_integer K32 I64 integral ef) (fun i =>
    let output := from_long_long t i in
    match fraction, limit f with
    | [], NoLimit => Ok output
    | [], _ => if 0 <? places f then Throw (ParseFailed WrongPlaceLimit) else Ok output
    | _, _ => fraction_digits t (radix (base f)) fraction (Fin (one t)) output
    end)
  end)).
