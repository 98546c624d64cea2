(** Model of the numeric helpers of the core module:
    /repo/api/src/cmp/core/general.ipp.

    Floating-point values are those of FloatModel.v: a finite value is a number of
    units 2^-scale, operations are exact and then rounded to nearest, ties to even. *)
From Coq Require Import NArith ZArith List Bool.
From Verif Require Import Base Integers FloatModel.
Import ListNotations.
Open Scope Z_scope.

(* ----------------------------------------------------------- count_digits *)

(** integer /= radix for operands of type [t] (general.ipp 54): the division is in
    the promoted type (min / -1 overflows there) and the quotient is converted
    back. *)
Definition divide_assign (t : int_type) (n r : Z) : outcome Z :=
  bind (divide (promote t) n r) (fun q => Ok (convert t q)).

(** general.ipp 51-56: do { ++digit_count; integer /= radix; } while (integer) *)
Fixpoint count_loop (fuel : nat) (t : int_type) (n r : Z) (count : Z) : outcome Z :=
  match fuel with
  | O => Diverge
  | S fuel' =>
    let count := convert U32 (count + 1) in
    bind (divide_assign t n r) (fun n =>
      if n =? 0 then Ok count else count_loop fuel' t n r count)
  end.

(** general.ipp 41-57, with the number of rounds the model follows. *)
Definition count_digits_with (fuel : nat) (t : int_type) (n r : Z) : outcome Z :=
  count_loop fuel t n r 0.

(** 65 rounds are more than a value of at most 64 bits needs. *)
Definition count_digits (t : int_type) (n r : Z) : outcome Z := count_digits_with 65 t n r.

(* ------------------------------------------------------------- comparison *)

(** The type of value * power when power is a double (usual arithmetic
    conversions): at least double.  general.ipp 23. *)
Definition with_double (t : float_type) : float_type := if prec t <? prec F64 then F64 else t.

(** Conversion of a value to a type with at least its precision and range:
    exact.  general.ipp 23. *)
Definition widen (t u : float_type) (x : fval) : fval :=
  match x with
  | Fin n => Fin (n * 2 ^ (scale u - scale t))
  | _ => x
  end.

(** x * y.  The exact product n * m * 2^(-2 scale) is rounded to a multiple of
    2^-scale with at most prec significant bits. *)
Definition fmul (t : float_type) (x y : fval) : fval :=
  match x, y with
  | NaN, _ | _, NaN => NaN
  | Fin n, Fin m =>
      pack t (Z.sgn (n * m) * round_ratio (prec t) (Z.abs (n * m)) (one t))
  | Fin n, Inf s | Inf s, Fin n =>
      if n =? 0 then NaN else Inf (xorb s (n <? 0))
  | Inf s, Inf s' => Inf (xorb s s')
  end.

(** std::floor: always exact.  A whole number is kept as such, so that results of
    different types can be compared.  general.ipp 23: the results of the two calls. *)
Inductive floored : Type :=
| Whole (i : Z)
| Unbounded (negative : bool)
| Undefined.

(** general.ipp 23: std::floor on a value of type t *)
Definition ffloor (t : float_type) (x : fval) : floored :=
  match x with
  | Fin n => Whole (whole t n)
  | Inf s => Unbounded s
  | NaN => Undefined
  end.

(** == of two such values: never true of a NaN.  general.ipp 23. *)
Definition floored_equal (a b : floored) : bool :=
  match a, b with
  | Whole i, Whole j => i =? j
  | Unbounded s, Unbounded s' => Bool.eqb s s'
  | _, _ => false
  end.

(** std::floor(value * power), general.ipp 23, for a value of type [t] and a
    double power *)
Definition scaled_floor (t : float_type) (x power : fval) : floored :=
  let u := with_double t in
  ffloor u (fmul u (widen t u x) (widen F64 u power)).

(** general.ipp 10-24.  [pow10 k] is std::pow(10, k) as a double: the C++ standard
    does not say how accurate it is, so the function is a parameter. *)
Definition cmp_equal (pow10 : N -> fval) (t1 t2 : float_type) (x1 x2 : fval) (k : N) : bool :=
  let power := pow10 k in
  floored_equal (scaled_floor t1 x1 power) (scaled_floor t2 x2 power).

(** general.ipp 26-39: the number of places is an int there and is converted to
    unsigned int by the call. *)
Definition cmp_not_equal (pow10 : N -> fval) (t1 t2 : float_type) (x1 x2 : fval) (k : Z) : bool :=
  negb (cmp_equal pow10 t1 t2 x1 x2 (Z.to_N (convert U32 k))).

(** Models no function of /repo: a correctly rounded std::pow(10, k). *)
Definition rounded_pow10 (k : N) : fval :=
  if (400 <? k)%N then Inf false
  else fround F64 (10 ^ Z.of_N k * one F64).
