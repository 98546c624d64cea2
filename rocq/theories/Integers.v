(** C++ integer types and the arithmetic rules the modelled code relies on
    (C++20: two's complement, conversions are modular; [conv.prom],
    [expr.arith.conv]).  Models no function of /repo. *)
From Coq Require Import ZArith Bool.
From Verif Require Import Base.
Open Scope Z_scope.

Record int_type : Type := IntType { width : Z; is_signed : bool }.

Definition I8 := IntType 8 true.    Definition U8 := IntType 8 false.
Definition I16 := IntType 16 true.  Definition U16 := IntType 16 false.
Definition I32 := IntType 32 true.  Definition U32 := IntType 32 false.
Definition I64 := IntType 64 true.  Definition U64 := IntType 64 false.

(** The types std::integral Input/Output range over (bool excluded; char,
    wchar_t, char8_t ... are one of these eight). *)
Definition standard (t : int_type) : Prop :=
  width t = 8 \/ width t = 16 \/ width t = 32 \/ width t = 64.

Definition min_of (t : int_type) : Z := if is_signed t then - 2 ^ (width t - 1) else 0.
Definition max_of (t : int_type) : Z :=
  if is_signed t then 2 ^ (width t - 1) - 1 else 2 ^ width t - 1.
Definition in_range (t : int_type) (x : Z) : Prop := min_of t <= x <= max_of t.

(** Conversion to the type: the value of the type congruent modulo 2^width. *)
Definition convert (t : int_type) (x : Z) : Z :=
  let m := x mod 2 ^ width t in
  if is_signed t && (2 ^ (width t - 1) <=? m) then m - 2 ^ width t else m.

(** Result of an arithmetic operation in a (promoted) type: modular if unsigned,
    undefined when out of range if signed. *)
Definition arith (t : int_type) (x : Z) : outcome Z :=
  if is_signed t then
    if (min_of t <=? x) && (x <=? max_of t) then Ok x else UB SignedOverflow
  else Ok (convert t x).

(** Integral promotion: types narrower than int become int. *)
Definition promote (t : int_type) : int_type := if width t <? 32 then I32 else t.

(** Usual arithmetic conversions of a [t] operand with an unsigned int. *)
Definition with_unsigned (t : int_type) : int_type := if width t <=? 32 then U32 else t.

(** Usual arithmetic conversions of a [t] operand with an int. *)
Definition with_int (t : int_type) : int_type := promote t.

(** a / b and a % b in type [t] (truncating).  The quotient min / -1 cannot occur
    here because divisors are never negative. *)
Definition divide (t : int_type) (a b : Z) : outcome Z :=
  if b =? 0 then UB DivByZero else arith t (Z.quot a b).
Definition remainder (t : int_type) (a b : Z) : outcome Z :=
  if b =? 0 then UB DivByZero else arith t (Z.rem a b).
