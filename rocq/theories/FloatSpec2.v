(** More specification of fractional numerals: numbers near those a text denotes.
    Imports nothing of the model. *)
From Coq Require Import NArith ZArith List Bool.
From Verif Require Import NumeralSpec FloatSpec.
Import ListNotations.
Open Scope Z_scope.

(** The number v the text denotes differs from a / b by at most
    c * 2^-m * (|v| + 1), for b > 0. *)
Definition denotes_within (r p : N) (text : list N) (a b c m : Z) : Prop :=
  let v := numerator r p text in
  let u := Z.of_N r ^ Z.of_nat (places_in r p text) in
  Z.abs (v * b - a * u) * 2 ^ m <= c * (Z.abs v + u) * b.

(** The numbers a / c and b / c differ by at most e * 2^-m * (b / c + 1), for
    b >= 0 and c > 0. *)
Definition within (a b c e m : Z) : Prop := Z.abs (a - b) * 2 ^ m <= e * (b + c).
