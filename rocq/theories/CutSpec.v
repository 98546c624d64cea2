(** What a limit of n places should do to a number (C141).  Imports nothing of the model. *)
From Coq Require Import NArith ZArith List.
From Verif Require Import NumeralSpec FloatSpec.
Open Scope Z_scope.

(** The radix to the number of places of the text: the text denotes numerator / weight. *)
Definition weight (r p : N) (text : list N) : Z := Z.of_N r ^ Z.of_nat (places_in r p text).

(** The number denoted is at most half a unit of the n-th place away from a / b. *)
Definition rounded (r p : N) (text : list N) (a b : Z) (n : N) : Prop :=
  Z.abs (numerator r p text * b - a * weight r p text) * (2 * Z.of_N r ^ Z.of_N n) <= b * weight r p text.

(** Without the sign, it is a / b or below, by less than one unit of the n-th place: the places
    from the (n+1)-th on are dropped. *)
Definition cut (r p : N) (text : list N) (a b : Z) (n : N) : Prop :=
  let missing := Z.abs a * weight r p text - Z.abs (numerator r p text) * b in
  0 <= missing /\ missing * Z.of_N r ^ Z.of_N n < b * weight r p text.

(** The same, up to 2^-m. *)
Definition cut_near (r p : N) (text : list N) (a b : Z) (n : N) (m : Z) : Prop :=
  let missing := Z.abs a * weight r p text - Z.abs (numerator r p text) * b in
  - (b * weight r p text) <= missing * 2 ^ m /\
  missing * (Z.of_N r ^ Z.of_N n * 2 ^ m) < b * weight r p text * (2 ^ m + Z.of_N r ^ Z.of_N n).
