(** The order of the numbers that texts denote (C154).  Imports nothing of the model. *)
From Coq Require Import NArith ZArith List.
From Verif Require Import NumeralSpec FloatSpec CutSpec.
Open Scope Z_scope.

(** The number denoted by a is at most, or below, the one denoted by b: numerator / weight
    of one and the other. *)
Definition at_most (r p : N) (a b : list N) : Prop := numerator r p a * weight r p b <= numerator r p b * weight r p a.
Definition below (r p : N) (a b : list N) : Prop := numerator r p a * weight r p b < numerator r p b * weight r p a.

(** It is below by more than c * 2^-m * (v + 1) for each of the two numbers v >= 0. *)
Definition well_below (r p : N) (a b : list N) (c m : Z) : Prop :=
  c * ((numerator r p a + weight r p a) * weight r p b + (numerator r p b + weight r p b) * weight r p a)
  < (numerator r p b * weight r p a - numerator r p a * weight r p b) * 2 ^ m.
