(** Independent specification of the numeric helpers.  Imports nothing of the
    model.  A number is a ratio a / b of integers, b > 0. *)
From Coq Require Import ZArith.
Open Scope Z_scope.

(** The largest integer not above 10^k * a / b: the number with everything after
    its k-th decimal place cut off (downwards), in units of the k-th place. *)
Definition up_to_place (k a b : Z) (i : Z) : Prop := i * b <= 10 ^ k * a < (i + 1) * b.

(** The numbers a / b and c / d agree up to the k-th decimal place. *)
Definition same_places (k a b c d : Z) : Prop :=
  exists i, up_to_place k a b i /\ up_to_place k c d i.

(** |a / b - c / d| < w / 10^k. *)
Definition closer_than (w k a b c d : Z) : Prop :=
  10 ^ k * Z.abs (a * d - c * b) < w * (b * d).

(** Multiplied by 10^k, a / b lies below the next integer by more than one part in
    2^p of itself. *)
Definition clear_of_next (p k a b : Z) : Prop :=
  exists i, up_to_place k a b i /\ Z.abs (10 ^ k * a) < 2 ^ p * ((i + 1) * b - 10 ^ k * a).
