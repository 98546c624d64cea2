(** What a window is told when its system handle was used by an earlier window (C71). *)
From Coq Require Import NArith ZArith List.
From Verif Require Import Base KeySpec WindowSpec.
Import ListNotations.

(** The delta of every update told about window h is not negative, and its total is the sum
    of all deltas told about h since the beginning of the list. *)
Definition honest_about (h : N) (l : list telling) : Prop :=
  forall before x after delta total, l = before ++ x :: after -> about x = h -> what x = Updated delta total ->
  (0 <= delta)%Z /\ total = (told_so_far h before + delta)%Z.
