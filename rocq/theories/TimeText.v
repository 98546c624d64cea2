(** The demo window through a sequence of occurrences. *)
From Coq Require Import NArith ZArith List Bool.
From Verif Require Import Base TimeSpec TimeModel.
Import ListNotations.

Fixpoint demo_run (cs : bool) (l : list occurrence) (w : demo_window) : outcome demo_window :=
  match l with
  | [] => Ok w
  | Update n :: l => bind (demo_update cs (seconds n) w) (demo_run cs l)
  | SpaceBar :: l => demo_run cs l (demo_key_down true w)
  | OtherKey :: l => demo_run cs l (demo_key_down false w)
  end.
