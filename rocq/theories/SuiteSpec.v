(** When the project's automated tests succeed. *)
From Coq Require Import NArith ZArith List Bool.
From Verif Require Import Base TestSpec ReportModel.
Import ListNotations.

(** The test function ends without an exception and reports success. *)
Definition succeeds (t : test) : Prop := exists events, observe t [] = Some (events, true).

(** The test program ends with exit status 0, on either kind of operating system. *)
Definition program_succeeds (ts : list test) : Prop :=
  forall h, exists report, test_program h ts = Ok (report, 0%Z).
