(** How each kind of string is read.  Used in theorem statements only. *)
From Verif Require Import UnicodeModel AnySpec.

Definition form_of (k : ukind) : form :=
  match k with
  | KChar true => SignedUnit
  | KChar false | K32 | KW4 => OneUnit
  | K8 => Form8
  | K16 | KW2 => Form16
  end.
