(** How format settings read in the specification.  Used in statements only. *)
From Coq Require Import NArith.
From Verif Require Import NumberModel.
Open Scope N_scope.

(** The separator character of a format. *)
Definition sep_char (s : thousands_separator) : option N :=
  match s with SepNone => None | SepComma => Some 44 | SepPeriod => Some 46 end.

(** The sign policy as a flag: '+' shown / accepted. *)
Definition shows_plus (s : sign_status) : bool :=
  match s with AlwaysShow => true | OnlyWhenNegative => false end.

Definition valid_radix (r : N) : Prop := 2 <= r <= 36.
