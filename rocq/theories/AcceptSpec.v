(** The texts a floating-point parser should take (C139). *)
From Coq Require Import NArith List.
From Verif Require Import Base NumeralSpec.
Import ListNotations.
Open Scope N_scope.

(** Every character is a digit of radix r. *)
Definition all_digits (r : N) (l : list N) : Prop := Forall (fun c => exists d, is_digit r c d) l.

(** An optional sign, one or more digits and, if there is a radix character, one or more
    digits behind it. *)
Definition float_text (r : N) (plus : bool) (point : N) (l : list N) : Prop :=
  exists neg sg cs rest, l = sg ++ cs ++ rest /\ sign_prefix plus neg sg /\ all_digits r cs /\ cs <> [] /\
    (rest = [] \/ exists fraction, rest = point :: fraction /\ all_digits r fraction /\ fraction <> []).
