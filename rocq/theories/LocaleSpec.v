(** Locales as far as they concern reading numbers.  Independent of the model. *)
From Coq Require Import NArith List Bool.
Import ListNotations.
Open Scope N_scope.

(** What std::tolower makes of the characters 0 to 255. *)
Definition locale : Type := N -> N.

(** The "C" locale. *)
Definition classic : locale := fun c => if (65 <=? c) && (c <=? 90) then c + 32 else c.

(** A Turkish locale with the character set ISO 8859-9: a capital I is the capital of the i
    without dot (0xFD), and the capital of i has a dot (0xDD). *)
Definition turkish : locale := fun c => if c =? 73 then 0xFD else if c =? 0xDD then 105 else classic c.

(** A German locale with the character set ISO 8859-1: capital letters with diacritical marks
    have small letters, too. *)
Definition german : locale := fun c => if (0xC0 <=? c) && (c <=? 0xDE) && negb (c =? 0xD7) then c + 32 else classic c.

(** The letters that are digits of the radix: a, b, ... *)
Definition letter_digit (r x : N) : Prop := 97 <= x < 97 + (r - 10).

(** Two locales have the same digits of the radix. *)
Definition same_digits (r : N) (a b : locale) : Prop :=
  forall c, c <= 255 -> ~ 48 <= c <= 57 -> (letter_digit r (a c) <-> letter_digit r (b c)).

(** A locale that makes small letters of the 26 capital letters as usual, and of nothing else. *)
Definition ordinary (a : locale) : Prop :=
  forall c, c <= 255 ->
    (65 <= c <= 90 -> a c = c + 32) /\ (97 <= c <= 122 -> a c = c) /\ (97 <= a c <= 122 -> 65 <= c <= 90 \/ 97 <= c <= 122).
