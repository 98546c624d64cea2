(** The order of strings and of texts (C160).  Imports nothing of the model. *)
From Coq Require Import NArith List Bool.
Import ListNotations.
Open Scope N_scope.

(** The order of the standard comparison of strings (std::lexicographical_compare), which
    compares elements as unsigned numbers: the first difference decides, a beginning comes
    first. *)
Inductive sorts_before : list N -> list N -> Prop :=
| Shorter x b : sorts_before [] (x :: b)
| Smaller x y a b : x < y -> sorts_before (x :: a) (y :: b)
| Same x a b : sorts_before a b -> sorts_before (x :: a) (x :: b).

(** The order of code points that UTF-16 gives: those behind the surrogates, U+E000 to U+FFFF,
    come after all others. *)
Definition place16 (c : N) : N := if (0xE000 <=? c) && (c <? 0x10000) then 0x110000 + c else c.

(** A sorted list of strings: none comes before the one in front of it. *)
Inductive sorted : list (list N) -> Prop :=
| Nothing : sorted []
| One a : sorted [a]
| More a b l : ~ sorts_before b a -> sorted (b :: l) -> sorted (a :: b :: l).
