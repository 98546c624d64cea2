(** What a user expects of a text that is passed on in parts: whoever reads gets, one
    piece after the other, what has been written and not been read.
    Independent of the model. *)
From Coq Require Import NArith List.
From Verif Require Import TextFileSpec.
Import ListNotations.

(** Every CR is followed by LF. *)
Definition whole_lines (l : list N) : Prop := forall a b, l = a ++ 13%N :: b -> exists c, b = 10%N :: c.

(** In every round some entries are made, and then some requests.  [relayed rounds left
    text answers]: [left] has been written before and not been read, line ends counted as LF, [text] is what the
    entries of all rounds add, and [answers] are the pieces obtained in each round. *)
Inductive relayed : list (list entry * list request) -> list N -> list N -> list (list piece) -> Prop :=
| RelayedNothing left : relayed [] left [] []
| RelayedRound ps qs rounds left new answers rest text more :
    entries_text ps new -> whole_lines new -> obtains_all qs (left ++ lf_text new) answers rest ->
    relayed rounds rest text more ->
    relayed ((ps, qs) :: rounds) left (new ++ text) (answers :: more).
