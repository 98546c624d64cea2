(** What a reader expects of places noted in a text.

    A reader goes through a text: it takes the next character, notes the place it is at,
    or returns to a place noted before.  [place] tells what is found at a place (counted
    in bytes from the beginning) and which place follows. *)
From Coq Require Import ZArith List.
Import ListNotations.
Open Scope Z_scope.

Inductive move : Type :=
| Take
| Note
| Return (k : nat).

(** What is taken, and the places noted.  A return to a place that was not noted is a
    return to the beginning. *)
Fixpoint walk {A : Type} (place : Z -> A * Z) (here : Z) (notes : list Z) (ms : list move) : list A * list Z :=
  match ms with
  | [] => ([], notes)
  | Take :: ms =>
      let '(a, next) := place here in
      let '(l, n) := walk place next notes ms in (a :: l, n)
  | Note :: ms => walk place here (notes ++ [here]) ms
  | Return k :: ms => walk place (nth k notes 0) notes ms
  end.
