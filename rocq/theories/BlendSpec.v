(** What a user expects of values and lines of text that are written one after the other
    to the same place.  Independent of the model. *)
From Coq Require Import NArith List.
From Verif Require Import UnicodeSpec StreamSpec.
Import ListNotations.
Open Scope N_scope.

(** A value of [w] bytes, or a line of text. *)
Inductive item : Type :=
| Value (w : nat) (v : N)
| TextLine (l : list N).

(** What can be asked for: a value of w bytes, or a line. *)
Inductive wish : Type :=
| AValue (w : nat)
| ALine.

Definition wish_for (i : item) : wish := match i with Value w _ => AValue w | TextLine _ => ALine end.

(** The bytes: values in one byte order, lines, each ended by a line feed, in an encoding form
    and a byte order of their own. *)
Definition item_bytes (d : byte_order) (e : encoding) (o : byte_order) (i : item) : list N :=
  match i with
  | Value w v => in_order d w v
  | TextLine l => text_bytes e o (l ++ [10])
  end.
Definition items_bytes (d : byte_order) (e : encoding) (o : byte_order) (l : list item) : list N :=
  flat_map (item_bytes d e o) l.
