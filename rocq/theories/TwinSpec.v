(** How a text is typed: the two ways to end a line. *)
From Coq Require Import NArith List Bool.
Import ListNotations.
Open Scope N_scope.

(** Lines end with a line feed, or with a carriage return and a line feed. *)
Inductive line_style : Type := Bare | WithReturn.

(** The text l as it is typed where lines end in the given way. *)
Definition keyed (s : line_style) (l : list N) : list N :=
  match s with
  | Bare => l
  | WithReturn => flat_map (fun c => if c =? 10 then [13; 10] else [c]) l
  end.
