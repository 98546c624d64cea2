(** Writing and seeking anywhere in what has been written.  Independent of the model. *)
From Coq Require Import ZArith List.
From Verif Require Import ResourceSpec.
Import ListNotations.
Open Scope Z_scope.

(** Writes of whole elements of w bytes anywhere, flushes, and seeks from the beginning and
    from the current position, to places between the beginning and the end of what a store
    holds then. *)
Fixpoint all_within (w : Z) (s : store) (cs : list call) : Prop :=
  match cs with
  | [] => True
  | c :: cs =>
      match c with
      | Write d => (w | len d)
      | Flush => True
      | SetPosition n o => o <> End /\ 0 <= target w s n o <= len (bytes s)
      | Read _ _ | GoBack _ | GoForward _ => False
      end /\ all_within w (fst (expected_call w s c)) cs
  end.
