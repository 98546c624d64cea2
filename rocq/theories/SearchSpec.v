(** Searching in strings (C161).  Imports nothing of the model. *)
From Coq Require Import NArith List.
Import ListNotations.
Open Scope N_scope.

(** The part stands in the whole, with i elements in front of it (what std::basic_string::find
    looks for). *)
Definition stands_at (part whole : list N) (i : nat) : Prop :=
  exists before behind, whole = before ++ part ++ behind /\ length before = i.

(** The smallest such place, the result of find. *)
Definition found_at (part whole : list N) (i : nat) : Prop :=
  stands_at part whole i /\ forall j, (j < i)%nat -> ~ stands_at part whole j.

(** The pieces of a list between the elements equal to sep. *)
Fixpoint pieces (sep : N) (l : list N) : list (list N) :=
  match l with
  | [] => [[]]
  | c :: l' =>
    if c =? sep then [] :: pieces sep l'
    else match pieces sep l' with [] => [[c]] | p :: ps => (c :: p) :: ps end
  end.
