(** What is left of a file's history when the process is killed.  Independent of the
    model. *)
From Coq Require Import NArith ZArith List Bool.
From Verif Require Import ResourceSpec FileSpec.
Import ListNotations.
Open Scope Z_scope.

(** The bytes of the writes, in order. *)
Definition written (cs : list call) : list N :=
  flat_map (fun c => match c with Write d => d | _ => [] end) cs.

(** Calls that bring to the file what was written before them. *)
Definition saves (c : call) : Prop :=
  match c with Flush | SetPosition _ _ => True | _ => False end.

(** An initial part of a history, the last write of which may itself be only begun. *)
Inductive begins : list call -> list call -> Prop :=
| Nothing : forall cs, begins [] cs
| SomeBytes : forall d e cs, begins [Write d] (Write (d ++ e) :: cs)
| OneMore : forall c part cs, begins part cs -> begins (c :: part) (c :: cs).

(** The bytes of a file after a history, from the bytes l. *)
Definition file_bytes (l : list N) (cs : list call) : list N := bytes (fst (file_calls (Store l 0) cs)).

(** The history [cs] is split into calls the file shows for sure and calls that may be
    lost: no flush or seek is among the latter, and all their data would fit into a buffer
    of [cap] bytes. *)
Definition may_lose (cap : Z) (cs kept lost : list call) : Prop :=
  cs = kept ++ lost /\ Forall (fun c => ~ saves c) lost /\ len (written lost) <= cap.
