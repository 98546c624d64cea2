(** Programs with several threads that use resource objects, stated without the model. *)
From Coq Require Import NArith ZArith List Bool PeanoNat.
From Verif Require Import TieSpec.
Import ListNotations.

(** The things a program names: outputs, inputs and containers. *)
Inductive place : Type := AnOut (o : N) | AnIn (i : N) | ABox (c : N).

(** What a deed names. *)
Definition named (d : deed) : list place :=
  match d with
  | NewOut o c _ => [AnOut o; ABox c]
  | MoveOut o o' | AssignOut o o' => [AnOut o; AnOut o']
  | DestroyOut o | Put o _ | Flush o => [AnOut o]
  | NewIn i _ _ | DestroyIn i | Get i _ _ => [AnIn i]
  | Tie i o => [AnIn i; AnOut o]
  | CopyIn i i' | MoveIn i i' | AssignIn i i' => [AnIn i; AnIn i']
  end.

(** A history: which thread (by its number) does what next.  It is one of the threads'
    if it contains the deeds of each in their order. *)
Definition of_thread {A : Type} (k : nat) (l : list (nat * A)) : list A :=
  map snd (filter (fun x => Nat.eqb (fst x) k) l).

Definition history_of (threads : list (list deed)) (h : list (nat * deed)) : Prop :=
  forall k, of_thread k h = nth k threads [].

(** No thread names what belongs to another. *)
Definition separate (owner : place -> nat) (threads : list (list deed)) : Prop :=
  forall k d x, In d (nth k threads []) -> In x (named d) -> owner x = k.

(** When the threads start: a container belongs to the thread of the output that writes
    to it; an output to which an input is tied belongs to the thread of the input. *)
Definition boxes_kept (owner : place -> nat) (s : ideal) : Prop :=
  forall o c, writes_to s o = Some c -> owner (AnOut o) = owner (ABox c).

Definition ties_kept (owner : place -> nat) (s : ideal) : Prop :=
  forall i rest cap o, inputs s i = Some (rest, cap, Some o) -> owner (AnIn i) = owner (AnOut o).

(** What the program may expect after some deeds. *)
Definition after (s : ideal) (ds : list deed) : ideal := fold_left next ds s.
