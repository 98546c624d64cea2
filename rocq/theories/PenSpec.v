(** What writes and seeks of any kind do to an output resource over a container: an abstract
    machine.  The right effects are those of expected_call in ResourceSpec; these are the ones
    users get.  Independent of the model. *)
From Coq Require Import NArith ZArith List Bool.
From Verif Require Import ResourceSpec CursorSpec.
Import ListNotations.
Open Scope Z_scope.

(** [page]: the container.  [spot]: where it would be written to.  [waiting]: what waits in the
    buffer, None if nothing was put there since the last delivery. *)
Record pen : Type := Pen { page : list N; spot : Z; waiting : option (list N) }.

Definition waits (p : pen) : list N := match waiting p with Some d => d | None => [] end.

(** The bytes d are written to the container.  If they do not fit, it first grows by all of
    them, as far as they are whole elements.  None: they go outside the container. *)
Definition inked (w : Z) (p : pen) (d : list N) : option pen :=
  let s := spot p in
  let more := if len (page p) <? s + len d then len d / w * w else 0 in
  if (0 <=? s) && (s + len d <=? len (page p) + Z.max 0 more)
  then Some (Pen (overwrite (page p ++ repeat 0%N (Z.to_nat more)) s d) (s + len d) (waiting p))
  else None.

(** What waits is delivered. *)
Definition delivered_all (w : Z) (p : pen) : option pen :=
  match waiting p with
  | None => Some p
  | Some d => inked w (Pen (page p) (spot p) None) d
  end.

(** A write with a buffer of cap bytes. *)
Definition put_down (w cap : Z) (p : pen) (d : list N) : option pen :=
  if cap =? 0 then inked w p d
  else
    match (if cap <? len (waits p) + len d then delivered_all w p else Some p) with
    | None => None
    | Some p => if cap <? len d then inked w p d else Some (Pen (page p) (spot p) (Some (waits p ++ d)))
    end.

(** Where a seek leads: relative to where the container stands. *)
Definition moved (w : Z) (p : pen) (n : Z) (o : origin) : pen :=
  Pen (page p) (sought w (page p) (Cursor (spot p) 0 [] 0 true) n o) (waiting p).

(** One call of an output resource.  set_position delivers what waits, go_back and go_forward do
    not: it is written where they lead to. *)
Definition stroke (w cap : Z) (p : pen) (x : call) : option (pen * answer) :=
  match x with
  | Write d => match put_down w cap p d with None => None | Some p => Some (p, Wrote (len d)) end
  | Flush => match delivered_all w p with None => None | Some p => Some (p, Done) end
  | SetPosition n o => match delivered_all w p with None => None | Some p => Some (moved w p n o, Done) end
  | GoBack n => Some (moved w p (- n) Current, Done)
  | GoForward n => Some (moved w p n Current, Done)
  | Read block _ => Some (p, Done)
  end.

Fixpoint strokes (w cap : Z) (p : pen) (xs : list call) : option (pen * list answer) :=
  match xs with
  | [] => Some (p, [])
  | x :: xs =>
      match stroke w cap p x with
      | None => None
      | Some (p, a) =>
          match strokes w cap p xs with
          | None => None
          | Some (p, l) => Some (p, a :: l)
          end
      end
  end.

(** A new resource over a container with the bytes l. *)
Definition fresh_pen (l : list N) : pen := Pen l 0 None.
