(** What writes and seeks of any kind do to a file: an abstract machine.  As PenSpec, but a file
    takes every byte, also past its end, and seeks to where there is no place are refused.  The
    right effects are those of file_calls in FileSpec.  Independent of the model. *)
From Coq Require Import NArith ZArith List Bool.
From Verif Require Import ResourceSpec FileSpec CursorSpec FileCursorSpec PenSpec.
Import ListNotations.
Open Scope Z_scope.

(** The bytes d are written to the file.  None: it would be larger than files can be. *)
Definition file_inked (p : pen) (d : list N) : option pen :=
  if spot p + len d <? 2 ^ 63 then Some (Pen (put (page p) (spot p) d) (spot p + len d) (waiting p)) else None.

(** What waits is delivered. *)
Definition file_delivered (p : pen) : option pen :=
  match waiting p with
  | None => Some p
  | Some d => file_inked (Pen (page p) (spot p) None) d
  end.

(** A write with a buffer of cap bytes. *)
Definition file_put_down (cap : Z) (p : pen) (d : list N) : option pen :=
  if cap =? 0 then file_inked p d
  else
    match (if cap <? len (waits p) + len d then file_delivered p else Some p) with
    | None => None
    | Some p => if cap <? len d then file_inked p d else Some (Pen (page p) (spot p) (Some (waits p ++ d)))
    end.

(** Where a seek leads: relative to where the file stands. *)
Definition file_moved (clamps : bool) (p : pen) (n : Z) (o : origin) : pen :=
  Pen (page p) (file_sought clamps (page p) (Cursor (spot p) 0 [] 0 true) n o) (waiting p).

(** One call.  set_position delivers what waits, go_back and go_forward do not: it is written
    where they lead to. *)
Definition file_stroke (clamps : bool) (cap : Z) (p : pen) (x : call) : option (pen * answer) :=
  match x with
  | Write d => match file_put_down cap p d with None => None | Some p => Some (p, Wrote (len d)) end
  | Flush => match file_delivered p with None => None | Some p => Some (p, Done) end
  | SetPosition n o => match file_delivered p with None => None | Some p => Some (file_moved clamps p n o, Done) end
  | GoBack n => Some (file_moved clamps p (- n) Current, Done)
  | GoForward n => Some (file_moved clamps p n Current, Done)
  | Read _ _ => Some (p, Done)
  end.

Fixpoint file_strokes (clamps : bool) (cap : Z) (p : pen) (xs : list call) : option (pen * list answer) :=
  match xs with
  | [] => Some (p, [])
  | x :: xs =>
      match file_stroke clamps cap p x with
      | None => None
      | Some (p, a) =>
          match file_strokes clamps cap p xs with
          | None => None
          | Some (p, l) => Some (p, a :: l)
          end
      end
  end.
