(** Two objects on one file, each used for writing only or for reading only, with seeks of any
    kind, without taking turns: the machines of FilePenSpec and FileCursorSpec with the bytes of
    the file in common.  Independent of the model. *)
From Coq Require Import NArith ZArith List Bool.
From Verif Require Import ResourceSpec FileSpec CursorSpec FileCursorSpec PenSpec FilePenSpec.
Import ListNotations.
Open Scope Z_scope.

(** What an object knows besides the bytes of the file. *)
Inductive hand : Type :=
| Writing (at_spot : Z) (kept : option (list N))
| Reading (c : cursor).

(** An object that is used in this way (true: for writing) and is at this place, with nothing in
    its buffer. *)
Definition hand_at (writes : bool) (a : Z) : hand :=
  if writes then Writing a None else Reading (Cursor a 0 [] 0 true).

Definition for_writing (h : hand) : bool := match h with Writing _ _ => true | Reading _ => false end.

(** The position it reports. *)
Definition stands (h : hand) : Z :=
  match h with
  | Writing s k => s + match k with Some d => len d | None => 0 end
  | Reading c => place c + spent c
  end.

(** Calls for an object that is used in this way. *)
Definition suits (writes : bool) (x : call) : bool :=
  match x with
  | Read _ _ => negb writes
  | Write _ => writes
  | _ => true
  end.

(** One call: the bytes of the file afterwards, the object and the answer.  None: the file would
    have 2^62 bytes or more. *)
Definition hand_turn (clamps : bool) (cap : Z) (l : list N) (h : hand) (x : call) : option (list N * hand * answer) :=
  match h with
  | Writing s k =>
      match file_stroke clamps cap (Pen l s k) x with
      | Some (p, a) => if len (page p) <? 2 ^ 62 then Some (page p, Writing (spot p) (waiting p), a) else None
      | None => None
      end
  | Reading c => let '(c, a) := file_turn clamps cap l c x in Some (l, Reading c, a)
  end.

(** The calls of both, each with the object it is made on (true: the first); the answers to each. *)
Fixpoint two_hands (clamps : bool) (cap1 cap2 : Z) (l : list N) (h1 h2 : hand) (xs : list (bool * call))
  : option (list N * hand * hand * list answer * list answer) :=
  match xs with
  | [] => Some (l, h1, h2, [], [])
  | (true, x) :: xs =>
      match hand_turn clamps cap1 l h1 x with
      | None => None
      | Some (l, h1, a) =>
          match two_hands clamps cap1 cap2 l h1 h2 xs with
          | None => None
          | Some (l, h1, h2, la, lb) => Some (l, h1, h2, a :: la, lb)
          end
      end
  | (false, x) :: xs =>
      match hand_turn clamps cap2 l h2 x with
      | None => None
      | Some (l, h2, a) =>
          match two_hands clamps cap1 cap2 l h1 h2 xs with
          | None => None
          | Some (l, h1, h2, la, lb) => Some (l, h1, h2, la, a :: lb)
          end
      end
  end.

(** Requests and writes of a size that one transfer of at most most bytes can take. *)
Definition in_one_transfer (most : Z) (x : call) : Prop :=
  match x with
  | Read b n => 0 <= n <= len b /\ n <= most
  | Write d => len d <= most
  | _ => True
  end.
