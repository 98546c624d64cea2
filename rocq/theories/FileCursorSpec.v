(** What reads and seeks of any kind do to a file: an abstract machine.  As CursorSpec, but a
    file may be read past its end, where nothing is, and seeks to where there is no place are
    refused.  The right answers are those of file_calls in FileSpec.  Independent of the model. *)
From Coq Require Import NArith ZArith List Bool.
From Verif Require Import ResourceSpec CursorSpec.
Import ListNotations.
Open Scope Z_scope.

(** The buffer of cap bytes is filled from where the file stands. *)
Definition file_refilled (cap : Z) (l : list N) (c : cursor) : cursor :=
  let s := place c + step c in
  let d := take cap (drop s l) in
  Cursor s (len d) d 0 false.

(** n bytes past the buffer. *)
Definition file_direct (l : list N) (c : cursor) (n : Z) : list N * cursor :=
  let d := take n (drop (place c) l) in
  (d, Cursor (place c + len d) (step c) (held c) (spent c) (stale c)).

(** A read of n bytes. *)
Definition file_taken (cap : Z) (l : list N) (c : cursor) (n : Z) : list N * cursor :=
  if cap =? 0 then file_direct l c n
  else
    let c := if stale c then file_refilled cap l c else c in
    let there := len (held c) in
    if n <=? there then hand_out c n
    else
      let '(first, c) := hand_out c there in
      let rest := n - there in
      let '(more, c) :=
        if rest <=? cap
        then let c := file_refilled cap l c in hand_out c (Z.min rest (len (held c)))
        else file_direct l c rest in
      (first ++ more, c).

(** Where a seek leads: relative to where the file stands, not to what has been handed out.
    [clamps]: a negative position from the beginning is the beginning. *)
Definition file_sought (clamps : bool) (l : list N) (c : cursor) (n : Z) (o : origin) : Z :=
  let t :=
    match o with
    | Begin => if clamps then Z.max 0 n else n
    | Current => place c + n
    | End => len l + n
    end in
  if (0 <=? t) && (t <? 2 ^ 63) then t else place c.

(** One call. *)
Definition file_turn (clamps : bool) (cap : Z) (l : list N) (c : cursor) (x : call) : cursor * answer :=
  match x with
  | Read block n => let '(d, c) := file_taken cap l c n in (c, Got (d ++ drop (len d) block) (len d))
  | SetPosition n o => (Cursor (file_sought clamps l c n o) 0 [] 0 true, Done)
  | GoBack n => (Cursor (file_sought clamps l c (- n) Current) 0 (held c) (spent c) (stale c), Done)
  | GoForward n => (Cursor (file_sought clamps l c n Current) 0 (held c) (spent c) (stale c), Done)
  | Write _ | Flush => (c, Done)
  end.

Fixpoint file_turns (clamps : bool) (cap : Z) (l : list N) (c : cursor) (xs : list call) : cursor * list answer :=
  match xs with
  | [] => (c, [])
  | x :: xs =>
      let '(c, a) := file_turn clamps cap l c x in
      let '(c, al) := file_turns clamps cap l c xs in
      (c, a :: al)
  end.

(** Calls that do not write. *)
Definition writes_nothing (x : call) : bool := match x with Write _ => false | _ => true end.
