(** What reads and seeks of any kind do to an input resource over a container: an abstract
    machine.  The right answers are those of expected_call in ResourceSpec; these are the
    ones users get.  Independent of the model. *)
From Coq Require Import NArith ZArith List Bool.
From Verif Require Import ResourceSpec.
Import ListNotations.
Open Scope Z_scope.

(** [place]: where the container would be read at.  [step]: by how many elements the
    container moves on before the next refill.  [held]: the bytes in the buffer that have
    not been handed out.  [spent]: the number of those that have.  [stale]: what the buffer
    holds does not count. *)
Record cursor : Type := Cursor { place : Z; step : Z; held : list N; spent : Z; stale : bool }.

(** A place as a signed number of 64 bits. *)
Definition wrap (x : Z) : Z := (x + 2 ^ 63) mod 2 ^ 64 - 2 ^ 63.

Definition inside (l : list N) (s : Z) : bool := (0 <=? s) && (s <=? len l).

(** The buffer of cap bytes is filled from where the container stands.  None: that is
    outside the container. *)
Definition refilled (w cap : Z) (l : list N) (c : cursor) : option cursor :=
  let s := place c + step c * w in
  if inside l s then
    let d := take cap (drop s l) in
    Some (Cursor (s + len d - len d * w) (len d) d 0 false)
  else None.

(** n bytes past the buffer. *)
Definition direct (l : list N) (c : cursor) (n : Z) : option (list N * cursor) :=
  if inside l (place c) then
    let d := take n (drop (place c) l) in
    Some (d, Cursor (place c + len d) (step c) (held c) (spent c) (stale c))
  else None.

Definition hand_out (c : cursor) (n : Z) : list N * cursor :=
  (take n (held c), Cursor (place c) (step c) (drop n (held c)) (spent c + n) (stale c)).

(** A read of n bytes. *)
Definition taken (w cap : Z) (l : list N) (c : cursor) (n : Z) : option (list N * cursor) :=
  if cap =? 0 then direct l c n
  else
    match (if stale c then refilled w cap l c else Some c) with
    | None => None
    | Some c =>
        let there := len (held c) in
        if n <=? there then Some (hand_out c n)
        else
          let '(first, c) := hand_out c there in
          let rest := n - there in
          match (if rest <=? cap
                 then match refilled w cap l c with
                      | None => None
                      | Some c => Some (hand_out c (Z.min rest (len (held c))))
                      end
                 else direct l c rest) with
          | None => None
          | Some (more, c) => Some (first ++ more, c)
          end
    end.

(** Where a seek leads: relative to where the container stands, not to what has been handed
    out. *)
Definition sought (w : Z) (l : list N) (c : cursor) (n : Z) (o : origin) : Z :=
  wrap match o with
       | Begin => n * w
       | Current => place c + n * w
       | End => (len l / w - n) * w
       end.

(** One call of an input resource. *)
Definition turn (w cap : Z) (l : list N) (c : cursor) (x : call) : option (cursor * answer) :=
  match x with
  | Read block n =>
      match taken w cap l c n with
      | None => None
      | Some (d, c) => Some (c, Got (d ++ drop (len d) block) (len d))
      end
  | SetPosition n o => Some (Cursor (sought w l c n o) 0 [] 0 true, Done)
  | GoBack n => Some (Cursor (sought w l c (- n) Current) 0 (held c) (spent c) (stale c), Done)
  | GoForward n => Some (Cursor (sought w l c n Current) 0 (held c) (spent c) (stale c), Done)
  | Write _ | Flush => Some (c, Done)
  end.

Fixpoint turns (w cap : Z) (l : list N) (c : cursor) (xs : list call) : option (cursor * list answer) :=
  match xs with
  | [] => Some (c, [])
  | x :: xs =>
      match turn w cap l c x with
      | None => None
      | Some (c, a) =>
          match turns w cap l c xs with
          | None => None
          | Some (c, l) => Some (c, a :: l)
          end
      end
  end.

(** A new resource. *)
Definition start : cursor := Cursor 0 0 [] 0 true.
