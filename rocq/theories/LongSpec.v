(** What reads of any size give, byte by byte, of a container read through a buffer:
    an abstract machine.  The right answer is [blocks] of ResourceSpec; this is the answer
    users get.  Independent of the model. *)
From Coq Require Import NArith ZArith List Bool.
From Verif Require Import ResourceSpec.
Import ListNotations.
Open Scope Z_scope.

(** Where a reader stands: the place the container would be read at ([dev]), the number of
    bytes put into the buffer last ([win]), and how many of them have been handed out
    ([used]). *)
Record place : Type := Place { dev : Z; win : Z; used : Z }.

(** The bytes in the buffer start [win] bytes before the end of the last refill.  The
    container steps back by win elements after a refill, not by win bytes, and forward by
    win elements before the next one. *)
Definition window_start (w : Z) (p : place) : Z := dev p + win p * w - win p.

(** After a refill from s. *)
Definition refill (w cap : Z) (l : list N) (s : Z) : place :=
  let f := Z.min cap (len l - s) in Place (s + f - f * w) f 0.

(** A read of n bytes of a container l of elements of w bytes through a buffer of cap
    bytes.  None: the reader accesses memory outside the container.
    - What the buffer has is handed out.
    - A rest of at most cap bytes is handed out after a refill from where the window ended,
      as the container sees it.
    - A longer rest is read from [dev], not from where the window ended. *)
Definition get (w cap : Z) (l : list N) (p : place) (n : Z) : option (list N * place) :=
  let there := win p - used p in
  let first := take (Z.min n there) (drop (window_start w p + used p) l) in
  let rest := n - there in
  if rest <=? 0 then Some (first, Place (dev p) (win p) (used p + n))
  else if rest <=? cap then
    let s := dev p + win p * w in
    if len l <? s then None
    else
      let q := refill w cap l s in
      let k := Z.min rest (win q) in
      Some (first ++ take k (drop s l), Place (dev q) (win q) k)
  else if dev p <? 0 then None
  else
    let more := take rest (drop (dev p) l) in
    Some (first ++ more, Place (dev p + len more) (win p) (win p)).

(** A sequence of reads. *)
Fixpoint gets (w cap : Z) (l : list N) (p : place) (sizes : list Z) : option (list (list N)) :=
  match sizes with
  | [] => Some []
  | n :: sizes =>
      match get w cap l p n with
      | None => None
      | Some (d, p) =>
          match gets w cap l p sizes with
          | None => None
          | Some ds => Some (d :: ds)
          end
      end
  end.

(** From the beginning. *)
Definition all_gets (w cap : Z) (l : list N) (sizes : list Z) : option (list (list N)) :=
  gets w cap l (refill w cap l 0) sizes.
