(** What reads of any size give of a file read through a buffer.  As LongSpec; a file may
    be read past its end, where nothing is.  Independent of the model. *)
From Coq Require Import NArith ZArith List Bool.
From Verif Require Import ResourceSpec LongSpec.
Import ListNotations.
Open Scope Z_scope.

(** After a refill from s. *)
Definition file_refill (cap : Z) (l : list N) (s : Z) : place := Place s (len (take cap (drop s l))) 0.

(** A read of n bytes of a file l through a buffer of cap bytes.
    - What the buffer has is handed out.
    - A rest of at most cap bytes is handed out after a refill from where the window ended
      (if no long read came between).
    - A longer rest is read from where the window started. *)
Definition file_get (cap : Z) (l : list N) (p : place) (n : Z) : list N * place :=
  let there := win p - used p in
  let first := take (Z.min n there) (drop (dev p + used p) l) in
  let rest := n - there in
  if rest <=? 0 then (first, Place (dev p) (win p) (used p + n))
  else if rest <=? cap then
    let q := file_refill cap l (dev p + win p) in
    let k := Z.min rest (win q) in
    (first ++ take k (drop (dev q) l), Place (dev q) (win q) k)
  else
    let more := take rest (drop (dev p) l) in
    (first ++ more, Place (dev p + len more) (win p) (win p)).

(** A sequence of reads. *)
Fixpoint file_gets (cap : Z) (l : list N) (p : place) (sizes : list Z) : list (list N) :=
  match sizes with
  | [] => []
  | n :: sizes => let '(d, p) := file_get cap l p n in d :: file_gets cap l p sizes
  end.

(** From the beginning. *)
Definition file_all_gets (cap : Z) (l : list N) (sizes : list Z) : list (list N) :=
  file_gets cap l (file_refill cap l 0) sizes.
