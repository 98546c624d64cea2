(** What is found in a log after the programs that wrote it have ended or have been killed.
    Independent of the model. *)
From Coq Require Import NArith ZArith List Bool.
From Verif Require Import ResourceSpec FileSpec CrashSpec.
Import ListNotations.
Open Scope Z_scope.

(** A log is written to and flushed, nothing else. *)
Definition logs (c : call) : Prop := match c with Write _ | Flush => True | _ => False end.

(** A run of a program: what it does to the log, those calls that returned before it was
    killed (all if it was not), and whether it came to its end and closed the file. *)
Record run : Type := Run { does : list call; returned : list call; finished : bool }.

(** What may be found of a run: the first k bytes it wrote.  They are all if it came to its
    end; they are at least those written before a flush that returned; and of the writes that
    returned at most [cap] bytes are not there. *)
Definition survives (cap : Z) (r : run) (part : list N) : Prop :=
  exists k, 0 <= k <= len (written (does r)) /\ part = take k (written (does r)) /\
    (finished r = true -> k = len (written (does r))) /\
    (forall a b, returned r = a ++ Flush :: b -> len (written a) <= k) /\
    len (written (returned r)) <= k + cap.
