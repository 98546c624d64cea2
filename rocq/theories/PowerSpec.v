(** What may be found in a file after a power failure.  Independent of the model. *)
From Coq Require Import NArith ZArith List Bool.
From Verif Require Import ResourceSpec FileSpec CrashSpec.
Import ListNotations.
Open Scope Z_scope.

(** The file had the bytes l when it was opened, and the calls cs were made.  What is found
    is as long as the file was after an initial part of the calls, and every byte of it is
    one that the file had at this place after an initial part of the calls, or zero if the
    file once ended before it. *)
Definition from_the_past (l : list N) (cs : list call) (found : list N) : Prop :=
  (exists part, begins part cs /\ List.length found = List.length (file_bytes l part)) /\
  forall i b, nth_error found i = Some b ->
    exists part, begins part cs /\
      (nth_error (file_bytes l part) i = Some b \/ b = 0%N /\ nth_error (file_bytes l part) i = None).

(** Nothing was lost: the file is as after all calls. *)
Definition all_there (l : list N) (cs : list call) (found : option (list N)) : Prop := found = Some (file_bytes l cs).
