(** Model of what a power failure leaves on the disk.

    Neither flush nor close asks the operating system to bring to the disk what it was
    given: unix_like_file.cpp has no fsync or fdatasync and opens without O_SYNC (59-92), and
    windows_file.cpp has no FlushFileBuffers and opens without FILE_FLAG_WRITE_THROUGH
    (59-111). *)
From Coq Require Import NArith ZArith List Bool.
From Verif Require Import Base ResourceSpec ResourceModel ResourceText FileModel FileText CrashModel.
Import ListNotations.
Open Scope Z_scope.

(** Calls on a file, with the system calls that write.  file.cpp 53-81, output_resource.cpp 33-40,
    seekable_io_resource.ipp 26-39. *)
Fixpoint watched_calls (pl : platform) (f : file) (cs : list call) : outcome (file * list (reply answer) * list attempt) :=
  match cs with
  | [] => Ok (f, [], [])
  | c :: cs =>
      bind (watched_call pl f c) (fun '(f, a, l) =>
      bind (watched_calls pl f cs) (fun '(f, answers, l') => Ok (f, a :: answers, l ++ l')))
  end.

(** The same, and then the file is closed or the object destroyed.  unix_like_file.cpp 33-36,
    94-101, windows_file.cpp 33-36, 113-120. *)
Definition watched_life (pl : platform) (f : file) (cs : list call) : outcome (list (reply answer) * list attempt) :=
  bind (watched_calls pl f cs) (fun '(f, answers, l) =>
  bind (watched_close pl f) (fun '(_, l') => Ok (answers, l ++ l'))).

(** The contents of the disk as the operating system showed them, from before the file was
    opened, through its creation, to the last of the system calls.  No code of /repo. *)
Definition shown_once (d0 d1 : N -> option (list N)) (l : list attempt) (d : N -> option (list N)) : Prop :=
  d = d0 \/ left_by_kill true d1 l d.

(** What a power failure leaves of files that the operating system showed with the contents
    [past], when no part of it was brought to the disk at any certain time.  A file that
    once was not there may not be there.  Its size is one it had; every byte is one that it
    had at this place, or zero if it once had none there.  (Not part of /repo: this is what
    POSIX and Windows leave open.  That an operating system damages files it was not asked
    to change is left out.) *)
Definition left_by_power_failure (past : (N -> option (list N)) -> Prop) (d : N -> option (list N)) : Prop :=
  forall q,
    d q = None /\ (exists v, past v /\ v q = None) \/
    exists found, d q = Some found /\
      (exists v l, past v /\ v q = Some l /\ List.length found = List.length l) /\
      forall i b, nth_error found i = Some b ->
        (exists v l, past v /\ v q = Some l /\ nth_error l i = Some b) \/
        b = 0%N /\ exists v, past v /\ (v q = None \/ exists l, v q = Some l /\ nth_error l i = None).
