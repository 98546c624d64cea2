(** Running the histories of FollowSpec on the model. *)
From Coq Require Import NArith ZArith List Bool.
From Verif Require Import Base Integers ResourceSpec ResourceModel ResourceText FileSpec FileModel FileText SharedSpec FollowSpec.
Import ListNotations.
Open Scope Z_scope.

(** The first object writes, the second one reads. *)
Definition follow_calls (cs : list pipe_call) : list (bool * call) :=
  map (fun c => match c with
                | Put d => (true, Write d)
                | Deliver => (true, Flush)
                | Get block n => (false, Read block n)
                end) cs.

(** Two objects on the file q: the first one is at its end, the second one at its
    beginning. *)
Definition open_both (pl : platform) (w : world) (q : N) (m1 m2 : access_mode) (how : if_not_there) (cap1 cap2 : nat)
  : outcome (file * file) :=
  bind (new_file pl w q m1 how cap1) (fun f =>
  bind (file_seek pl f 0 FromEnd) (fun f =>
  bind (new_file pl (os (inner (res f))) q m2 Fail cap2) (fun g => Ok (f, g)))).

(** The state of the operating system after the objects f and then g have been made. *)
Definition system_of (g : file) : world := os (inner (res g)).
