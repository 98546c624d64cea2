(** Model of what a process that is killed leaves on the disk.

    The calls are those of FileModel.v; the system calls that write are recorded with the
    state of the operating system before them.  A killed process makes no further system
    call, so the disk stays as the last one left it.  What the operating system has taken
    is not lost (only the process dies, not the machine). *)
From Coq Require Import NArith ZArith List Bool.
From Verif Require Import Base Integers ResourceSpec ResourceModel ResourceText FileModel FileText.
Import ListNotations.
Open Scope Z_scope.

(** A system call ::write (WriteFile): the operating system before it, the descriptor and
    the data.  unix_like_file.cpp 248, windows_file.cpp 284-290. *)
Record attempt : Type := Attempt { before : world; on : option N; data : list N }.

(** The disk when the process is killed at this system call: before it has any effect
    ([Refuse]), when it has written k bytes ([AtMost k]), or after it ([InFull]).  No code of /repo:
    what the operating system does with the call of unix_like_file.cpp 248 (windows_file.cpp
    284-290). *)
Definition left_at (a : attempt) (r : response) : N -> option (list N) :=
  disk (fst (sys_write (World (disk (before a)) (table (before a)) (unused (before a)) [r]) (on a) (data a))).

(** The members of the file object, and the system calls so far.  unix_like_file.hpp 124,
    windows_file.hpp 123, file.hpp 249; the list is not in /repo. *)
Record watched : Type := Watched { seen : sys; tries : list attempt }.

(** unix_like_file.cpp 182-214, 241-253, windows_file.cpp 209-241, 276-292: write_blocks of
    FileModel.v with the system calls it makes *)
Fixpoint watched_blocks (pl : platform) (fuel : nat) (w : world) (fd : option N) (data : list N) (n total : Z)
  (l : list attempt) : outcome (world * Z * list attempt) :=
  if n <=? 0 then Ok (w, total, l) else
  match fuel with
  | O => Diverge
  | S fuel =>
      let m := Z.min n (chunk_max pl) in
      let d := firstn (Z.to_nat m) data in
      let l := l ++ [Attempt w fd d] in
      let '(w, r) := sys_write w fd d in
      let k := match r with Some k => k | None => 0 end in
      if k =? m then watched_blocks pl fuel w fd data (n - m) (total + k) l else Ok (w, total + k, l)
  end.

(** unix_like_file.cpp 182-214, windows_file.cpp 209-241 *)
Definition watched_write_raw (pl : platform) (s : watched) (data : list N) : outcome (watched * Z) :=
  bind (watched_blocks pl (chunk_count pl (size_of data)) (os (seen s)) (descriptor (seen s)) data (size_of data) 0 (tries s))
    (fun '(w, k, l) => Ok (Watched (Sys w (descriptor (seen s)) (filled_last (seen s))) l, k)).

(** Reads make no system call that writes.  unix_like_file.cpp 133-214, windows_file.cpp 160-241:
    read_raw and write_raw. *)
Definition watched_ops (pl : platform) : raw watched :=
  Raw watched
    (fun s dst off n rr =>
       bind (file_read_raw pl (seen s) dst off n rr) (fun '(s', dst, k) => Ok (Watched s' (tries s), dst, k)))
    (watched_write_raw pl).

(** No code of /repo: the same resource with an empty list of system calls *)
Definition watch (r : resource sys) : resource watched := Resource (Watched (inner r) []) (buf r).
(** No code of /repo: the same resource without the list *)
Definition unwatch (r : resource watched) : resource sys := Resource (seen (inner r)) (buf r).

(** One call on a file, with the system calls that write: file.cpp 68-81 (write),
    output_resource.cpp 33-40 (flush), seekable_io_resource.ipp 26-39 (a seek flushes
    first).  The other calls make none. *)
Definition watched_call (pl : platform) (f : file) (c : call) : outcome (file * reply answer * list attempt) :=
  match c with
  | Write d =>
      match mode f with
      | ReadOnly => Ok (f, Threw InvalidAccessMode, [])
      | WriteOnly | ReadAndWrite =>
          bind (write (watched_ops pl) (watch (res f)) d) (fun '(r, k) =>
          Ok (File (unwatch r) (path f) (mode f), Returned (Wrote k), tries (inner r)))
      end
  | Flush =>
      bind (flush (watched_ops pl) (watch (res f))) (fun r =>
      Ok (File (unwatch r) (path f) (mode f), Returned Done, tries (inner r)))
  | SetPosition n o =>
      noexcept (bind (flush (watched_ops pl) (watch (res f))) (fun r =>
      Ok (File (Resource (seek_raw pl (seen (inner r)) n (reference o)) (set_read_dirty (buf r) true)) (path f) (mode f),
          Returned Done, tries (inner r))))
  | Read _ _ | GoBack _ | GoForward _ => bind (call_file pl f c) (fun '(f, a) => Ok (f, a, []))
  end.

(** unix_like_file.cpp 33-36, 94-101, windows_file.cpp 33-36, 113-120: close and the
    destructor flush, then close the descriptor, which writes nothing *)
Definition watched_close (pl : platform) (f : file) : outcome (file * list attempt) :=
  noexcept (bind (watched_call pl f Flush) (fun '(f, _, l) =>
  let s := inner (res f) in
  Ok (with_sys f (Sys (sys_close (os s) (descriptor s)) None (filled_last s)), l))).

(** The disks a process may leave that is killed during a call that makes these system
    calls.  [torn]: whether a system call may have been carried out in part.  No code of /repo. *)
Inductive left_by_kill (torn : bool) (d0 : N -> option (list N)) (l : list attempt) : (N -> option (list N)) -> Prop :=
| Untouched : left_by_kill torn d0 l d0
| BeforeOne : forall a, In a l -> left_by_kill torn d0 l (left_at a Refuse)
| AfterOne : forall a, In a l -> left_by_kill torn d0 l (left_at a InFull)
| WithinOne : forall a k, In a l -> torn = true -> left_by_kill torn d0 l (left_at a (AtMost k)).
