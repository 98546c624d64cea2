(** A user's program that copies a file and, when it is started again after it was killed, goes
    on where it was interrupted, written with the model of files.  No code of /repo: it is what
    a user of the class file writes. *)
From Coq Require Import NArith ZArith List Bool.
From Verif Require Import Base Integers ResourceSpec ResourceModel ResourceText FileSpec FileModel FileText CrashSpec CrashModel.
Import ListNotations.
Open Scope Z_scope.

(** What the program does next. *)
Inductive next : Type :=
| OnSource (c : call)
| OnTarget (c : call)
| CloseTarget
| CloseSource
| Over.

(** How far the program may have come, from the operating system w0: it opens the source q and
    the target r, sets the position of the target to its end, gets this position, sets that of
    the source to it, then reads blocks of n bytes and writes what it has got until it gets
    nothing, and closes both files.  w is the operating system, f and g are the file objects. *)
Inductive stands (pl : platform) (q r : N) (cap1 cap2 : nat) (n : Z) (w0 : world) : world -> file -> file -> next -> Prop :=
| Opened : forall f g, new_file pl w0 q ReadOnly Fail cap1 = Ok f -> new_file pl (os (inner (res f))) r WriteOnly Create cap2 = Ok g ->
    stands pl q r cap1 cap2 n w0 (os (inner (res g))) f g (OnTarget (SetPosition 0 End))
| FoundEnd : forall w f g g1 a k, stands pl q r cap1 cap2 n w0 w f g (OnTarget (SetPosition 0 End)) ->
    call_file pl (in_world w g) (SetPosition 0 End) = Ok (g1, a) -> file_position pl g1 = Ok k ->
    stands pl q r cap1 cap2 n w0 (os (inner (res g1))) f g1 (OnSource (SetPosition k Begin))
| AtPlace : forall w f g f1 a k, stands pl q r cap1 cap2 n w0 w f g (OnSource (SetPosition k Begin)) ->
    call_file pl (in_world w f) (SetPosition k Begin) = Ok (f1, a) ->
    stands pl q r cap1 cap2 n w0 (os (inner (res f1))) f1 g (OnSource (Read (zeros n) n))
| HasRead : forall w f g f1 d m, stands pl q r cap1 cap2 n w0 w f g (OnSource (Read (zeros n) n)) ->
    call_file pl (in_world w f) (Read (zeros n) n) = Ok (f1, Returned (Got d m)) -> m <> 0 ->
    stands pl q r cap1 cap2 n w0 (os (inner (res f1))) f1 g (OnTarget (Write (take m d)))
| HasWritten : forall w f g g1 d a, stands pl q r cap1 cap2 n w0 w f g (OnTarget (Write d)) ->
    call_file pl (in_world w g) (Write d) = Ok (g1, a) ->
    stands pl q r cap1 cap2 n w0 (os (inner (res g1))) f g1 (OnSource (Read (zeros n) n))
| AtEnd : forall w f g f1 d, stands pl q r cap1 cap2 n w0 w f g (OnSource (Read (zeros n) n)) ->
    call_file pl (in_world w f) (Read (zeros n) n) = Ok (f1, Returned (Got d 0)) ->
    stands pl q r cap1 cap2 n w0 (os (inner (res f1))) f1 g CloseTarget
| TargetClosed : forall w f g g1, stands pl q r cap1 cap2 n w0 w f g CloseTarget -> file_close pl (in_world w g) = Ok g1 ->
    stands pl q r cap1 cap2 n w0 (os (inner (res g1))) f g1 CloseSource
| BothClosed : forall w f g f1, stands pl q r cap1 cap2 n w0 w f g CloseSource -> file_close pl (in_world w f) = Ok f1 ->
    stands pl q r cap1 cap2 n w0 (os (inner (res f1))) f1 g Over.

(** The system calls that write, in what the program does next. *)
Definition tried (pl : platform) (w : world) (f g : file) (nx : next) : outcome (list attempt) :=
  match nx with
  | OnSource c => bind (watched_call pl (in_world w f) c) (fun '(_, _, t) => Ok t)
  | OnTarget c => bind (watched_call pl (in_world w g) c) (fun '(_, _, t) => Ok t)
  | CloseTarget => bind (watched_close pl (in_world w g)) (fun '(_, t) => Ok t)
  | CloseSource => bind (watched_close pl (in_world w f)) (fun '(_, t) => Ok t)
  | Over => Ok []
  end.

(** What one start of the program leaves, from the disk d: whether it came to its end, and the
    disk.  It is killed before it has opened both files, or at any later time, even within a
    system call. *)
Inductive copy_leaves (pl : platform) (q r : N) (cap1 cap2 : nat) (n : Z) (d : N -> option (list N)) : bool -> (N -> option (list N)) -> Prop :=
| KilledBefore : copy_leaves pl q r cap1 cap2 n d false d
| KilledThere : forall w0 w f g nx t d', disk w0 = d -> obliging w0 -> stands pl q r cap1 cap2 n w0 w f g nx ->
    tried pl w f g nx = Ok t -> left_by_kill true (disk w) t d' -> copy_leaves pl q r cap1 cap2 n d false d'
| CameToEnd : forall w0 w f g, disk w0 = d -> obliging w0 -> stands pl q r cap1 cap2 n w0 w f g Over ->
    copy_leaves pl q r cap1 cap2 n d true (disk w).

(** The program is started again and again; the last start comes to its end if [ended]. *)
Inductive restarts (pl : platform) (q r : N) (cap1 cap2 : nat) (n : Z) : nat -> bool -> (N -> option (list N)) -> (N -> option (list N)) -> Prop :=
| NoStart : forall d, restarts pl q r cap1 cap2 n 0 false d d
| OneStart : forall k b0 b d d1 d2, restarts pl q r cap1 cap2 n k b0 d d1 -> copy_leaves pl q r cap1 cap2 n d1 b d2 ->
    restarts pl q r cap1 cap2 n (S k) b d d2.
