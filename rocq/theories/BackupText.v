(** A program of a user that copies a file in blocks, written with the model of files.
    No code of /repo: it is what a user of the class file writes. *)
From Coq Require Import NArith ZArith List Bool.
From Verif Require Import Base Integers ResourceSpec ResourceModel FileModel.
Import ListNotations.
Open Scope Z_scope.

(** Blocks of n bytes are read from f and written to g, until a read gives nothing or
    a write is not complete.  The program says whether everything was copied: every
    write was complete, and f was at its end when nothing more came.  w is the state of
    the operating system. *)
Fixpoint copy_blocks (pl : platform) (fuel : nat) (n : nat) (w : world) (f g : file)
  : outcome (world * file * file * bool) :=
  match fuel with
  | O => Diverge
  | S fuel =>
      bind (file_read pl (in_world w f) (repeat 0%N n) (Z.of_nat n)) (fun '(f, a) =>
      match a with
      | Threw e => Throw e
      | Returned (block, k) =>
          let w := os (inner (res f)) in
          if k =? 0
          then bind (file_is_at_end pl f) (fun b => Ok (w, f, g, b))
          else
            bind (file_write pl (in_world w g) (firstn (Z.to_nat k) block)) (fun '(g, a) =>
            match a with
            | Threw e => Throw e
            | Returned k2 =>
                let w := os (inner (res g)) in
                if k2 =? k then copy_blocks pl fuel n w f g else Ok (w, f, g, false)
            end)
      end)
  end.

(** The whole program: open the file from, open or create the file to, copy, close
    both.  The buffers have cap1 and cap2 bytes.  (An object with no open file has nothing to
    close.) *)
Definition copy_file (pl : platform) (fuel : nat) (w : world) (from to : N) (n cap1 cap2 : nat) : outcome (world * bool) :=
  bind (new_file pl w from ReadOnly Fail cap1) (fun f =>
  if is_open f then
    bind (new_file pl (os (inner (res f))) to WriteOnly Create cap2) (fun g =>
    if is_open g then
      bind (copy_blocks pl fuel n (os (inner (res g))) f g) (fun '(w, f, g, b) =>
      bind (file_close pl (in_world w g)) (fun g =>
      bind (file_close pl (in_world (os (inner (res g))) f)) (fun f => Ok (os (inner (res f)), b))))
    else
      bind (file_close pl (in_world (os (inner (res g))) f)) (fun f => Ok (os (inner (res f)), false)))
  else Ok (os (inner (res f)), false)).

(** What is on the disk afterwards at two names, and what the program said. *)
Definition outcome_of (r : outcome (world * bool)) (q1 q2 : N) : outcome (option (list N) * option (list N) * bool) :=
  bind r (fun '(w, b) => Ok (disk w q1, disk w q2, b)).
