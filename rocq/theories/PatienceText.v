(** A program of a user that copies a file and tries again whatever failed, written with
    the model of files.  No code of /repo: it is what a user of the class file writes. *)
From Coq Require Import NArith ZArith List Bool.
From Verif Require Import Base Integers ResourceSpec ResourceModel FileModel.
Import ListNotations.
Open Scope Z_scope.

(** New objects are made until one has an open file. *)
Fixpoint open_until (pl : platform) (fuel : nat) (w : world) (q : N) (m : access_mode) (how : if_not_there) (cap : nat)
  : outcome file :=
  match fuel with
  | O => Diverge
  | S fuel =>
      bind (new_file pl w q m how cap) (fun f =>
      if is_open f then Ok f
      else bind (destroy pl f) (fun w => open_until pl fuel w q m how cap))
  end.

(** What a write did not take is written again. *)
Fixpoint write_until (pl : platform) (fuel : nat) (w : world) (g : file) (data : list N) : outcome (world * file) :=
  match fuel with
  | O => Diverge
  | S fuel =>
      bind (file_write pl (in_world w g) data) (fun '(g, a) =>
      match a with
      | Threw e => Throw e
      | Returned k =>
          let w := os (inner (res g)) in
          if k =? size_of data then Ok (w, g) else write_until pl fuel w g (skipn (Z.to_nat k) data)
      end)
  end.

(** Blocks of n bytes are read from f and written to g until f is at its end. *)
Fixpoint copy_until (pl : platform) (fuel : nat) (n : nat) (w : world) (f g : file) : outcome (world * file * file) :=
  match fuel with
  | O => Diverge
  | S fuel =>
      bind (file_read pl (in_world w f) (repeat 0%N n) (Z.of_nat n)) (fun '(f, a) =>
      match a with
      | Threw e => Throw e
      | Returned (block, k) =>
          let w := os (inner (res f)) in
          if k =? 0
          then bind (file_is_at_end pl f) (fun b => if b then Ok (w, f, g) else copy_until pl fuel n w f g)
          else bind (write_until pl fuel w g (firstn (Z.to_nat k) block)) (fun '(w, g) => copy_until pl fuel n w f g)
      end)
  end.

(** The whole program.  The buffers have cap1 and cap2 bytes. *)
Definition patient_copy (pl : platform) (fuel : nat) (w : world) (from to : N) (n cap1 cap2 : nat) : outcome world :=
  bind (open_until pl fuel w from ReadOnly Fail cap1) (fun f =>
  bind (open_until pl fuel (os (inner (res f))) to WriteOnly Create cap2) (fun g =>
  bind (copy_until pl fuel n (os (inner (res g))) f g) (fun '(w, f, g) =>
  bind (file_close pl (in_world w g)) (fun g =>
  bind (file_close pl (in_world (os (inner (res g))) f)) (fun f => Ok (os (inner (res f)))))))).
