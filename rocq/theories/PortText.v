(** Histories of one file object, for comparing the two implementations of files. *)
From Coq Require Import NArith ZArith List Bool.
From Verif Require Import Base Integers ResourceSpec ResourceModel ResourceText FileSpec FileModel FileText.
Import ListNotations.
Open Scope Z_scope.

(** Everything a program can do with a file object between its construction and its
    destruction. *)
Inductive deed : Type :=
| Call (c : call)
| AskPosition
| AskEnd
| AskOpen
| Open (p : N) (m : access_mode) (how : if_not_there)
| Close.

(** What the program learns. *)
Inductive lesson : Type :=
| Replied (r : reply answer)
| Position (p : Z)
| Bool (b : bool)
| Nothing.

Definition act (pl : platform) (f : file) (x : deed) : outcome (file * lesson) :=
  match x with
  | Call c => bind (call_file pl f c) (fun '(f, r) => Ok (f, Replied r))
  | AskPosition => bind (file_position pl f) (fun p => Ok (f, Position p))
  | AskEnd => bind (file_is_at_end pl f) (fun b => Ok (f, Bool b))
  | AskOpen => Ok (f, Bool (is_open f))
  | Open p m how => bind (file_open pl f p m how) (fun '(f, b) => Ok (f, Bool b))
  | Close => bind (file_close pl f) (fun f => Ok (f, Nothing))
  end.

Fixpoint act_all (pl : platform) (f : file) (l : list deed) : outcome (file * list lesson) :=
  match l with
  | [] => Ok (f, [])
  | x :: l =>
      bind (act pl f x) (fun '(f, a) =>
      bind (act_all pl f l) (fun '(f, r) => Ok (f, a :: r)))
  end.

(** The whole life of a file object: the lessons, and the files it leaves behind. *)
Definition life (pl : platform) (w : world) (p : N) (m : access_mode) (how : if_not_there) (cap : nat) (l : list deed)
  : outcome (list lesson * (N -> option (list N))) :=
  bind (new_file pl w p m how cap) (fun f =>
  bind (act_all pl f l) (fun '(f, r) =>
  bind (destroy pl f) (fun w => Ok (r, disk w)))).

(** The operating system reads and writes all it is asked to, or fails. *)
Definition whole_or_none (w : world) : Prop := Forall (fun r => r = InFull \/ r = Refuse) (script w).

(** Less than 4 GiB at a time, and no position before the beginning of the file
    counted from there. *)
Definition portable (x : deed) : Prop :=
  match x with
  | Call (Read _ n) => 0 <= n < 2 ^ 32
  | Call (Write data) => len data < 2 ^ 32
  | Call (SetPosition n Begin) => 0 <= n
  | _ => True
  end.
