(** Running the calls of ResourceSpec on the model of files. *)
From Coq Require Import NArith ZArith List Bool.
From Verif Require Import Base Integers ResourceSpec ResourceModel ResourceText FileSpec FileModel.
Import ListNotations.
Open Scope Z_scope.

(** An answer, or the exception thrown instead. *)
Definition answered {A : Type} (f : A -> answer) (r : reply A) : reply answer :=
  match r with Returned a => Returned (f a) | Threw e => Threw e end.

(** One call on a file. *)
Definition call_file (pl : platform) (f : file) (c : call) : outcome (file * reply answer) :=
  match c with
  | Read block n =>
      bind (file_read pl f block n) (fun '(f, r) => Ok (f, answered (fun '(b, k) => Got b k) r))
  | Write data => bind (file_write pl f data) (fun '(f, r) => Ok (f, answered Wrote r))
  | Flush => bind (file_flush pl f) (fun f => Ok (f, Returned Done))
  | SetPosition n o => bind (file_seek pl f n (reference o)) (fun f => Ok (f, Returned Done))
  | GoBack n => Ok (file_go pl f (- n), Returned Done)
  | GoForward n => Ok (file_go pl f n, Returned Done)
  end.

Fixpoint run_file (pl : platform) (f : file) (cs : list call) : outcome (file * list (reply answer)) :=
  match cs with
  | [] => Ok (f, [])
  | c :: cs =>
      bind (call_file pl f c) (fun '(f, a) =>
      bind (run_file pl f cs) (fun '(f, l) => Ok (f, a :: l)))
  end.

(** The contents of the disk. *)
Definition disk_of (f : file) : N -> option (list N) := disk (os (inner (res f))).

(** The operating system always does all it is asked to do. *)
Definition obliging (w : world) : Prop := Forall (fun r => r = InFull) (script w).

(** The operating system may transfer fewer bytes than asked for, or fail:
    - on Windows at any call;
    - on Unix-like systems it may only fail. *)
Definition no_short_read_on_unix (pl : platform) (w : world) : Prop :=
  pl = Windows \/ Forall (fun r => r = InFull \/ r = Refuse) (script w).

(** The operating system may transfer fewer bytes than asked for, but does not fail. *)
Definition no_failure (w : world) : Prop := Forall (fun r => r <> Refuse) (script w).

(** Calls possible in an access mode. *)
Definition permits (m : access_mode) (c : call) : bool :=
  match c with
  | Read _ _ => mode_reads m
  | Write _ => mode_writes m
  | _ => true
  end.

(** What reads of ds are answered: each d at the start of its block. *)
Definition got_each (ds : list (list N)) (rs : list (list N * Z)) : list answer :=
  map (fun '(d, (b, _)) => Got (d ++ drop (len d) b) (len d)) (combine ds rs).

(** Reads of sizes the file allows. *)
Definition readable_sizes (pl : platform) (cap : nat) (rs : list (list N * Z)) : Prop :=
  Forall (fun '(b, n) => 0 <= n <= len b /\ n <= chunk_max pl /\ (cap = O \/ n <= Z.of_nat cap)) rs.

(** Calls on two file objects of a program, in any order (true: on the first).
    w is the state of the operating system. *)
Fixpoint run_two (pl : platform) (w : world) (f g : file) (cs : list (bool * call))
  : outcome (world * file * file * list (reply answer) * list (reply answer)) :=
  match cs with
  | [] => Ok (w, f, g, [], [])
  | (true, c) :: cs =>
      bind (call_file pl (in_world w f) c) (fun '(f, a) =>
      bind (run_two pl (os (inner (res f))) f g cs) (fun '(w, f, g, la, lb) => Ok (w, f, g, a :: la, lb)))
  | (false, c) :: cs =>
      bind (call_file pl (in_world w g) c) (fun '(g, a) =>
      bind (run_two pl (os (inner (res g))) f g cs) (fun '(w, f, g, la, lb) => Ok (w, f, g, la, a :: lb)))
  end.

(** The calls on the first, and those on the second. *)
Definition calls_of (first : bool) (cs : list (bool * call)) : list call :=
  map snd (filter (fun x => Bool.eqb (fst x) first) cs).
