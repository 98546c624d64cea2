(** What a user expects of two file objects on one file: one follows what the other
    writes; or they take turns.  Independent of the model.  The histories of a writer
    and a reader, and what the reader may get, are those of a pipe: [pipe_call] and
    [pipe] of SharedSpec.v. *)
From Coq Require Import NArith ZArith List Bool.
From Verif Require Import ResourceSpec FileSpec SharedSpec.
Import ListNotations.
Open Scope Z_scope.

(** The blocks and sizes of the reads. *)
Definition gets (cs : list pipe_call) : list (list N * Z) :=
  flat_map (fun c => match c with Get block n => [(block, n)] | _ => [] end) cs.

(** What the writer is answered: everything is written. *)
Definition put_answers (cs : list pipe_call) : list answer :=
  flat_map (fun c => match c with Put d => [Wrote (len d)] | Deliver => [Done] | Get _ _ => [] end) cs.

(** What is written fits in one transfer of at most [most] bytes; blocks are large
    enough; a request is no longer than such a transfer, and no longer than the
    reader's buffer of [cap] bytes if there is one. *)
Definition moderate (most cap : Z) (c : pipe_call) : Prop :=
  match c with
  | Put d => len d <= most
  | Deliver => True
  | Get block n => 0 <= n <= len block /\ n <= most /\ (cap = 0 \/ n <= cap)
  end.

(** A turn of one of two objects (true: the first): its position is set, from the
    beginning or from the end, it is used, and it is flushed. *)
Record turn : Type := Turn { whose : bool; place : Z; from : origin; uses : list call }.

Definition turn_calls (t : turn) : list call := SetPosition (place t) (from t) :: uses t ++ [Flush].

(** The calls of all turns, each with the object it is made on. *)
Definition of_turns (ts : list turn) : list (bool * call) :=
  flat_map (fun t => map (fun c => (whose t, c)) (turn_calls t)) ts.

(** The answers to the calls on one of the objects, of the answers to all. *)
Definition answers_of (first : bool) (cs : list (bool * call)) (answers : list answer) : list answer :=
  map snd (filter (fun x => Bool.eqb (fst (fst x)) first) (combine cs answers)).

(** Every turn uses the file in a way that is allowed by FileSpec.v, with the bytes
    the file has at that time. *)
Fixpoint turns_allowed (most cap1 cap2 : Z) (s : store) (ts : list turn) : Prop :=
  match ts with
  | [] => True
  | t :: ts =>
      from t <> Current /\
      all_file_allowed most (if whose t then cap1 else cap2) s Resting (turn_calls t) /\
      turns_allowed most cap1 cap2 (fst (file_calls s (turn_calls t))) ts
  end.

(** A turn in which data is appended. *)
Definition appending (t : bool * list (list N)) : turn := Turn (fst t) 0 End (map Write (snd t)).
