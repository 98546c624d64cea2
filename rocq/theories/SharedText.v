(** Running the calls of SharedSpec on the model. *)
From Coq Require Import NArith ZArith List Bool.
From Verif Require Import Base Integers ResourceSpec SharedSpec ResourceModel ResourceText SharedModel.
Import ListNotations.
Open Scope Z_scope.

(** An input resource on a container with content l, and changes of the content by
    its owner: the resource afterwards, and the bytes every Fetch got. *)
Fixpoint run_owner (r : resource container) (l : list N) (cs : list owner_call)
  : outcome (resource container * list (list N)) :=
  match cs with
  | [] => Ok (r, [])
  | Change l' :: cs => run_owner r l' cs
  | Fetch block n :: cs =>
      bind (read container_ops (look_at r l) block n) (fun '(r, b, k) =>
      bind (run_owner r l cs) (fun '(r, answers) => Ok (r, take k b :: answers)))
  | Seek n o :: cs => run_owner (seek_input (look_at r l) n (reference o)) l cs
  end.

(** A pipe. *)
Fixpoint run_pipe (get : shared -> list N -> Z -> outcome (shared * list N * Z))
    (s : shared) (cs : list pipe_call) : outcome (shared * list (list N)) :=
  match cs with
  | [] => Ok (s, [])
  | Put d :: cs => bind (shared_write s d) (fun '(s, _) => run_pipe get s cs)
  | Deliver :: cs => bind (shared_flush s) (fun s => run_pipe get s cs)
  | Get block n :: cs =>
      bind (get s block n) (fun '(s, b, k) =>
      bind (run_pipe get s cs) (fun '(s, answers) => Ok (s, take k b :: answers)))
  end.

(** The writer goes to the end of the container first. *)
Definition run_pipe_from (get : shared -> list N -> Z -> outcome (shared * list N * Z))
    (s : shared) (cs : list pipe_call) : outcome (shared * list (list N)) :=
  bind (shared_seek s 0 FromEnd) (fun s => run_pipe get s cs).

(** Writes of the given data one after another. *)
Fixpoint put_all (s : shared) (ds : list (list N)) : outcome shared :=
  match ds with
  | [] => Ok s
  | d :: ds => bind (shared_write s d) (fun '(s, _) => put_all s ds)
  end.

(** In every round data is written and flushed, then the owner takes the content of
    the container and leaves it empty; [rewind] tells whether the position is then
    set to the beginning.  Gives what the owner took. *)
Fixpoint rounds (rewind : bool) (s : shared) (rs : list (list (list N))) : outcome (list (list N)) :=
  match rs with
  | [] => Ok []
  | ds :: rs =>
      bind (put_all s ds) (fun s =>
      bind (shared_flush s) (fun s =>
      let taken := owned s in
      let s := Shared [] (writer s) (reader s) in
      bind (if rewind then shared_seek s 0 FromBegin else Ok s) (fun s =>
      bind (rounds rewind s rs) (fun l => Ok (taken :: l)))))
  end.
