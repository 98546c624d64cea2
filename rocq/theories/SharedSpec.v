(** What a user expects of resources on a container that is also used elsewhere.
    Independent of the model. *)
From Coq Require Import NArith ZArith List Bool.
From Verif Require Import ResourceSpec.
Import ListNotations.
Open Scope Z_scope.

(* ------------------------------------------------- a container and its owner *)

(** The owner gives the container another content; an input resource on it reads n
    bytes to the start of a block, or its position is set. *)
Inductive owner_call : Type :=
| Change (l : list N)
| Fetch (block : list N) (n : Z)
| Seek (n : Z) (o : origin).

(** The bytes every Fetch should get: those of the container at that time. *)
Fixpoint fetched (width : Z) (s : store) (cs : list owner_call) : list (list N) :=
  match cs with
  | [] => []
  | Change l :: cs => fetched width (Store l (at_ s)) cs
  | Fetch _ n :: cs =>
      let d := next_bytes s n in d :: fetched width (Store (bytes s) (at_ s + len d)) cs
  | Seek n o :: cs => fetched width (Store (bytes s) (target width s n o)) cs
  end.

(** Positions set are in the container; blocks are large enough; sizes are
    representable. *)
Fixpoint within (width : Z) (s : store) (cs : list owner_call) : Prop :=
  match cs with
  | [] => True
  | Change l :: cs =>
      (width | len l) /\ len l * (width + 1) < 2 ^ 63 /\ within width (Store l (at_ s)) cs
  | Fetch block n :: cs =>
      0 <= n <= len block /\ within width (Store (bytes s) (at_ s + len (next_bytes s n))) cs
  | Seek n o :: cs =>
      0 <= target width s n o <= len (bytes s) /\ within width (Store (bytes s) (target width s n o)) cs
  end.

(** The container never becomes shorter than the position in it. *)
Fixpoint never_shorter (width : Z) (s : store) (cs : list owner_call) : Prop :=
  match cs with
  | [] => True
  | Change l :: cs => at_ s <= len l /\ never_shorter width (Store l (at_ s)) cs
  | Fetch _ n :: cs => never_shorter width (Store (bytes s) (at_ s + len (next_bytes s n))) cs
  | Seek n o :: cs => never_shorter width (Store (bytes s) (target width s n o)) cs
  end.

(** After every change the position is set from the beginning or the end before the
    next read; no read asks for more than [cap] bytes. *)
Fixpoint repositioned (cap : Z) (changed : bool) (cs : list owner_call) : Prop :=
  match cs with
  | [] => True
  | Change _ :: cs => repositioned cap true cs
  | Fetch _ n :: cs => changed = false /\ n <= cap /\ repositioned cap false cs
  | Seek _ o :: cs => o <> Current /\ repositioned cap false cs
  end.

(* ---------------------------------------------------------------------- pipe *)

(** A writer that appends to a container and a reader of the same container. *)
Inductive pipe_call : Type :=
| Put (data : list N)                  (* the writer writes *)
| Deliver                              (* the writer flushes *)
| Get (block : list N) (n : Z).        (* the reader reads n bytes *)

(** [pipe cs written sure got answers]: with the bytes [written] so far, of which
    the first [sure] have been delivered and the first [got] have been read, the
    calls cs may have the given results of Get.  A Get gives the next bytes of those
    that have been delivered by then: at least the sure ones, at most all. *)
Inductive pipe : list pipe_call -> list N -> Z -> Z -> list (list N) -> Prop :=
| PipeEnd : forall written sure got, pipe [] written sure got []
| PipePut : forall data cs written sure got answers,
    pipe cs (written ++ data) sure got answers ->
    pipe (Put data :: cs) written sure got answers
| PipeDeliver : forall cs written sure got answers,
    pipe cs written (len written) got answers ->
    pipe (Deliver :: cs) written sure got answers
| PipeGet : forall block n cs written sure got delivered answers,
    sure <= delivered <= len written ->
    let d := take n (drop got (take delivered written)) in
    pipe cs written delivered (got + len d) answers ->
    pipe (Get block n :: cs) written sure got (d :: answers).

(** With the writer tied to the reader: everything written is there. *)
Fixpoint queue (waiting : list N) (cs : list pipe_call) : list (list N) :=
  match cs with
  | [] => []
  | Put data :: cs => queue (waiting ++ data) cs
  | Deliver :: cs => queue waiting cs
  | Get _ n :: cs => take n waiting :: queue (drop n waiting) cs
  end.

(** All that is written. *)
Definition all_put (cs : list pipe_call) : list N :=
  flat_map (fun c => match c with Put d => d | _ => [] end) cs.

(** Whole elements are written, and blocks are large enough. *)
Definition proper (width : Z) (c : pipe_call) : Prop :=
  match c with
  | Put d => (width | len d)
  | Deliver => True
  | Get block n => 0 <= n <= len block
  end.

(** Requests that fit in a buffer of [cap] bytes. *)
Definition at_most (cap : Z) (c : pipe_call) : Prop :=
  match c with Get _ n => n <= cap | _ => True end.
