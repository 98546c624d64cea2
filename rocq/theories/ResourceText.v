(** Running the calls of ResourceSpec on the model. *)
From Coq Require Import NArith ZArith List Bool.
From Verif Require Import Base Integers ResourceSpec ResourceModel.
Import ListNotations.
Open Scope Z_scope.

Definition reference (o : origin) : position_reference :=
  match o with Begin => FromBegin | Current => FromCurrent | End => FromEnd end.

(** One call on a read/write container resource. *)
Definition call_io (r : resource container) (c : call) : outcome (resource container * answer) :=
  match c with
  | Read block n => bind (read container_ops r block n) (fun '(r, b, k) => Ok (r, Got b k))
  | Write data => bind (write container_ops r data) (fun '(r, k) => Ok (r, Wrote k))
  | Flush => bind (flush container_ops r) (fun r => Ok (r, Done))
  | SetPosition n o => bind (seek_io r n (reference o)) (fun r => Ok (r, Done))
  | GoBack n => Ok (Resource (go_back (inner r) n) (buf r), Done)
  | GoForward n => Ok (Resource (go_forward (inner r) n) (buf r), Done)
  end.

(** One call on an input resource (no writes and flushes there) and on an output
    resource (no reads there): only set_position differs. *)
Definition call_input (r : resource container) (c : call) : outcome (resource container * answer) :=
  match c with
  | SetPosition n o => Ok (seek_input r n (reference o), Done)
  | c => call_io r c
  end.

Definition call_output (r : resource container) (c : call) : outcome (resource container * answer) :=
  match c with
  | SetPosition n o => bind (seek_output r n (reference o)) (fun r => Ok (r, Done))
  | c => call_io r c
  end.

Definition for_input (c : call) : bool := match c with Write _ | Flush => false | _ => true end.
Definition for_output (c : call) : bool := match c with Read _ _ => false | _ => true end.

Fixpoint run (step : resource container -> call -> outcome (resource container * answer))
    (r : resource container) (cs : list call) : outcome (resource container * list answer) :=
  match cs with
  | [] => Ok (r, [])
  | c :: cs =>
      bind (step r c) (fun '(r, a) =>
      bind (run step r cs) (fun '(r, l) => Ok (r, a :: l)))
  end.

(** The bytes a caller gets from the answers to reads. *)
Definition received (l : list answer) : list (list N) :=
  flat_map (fun a => match a with Got b k => [take k b] | _ => [] end) l.

(** Two container resources, the output resource tied to the input resource.  Gives
    the content of the output's container and the answer at every read. *)
Fixpoint run_tied (r out : resource container) (cs : list tied_call)
  : outcome (list (list N) * list answer) :=
  match cs with
  | [] => Ok ([], [])
  | WriteOut d :: cs =>
      bind (write container_ops out d) (fun '(out, _) => run_tied r out cs)
  | ReadIn block n :: cs =>
      bind (read_tied container_ops container_ops r out block n) (fun '(r, out, b, k) =>
      bind (run_tied r out cs) (fun '(outs, answers) =>
      Ok (content (inner out) :: outs, Got b k :: answers)))
  end.
