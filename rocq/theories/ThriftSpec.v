(** What a user expects a buffer to be good for: fewer calls of the operating system.
    Independent of the model. *)
From Coq Require Import NArith ZArith List Bool.
From Verif Require Import ResourceSpec.
Import ListNotations.
Open Scope Z_scope.

(** Writes that have something to write. *)
Definition writes_of (cs : list call) : Z :=
  Z.of_nat (length (filter (fun c => match c with Write (_ :: _) => true | _ => false end) cs)).

(** All that is written. *)
Definition amount (cs : list call) : Z :=
  len (flat_map (fun c => match c with Write d => d | _ => [] end) cs).

Definition flushes_of (cs : list call) : Z :=
  Z.of_nat (length (filter (fun c => match c with Flush => true | _ => false end) cs)).

(** The use of a file for output. *)
Definition output_only (c : call) : Prop :=
  match c with Write _ | Flush => True | _ => False end.

(** Reads, given as blocks and sizes, that get fewer bytes than asked for, when [left]
    bytes are left in the file. *)
Fixpoint short_reads (left : Z) (rs : list (list N * Z)) : Z :=
  match rs with
  | [] => 0
  | (_, n) :: rs => (if left <? n then 1 else 0) + short_reads (left - Z.min left n) rs
  end.

(** All that is asked for. *)
Definition asked (rs : list (list N * Z)) : Z := fold_right (fun r a => snd r + a) 0 rs.
