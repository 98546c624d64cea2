(** Histories of calls of resources on failing devices, and the link to ResourceModel.v. *)
From Coq Require Import NArith ZArith List Bool.
From Verif Require Import Base Integers ResourceModel FaultSpec FaultModel.
Import ListNotations.
Open Scope Z_scope.

Definition one_call {S : Type} (d : device S) (c : call) (r : resource S) : resource S * result unit :=
  match c with
  | Write data => next (fault_write d r data) (fun r _ => (r, Returned tt))
  | Flush => fault_flush d r
  end.

(** The program catches every exception and goes on.  None: undefined behaviour or the end
    of the program. *)
Fixpoint history {S : Type} (d : device S) (cs : list call) (r : resource S) : option (resource S * list (call * ending)) :=
  match cs with
  | [] => Some (r, [])
  | c :: cs =>
      match one_call d c r with
      | (r, Returned _) => option_map (fun '(r, l) => (r, (c, Returns) :: l)) (history d cs r)
      | (r, Raised) => option_map (fun '(r, l) => (r, (c, Raises) :: l)) (history d cs r)
      | _ => None
      end
  end.

Fixpoint reading {S : Type} (d : device S) (ns : list Z) (r : resource S) : option (resource S * list answer) :=
  match ns with
  | [] => Some (r, [])
  | n :: ns =>
      match fault_read d r n with
      | (r, Returned b) => option_map (fun '(r, l) => (r, Got b :: l)) (reading d ns r)
      | (r, Raised) => option_map (fun '(r, l) => (r, Failed :: l)) (reading d ns r)
      | _ => None
      end
  end.

Definition start {S : Type} (s : S) (capacity : nat) : resource S := Resource s (new_buffer capacity).

(** A resource of ResourceModel.v as a device: it does not fail in the way modelled here. *)
Definition unfailing {S : Type} (ops : raw S) : device S :=
  Device S (fun s n rr => match raw_read ops s (repeat 0%N (Z.to_nat n)) 0 n rr with
                          | Ok (s, m, k) => (s, Returned (firstn (Z.to_nat k) m))
                          | x => (s, plainly (bind x (fun _ => Ok [])))
                          end)
           (fun s data => match raw_write ops s data with
                          | Ok (s, k) => (s, Returned k)
                          | x => (s, plainly (bind x (fun _ => Ok 0)))
                          end).

(** A device that takes all of what is written to it, or throws and has taken nothing (as
    long as it holds fewer than [limit] bytes).  [bytes]: what it holds. *)
Definition all_or_nothing {S : Type} (d : device S) (good : S -> Prop) (bytes : S -> list N) (limit : Z) : Prop :=
  forall s data, good s -> size_of (bytes s) + size_of data < limit ->
  match device_write d s data with
  | (s', Returned _) => good s' /\ bytes s' = bytes s ++ data
  | (s', Raised) => good s' /\ bytes s' = bytes s
  | _ => False
  end.

(** All that a sequence of calls writes. *)
Definition all_data (cs : list call) : list N := flat_map (fun c => match c with Write d => d | Flush => [] end) cs.
