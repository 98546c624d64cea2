(** Independent specification of input and output through devices that fail.
    Imports nothing of the model. *)
From Coq Require Import NArith ZArith List Bool.
Import ListNotations.

(** Calls of an output resource, and how they ended. *)
Inductive call : Type := Write (data : list N) | Flush.
Inductive ending : Type := Returns | Raises.

(** The bytes a program may rely on: those of the writes that returned. *)
Fixpoint accepted (l : list (call * ending)) : list N :=
  match l with
  | [] => []
  | (Write d, Returns) :: l => d ++ accepted l
  | _ :: l => accepted l
  end.

(** Reads, and how they ended: with bytes, or with an exception. *)
Inductive answer : Type := Got (bytes : list N) | Failed.

(** The reads of n1, n2, ... bytes of a device and their answers: a read that returns gives
    the next n bytes, or those that are left; a failing read gives none and loses some, less
    than it should have given and not more than [cap]. *)
Inductive accounts (cap : Z) : list N -> list Z -> list answer -> Prop :=
| no_reads : forall content, accounts cap content [] []
| read_got : forall content n ns a, accounts cap (skipn (Z.to_nat n) content) ns a ->
    accounts cap content (n :: ns) (Got (firstn (Z.to_nat n) content) :: a)
| read_failed : forall lost rest n ns a, (Z.of_nat (length lost) <= cap)%Z ->
    lost = [] \/ (Z.of_nat (length lost) < n)%Z ->
    accounts cap rest ns a -> accounts cap (lost ++ rest) (n :: ns) (Failed :: a).

(** The bytes given. *)
Fixpoint given (l : list answer) : list N :=
  match l with
  | [] => []
  | Got b :: l => b ++ given l
  | Failed :: l => given l
  end.
