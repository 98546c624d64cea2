(** Values whose bytes are in the wrong order (C170).  Independent of the model. *)
From Coq Require Import NArith List.
From Verif Require Import StreamSpec PassSpec.
Import ListNotations.
Open Scope N_scope.

(** The value with these bytes, the least significant first. *)
Fixpoint value_of (l : list N) : N := match l with [] => 0 | b :: l => b + 256 * value_of l end.

(** The value of w bytes that has the bytes of v in the opposite order. *)
Definition mirror (w : nat) (v : N) : N := value_of (rev (little w v)).

(** The same for values one after the other, the first of them being the i-th, of [size i]
    bytes, and for the values that are put. *)
Fixpoint mirrored (size : nat -> nat) (i : nat) (l : list N) : list N :=
  match l with [] => [] | v :: l => mirror (size i) v :: mirrored size (S i) l end.
Fixpoint mirrored_acts (size : nat -> nat) (i : nat) (acts : list act) : list act :=
  match acts with
  | [] => []
  | Puts v :: acts => Puts (mirror (size i) v) :: mirrored_acts size (S i) acts
  | a :: acts => a :: mirrored_acts size i acts
  end.
