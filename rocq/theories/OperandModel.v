(** starts_with and ends_with when the right operand of == is evaluated first: C++ leaves the order
    open.  UnicodeModel.v evaluates the left one first. *)
From Coq Require Import NArith ZArith List Bool.
From Verif Require Import Base UnicodeModel.
Import ListNotations.
Open Scope N_scope.

(** algorithms.ipp 14-34 *)
Fixpoint starts_with_from_right (fuel : nat) (k1 : ukind) (s : list N) (k2 : ukind)
  (t : list N) (i j : nat) : outcome bool :=
  match fuel with
  | O => Diverge
  | S fuel' =>
    if Nat.eqb j (length t) then Ok true
    else if Nat.eqb i (length s) then Ok false
    else bind (post_inc k2 t j) (fun '(b, j') =>
         bind (post_inc k1 s i) (fun '(a, i') =>
           if a =? b then starts_with_from_right fuel' k1 s k2 t i' j'
           else Ok false))
  end.
(** algorithms.ipp 10-34 *)
Definition starts_with_right (k1 : ukind) (s : list N) (k2 : ukind) (t : list N) : outcome bool :=
  noexcept (starts_with_from_right (S (length s)) k1 s k2 t 0 0).

(** algorithms.ipp 40-60 *)
Fixpoint ends_with_from_right (fuel : nat) (k1 : ukind) (s : list N) (k2 : ukind)
  (t : list N) (i j : nat) : outcome bool :=
  match fuel with
  | O => Diverge
  | S fuel' =>
    if Nat.eqb j 0 then Ok true
    else if Nat.eqb i 0 then Ok false
    else bind (rpost_inc k2 t j) (fun '(b, j') =>
         bind (rpost_inc k1 s i) (fun '(a, i') =>
           if a =? b then ends_with_from_right fuel' k1 s k2 t i' j'
           else Ok false))
  end.
(** algorithms.ipp 36-60 *)
Definition ends_with_right (k1 : ukind) (s : list N) (k2 : ukind) (t : list N) : outcome bool :=
  noexcept (ends_with_from_right (S (length s)) k1 s k2 t (length s) (length t)).
