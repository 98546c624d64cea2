(** Model of the operators of by_code_point::const_iterator that UnicodeModel.v leaves
    out. *)
From Coq Require Import NArith ZArith List Bool.
From Verif Require Import Base UnicodeModel.
Import ListNotations.

(** operator ++ (int): by_code_point.cpp 41-48, 323-330, 703-710, 1012-1019, 1293-1300.
    The iterator afterwards, and the copy of it from before, which is returned. *)
Definition post_increment (k : ukind) (s : list N) (i : nat) : nat * outcome nat :=
  let old := i in
  let '(j, r) := advance k s i in (j, bind r (fun _ => Ok old)).

(** operator -- (int), noexcept: 66-75, 348-357, 728-737, 1037-1046, 1318-1327 *)
Definition post_decrement (k : ukind) (s : list N) (i : nat) : nat * outcome nat :=
  let old := i in
  let '(j, r) := retreat k s i in (j, noexcept (bind r (fun _ => Ok old))).

(** operator - (iterator, offset) and operator - (offset, iterator), which are alike and
    noexcept and work on a copy: 117-145, 399-427, 779-807, 1088-1116, 1369-1397.  The
    position of the copy. *)
Definition minus_offset (k : ukind) (s : list N) (offset : Z) (i : nat) : nat * outcome unit :=
  let '(j, r) := retreat_by k s offset i in (j, noexcept r).

(** operator == and operator != : 147-169, 429-451, 809-831, 1118-1140, 1399-1421, for two
    iterators into strings which end at e1 and e2 *)
Definition equal_iterators (i1 e1 i2 e2 : nat) : bool := Nat.eqb i1 i2 && Nat.eqb e1 e2.
Definition different_iterators (i1 e1 i2 e2 : nat) : bool := negb (Nat.eqb i1 i2) || negb (Nat.eqb e1 e2).
