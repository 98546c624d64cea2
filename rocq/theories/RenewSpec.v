(** What a file holds when programs have saved something in it, one after the other.
    Independent of the model. *)
From Coq Require Import NArith ZArith List Bool.
From Verif Require Import ResourceSpec FileSpec CrashSpec DiarySpec.
Import ListNotations.
Open Scope Z_scope.

(** [new] lies over the first bytes of [old]: what is longer stays. *)
Definition over (old new : list N) : list N := new ++ drop (len new) old.

(** One after the other. *)
Definition all_over (old : list N) (news : list (list N)) : list N := fold_left over news old.
