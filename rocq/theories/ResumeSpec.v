(** A copy that has been begun.  Independent of the model. *)
From Coq Require Import NArith ZArith List Bool.
From Verif Require Import ResourceSpec.
Import ListNotations.
Open Scope Z_scope.

(** On the disk d, the file [target] has the first k bytes of [original]; a copy that has not
    been begun may be missing. *)
Definition begun (d : N -> option (list N)) (target : N) (original : list N) (k : Z) : Prop :=
  0 <= k <= len original /\ (d target = Some (take k original) \/ d target = None /\ k = 0).

(** The disks d and d' have the same files but for [target]. *)
Definition same_but (target : N) (d d' : N -> option (list N)) : Prop := forall x, x <> target -> d' x = d x.
