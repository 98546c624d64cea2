(** C120: resource objects that are tied, copied and moved about. *)
From Coq Require Import NArith ZArith List Bool Lia ZifyBool ZifyNat ZifyN.
From Verif Require Import Base ResourceModel ResourceSpec TieSpec TieModel TieText TieLemmas.
Import ListNotations.
Open Scope Z_scope.

(** The property: "a program may copy and move inputs and move outputs about: reads go
    on where they were, every read of an input that is tied delivers all that was
    written to the output, and ties are kept."

    Proved for every sequence of deeds, on any number of outputs, inputs and
    containers: everything the program sees is as expected, provided it only uses
    objects that are there and not moved from, no read of a tied input happens while
    the output it was tied to is gone or moved from, no read is longer than the
    input's buffer (C33), and move assignment is used only where the compiler assigns
    the common base once.  Missing: the last two conditions and that ties follow their
    output; see the refutations. *)
Theorem C120_objects_partial : forall twice ds,
  all_sensible (twice = false) nothing_yet ds ->
  live twice empty_world ds = Ok (expectations nothing_yet ds).
Proof. intros twice ds H. apply live_ok; [apply empty_ok|exact H]. Qed.
Print Assumptions C120_objects_partial.

(** Closes the condition of a read in the examples. *)
Local Ltac sight :=
  eexists _, _, _; split; [reflexivity|]; split; [split; discriminate|]; split; [right; discriminate|first [exact I|discriminate]].

Definition a_block : list N := repeat 0%N 4.

Definition busy_program : list deed :=
  [NewOut 1 1 4; Put 1 [7; 8]%N; NewIn 1 [1; 2; 3; 4]%N 4; Tie 1 1; CopyIn 1 2; Get 1 a_block 1; MoveIn 2 3;
   Put 1 [9]%N; Get 3 a_block 2; MoveOut 1 2; Put 2 [10]%N; Tie 3 2; Get 3 a_block 4; Put 2 [11]%N; Flush 2].

Example C120_objects_example :
  all_sensible (true = false) nothing_yet busy_program /\
  live true empty_world busy_program
  = Ok [Reads [1]%N (Some [7; 8]%N); Reads [1; 2]%N (Some [7; 8; 9]%N);
        Reads [3; 4]%N (Some [7; 8; 9; 10]%N); Holds [7; 8; 9; 10; 11]%N].
Proof.
  split; [|vm_compute; reflexivity]. unfold busy_program. cbn [all_sensible].
  split; [intros x _; discriminate|]. split; [exists 1%N; now split|]. split; [reflexivity|].
  split; [discriminate|]. split; [discriminate|]. split; [sight|]. split; [split; discriminate|].
  split; [exists 1%N; now split|]. split; [sight|]. split; [split; discriminate|]. split; [exists 1%N; now split|].
  split; [discriminate|]. split; [sight|]. split; [exists 1%N; now split|]. split; [discriminate|exact I].
Qed.

(** Where move assignments are of the good kind they may be used as well. *)
Definition assigning_program : list deed :=
  [NewOut 1 1 4; Put 1 [7; 8]%N; NewOut 2 2 4; AssignOut 1 2; Flush 2;
   NewIn 1 [1; 2; 3]%N 2; Get 1 a_block 1; NewIn 2 [] 0; AssignIn 1 2; Get 2 a_block 2].

Example C120_assign_example :
  all_sensible (false = false) nothing_yet assigning_program /\
  live false empty_world assigning_program = Ok [Holds [7; 8]%N; Reads [1]%N None; Reads [2; 3]%N None].
Proof.
  split; [|vm_compute; reflexivity]. unfold assigning_program. cbn [all_sensible].
  split; [intros x _; discriminate|]. split; [exists 1%N; now split|].
  split.
  { intros x X. cbn [sensible next writes_to nothing_yet]. cbn. unfold at_name. destruct (N.eqb x 1); discriminate. }
  split; [split; [reflexivity|split; discriminate]|]. split; [discriminate|]. split; [reflexivity|].
  split; [sight|]. split; [reflexivity|]. split; [split; [reflexivity|split; discriminate]|].
  split; [sight|exact I].
Qed.

(** The output an input was tied to is gone: the next read is undefined behaviour,
    in every state and for every read. *)
Theorem C120_destroyed_refuted :
  (forall twice w i o r block n, sources w i = Some (Some o, r) -> outputs w o = None ->
     do_deed twice w (Get i block n) = UB DanglingPointer) /\
  live false empty_world [NewOut 1 1 4; NewIn 1 [1; 2]%N 4; Tie 1 1; DestroyOut 1; Get 1 a_block 1]
  = UB DanglingPointer.
Proof.
  split; [|vm_compute; reflexivity]. intros twice w i o r block n I O. cbn [do_deed]. unfold read_at, flush_at.
  now rewrite I, O.
Qed.
Print Assumptions C120_destroyed_refuted.

(** The output was moved while it held bytes: the read flushes the object moved from,
    whose buffer is empty but still says how much is waiting. *)
Theorem C120_moved_refuted :
  live false empty_world
    [NewOut 1 1 4; Put 1 [7; 8]%N; NewIn 1 [1; 2]%N 4; Tie 1 1; MoveOut 1 2; Get 1 a_block 1]
  = UB OutOfBoundsRead.
Proof. vm_compute. reflexivity. Qed.
Print Assumptions C120_moved_refuted.

(** The output was moved while it held nothing: what is written to the new object is
    not delivered by reads, the tie stays at the old one. *)
Theorem C120_tie_stays_refuted :
  live false empty_world
    [NewOut 1 1 4; NewIn 1 [1; 2]%N 4; Tie 1 1; MoveOut 1 2; Put 2 [7; 8]%N; Get 1 a_block 1; Flush 2]
  = Ok [Reads [1]%N (Some []); Holds [7; 8]%N].
Proof. vm_compute. reflexivity. Qed.
Print Assumptions C120_tie_stays_refuted.

(** Move assignment where the compiler assigns the common base twice: an output loses
    the bytes it held (flushing it is undefined behaviour), an input goes back to
    bytes it has read already. *)
Theorem C120_assign_refuted :
  live true empty_world [NewOut 1 1 4; Put 1 [7; 8]%N; NewOut 2 2 4; AssignOut 1 2; Flush 2] = UB OutOfBoundsRead /\
  live true empty_world [NewIn 1 [1; 2; 3; 4]%N 4; Get 1 a_block 1; NewIn 2 [] 4; AssignIn 1 2; Get 2 a_block 2]
  = Ok [Reads [1]%N None; Reads [1; 2]%N None] /\
  expectations nothing_yet [NewIn 1 [1; 2; 3; 4]%N 4; Get 1 a_block 1; NewIn 2 [] 4; AssignIn 1 2; Get 2 a_block 2]
  = [Reads [1]%N None; Reads [2; 3]%N None].
Proof. repeat split; vm_compute; reflexivity. Qed.
Print Assumptions C120_assign_refuted.
