(** C150, C151: copying a file in blocks. *)
From Coq Require Import NArith ZArith List Bool Lia ZifyBool ZifyNat ZifyN.
From Verif Require Import Base Integers ResourceSpec ResourceModel ResourceText FileSpec FileModel FileText.
From Verif Require Import ResourceLemmas FileLemmas3 TextFileText BackupText BackupLemmas2.
Import ListNotations.
Open Scope Z_scope.

(** A disk with the file 7, and perhaps the file 8, and what the system will do. *)
Definition from_and_to (l : list N) (old : option (list N)) (responses : list response) : world :=
  World (fun q => if N.eqb q 7 then Some l else if N.eqb q 8 then old else None) (fun _ => None) 3 responses.

(* ---------------------------------------------------------------------- C150 *)

(** After a file was copied in blocks, the new file has the bytes of the old one.  This
    is false if the file was there already and was longer: nothing cuts it off. *)
Theorem C150_same_refuted : forall pl,
  outcome_of (copy_file pl 10 (from_and_to [1; 2; 3; 4; 5]%N (Some [9; 9; 9; 9; 9; 9; 9; 9]%N) []) 7 8 2 4 3) 7 8
  = Ok (Some [1; 2; 3; 4; 5]%N, Some [1; 2; 3; 4; 5; 9; 9; 9]%N, true).
Proof. intros []; vm_compute; reflexivity. Qed.
Print Assumptions C150_same_refuted.

(** It is also false for blocks that are longer than the buffer of the file that is
    read: bytes come twice (C33, C64). *)
Theorem C150_large_blocks_refuted : forall pl,
  outcome_of (copy_file pl 10 (from_and_to [1; 2; 3; 4; 5; 6; 7; 8; 9]%N None []) 7 8 5 3 0) 7 8
  = Ok (Some [1; 2; 3; 4; 5; 6; 7; 8; 9]%N, Some [1; 2; 3; 4; 5; 6; 4; 5; 6; 7; 8; 9]%N, false).
Proof. intros []; vm_compute; reflexivity. Qed.
Print Assumptions C150_large_blocks_refuted.

(** For every content of the two files, every size of the blocks and all buffers, the
    program ends and says that it copied everything; the new file then starts with the
    bytes of the old one, and has nothing else if it was not longer before; and no other
    file has changed.
    Partial: the system does all it is asked to do; the blocks fit in one transfer and in
    the buffer of the file that is read, if it has one (C150_large_blocks_refuted). *)
Theorem C150_copied_partial : forall pl w from to l old n cap1 cap2 fuel,
  from <> to -> disk w from = Some l -> disk w to = Some old \/ disk w to = None /\ old = [] ->
  len l < 2 ^ 63 -> len old < 2 ^ 63 -> obliging w ->
  (0 < n)%nat -> Z.of_nat n <= chunk_max pl -> cap1 = O \/ (n <= cap1)%nat ->
  Z.of_nat cap1 <= chunk_max pl -> Z.of_nat cap2 <= chunk_max pl -> len l < Z.of_nat fuel ->
  exists w', copy_file pl fuel w from to n cap1 cap2 = Ok (w', true) /\
    disk w' to = Some (l ++ skipn (length l) old) /\
    ((length old <= length l)%nat -> disk w' to = Some l) /\
    (forall x, x <> to -> disk w' x = disk w x).
Proof.
  intros pl w from to l old n cap1 cap2 fuel QR D1 D2 L1 L2 B N0 M C C1 C2 Fu.
  destruct (copy_file_ok pl w from to l old n cap1 cap2 fuel) as (w' & b & E & X1 & X2 & _ & X3); try assumption.
  { destruct D2 as [D2|[D2 ->]]; [now left|right; auto]. }
  { now left. }
  { exact (proj1 (obliging_short pl w B)). }
  rewrite (X2 B) in *. specialize (X1 eq_refl). unfold drop, len in X1. rewrite Nat2Z.id in X1.
  exists w'. split; [exact E|]. split; [exact X1|]. split; [|exact X3].
  intros H. rewrite X1, skipn_all2 by lia. now rewrite app_nil_r.
Qed.
Print Assumptions C150_copied_partial.

Example C150_copied_example : forall pl,
  Z.of_nat 4 <= chunk_max pl /\ obliging (from_and_to [1; 2; 3; 4; 5; 6; 7; 8; 9]%N (Some [0; 0]%N) []) /\
  outcome_of (copy_file pl 10 (from_and_to [1; 2; 3; 4; 5; 6; 7; 8; 9]%N (Some [0; 0]%N) []) 7 8 4 6 3) 7 8
  = Ok (Some [1; 2; 3; 4; 5; 6; 7; 8; 9]%N, Some [1; 2; 3; 4; 5; 6; 7; 8; 9]%N, true).
Proof. intros []; (split; [vm_compute; discriminate|]); (split; [constructor|vm_compute; reflexivity]). Qed.

(* ---------------------------------------------------------------------- C151 *)

(** A program that looks at the result of every write, and that asks for the end of the
    file when nothing more comes, knows whether its copy is complete.  This is false
    if the file written to has a buffer: what is lost when the buffer is emptied,
    nobody is told (C50).  Here nothing at all arrives on the disk. *)
Theorem C151_buffered_refuted : forall pl,
  outcome_of (copy_file pl 10 (from_and_to [1; 2; 3; 4; 5; 6]%N None (repeat InFull 5 ++ [Refuse])) 7 8 3 0 8) 7 8
  = Ok (Some [1; 2; 3; 4; 5; 6]%N, Some [], true).
Proof. intros []; vm_compute; reflexivity. Qed.
Print Assumptions C151_buffered_refuted.

(** It is also false on a Unix-like system that once gives fewer bytes than it was asked
    for, without a failure (C49): the bytes before are overwritten by those after, and
    the program says that all is well. *)
Theorem C151_short_read_refuted :
  outcome_of (copy_file UnixLike 10 (from_and_to [1; 2; 3; 4; 5; 6]%N None (repeat InFull 4 ++ [AtMost 1])) 7 8 3 0 0) 7 8
  = Ok (Some [1; 2; 3; 4; 5; 6]%N, Some [1; 2; 3; 5; 6; 0]%N, true).
Proof. vm_compute; reflexivity. Qed.
Print Assumptions C151_short_read_refuted.

(** Whatever the system refuses and at which call: the program ends; if it says that it
    copied everything, the new file starts with all the bytes of the old one (and is the
    same if it was not longer before); in any case it has the first bytes of the old one
    in the place of its own first bytes, or is as it was; no other file has changed; and
    if the system does all it is asked to do, the program says so.
    Partial: the file written to has no buffer (C151_buffered_refuted); Unix-like systems
    may fail but do not transfer less than asked for (C151_short_read_refuted); blocks as in
    C150. *)
Theorem C151_known_partial : forall pl w from to l old n cap1 fuel,
  from <> to -> disk w from = Some l -> disk w to = Some old \/ disk w to = None /\ old = [] ->
  len l < 2 ^ 63 -> len old < 2 ^ 63 -> no_short_read_on_unix pl w ->
  (0 < n)%nat -> Z.of_nat n <= chunk_max pl -> cap1 = O \/ (n <= cap1)%nat ->
  Z.of_nat cap1 <= chunk_max pl -> len l < Z.of_nat fuel ->
  exists w' said, copy_file pl fuel w from to n cap1 0 = Ok (w', said) /\
    (said = true -> disk w' to = Some (l ++ skipn (length l) old)) /\
    (said = true -> (length old <= length l)%nat -> disk w' to = Some l) /\
    (disk w' to = disk w to \/
     exists k, (k <= length l)%nat /\ disk w' to = Some (firstn k l ++ skipn k old)) /\
    (forall x, x <> to -> disk w' x = disk w x) /\
    (obliging w -> said = true).
Proof.
  intros pl w from to l old n cap1 fuel QR D1 D2 L1 L2 NS N0 M C C1 Fu.
  destruct (copy_file_ok pl w from to l old n cap1 0 fuel) as (w' & b & E & X1 & X2 & X4 & X3); try assumption.
  { destruct D2 as [D2|[D2 ->]]; [now left|right; auto]. }
  { now right. }
  { lia. }
  unfold drop, len in X1. rewrite Nat2Z.id in X1.
  exists w', b. split; [exact E|]. split; [exact X1|].
  split; [intros Hb H; rewrite (X1 Hb), skipn_all2 by lia; now rewrite app_nil_r|].
  split; [|now split].
  destruct X4 as [X4|(k & R & X4)]; [now left|right]. exists (Z.to_nat k). split; [unfold len in R; lia|exact X4].
Qed.
Print Assumptions C151_known_partial.

(** The second write is refused; on Windows, one is short. *)
Example C151_known_example :
  (forall pl, no_short_read_on_unix pl (from_and_to [1; 2; 3; 4; 5; 6; 7]%N (Some [9; 9; 9; 9; 9; 9; 9; 9]%N) (repeat InFull 5 ++ [Refuse]))) /\
  (forall pl, outcome_of (copy_file pl 10 (from_and_to [1; 2; 3; 4; 5; 6; 7]%N (Some [9; 9; 9; 9; 9; 9; 9; 9]%N)
      (repeat InFull 5 ++ [Refuse])) 7 8 3 0 0) 7 8
    = Ok (Some [1; 2; 3; 4; 5; 6; 7]%N, Some [1; 2; 3; 9; 9; 9; 9; 9]%N, false)) /\
  outcome_of (copy_file Windows 10 (from_and_to [1; 2; 3; 4; 5; 6; 7]%N None [InFull; InFull; AtMost 2; InFull; InFull; InFull; AtMost 1]) 7 8 3 3 0) 7 8
    = Ok (Some [1; 2; 3; 4; 5; 6; 7]%N, Some [1; 2; 3; 4]%N, false) /\
  (forall pl, outcome_of (copy_file pl 10 (from_and_to [1; 2; 3; 4; 5; 6; 7]%N None []) 7 8 3 0 0) 7 8
    = Ok (Some [1; 2; 3; 4; 5; 6; 7]%N, Some [1; 2; 3; 4; 5; 6; 7]%N, true)).
Proof.
  split; [intros pl; right; vm_compute; repeat constructor; tauto|].
  split; [intros []; vm_compute; reflexivity|]. split; [vm_compute; reflexivity|intros []; vm_compute; reflexivity].
Qed.
