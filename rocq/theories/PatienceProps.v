(** C152: passing failures can be waited out. *)
From Coq Require Import NArith ZArith List Bool Lia ZifyBool ZifyNat ZifyN.
From Verif Require Import Base Integers ResourceSpec ResourceModel ResourceText FileSpec FileModel FileText.
From Verif Require Import ResourceLemmas TextFileText BackupText PatienceText PatienceLemmas PatienceLemmas2.
Import ListNotations.
Open Scope Z_scope.

(** A disk with the file 7, and perhaps the file 8, and what the system will do. *)
Definition troubled (l : list N) (old : option (list N)) (responses : list response) : world :=
  World (fun q => if N.eqb q 7 then Some l else if N.eqb q 8 then old else None) (fun _ => None) 3 responses.

(** What the two files then are. *)
Definition files_of (o : outcome world) : outcome (option (list N) * option (list N)) :=
  bind o (fun w => Ok (disk w 7%N, disk w 8%N)).

(** A program that tries again whatever call failed has its copy when the failures are
    over.  This is false if the file written to has a buffer: the write is refused when the
    buffer is emptied, every call of the program had a good result, and there is nothing it
    could try again (C50). *)
Theorem C152_buffered_refuted : forall pl,
  files_of (patient_copy pl 20 (troubled [1; 2; 3; 4; 5; 6]%N None (repeat InFull 5 ++ [Refuse])) 7 8 3 0 8)
  = Ok (Some [1; 2; 3; 4; 5; 6]%N, Some []).
Proof. intros []; vm_compute; reflexivity. Qed.
Print Assumptions C152_buffered_refuted.

(** It is also false on a Unix-like system that once gives fewer bytes than it was asked
    for, without a failure (C49). *)
Theorem C152_short_read_refuted :
  files_of (patient_copy UnixLike 20 (troubled [1; 2; 3; 4; 5; 6]%N None (repeat InFull 4 ++ [AtMost 1])) 7 8 3 0 0)
  = Ok (Some [1; 2; 3; 4; 5; 6]%N, Some [1; 2; 3; 5; 6; 0]%N).
Proof. vm_compute; reflexivity. Qed.
Print Assumptions C152_short_read_refuted.

(** Whatever calls the system refuses, to open, to read or to write, and whatever writes it
    cuts short, as long as it does so finitely often: the program comes to an end within as
    many rounds as the file has bytes and the system has failures, and then the new file
    has the bytes of the old one in the place of its own first bytes, and no other file has
    changed.
    Partial: the file written to has no buffer (C152_buffered_refuted); Unix-like systems
    may fail but do not transfer less than asked for (C152_short_read_refuted); blocks as in
    C150. *)
Theorem C152_waited_out_partial : forall pl w from to l old n cap1 fuel,
  from <> to -> disk w from = Some l -> disk w to = Some old \/ disk w to = None /\ old = [] ->
  len l < 2 ^ 63 -> len old < 2 ^ 63 -> no_short_read_on_unix pl w ->
  (0 < n)%nat -> Z.of_nat n <= chunk_max pl -> cap1 = O \/ (n <= cap1)%nat ->
  Z.of_nat cap1 <= chunk_max pl -> (length (script w) + length l < fuel)%nat ->
  exists w', patient_copy pl fuel w from to n cap1 0 = Ok w' /\
    disk w' to = Some (l ++ skipn (length l) old) /\
    ((length old <= length l)%nat -> disk w' to = Some l) /\
    (forall x, x <> to -> disk w' x = disk w x).
Proof.
  intros pl w from to l old n cap1 fuel QR D1 D2 L1 L2 NS N0 M C C1 Fu.
  destruct (patient_copy_ok pl w from to l old n cap1 fuel) as (w' & E & X1 & X2); try assumption.
  { destruct D2 as [D2|[D2 ->]]; [now left|right; auto]. }
  { unfold left_of, len. lia. }
  unfold drop, len in X1. rewrite Nat2Z.id in X1.
  exists w'. split; [exact E|]. split; [exact X1|]. split; [|exact X2].
  intros H. rewrite X1, skipn_all2 by lia. now rewrite app_nil_r.
Qed.
Print Assumptions C152_waited_out_partial.

(** Opening is refused twice, reading three times, and writing four times; on Windows,
    reads and writes are also cut short. *)
Example C152_waited_out_example :
  (forall pl, no_short_read_on_unix pl (troubled [1; 2; 3; 4; 5; 6; 7]%N (Some [9; 9]%N)
      [Refuse; InFull; Refuse; InFull; Refuse; Refuse; InFull; Refuse; Refuse; InFull; Refuse; InFull; Refuse; Refuse])) /\
  (forall pl, files_of (patient_copy pl 22 (troubled [1; 2; 3; 4; 5; 6; 7]%N (Some [9; 9]%N)
      [Refuse; InFull; Refuse; InFull; Refuse; Refuse; InFull; Refuse; Refuse; InFull; Refuse; InFull; Refuse; Refuse]) 7 8 3 0 0)
    = Ok (Some [1; 2; 3; 4; 5; 6; 7]%N, Some [1; 2; 3; 4; 5; 6; 7]%N)) /\
  files_of (patient_copy Windows 20 (troubled [1; 2; 3; 4; 5; 6; 7]%N None
      [InFull; Refuse; InFull; AtMost 2; AtMost 1; Refuse; InFull; AtMost 1; AtMost 2; AtMost 0]) 7 8 3 3 0)
    = Ok (Some [1; 2; 3; 4; 5; 6; 7]%N, Some [1; 2; 3; 4; 5; 6; 7]%N).
Proof.
  split; [intros pl; right; repeat (apply Forall_cons; [first [left; reflexivity|right; reflexivity]|]); apply Forall_nil|].
  split; [intros []; vm_compute; reflexivity|vm_compute; reflexivity].
Qed.
