(** Reads of any size through a buffer: C33 and C35 exactly. *)
From Coq Require Import NArith ZArith List Bool Lia.
From Coq Require Import ZifyBool ZifyNat ZifyN.
From Verif Require Import Base Integers ResourceModel ResourceSpec ResourceText ResourceLemmas ResourceLemmas2
  ResourceProps LongSpec LongLemmas LongLemmas2.
Import ListNotations.
Open Scope Z_scope.

(* ------------------------------------------------------------------- exactly *)

(** Every sequence of reads of every size, of every container of elements of w bytes and
    through every buffer, gives what the machine of LongSpec gives, and accesses memory
    outside the container exactly when the machine says so. *)
Theorem C35_exact : forall w cap l rs, 1 <= w -> (0 < cap)%nat -> len l * (w + 1) < 2 ^ 63 -> large_enough rs ->
  match all_gets w (Z.of_nat cap) l (map snd rs) with
  | None => run call_input (new_resource l w cap) (read_calls rs) = UB OutOfBoundsRead
  | Some ds => exists r answers, run call_input (new_resource l w cap) (read_calls rs) = Ok (r, answers) /\
      received answers = ds /\ content (inner r) = l
  end.
Proof. exact all_gets_run. Qed.
Print Assumptions C35_exact.

(** Two reads of a container of eight bytes through a buffer of four: the second is served
    by the rest of the buffer and a refill.  A third, of seven bytes, is longer than the
    buffer with what it has and starts too early: the seventh and eighth byte are followed by the fifth
    and the others after it once more. *)
Example C35_exact_meets :
  let l := [1; 2; 3; 4; 5; 6; 7; 8]%N in
  all_gets 1 4 l [3; 3] = Some [[1; 2; 3]; [4; 5; 6]]%N /\
  all_gets 1 4 l [3; 3; 7] = Some [[1; 2; 3]; [4; 5; 6]; [7; 8; 5; 6; 7; 8]]%N /\
  all_gets 1 4 l [3; 3; 7; 1] = None /\ all_gets 1 4 l [3; 3; 7; 7] = Some [[1; 2; 3]; [4; 5; 6]; [7; 8; 5; 6; 7; 8]; []]%N /\
  all_gets 2 4 l [3; 3] = Some [[1; 2; 3]; [4; 5; 6]]%N /\ all_gets 2 4 l [3; 3; 7] = Some [[1; 2; 3]; [4; 5; 6]; [7; 8; 1; 2; 3; 4; 5]]%N /\
  all_gets 2 4 l [9] = None.
Proof. vm_compute. repeat split; reflexivity. Qed.

(* --------------------------------------------------------------- which sizes *)

(** Reading a byte container in blocks of n bytes through a buffer gives every content in
    order if and only if a block is not longer than the buffer. *)
Theorem C33_sizes_exact : forall cap n, (0 < cap)%nat -> Z.of_nat cap < 2 ^ 30 -> 0 <= n < 2 ^ 60 ->
  (forall l k, len l * 2 < 2 ^ 63 -> exists r answers,
     run call_input (new_resource l 1 cap) (read_calls (repeat (repeat 0%N (Z.to_nat n), n) k)) = Ok (r, answers) /\
     received answers = blocks l (repeat n k))
  <-> n <= Z.of_nat cap.
Proof.
  intros cap n C Cb N. set (b := repeat 0%N (Z.to_nat n)).
  assert (Lb : len b = n) by (unfold b; apply len_repeat; lia).
  assert (G : forall k, large_enough (repeat (b, n) k)).
  { intros k. induction k as [|k IH]; [constructor|]. cbn [repeat]. constructor; [lia|exact IH]. }
  split.
  - intros H. destruct (Z.le_gt_cases n (Z.of_nat cap)) as [L|L]; [exact L|exfalso].
    destruct (all_gets_wrong (Z.of_nat cap) n ltac:(lia) L) as (l & k & Ll & ds & W & Ne).
    assert (B : len l * 2 < 2 ^ 63) by nia.
    destruct (H l k B) as (r & an & R & Rc).
    assert (E := all_gets_run 1 cap l (repeat (b, n) k) (Z.le_refl 1) C ltac:(lia) (G k)).
    rewrite map_snd_repeat, W in E.
    destruct E as (r' & an' & R' & Rc' & _). rewrite R in R'. injection R' as <- <-. congruence.
  - intros L l k B.
    destruct (C33_buffered_input_partial cap l (repeat (b, n) k) B (G k)) as (r & an & R & Rc & _).
    + right. clear - L. induction k as [|k IH]; [constructor|]. cbn [repeat]. constructor; [exact L|exact IH].
    + exists r, an. split; [exact R|]. rewrite Rc, map_snd_repeat. reflexivity.
Qed.
Print Assumptions C33_sizes_exact.

(** Blocks of five bytes and a buffer of four: the first four blocks are right, the fifth
    is not. *)
Example C33_sizes_exact_meets :
  let l := [1; 2; 3; 4; 5; 6; 7; 8; 9; 10; 11; 12; 13; 14; 15; 16; 17; 18; 19; 20; 21; 22; 23; 24; 25; 26]%N in
  all_gets 1 4 l [5; 5; 5; 5] = Some (blocks l [5; 5; 5; 5]) /\
  all_gets 1 4 l [5; 5; 5; 5; 5] = Some (blocks l [5; 5; 5; 5] ++ [[17; 18; 19; 20; 21]%N]).
Proof. vm_compute. split; reflexivity. Qed.

(* ------------------------------------------------------- after the long read *)

(** A program that asks for more than there is, and for more than the buffer has and can
    take, and then for a few bytes more, to see that there are none: whatever the content
    is, the second read accesses memory outside it. *)
Theorem C33_after_the_end : forall cap l block n block' m, (0 < cap)%nat -> 0 < len l -> len l * 2 < 2 ^ 63 ->
  n <= len block -> len l < n -> Z.of_nat cap + Z.min (Z.of_nat cap) (len l) < n ->
  1 <= m <= Z.of_nat cap -> m <= len block' ->
  run call_input (new_resource l 1 cap) [Read block n; Read block' m] = UB OutOfBoundsRead.
Proof.
  intros cap l block n block' m C L B N1 N2 N3 M1 M2.
  assert (G : large_enough [(block, n); (block', m)]).
  { constructor; [lia|]. constructor; [lia|]. constructor. }
  assert (E := all_gets_run 1 cap l _ (Z.le_refl 1) C ltac:(lia) G). cbn [map snd] in E.
  rewrite gets_after_end in E by lia. exact E.
Qed.
Print Assumptions C33_after_the_end.

Example C33_after_the_end_meets : let l := [65; 66; 67]%N in
  0 < len l /\ len l < 10 /\ 4 + Z.min 4 (len l) < 10 /\
  run call_input (new_resource l 1 4) [Read (repeat 0%N 10) 10] <> UB OutOfBoundsRead.
Proof. vm_compute. repeat split; discriminate. Qed.

(** Elements of two or more bytes: every first read that is longer than the buffer and its
    filling accesses memory outside the container. *)
Theorem C35_long_read : forall w cap l block n, 2 <= w -> (0 < cap)%nat -> 0 < len l -> len l * (w + 1) < 2 ^ 63 ->
  n <= len block -> Z.of_nat cap + Z.min (Z.of_nat cap) (len l) < n ->
  run call_input (new_resource l w cap) [Read block n] = UB OutOfBoundsRead.
Proof.
  intros w cap l block n W C L B N1 N2.
  assert (G : large_enough [(block, n)]) by (constructor; [lia|constructor]).
  assert (E := all_gets_run w cap l _ ltac:(lia) C B G). cbn [map snd] in E.
  rewrite gets_wide in E by lia. exact E.
Qed.
Print Assumptions C35_long_read.

Example C35_long_read_meets : let l := [65; 0; 66; 0; 67; 0]%N in
  0 < len l /\ 4 + Z.min 4 (len l) < 9 /\
  run call_input (new_resource l 2 4) [Read (repeat 0%N 10) 8] <> UB OutOfBoundsRead.
Proof. vm_compute. repeat split; discriminate. Qed.
