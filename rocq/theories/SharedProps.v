(** C113-C115: containers that are used by resources and by others. *)
From Coq Require Import NArith ZArith List Bool Lia ZifyBool ZifyNat ZifyN.
From Verif Require Import Base Integers ResourceSpec SharedSpec ResourceModel ResourceText SharedModel SharedText.
From Verif Require Import ResourceLemmas ResourceLemmas2 ResourceLemmas3 ResourceLemmas4 SharedLemmas.
Import ListNotations.
Open Scope Z_scope.

(* ---------------------------------------------------------------------- C113 *)

(** The owner of a container changes it while an input resource on it is in use:
    reads return what is in the container at that time.  This is false: with a
    buffer a read returns bytes that are not there any more, and with or without
    one a read reaches outside of the container after it has become shorter than
    the position. *)
Theorem C113_current_refuted :
  (exists r, run_owner (new_resource [1; 2; 3; 4]%N 1 8) [1; 2; 3; 4]%N
      [Fetch [0; 0]%N 2; Change [5; 6; 7; 8]%N; Fetch [0; 0]%N 2]
    = Ok (r, [[1; 2]; [3; 4]]%N)) /\
  fetched 1 (Store [1; 2; 3; 4]%N 0) [Fetch [0; 0]%N 2; Change [5; 6; 7; 8]%N; Fetch [0; 0]%N 2]
    = [[1; 2]; [7; 8]]%N /\
  run_owner (new_resource [1; 2; 3; 4]%N 1 0) [1; 2; 3; 4]%N
      [Fetch [0; 0]%N 2; Change []; Fetch [0; 0]%N 2] = UB OutOfBoundsRead /\
  run_owner (new_resource [1; 2; 3; 4]%N 1 2) [1; 2; 3; 4]%N
      [Fetch [0; 0]%N 2; Change []; Fetch [0; 0]%N 2] = UB OutOfBoundsRead.
Proof.
  split; [eexists; vm_compute; reflexivity|]. split; [vm_compute; reflexivity|].
  split; vm_compute; reflexivity.
Qed.
Print Assumptions C113_current_refuted.

(** Without a buffer reads return what is in the container at that time, as long as
    the container never becomes shorter than the position.
    Partial: C113_current_refuted. *)
Theorem C113_current_partial : forall w l cs, 1 <= w -> (w | len l) -> len l * (w + 1) < 2 ^ 63 ->
  within w (Store l 0) cs -> never_shorter w (Store l 0) cs ->
  exists r, run_owner (new_resource l w 0) l cs = Ok (r, fetched w (Store l 0) cs).
Proof.
  intros w l cs W D B A L. apply (owner_unbuffered w cs (Store l 0)); try assumption.
  exact (fresh w 0 l W D B).
Qed.
Print Assumptions C113_current_partial.

Example C113_current_example :
  let cs := [Fetch [0; 0]%N 2; Change [5; 6; 7]%N; Fetch [0; 0]%N 2; Change [8; 9; 10; 11]%N;
             Fetch [0; 0]%N 2; Seek 1 Begin; Fetch [0; 0]%N 2] in
  within 1 (Store [1; 2; 3; 4]%N 0) cs /\ never_shorter 1 (Store [1; 2; 3; 4]%N 0) cs /\
  fetched 1 (Store [1; 2; 3; 4]%N 0) cs = [[1; 2]; [7]; [11]; [9; 10]]%N.
Proof.
  cbv zeta. split; [|split; [|reflexivity]].
  - vm_compute. repeat (split; try discriminate; try (apply Z.divide_1_l)).
  - vm_compute. repeat (split; try discriminate).
Qed.

(** With a buffer it is enough to set the position (from the beginning or the end)
    after every change, whatever the old and the new length.
    Partial: C113_current_refuted; and requests are no longer than the buffer
    (C33). *)
Theorem C113_repositioned_partial : forall w cap l cs, 1 <= w -> (w | len l) -> len l * (w + 1) < 2 ^ 63 ->
  within w (Store l 0) cs -> repositioned (Z.of_nat cap) false cs ->
  exists r, run_owner (new_resource l w cap) l cs = Ok (r, fetched w (Store l 0) cs).
Proof.
  intros w cap l cs W D B A L.
  exact (owner_buffered w (Z.of_nat cap) cs (Store l 0) (new_resource l w cap) false Neutral l 0
    (fresh w cap l W D B) eq_refl D B (fun _ => eq_refl) A L).
Qed.
Print Assumptions C113_repositioned_partial.

Example C113_repositioned_example :
  let cs := [Fetch [0; 0]%N 2; Change [9]%N; Seek 0 Begin; Fetch [0; 0]%N 2; Change [5; 6; 7]%N;
             Seek 2 End; Fetch [0; 0]%N 2] in
  within 1 (Store [1; 2; 3; 4]%N 0) cs /\ repositioned 2 false cs /\
  fetched 1 (Store [1; 2; 3; 4]%N 0) cs = [[1; 2]; [9]; [6; 7]]%N.
Proof.
  cbv zeta. split; [|split; [|reflexivity]].
  - vm_compute. repeat (split; try discriminate; try (apply Z.divide_1_l)).
  - vm_compute. repeat (split; try discriminate).
Qed.

(* ---------------------------------------------------------------------- C114 *)

(** A writer and a reader of one container are a pipe: every history of writes,
    flushes and reads is one that the relation [pipe] allows.  This is false for
    requests that are longer than the reader's buffer, as C33. *)
Theorem C114_pipe_refuted : exists s,
  run_pipe_from shared_read (share [] 1 0 4) [Put [65; 66; 67]%N; Get (repeat 0%N 10) 10]
    = Ok (s, [[65; 66; 67; 65; 66; 67]]%N) /\
  ~ pipe [Put [65; 66; 67]%N; Get (repeat 0%N 10) 10] [] 0 0 [[65; 66; 67; 65; 66; 67]]%N.
Proof.
  eexists. split; [vm_compute; reflexivity|]. intros H.
  destruct (pipe_prefix _ _ _ _ _ H ltac:(lia) ltac:(vm_compute; discriminate)) as (rest & X).
  apply (f_equal (@length N)) in X. vm_compute in X. discriminate.
Qed.
Print Assumptions C114_pipe_refuted.

(** Whatever the buffers of the writer and of the reader, for every interleaving of
    writes, flushes and reads: every read gives the next bytes of those delivered
    by then, at least everything written before the last flush; and the reader is at
    the end exactly if it has read all that has been delivered.
    Partial: requests are no longer than the reader's buffer if it has one; writes
    are of whole elements. *)
Theorem C114_pipe_partial : forall w wcap rcap l cs, 1 <= w -> (w | len l) ->
  (len l + len (all_put cs)) * (w + 1) < 2 ^ 63 -> Forall (proper w) cs ->
  rcap = 0%nat \/ Forall (at_most (Z.of_nat rcap)) cs ->
  exists s answers, run_pipe_from shared_read (share l w wcap rcap) cs = Ok (s, answers) /\
    pipe cs l (len l) 0 answers /\
    (w = 1 -> is_at_end (look_at (reader s) (owned s)) = (len (concat answers) =? len (owned s))).
Proof.
  intros w wcap rcap l cs W D B F C. pose proof (len_nonneg l). pose proof (len_nonneg (all_put cs)).
  destruct (piped_start w wcap rcap l W D ltac:(nia)) as (s & E & V & O).
  destruct (pipe_runs w (Z.of_nat wcap) (Z.of_nat rcap) cs l 0 (len l) s V F) as (s' & answers & R & P & V'); try assumption.
  - destruct C as [-> |C]; auto.
  - rewrite O. lia.
  - exists s', answers. unfold run_pipe_from. rewrite E. cbn [bind]. split; [exact R|]. split; [exact P|].
    intros ->. exact (piped_end _ _ _ _ _ V').
Qed.
Print Assumptions C114_pipe_partial.

Example C114_pipe_example : exists s,
  run_pipe_from shared_read (share [1]%N 1 4 2)
    [Put [2; 3]%N; Get [0; 0]%N 2; Deliver; Get [0; 0]%N 2; Put [4; 5; 6; 7; 8]%N; Get [0; 0]%N 2; Get [0; 0]%N 2; Get [0; 0]%N 2]
  = Ok (s, [[1]; [2; 3]; [4; 5]; [6; 7]; [8]]%N).
Proof. eexists. vm_compute. reflexivity. Qed.

(** The bytes read are the bytes written, in order: nothing lost, nothing twice; and
    after a flush a read that asks for enough completes them.
    Partial: as C114_pipe_partial. *)
Theorem C114_order_partial : forall w wcap rcap l cs, 1 <= w -> (w | len l) ->
  (len l + len (all_put cs)) * (w + 1) < 2 ^ 63 -> Forall (proper w) cs ->
  rcap = 0%nat \/ Forall (at_most (Z.of_nat rcap)) cs ->
  exists s answers rest, run_pipe_from shared_read (share l w wcap rcap) cs = Ok (s, answers) /\
    l ++ all_put cs = concat answers ++ rest /\
    (forall cs' block n, cs = cs' ++ [Deliver; Get block n] -> len (l ++ all_put cs) <= n -> rest = []).
Proof.
  intros w wcap rcap l cs W D B F C. pose proof (len_nonneg l).
  destruct (C114_pipe_partial w wcap rcap l cs W D B F C) as (s & answers & R & P & _).
  destruct (pipe_prefix _ _ _ _ _ P ltac:(lia) ltac:(lia)) as (rest & X). rewrite drop_0 in X.
  exists s, answers, rest. split; [exact R|]. split; [exact X|]. intros cs' block n -> N.
  assert (Q : all_put (cs' ++ [Deliver; Get block n]) = all_put cs').
  { unfold all_put. rewrite flat_map_app. cbn [flat_map app]. apply app_nil_r. }
  assert (Y := pipe_all block n cs' l (len l) 0 answers P ltac:(lia) ltac:(lia)). rewrite drop_0 in Y.
  rewrite Q in *. rewrite len_app in N. specialize (Y N). rewrite Y in X.
  symmetry. apply (app_inv_head (concat answers)). now rewrite app_nil_r.
Qed.
Print Assumptions C114_order_partial.

(** With the writer tied to the reader the container is a queue: every read gives
    the next bytes of all written so far, flushed or not.
    Partial: as C114_pipe_partial. *)
Theorem C114_tied_partial : forall w wcap rcap l cs, 1 <= w -> (w | len l) ->
  (len l + len (all_put cs)) * (w + 1) < 2 ^ 63 -> Forall (proper w) cs ->
  rcap = 0%nat \/ Forall (at_most (Z.of_nat rcap)) cs ->
  exists s, run_pipe_from shared_read_tied (share l w wcap rcap) cs = Ok (s, queue l cs).
Proof.
  intros w wcap rcap l cs W D B F C. pose proof (len_nonneg l). pose proof (len_nonneg (all_put cs)).
  destruct (piped_start w wcap rcap l W D ltac:(nia)) as (s & E & V & O).
  destruct (queue_runs w (Z.of_nat wcap) (Z.of_nat rcap) cs l 0 s V F) as (s' & R); try assumption.
  - destruct C as [-> |C]; auto.
  - exists s'. unfold run_pipe_from. rewrite E. cbn [bind]. rewrite drop_0 in R. exact R.
Qed.
Print Assumptions C114_tied_partial.

Example C114_example : Forall (proper 2) [Put [2; 3]%N; Get [0; 0]%N 2; Deliver; Get [0; 0; 0]%N 3; Put [4; 5; 6; 7]%N] /\
  Forall (at_most 3) [Put [2; 3]%N; Get [0; 0]%N 2; Deliver; Get [0; 0; 0]%N 3; Put [4; 5; 6; 7]%N] /\
  queue [1; 1]%N [Put [2; 3]%N; Get [0; 0]%N 2; Deliver; Get [0; 0; 0]%N 3; Put [4; 5; 6; 7]%N] = [[1; 1]; [2; 3]]%N.
Proof.
  split; [|split; [|reflexivity]].
  - repeat (apply Forall_cons); cbn [proper]; try exact I; try (vm_compute; split; discriminate).
    + exists 1. reflexivity.
    + exists 2. reflexivity.
    + apply Forall_nil.
  - repeat (apply Forall_cons); cbn [at_most]; try exact I; try (vm_compute; discriminate). apply Forall_nil.
Qed.

(* ---------------------------------------------------------------------- C115 *)

(** The owner of a container that is written to takes what has been written and
    leaves the container empty; what is written next is what is found next.  This is
    false: the next write reaches outside of the container. *)
Theorem C115_emptied_refuted :
  rounds false (share [] 1 0 0) [[[1; 2; 3]]; [[4; 5; 6]]]%N = UB OutOfBoundsWrite /\
  rounds false (share [] 1 8 0) [[[1; 2; 3]]; [[4; 5; 6]]]%N = UB OutOfBoundsWrite.
Proof. split; vm_compute; reflexivity. Qed.
Print Assumptions C115_emptied_refuted.

(** It is true if the position is set to the beginning after the container has been
    emptied: in every round the owner finds what was written in that round.
    Partial: C115_emptied_refuted. *)
Theorem C115_emptied_partial : forall w wcap rcap rs, 1 <= w ->
  Forall (Forall (fun d => (w | len d))) rs -> Forall (fun ds => len (concat ds) * (w + 1) < 2 ^ 63) rs ->
  rounds true (share [] w wcap rcap) rs = Ok (map (@concat N) rs).
Proof.
  intros w wcap rcap rs W F B. apply (rounds_ok w (Z.of_nat wcap)); try assumption; [|reflexivity].
  apply fresh; [assumption|exists 0; reflexivity|vm_compute; reflexivity].
Qed.
Print Assumptions C115_emptied_partial.

Example C115_example :
  rounds true (share [] 1 2 0) [[[1; 2; 3]; [4]]; [[5]; [6]; [7; 8]]; []; [[9]]]%N
  = Ok [[1; 2; 3; 4]; [5; 6; 7; 8]; []; [9]]%N.
Proof. vm_compute. reflexivity. Qed.
