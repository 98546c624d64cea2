(** Buffered resources over containers: the properties. *)
From Coq Require Import NArith ZArith List Bool Lia ZifyBool ZifyNat ZifyN.
From Verif Require Import Base Integers ResourceSpec ResourceModel ResourceText.
From Verif Require Import ResourceLemmas ResourceLemmas2 ResourceLemmas3 ResourceLemmas4 GrowSpec GrowLemmas.
Import ListNotations.
Open Scope Z_scope.

(** Bytes of a text, for the examples. *)
Definition A_J : list N := [65; 66; 67; 68; 69; 70; 71; 72; 73; 74]%N.

(* ------------------------------------------------------------------ C31, C32 *)

Lemma output_only : forall w cs, Forall (write_or_flush w) cs -> forallb for_output cs = true.
Proof.
  intros w cs F. apply forallb_forall. intros c Ic. rewrite Forall_forall in F. specialize (F c Ic). now destruct c.
Qed.

(** For every sequence of writes and flushes on an output resource over an empty
    container, and every capacity: each write reports its size; the content is a
    prefix of everything written and after a flush is everything written.  [w] is
    the size of an element: for byte containers, w = 1, the condition on the sizes
    of the writes always holds. *)
Theorem C31_buffered_output : forall w cap cs, 1 <= w -> Forall (write_or_flush w) cs ->
  len (everything cs) * (w + 1) < 2 ^ 63 ->
  exists r, run call_output (new_resource [] w cap) cs = Ok (r, map write_report cs) /\
    (exists rest, everything cs = content (inner r) ++ rest) /\
    exists r', flush container_ops r = Ok r' /\ content (inner r') = everything cs.
Proof.
  intros w cap cs W F B.
  destruct (appending_calls w (Z.of_nat cap) cs [] Neutral W F B (or_introl eq_refl)) as (A & E & L).
  assert (S := fresh w cap [] W ltac:(exists 0; reflexivity) ltac:(cbn; lia)).
  destruct (output_run _ _ cs _ _ _ S A (output_only _ _ F)) as (r & R & Sr & P); [discriminate|].
  change (Store [] 0) with (Store [] (len [])) in *. rewrite E in R, Sr. cbn [fst snd] in *.
  exists r. split; [exact R|]. cbn [app] in *. split.
  - exact (prefix_before _ _ _ _ _ Sr L).
  - destruct (flush_delivers _ _ _ _ _ Sr P) as (r' & X & Y & _). eauto.
Qed.
Print Assumptions C31_buffered_output.

(** The same reports and, after a flush, the same content as without a buffer. *)
Theorem C31_as_unbuffered : forall w cap cs, 1 <= w -> Forall (write_or_flush w) cs ->
  len (everything cs) * (w + 1) < 2 ^ 63 ->
  exists r r' r0 r0' a, run call_output (new_resource [] w cap) cs = Ok (r, a) /\
    flush container_ops r = Ok r' /\
    run call_output (new_resource [] w 0) cs = Ok (r0, a) /\
    flush container_ops r0 = Ok r0' /\
    content (inner r') = content (inner r0').
Proof.
  intros w cap cs W F B.
  destruct (C31_buffered_output w cap cs W F B) as (r & R & _ & r' & X & Y).
  destruct (C31_buffered_output w 0 cs W F B) as (r0 & R0 & _ & r0' & X0 & Y0).
  exists r, r', r0, r0', (map write_report cs). rewrite Y, Y0. tauto.
Qed.
Print Assumptions C31_as_unbuffered.

Example C31_example : exists r r',
  run call_output (new_resource [] 1 4) [Write [1; 2; 3]; Write [4; 5]; Flush; Write [6; 7; 8; 9; 10; 11]; Write [12]]%N
  = Ok (r, [Wrote 3; Wrote 2; Done; Wrote 6; Wrote 1]) /\
  content (inner r) = [1; 2; 3; 4; 5; 6; 7; 8; 9; 10; 11]%N /\
  flush container_ops r = Ok r' /\ content (inner r') = [1; 2; 3; 4; 5; 6; 7; 8; 9; 10; 11; 12]%N.
Proof. eexists. eexists. split; [vm_compute; reflexivity|]. split; [vm_compute; reflexivity|]. split; [vm_compute; reflexivity|]. vm_compute. reflexivity. Qed.

Example C31_example_meets : Forall (write_or_flush 1)
  [Write [1; 2; 3]; Write [4; 5]; Flush; Write [6; 7; 8; 9; 10; 11]; Write [12]]%N.
Proof. repeat constructor; cbn [write_or_flush]; apply Z.divide_1_l. Qed.

(** Over existing content, writes that stay within it replace its beginning. *)
Theorem C31_existing_content : forall w cap l cs, 1 <= w -> (w | len l) -> len l * (w + 1) < 2 ^ 63 ->
  Forall (write_or_flush w) cs -> len (everything cs) <= len l ->
  exists r r', run call_output (new_resource l w cap) cs = Ok (r, map write_report cs) /\
    flush container_ops r = Ok r' /\
    content (inner r') = everything cs ++ drop (len (everything cs)) l.
Proof.
  intros w cap l cs W D B F L.
  destruct (replacing_calls w (Z.of_nat cap) cs l 0 Neutral W (Z.le_refl 0) F L B) as (A & E & P); try discriminate.
  assert (S := fresh w cap l W D B).
  destruct (output_run _ _ cs _ _ _ S A (output_only _ _ F)) as (r & R & Sr & P'); [discriminate|].
  rewrite E in R, Sr. cbn [fst snd] in *.
  destruct (flush_delivers _ _ _ _ _ Sr P) as (r' & X & Y & _). exists r, r'. repeat split; assumption.
Qed.
Print Assumptions C31_existing_content.

Example C31_existing_example : exists r r',
  run call_output (new_resource A_J 1 4) [Write [1; 2; 3]; Write [4; 5]]%N = Ok (r, [Wrote 3; Wrote 2]) /\
  flush container_ops r = Ok r' /\ content (inner r') = [1; 2; 3; 4; 5; 70; 71; 72; 73; 74]%N.
Proof. eexists. eexists. split; [vm_compute; reflexivity|]. split; [vm_compute; reflexivity|]. vm_compute. reflexivity. Qed.

(** Over existing content, writes that go past its end leave content that depends on
    the capacity, and is never what was written: the container grows too much. *)
Theorem C31_longer_refuted : exists r r' r0,
  run call_output (new_resource [97; 98]%N 1 4) [Write [1]; Write [2; 3]]%N = Ok (r, [Wrote 1; Wrote 2]) /\
  flush container_ops r = Ok r' /\ content (inner r') = [1; 2; 3; 0; 0]%N /\
  run call_output (new_resource [97; 98]%N 1 0) [Write [1]; Write [2; 3]]%N = Ok (r0, [Wrote 1; Wrote 2]) /\
  content (inner r0) = [1; 2; 3; 0]%N.
Proof.
  do 3 eexists. split; [vm_compute; reflexivity|]. split; [vm_compute; reflexivity|]. split; [vm_compute; reflexivity|].
  split; [vm_compute; reflexivity|]. vm_compute. reflexivity.
Qed.
Print Assumptions C31_longer_refuted.

(** The reported position is the number of bytes written, whatever is buffered. *)
Theorem C32_position : forall w cap cs, 1 <= w -> Forall (write_or_flush w) cs ->
  len (everything cs) * (w + 1) < 2 ^ 63 ->
  exists r a, run call_output (new_resource [] w cap) cs = Ok (r, a) /\
    get_position r = len (everything cs).
Proof.
  intros w cap cs W F B.
  destruct (appending_calls w (Z.of_nat cap) cs [] Neutral W F B (or_introl eq_refl)) as (A & E & L).
  assert (S := fresh w cap [] W ltac:(exists 0; reflexivity) ltac:(cbn; lia)).
  destruct (output_run _ _ cs _ _ _ S A (output_only _ _ F)) as (r & R & Sr & P); [discriminate|].
  change (Store [] 0) with (Store [] (len [])) in *. rewrite E in R, Sr. cbn [fst snd] in *.
  exists r. eexists. split; [exact R|]. apply (position_ok _ _ _ _ _ Sr). right. assumption.
Qed.
Print Assumptions C32_position.

Example C32_example : exists r a,
  run call_output (new_resource [] 1 4) [Write [1; 2; 3]; Write [4; 5]]%N = Ok (r, a) /\
  get_position r = 5 /\ content (inner r) = [1; 2; 3]%N.
Proof. eexists. eexists. split; [vm_compute; reflexivity|]. split; [vm_compute; reflexivity|]. vm_compute. reflexivity. Qed.

(** Seeking first delivers what is pending: for every sequence of writes, flushes
    and seeks that follows the discipline of ResourceSpec, after a final flush the
    container is what the writes made of it, each in its place, and the reported
    position is the place of the next write.
    Partial: writes that go from existing bytes past the end are excluded (the
    container then grows too much, C36), and seeks past the end (C36). *)
Theorem C32_seeking_partial : forall w cap l cs, 1 <= w -> (w | len l) -> len l * (w + 1) < 2 ^ 63 ->
  forallb for_output cs = true -> all_allowed w (Z.of_nat cap) (Store l 0) Neutral cs ->
  let '(s, answers) := expected_calls w (Store l 0) cs in
  exists r r', run call_output (new_resource l w cap) cs = Ok (r, answers) /\
    get_position r = at_ s /\
    flush container_ops r = Ok r' /\ content (inner r') = bytes s /\ get_position r' = at_ s.
Proof.
  intros w cap l cs W D B O A. assert (S := fresh w cap l W D B).
  destruct (output_run _ _ cs _ _ _ S A O) as (r & R & Sr & P); [discriminate|].
  destruct (expected_calls w (Store l 0) cs) as [s a]. cbn [fst snd] in *.
  destruct (flush_delivers _ _ _ _ _ Sr P) as (r' & X & Y & Z).
  exists r, r'. repeat split; try assumption. apply (position_ok _ _ _ _ _ Sr). right. assumption.
Qed.
Print Assumptions C32_seeking_partial.

(** Writes of whole elements anywhere, also over the end, with flushes and seeks from the
    beginning or the current position: every byte written is in its place, the reported
    position is the place of the next write, and zeros may follow.
    Partial: seeks relative to the end (C32_end_refuted), seeks past the end
    (C32_past_end_refuted) and parts of elements (C32_part_refuted). *)
Theorem C32_anywhere_partial : forall w cap l cs, 1 <= w -> all_within w (Store l 0) cs ->
  len l + len (everything cs) < 2 ^ 63 ->
  let '(s, answers) := expected_calls w (Store l 0) cs in
  exists r r' k, run call_output (new_resource l w cap) cs = Ok (r, answers) /\
    get_position r = at_ s /\
    flush container_ops r = Ok r' /\ content (inner r') = bytes s ++ repeat 0%N k /\ get_position r' = at_ s.
Proof.
  intros w cap l cs W A L.
  destruct (run_grown w (Z.of_nat cap) cs _ _ _ _ _ (grown_new l w cap W) A L) as (r & B & d & k & R & G).
  destruct (expected_calls w (Store l 0) cs) as [s a]. cbn [fst snd] in *.
  destruct (flush_grown _ _ _ _ _ _ _ G) as (r' & k' & F & G').
  exists r, r', k'. split; [exact R|].
  destruct G as [_ _ _ _ _ _ Bp _ _ _ St]. destruct G' as [_ _ _ C' _ _ Bp' _ _ _ St'].
  split; [unfold get_position; rewrite Bp, St; reflexivity|]. split; [exact F|]. split; [exact C'|].
  unfold get_position. rewrite Bp', St'. reflexivity.
Qed.
Print Assumptions C32_anywhere_partial.

Example C32_anywhere_example :
  let cs := [Write [1; 2]; SetPosition 1 Begin; Write [3; 4; 5]; SetPosition (-1) Current; Write [6; 7; 8]]%N in
  all_within 1 (Store [97; 98]%N 0) cs /\ len [97; 98]%N + len (everything cs) < 2 ^ 63 /\
  bytes (fst (expected_calls 1 (Store [97; 98]%N 0) cs)) = [1; 3; 4; 6; 7; 8]%N.
Proof.
  split; [|split; [vm_compute; reflexivity|vm_compute; reflexivity]].
  cbn [all_within]. repeat match goal with |- _ /\ _ => split end; try exact Logic.I; try apply Z.divide_1_l; try discriminate; vm_compute; discriminate.
Qed.

(** After a write over the end the end is not where it should be: set_position(0, end)
    leads behind the zeros, and what is written there is apart. *)
Theorem C32_end_refuted : forall cap, cap = 0%nat \/ cap = 8%nat -> exists r r',
  run call_output (new_resource [97; 98]%N 1 cap) [SetPosition 1 Begin; Write [1; 2]; SetPosition 0 End]%N = Ok (r, [Done; Wrote 2; Done]) /\
  get_position r = 4 /\
  run call_output (new_resource [97; 98]%N 1 cap) [SetPosition 1 Begin; Write [1; 2]; SetPosition 0 End; Write [3]; Flush]%N
    = Ok (r', [Done; Wrote 2; Done; Wrote 1; Done]) /\
  content (inner r') = [97; 1; 2; 0; 3]%N.
Proof.
  intros cap [-> | ->]; do 2 eexists; (split; [vm_compute; reflexivity|]; split; [vm_compute; reflexivity|]; split; [vm_compute; reflexivity|]; vm_compute; reflexivity).
Qed.
Print Assumptions C32_end_refuted.

(** What is written after a seek past the end, or as part of an element at the end, goes
    outside the container at the next seek. *)
Theorem C32_past_end_refuted : run call_output (new_resource [97; 98]%N 1 8) [SetPosition 3 Begin; Write [1]; SetPosition 0 Begin]%N = UB OutOfBoundsWrite.
Proof. vm_compute. reflexivity. Qed.
Print Assumptions C32_past_end_refuted.

Theorem C32_part_refuted : run call_output (new_resource [] 2 8) [Write [1; 2; 3]; SetPosition 0 Begin]%N = UB OutOfBoundsWrite.
Proof. vm_compute. reflexivity. Qed.
Print Assumptions C32_part_refuted.

Definition C32_script : list call :=
  [Write [1; 2; 3]; SetPosition 1 Begin; Write [9]; SetPosition 1 Current; Write [8; 7]; SetPosition 0 End; Write [5; 5; 5; 5; 5]; SetPosition 0 Begin]%N.

Example C32_example_seek :
  all_allowed 1 4 (Store A_J 0) Neutral C32_script /\ forallb for_output C32_script = true /\
  bytes (fst (expected_calls 1 (Store A_J 0) C32_script)) = [1; 9; 3; 8; 7; 70; 71; 72; 73; 74; 5; 5; 5; 5; 5]%N.
Proof.
  split; [|split; vm_compute; reflexivity].
  cbn; repeat split; try discriminate; try lia; try (exists 5; reflexivity); try (exists 1; reflexivity).
Qed.

(* ------------------------------------------------------------------ C33, C35 *)

(** Reads of at most the buffer's capacity (or any reads without a buffer) return
    consecutive blocks of the content, as without a buffer.
    Partial: reads longer than the capacity are excluded; C33_long_read shows that
    the longest of them return wrong data. *)
Theorem C33_buffered_input_partial : forall cap l rs, len l * 2 < 2 ^ 63 -> large_enough rs ->
  (cap = 0%nat \/ Forall (fun '(_, n) => n <= Z.of_nat cap) rs) ->
  exists r answers, run call_input (new_resource l 1 cap) (read_calls rs) = Ok (r, answers) /\
    received answers = blocks l (map snd rs) /\ content (inner r) = l.
Proof.
  intros cap l rs B G C. assert (S := fresh 1 cap l (Z.le_refl 1) (Z.divide_1_l _) B).
  destruct (reading_calls 1 (Z.of_nat cap) rs l 0 Neutral G (Z.le_refl 0)) as (A & X & F & V); auto.
  { destruct C as [-> |C]; auto. }
  destruct (input_run _ _ _ _ _ _ S A F) as (r & R & Sr & P); [reflexivity|].
  eexists. eexists. split; [exact R|]. split; [exact X|].
  destruct Sr as [_ _ _ _ _ _ _ I]. rewrite <- V. destruct (last_phase _ _ _ _ _); try discriminate; cbn [in_phase] in I; tauto.
Qed.
Print Assumptions C33_buffered_input_partial.

Example C33_example : exists r answers,
  run call_input (new_resource A_J 1 4) (read_calls [(repeat 0%N 3, 3); (repeat 0%N 9, 4); (repeat 0%N 4, 4)]) = Ok (r, answers) /\
  received answers = [[65; 66; 67]; [68; 69; 70; 71]; [72; 73; 74]]%N /\
  blocks A_J [3; 4; 4] = received answers.
Proof. eexists. eexists. split; [vm_compute; reflexivity|]. split; [vm_compute; reflexivity|]. vm_compute. reflexivity. Qed.

Example C33_example_meets : large_enough [(repeat 0%N 3, 3); (repeat 0%N 9, 4); (repeat 0%N 4, 4)] /\
  Forall (fun '(_, n) => n <= Z.of_nat 4) [(repeat 0%N 3, 3); (repeat 0%N 9, 4); (repeat 0%N 4, 4)].
Proof. split; repeat constructor; vm_compute; discriminate. Qed.

(** For every non-empty content and every capacity, a first read longer than the
    buffer and its filling returns the beginning of the content twice. *)
Theorem C33_long_read : forall cap l block n, (0 < cap)%nat -> len l * 2 < 2 ^ 63 -> n <= len block ->
  Z.of_nat cap + Z.min (Z.of_nat cap) (len l) < n ->
  let received := take (Z.of_nat cap) l ++ take (n - Z.min (Z.of_nat cap) (len l)) l in
  exists r, read container_ops (new_resource l 1 cap) block n
    = Ok (r, received ++ drop (len received) block, len received).
Proof.
  intros cap l block n C B N L. pose proof (len_nonneg l).
  assert (T : take (Z.of_nat cap) l = take (Z.min (Z.of_nat cap) (len l)) l).
  { destruct (Z.le_ge_cases (Z.of_nat cap) (len l)).
    - now rewrite Z.min_l by lia.
    - rewrite Z.min_r by lia. now rewrite !take_all by lia. }
  rewrite T. apply long_read; try assumption. lia.
Qed.
Print Assumptions C33_long_read.

Theorem C33_buffered_input_refuted : exists r,
  read container_ops (new_resource [65; 66; 67]%N 1 4) (repeat 0%N 10) 10
  = Ok (r, [65; 66; 67; 65; 66; 67; 0; 0; 0; 0]%N, 6).
Proof. eexists. vm_compute. reflexivity. Qed.
Print Assumptions C33_buffered_input_refuted.

(** Containers of elements of w bytes are read in order too.
    Partial: as C33. *)
Theorem C35_wide_elements_partial : forall w cap l rs, 1 <= w -> (w | len l) -> len l * (w + 1) < 2 ^ 63 ->
  large_enough rs -> (cap = 0%nat \/ Forall (fun '(_, n) => n <= Z.of_nat cap) rs) ->
  exists r answers, run call_input (new_resource l w cap) (read_calls rs) = Ok (r, answers) /\
    received answers = blocks l (map snd rs) /\ content (inner r) = l.
Proof.
  intros w cap l rs W D B G C. assert (S := fresh w cap l W D B).
  destruct (reading_calls w (Z.of_nat cap) rs l 0 Neutral G (Z.le_refl 0)) as (A & X & F & V); auto.
  { destruct C as [-> |C]; auto. }
  destruct (input_run _ _ _ _ _ _ S A F) as (r & R & Sr & P); [reflexivity|].
  eexists. eexists. split; [exact R|]. split; [exact X|].
  destruct Sr as [_ _ _ _ _ _ _ I]. rewrite <- V. destruct (last_phase _ _ _ _ _); try discriminate; cbn [in_phase] in I; tauto.
Qed.
Print Assumptions C35_wide_elements_partial.

Example C35_example : exists r answers,
  run call_input (new_resource A_J 2 4) (read_calls [(repeat 0%N 3, 3); (repeat 0%N 9, 4); (repeat 0%N 4, 4)]) = Ok (r, answers) /\
  received answers = [[65; 66; 67]; [68; 69; 70; 71]; [72; 73; 74]]%N.
Proof. eexists. eexists. split; [vm_compute; reflexivity|]. vm_compute. reflexivity. Qed.

(** A read longer than the buffer starts outside the container. *)
Theorem C35_wide_elements_refuted :
  read container_ops (new_resource [65; 0; 66; 0]%N 2 2) (repeat 0%N 5) 5 = UB OutOfBoundsRead.
Proof. vm_compute. reflexivity. Qed.
Print Assumptions C35_wide_elements_refuted.

(* ----------------------------------------------------------------- C34, C38 *)

(** For every history of reads and seeks on an input resource that follows the
    discipline of ResourceSpec, then a seek, the next read starts at the place
    asked for.
    Partial: reads are at most as long as the buffer (or there is none), seeks stay
    within the content, and seeks relative to the current position do not follow a
    buffered read. *)
Theorem C34_seek_input_partial : forall w cap l cs n o block k, 1 <= w -> (w | len l) -> len l * (w + 1) < 2 ^ 63 ->
  forallb for_input cs = true ->
  all_allowed w (Z.of_nat cap) (Store l 0) Neutral (cs ++ [SetPosition n o]) ->
  0 <= k <= len block -> cap = 0%nat \/ k <= Z.of_nat cap ->
  let s := fst (expected_calls w (Store l 0) cs) in
  let place := match o with Begin => n * w | End => len l - n * w | Current => at_ s + n * w end in
  exists r answers r' block', run call_input (new_resource l w cap) (cs ++ [SetPosition n o]) = Ok (r, answers) /\
    read container_ops r block k = Ok (r', block', len (take k (drop place l))) /\
    block' = take k (drop place l) ++ drop (len (take k (drop place l))) block.
Proof.
  intros w cap l cs n o block k W D B F A K C s place. assert (S := fresh w cap l W D B).
  assert (F' : forallb for_input (cs ++ [SetPosition n o]) = true) by (rewrite forallb_app, F; reflexivity).
  destruct (input_run _ _ _ _ _ _ S A F') as (r & R & Sr & P); [reflexivity|].
  assert (Ls : forall cs s, forallb for_input cs = true -> bytes (fst (expected_calls w s cs)) = bytes s).
  { clear. induction cs as [|c cs IH]; intros s F; [reflexivity|]. cbn [forallb] in F. apply andb_true_iff in F. destruct F as [Fc F].
    cbn [expected_calls]. specialize (IH (fst (expected_call w s c)) F).
    assert (bytes (fst (expected_call w s c)) = bytes s) by (destruct c; try discriminate; reflexivity).
    destruct (expected_call w s c) as [s1 a]. cbn [fst] in *. destruct (expected_calls w s1 cs). cbn [fst] in *. congruence. }
  assert (App : forall cs s p, fst (expected_calls w s (cs ++ [SetPosition n o]))
      = fst (expected_call w (fst (expected_calls w s cs)) (SetPosition n o)) /\
      last_phase w (Z.of_nat cap) s p (cs ++ [SetPosition n o]) = Neutral).
  { clear. induction cs as [|c cs IH]; intros s p.
    - cbn [app expected_calls last_phase]. split; [reflexivity|]. apply next_phase_seek.
    - cbn [app expected_calls last_phase]. destruct (expected_call w s c) as [s1 a] eqn:E. cbn [fst].
      destruct (IH s1 (next_phase (Z.of_nat cap) s p c)) as [X Y]. split; [|exact Y].
      destruct (expected_calls w s1 (cs ++ [SetPosition n o])), (expected_calls w s1 cs). cbn [fst] in *. exact X. }
  destruct (App cs (Store l 0) Neutral) as [Fs Np]. rewrite Fs, Np in Sr. fold s in Sr.
  assert (Bs : bytes s = l) by (apply (Ls cs (Store l 0) F)).
  cbn [expected_call fst] in Sr. rewrite Bs in Sr.
  replace (target w s n o) with place in Sr by (unfold place, target; rewrite Bs; reflexivity).
  destruct (read_step _ _ _ _ _ block k Sr K) as (r' & Er & _); [destruct C as [-> |C]; auto|auto|].
  cbn [next_bytes bytes at_] in Er. unfold next_bytes in Er. cbn [bytes at_] in Er.
  eexists. eexists. eexists. eexists. split; [exact R|]. split; [exact Er|reflexivity].
Qed.
Print Assumptions C34_seek_input_partial.

Example C34_example :
  all_allowed 1 4 (Store A_J 0) Neutral ([Read (repeat 0%N 3) 3; SetPosition 7 Begin; SetPosition (-2) Current; Read (repeat 0%N 3) 2] ++ [SetPosition 2 End]) /\
  exists r answers r',
    run call_input (new_resource A_J 1 4) ([Read (repeat 0%N 3) 3; SetPosition 7 Begin; SetPosition (-2) Current; Read (repeat 0%N 3) 2] ++ [SetPosition 2 End]) = Ok (r, answers) /\
    received answers = [[65; 66; 67]; [70; 71]]%N /\
    read container_ops r (repeat 0%N 4) 4 = Ok (r', [73; 74; 0; 0]%N, 2).
Proof.
  split.
  - cbn; repeat split; try discriminate; try lia; try congruence; auto.
  - eexists. eexists. eexists. split; [vm_compute; reflexivity|]. split; [vm_compute; reflexivity|]. vm_compute. reflexivity.
Qed.

(** A seek relative to the current position after a buffered read goes elsewhere:
    after reading A, one step forward from B should lead to C but leads to B. *)
Theorem C34_current_refuted : exists r,
  run call_input (new_resource A_J 1 4) [Read [0]%N 1; SetPosition 1 Current; Read [0]%N 1]
  = Ok (r, [Got [65]%N 1; Done; Got [66]%N 1]).
Proof. eexists. vm_compute. reflexivity. Qed.
Print Assumptions C34_current_refuted.

(** For every content, a read after a seek past the end is undefined behaviour. *)
Theorem C34_past_end : forall cap l n block k, (0 < cap)%nat -> len l < n < 2 ^ 62 ->
  exists r, run call_input (new_resource l 1 cap) [SetPosition n Begin] = Ok (r, [Done]) /\
    read container_ops r block k = UB OutOfBoundsRead.
Proof.
  intros cap l n block k C H. pose proof (len_nonneg l). eexists. split; [reflexivity|].
  unfold call_input, seek_input, new_resource. cbn [inner buf reference].
  unfold set_position_raw. cbn [elem content]. rewrite Z.mul_1_r, convert_I64 by lia.
  unfold read. cbn [buf]. unfold capacity, set_read_dirty, new_buffer. cbn [mem]. unfold size_of.
  rewrite repeat_length. replace (0 <? Z.of_nat cap) with true by lia.
  unfold read_buffered. cbn [buf read_dirty]. unfold fill, container_ops, capacity. cbn [raw_read inner buf mem].
  unfold size_of. rewrite repeat_length. unfold container_read. cbn [last_fill]. change (0 <? 0) with false. cbv iota zeta.
  cbn [content position]. rewrite as_size_pos by lia. change size_of with len.
  replace (len l <? n + Z.of_nat cap) with true by lia. unfold as_size.
  replace (len l - n <? 0) with true by lia. unfold memcpy, slice. change size_of with len.
  replace ((0 <=? n) && (0 <=? len l - n + 2 ^ 64) && (n + (len l - n + 2 ^ 64) <=? len l)) with false by lia.
  reflexivity.
Qed.
Print Assumptions C34_past_end.

(** In every state whatever (sizes below 2^62), a read that returns reports at most
    what was asked, keeps the block's size and changes nothing after the reported
    bytes. *)
Theorem C38_at_most_requested : forall r block n r' block' k,
  bounded r -> 0 <= n < 2 ^ 62 -> read container_ops r block n = Ok (r', block', k) ->
  0 <= k <= n /\ len block' = len block /\ drop k block' = drop k block.
Proof.
  intros r block n r' block' k B N H. destruct (read_modest _ _ _ _ _ _ H N B) as (X1 & X2 & X3 & X4 & _).
  rewrite Z.add_0_l in *. repeat split; try assumption; lia.
Qed.
Print Assumptions C38_at_most_requested.

(** After every disciplined history a read reports at most what is left, and 0 at
    the end.
    Partial: as C34; and C38_remaining_refuted. *)
Theorem C38_remaining_partial : forall w cap l cs block n, 1 <= w -> (w | len l) -> len l * (w + 1) < 2 ^ 63 ->
  all_allowed w (Z.of_nat cap) (Store l 0) Neutral (cs ++ [Read block n]) ->
  let s := fst (expected_calls w (Store l 0) cs) in
  exists r answers r' block' k, run call_io (new_resource l w cap) cs = Ok (r, answers) /\
    read container_ops r block n = Ok (r', block', k) /\
    k = Z.min n (len (bytes s) - at_ s) /\ take k block' = take n (drop (at_ s) (bytes s)) /\
    drop k block' = drop k block.
Proof.
  intros w cap l cs block n W D B A s. assert (S := fresh w cap l W D B).
  assert (Sp : all_allowed w (Z.of_nat cap) (Store l 0) Neutral cs /\
    allowed w (Z.of_nat cap) s (last_phase w (Z.of_nat cap) (Store l 0) Neutral cs) (Read block n)).
  { unfold s. clear s S. revert A. generalize (Store l 0) as s. generalize Neutral as p.
    induction cs as [|c cs IH]; intros p s A; cbn [app all_allowed expected_calls fst last_phase] in *; [tauto|].
    destruct A as [A1 A2]. specialize (IH _ _ A2). destruct (expected_call w s c) as [s1 a]. cbn [fst] in *.
    destruct (expected_calls w s1 cs). cbn [fst] in *. tauto. }
  destruct Sp as [A1 A2]. destruct (io_run _ _ _ _ _ _ S A1) as (r & R & Sr). fold s in Sr.
  cbn [allowed] in A2. destruct A2 as (N1 & N2 & N3).
  destruct (read_step _ _ _ _ _ block n Sr N1 N2 N3) as (r' & Er & _).
  eexists. eexists. eexists. eexists. eexists. split; [exact R|]. split; [exact Er|].
  assert (At := sf_at _ _ _ _ _ Sr). split; [apply len_next; [assumption|lia]|]. split.
  - apply take_app_exact.
  - apply drop_app_exact.
Qed.
Print Assumptions C38_remaining_partial.

Example C38_example :
  all_allowed 1 4 (Store A_J 0) Neutral ([SetPosition 0 End] ++ [Read [1; 2; 3; 4]%N 4]) /\
  exists r a r', run call_io (new_resource A_J 1 4) [SetPosition 0 End] = Ok (r, a) /\
    read container_ops r [1; 2; 3; 4]%N 4 = Ok (r', [1; 2; 3; 4]%N, 0).
Proof.
  split.
  - cbn; repeat split; try discriminate; try lia; auto.
  - eexists. eexists. eexists. split; [vm_compute; reflexivity|]. vm_compute. reflexivity.
Qed.

Example C38_example_bounded : bounded (new_resource A_J 1 4).
Proof. vm_compute. repeat split; discriminate || reflexivity. Qed.

(** Three bytes are there, six are reported. *)
Theorem C38_remaining_refuted : exists r block,
  read container_ops (new_resource [65; 66; 67]%N 1 4) (repeat 0%N 10) 10 = Ok (r, block, 6).
Proof. eexists. eexists. vm_compute. reflexivity. Qed.
Print Assumptions C38_remaining_refuted.

(* ----------------------------------------------------------------------- C36 *)

(** An unbuffered container resource with the given content, at position p. *)
Definition placed (l : list N) (w p : Z) : resource container := Resource (Container l w p 0) (new_buffer 0).

(** A write within the content, or of whole elements at its end, replaces and
    extends exactly.
    Partial: C36_straddling, C36_gap and C36_broken_element say what happens
    otherwise. *)
Theorem C36_exact_partial : forall l w p d, 1 <= w ->
  0 <= p /\ p + len d <= len l \/ p = len l /\ (w | len d) ->
  write container_ops (placed l w p) d = Ok (placed (overwrite l p d) w (p + len d), len d).
Proof.
  intros l w p d W H. unfold write, placed. cbn [buf inner].
  change (0 <? capacity (new_buffer 0)) with false. cbv iota. unfold container_ops. cbn [raw_write].
  destruct H as [[H1 H2]|[-> H]].
  - rewrite in_place by (cbn; assumption). reflexivity.
  - rewrite at_the_end by (cbn; assumption || reflexivity). cbn [bind content elem position last_fill].
    now rewrite overwrite_end.
Qed.
Print Assumptions C36_exact_partial.

Example C36_example : write container_ops (placed A_J 1 8) [1; 2]%N
  = Ok (placed [65; 66; 67; 68; 69; 70; 71; 72; 1; 2]%N 1 10, 2) /\
  write container_ops (placed A_J 2 10) [1; 2]%N = Ok (placed (A_J ++ [1; 2]%N) 2 12, 2).
Proof. split; [vm_compute; reflexivity|]. vm_compute. reflexivity. Qed.

(** A write of whole elements from before the end to past it extends the content by
    too much: as many zeros follow as bytes were overwritten. *)
Theorem C36_straddling : forall l w p d, 1 <= w -> 0 <= p -> p <= len l < p + len d -> (w | len d) ->
  write container_ops (placed l w p) d
  = Ok (placed (overwrite l p d ++ repeat 0%N (Z.to_nat (len l - p))) w (p + len d), len d).
Proof.
  intros l w p d W P H D. unfold write, placed. cbn [buf inner].
  change (0 <? capacity (new_buffer 0)) with false. cbv iota. unfold container_ops. cbn [raw_write].
  rewrite straddling by (cbn [content elem position]; try assumption; lia). cbn [bind content elem position last_fill].
  unfold overwrite. rewrite (drop_all _ l) by lia. rewrite app_nil_r. now rewrite <- app_assoc.
Qed.
Print Assumptions C36_straddling.

Theorem C36_exact_refuted : exists l, l <> overwrite [97; 98]%N 1 [1; 2]%N /\
  write container_ops (placed [97; 98]%N 1 1) [1; 2]%N = Ok (placed l 1 3, 2).
Proof. exists [97; 1; 2; 0]%N. split; [vm_compute; discriminate|]. vm_compute. reflexivity. Qed.
Print Assumptions C36_exact_refuted.

(** Writing past the end writes outside the container. *)
Theorem C36_gap : forall l w p d, 1 <= w -> len l < p -> write container_ops (placed l w p) d = UB OutOfBoundsWrite.
Proof.
  intros l w p d W H. pose proof (len_nonneg l). pose proof (len_nonneg d).
  unfold write, placed. cbn [buf inner].
  change (0 <? capacity (new_buffer 0)) with false. cbv iota. unfold container_ops. cbn [raw_write].
  unfold container_write. cbn [content elem position]. change size_of with len. rewrite as_size_pos by lia.
  replace (len l <? p + len d) with true by lia. cbv zeta. unfold blit. change size_of with len.
  rewrite len_app, len_repeat by (apply Z.mul_nonneg_nonneg; [apply Z.div_pos|]; lia).
  assert (len d / w * w <= len d) by (rewrite Z.mul_comm; apply Z.mul_div_le; lia).
  replace ((0 <=? p) && (p + len d <=? len l + len d / w * w)) with false by lia. reflexivity.
Qed.
Print Assumptions C36_gap.

(** So does writing part of an element at the end. *)
Theorem C36_broken_element : forall l w d, 1 <= w -> ~ (w | len d) ->
  write container_ops (placed l w (len l)) d = UB OutOfBoundsWrite.
Proof.
  intros l w d W H. pose proof (len_nonneg l). pose proof (len_nonneg d).
  assert (len d / w * w < len d).
  { assert (len d / w * w <= len d) by (rewrite Z.mul_comm; apply Z.mul_div_le; lia).
    destruct (Z.eq_dec (len d / w * w) (len d)) as [E|E]; [|lia]. exfalso. apply H. exists (len d / w). lia. }
  assert (0 < len d) by (destruct (Z.eq_dec (len d) 0) as [E|E]; [exfalso; apply H; rewrite E; exists 0; reflexivity|lia]).
  unfold write, placed. cbn [buf inner].
  change (0 <? capacity (new_buffer 0)) with false. cbv iota. unfold container_ops. cbn [raw_write].
  unfold container_write. cbn [content elem position]. change size_of with len. rewrite as_size_pos by lia.
  replace (len l <? len l + len d) with true by lia. cbv zeta. unfold blit. change size_of with len.
  rewrite len_app, len_repeat by (apply Z.mul_nonneg_nonneg; [apply Z.div_pos|]; lia).
  replace ((0 <=? len l) && (len l + len d <=? len l + len d / w * w)) with false by lia. reflexivity.
Qed.
Print Assumptions C36_broken_element.

Example C36_broken_example : write container_ops (placed A_J 2 10) [1; 2; 3]%N = UB OutOfBoundsWrite.
Proof. vm_compute. reflexivity. Qed.

(* ----------------------------------------------------------------------- C37 *)

(** For every interleaving of reads, writes, flushes and seeks on a read/write
    resource that follows the discipline of ResourceSpec, every answer is that of a
    store without a buffer, and after a flush or seek the container is the store.
    Partial: between reading and writing there must be a seek, and between writing
    and reading a seek or a flush; reads are at most as long as the buffer; writes
    do not straddle the end (C36). *)
Theorem C37_coherent_partial : forall w cap l cs, 1 <= w -> (w | len l) -> len l * (w + 1) < 2 ^ 63 ->
  all_allowed w (Z.of_nat cap) (Store l 0) Neutral cs ->
  let '(s, answers) := expected_calls w (Store l 0) cs in
  exists r r', run call_io (new_resource l w cap) cs = Ok (r, answers) /\
    flush container_ops r = Ok r' /\ content (inner r') = bytes s.
Proof.
  intros w cap l cs W D B A. assert (S := fresh w cap l W D B).
  destruct (io_run _ _ cs _ _ _ S A) as (r & R & Sr).
  destruct (expected_calls w (Store l 0) cs) as [s a]. cbn [fst snd] in *.
  destruct (flush_step _ _ _ _ _ Sr) as (r' & X & Y). exists r, r'. split; [exact R|]. split; [exact X|].
  destruct Y as [_ _ _ _ _ _ _ I]. destruct (last_phase _ _ _ _ _); cbn [in_phase] in I; tauto.
Qed.
Print Assumptions C37_coherent_partial.

Definition C37_script : list call :=
  [Read [0; 0; 0]%N 3; SetPosition 2 Begin; Write [9; 9]%N; Flush; Read [0; 0]%N 2; SetPosition 0 End;
   Write [7; 7; 7; 7; 7; 7]%N; SetPosition 8 Begin; Read [0; 0; 0; 0]%N 4].

Example C37_example :
  all_allowed 1 4 (Store A_J 0) Neutral C37_script /\
  received (snd (expected_calls 1 (Store A_J 0) C37_script)) = [[65; 66; 67]; [69; 70]; [73; 74; 7; 7]]%N.
Proof.
  split; [|vm_compute; reflexivity]. cbn; repeat split; try discriminate; try lia; try congruence; auto.
  exists 6. reflexivity.
Qed.

(** Reading after writing, without a seek or flush: the written byte is lost, and
    what a later flush writes is not what was written. *)
Theorem C37_lost_write_refuted : exists r,
  run call_io (new_resource [65; 66; 67; 68]%N 1 4) [Write [1]%N; Read [0]%N 1; Flush]
  = Ok (r, [Wrote 1; Got [65]%N 1; Done]) /\ content (inner r) = [65; 66; 67; 68]%N.
Proof. eexists. split; [vm_compute; reflexivity|]. vm_compute. reflexivity. Qed.
Print Assumptions C37_lost_write_refuted.

(** Writing after reading, without a seek: past the end of the buffer. *)
Theorem C37_overflow_refuted :
  run call_io (new_resource A_J 1 4) [Read [0; 0; 0]%N 3; Write [1; 2]%N] = UB OutOfBoundsWrite.
Proof. vm_compute. reflexivity. Qed.
Print Assumptions C37_overflow_refuted.

(** For every content and capacity: after reading at least one byte, a write that
    does not fit in the rest of the buffer but in the buffer writes outside it. *)
Theorem C37_overflow : forall cap l block n d, (0 < cap)%nat -> len l * 2 < 2 ^ 63 -> Z.of_nat cap <= len l ->
  0 <= n <= Z.of_nat cap -> n <= len block -> len d <= Z.of_nat cap < n + len d ->
  run call_io (new_resource l 1 cap) [Read block n; Write d] = UB OutOfBoundsWrite.
Proof.
  intros cap l block n d C B L N Nb Dl.
  assert (S := fresh 1 cap l (Z.le_refl 1) (Z.divide_1_l _) B).
  destruct (read_step _ _ _ _ _ block n S ltac:(lia) ltac:(lia) (or_introl eq_refl)) as (r & R & Sr).
  cbn [run call_io]. rewrite R. cbn [bind]. replace (Z.of_nat cap =? 0) with false in Sr by lia.
  assert (Ln : len (next_bytes (Store l 0) n) = n) by (rewrite len_next; cbn [bytes at_]; lia).
  destruct Sr as [W E K D A Bd U I]. cbn [in_phase bytes at_] in I. rewrite Ln in I.
  destruct I as (I1 & I2 & I3 & I4 & I5 & I6 & I7 & I8 & I9 & I10).
  assert (Full : filled (buf r) = Z.of_nat cap /\ bpos (buf r) = n).
  { clear - R C L N Nb B S. unfold read in R.
    assert (K := sf_cap _ _ _ _ _ S). rewrite K in R. replace (0 <? Z.of_nat cap) with true in R by lia.
    unfold read_buffered in R. change (read_dirty (buf (new_resource l 1 cap))) with true in R. cbv iota in R.
    destruct (fill_ok 1 (Z.of_nat cap) (Store l 0) (new_resource l 1 cap) (Z.le_refl 1) eq_refl K eq_refl B)
      as (r1 & F & G1 & G2 & G3 & G4 & G5 & G6 & G7 & G8 & G9 & G10); cbn [bytes at_] in *; try lia; try reflexivity.
    rewrite F in R. cbn [bind] in R. assert (Fl : filled (buf r1) = Z.of_nat cap) by lia.
    rewrite G5 in R. replace (filled (buf r1) <? 0 + n) with false in R by lia.
    rewrite buffer_read_ok in R by lia. cbn [bind] in R. injection R as <- _ _. cbn [buf filled bpos]. lia. }
  destruct Full as [Fl Bp]. unfold write. rewrite K. replace (0 <? Z.of_nat cap) with true by lia.
  unfold write_buffered. rewrite K, Bp. change size_of with len.
  replace (Z.of_nat cap <? n + len d) with true by lia. unfold flush. rewrite I3. cbn [bind andb].
  replace (Z.of_nat cap <? len d) with false by lia. unfold buffer_write, blit. rewrite Bp. change size_of with len.
  unfold capacity in K. change size_of with len in K. rewrite K.
  replace ((0 <=? n) && (n + len d <=? Z.of_nat cap)) with false by lia. reflexivity.
Qed.
Print Assumptions C37_overflow.

(** Reading after read, write and flush: stale and displaced bytes. *)
Theorem C37_stale_refuted : exists r,
  run call_io (new_resource [65; 66; 67; 68]%N 1 4) [Read [0]%N 1; Write [1]%N; Flush; Read [0]%N 1]
  = Ok (r, [Got [65]%N 1; Wrote 1; Done; Got [65]%N 1]) /\ content (inner r) = [65; 1; 67; 68]%N.
Proof. eexists. split; [vm_compute; reflexivity|]. vm_compute. reflexivity. Qed.
Print Assumptions C37_stale_refuted.

(* ----------------------------------------------------------------------- C39 *)

(** With an output resource over an empty byte container tied to it, every read on
    the input resource - whatever its size - finds everything written so far in that
    container; for every interleaving and both capacities. *)
Theorem C39_delivers : forall cap ocap l cs outs answers, len (written cs) * 2 < 2 ^ 63 ->
  run_tied (new_resource l 1 cap) (new_resource [] 1 ocap) cs = Ok (outs, answers) ->
  outs = delivered [] cs.
Proof.
  intros cap ocap l cs outs answers Bw H.
  assert (So := fresh 1 ocap [] (Z.le_refl 1) (Z.divide_1_l _) ltac:(cbn; lia)).
  change (Store [] 0) with (Store [] (len [])) in So.
  exact (tied_delivers _ cs [] _ _ _ _ _ So (or_introl eq_refl) Bw H).
Qed.
Print Assumptions C39_delivers.

(** And the tie does not disturb the reads: they return what they return without
    it (reads as in C33). *)
Theorem C39_tied : forall cap ocap l cs, len l * 2 < 2 ^ 63 -> len (written cs) * 2 < 2 ^ 63 ->
  large_enough (reads cs) -> (cap = 0%nat \/ Forall (fun '(_, n) => n <= Z.of_nat cap) (reads cs)) ->
  exists answers, run_tied (new_resource l 1 cap) (new_resource [] 1 ocap) cs = Ok (delivered [] cs, answers) /\
    received answers = blocks l (map snd (reads cs)).
Proof.
  intros cap ocap l cs B Bw G C.
  assert (S := fresh 1 cap l (Z.le_refl 1) (Z.divide_1_l _) B).
  assert (So := fresh 1 ocap [] (Z.le_refl 1) (Z.divide_1_l _) ltac:(cbn; lia)).
  change (Store [] 0) with (Store [] (len [])) in So.
  apply (tied_run _ _ cs l 0 [] _ _ _ _ S (or_introl eq_refl) So (or_introl eq_refl)); auto.
  destruct C as [-> |C]; auto.
Qed.
Print Assumptions C39_tied.

Example C39_example : exists answers,
  run_tied (new_resource A_J 1 4) (new_resource [] 1 8)
    [WriteOut [1; 2]; ReadIn [0; 0] 2; WriteOut [3]; WriteOut [4]; ReadIn [0; 0; 0] 3]%N
  = Ok ([[1; 2]; [1; 2; 3; 4]]%N, answers) /\ received answers = [[65; 66]; [67; 68; 69]]%N.
Proof. eexists. split; [vm_compute; reflexivity|]. vm_compute. reflexivity. Qed.

(* ------------------------------------------------------------------ C61, C62 *)

(** After every disciplined history get_position() is the current position and
    is_at_end() tells whether it is the end.
    Partial: while reading wide elements through a buffer the position is wrong,
    and while appending is_at_end ignores what is pending. *)
Theorem C61_position_partial : forall w cap l cs, 1 <= w -> (w | len l) -> len l * (w + 1) < 2 ^ 63 ->
  all_allowed w (Z.of_nat cap) (Store l 0) Neutral cs ->
  let s := fst (expected_calls w (Store l 0) cs) in
  let p := last_phase w (Z.of_nat cap) (Store l 0) Neutral cs in
  exists r a, run call_io (new_resource l w cap) cs = Ok (r, a) /\
    (w = 1 \/ p <> Reading -> get_position r = at_ s) /\
    (w = 1 \/ p <> Reading -> p <> Appending -> is_at_end r = (at_ s =? len (bytes s))).
Proof.
  intros w cap l cs W D B A s p. assert (S := fresh w cap l W D B).
  destruct (io_run _ _ cs _ _ _ S A) as (r & R & Sr). fold s p in Sr.
  eexists. eexists. split; [exact R|]. split; intros.
  - exact (position_ok _ _ _ _ _ Sr H).
  - exact (at_end_ok _ _ _ _ _ Sr H H0).
Qed.
Print Assumptions C61_position_partial.

Example C61_example : exists r a,
  run call_io (new_resource A_J 1 4) C37_script = Ok (r, a) /\ get_position r = 12 /\ is_at_end r = false.
Proof. eexists. eexists. split; [vm_compute; reflexivity|]. split; [vm_compute; reflexivity|]. vm_compute. reflexivity. Qed.

(** Two bytes of a wide string read: the reported position is -2.  At its end: not
    at the end. *)
Theorem C61_position_refuted : exists r a, 
  run call_input (new_resource [65; 0; 66; 0; 67; 0; 68; 0]%N 2 4) [Read [0; 0]%N 2] = Ok (r, a) /\ get_position r = -2.
Proof. eexists. eexists. split; [vm_compute; reflexivity|]. vm_compute. reflexivity. Qed.
Print Assumptions C61_position_refuted.

Theorem C61_at_end_refuted : exists r a,
  run call_input (new_resource [65; 0]%N 2 4) [Read [0; 0]%N 2] = Ok (r, a) /\ is_at_end r = false.
Proof. eexists. eexists. split; [vm_compute; reflexivity|]. vm_compute. reflexivity. Qed.
Print Assumptions C61_at_end_refuted.

(** go_back(n) and go_forward(n) with n in range move by n elements if there is no
    buffer, or if nothing was read or written since the last seek (or flush).
    Partial: C62_go_back_refuted. *)
Theorem C62_go_back_forward_partial : forall w cap l cs n, 1 <= w -> (w | len l) -> len l * (w + 1) < 2 ^ 63 ->
  all_allowed w (Z.of_nat cap) (Store l 0) Neutral (cs ++ [n]) ->
  (exists k, n = GoBack k \/ n = GoForward k) ->
  let s := fst (expected_calls w (Store l 0) cs) in
  exists r a, run call_io (new_resource l w cap) (cs ++ [n]) = Ok (r, a) /\
    content (inner r) = bytes s /\
    get_position r = match n with GoBack k => at_ s - k * w | GoForward k => at_ s + k * w | _ => 0 end.
Proof.
  intros w cap l cs n W D B A Hn s. assert (S := fresh w cap l W D B).
  destruct (io_run _ _ _ _ _ _ S A) as (r & R & Sr). eexists. eexists. split; [exact R|].
  assert (App : forall cs s p, all_allowed w (Z.of_nat cap) s p (cs ++ [n]) ->
      fst (expected_calls w s (cs ++ [n])) = fst (expected_call w (fst (expected_calls w s cs)) n) /\
      last_phase w (Z.of_nat cap) s p (cs ++ [n]) = Neutral).
  { clear - Hn. induction cs as [|c cs IH]; intros s p A.
    - cbn [app expected_calls last_phase all_allowed fst] in *. destruct A as [A _]. split.
      + now destruct (expected_call w s n).
      + destruct Hn as [k [-> | ->]]; cbn [allowed] in A; destruct A as [_ ->]; unfold next_phase; now destruct (_ =? 0).
    - cbn [app expected_calls last_phase all_allowed] in *. destruct A as [_ A]. destruct (expected_call w s c) as [s1 a] eqn:E. cbn [fst] in *.
      destruct (IH s1 _ A) as [X Y]. split; [|exact Y].
      destruct (expected_calls w s1 (cs ++ [n])), (expected_calls w s1 cs). cbn [fst] in *. exact X. }
  destruct (App cs _ _ A) as [Fs Np]. rewrite Fs, Np in Sr. fold s in Sr.
  assert (NR : Neutral <> Reading) by discriminate.
  assert (Ps := position_ok _ _ _ _ _ Sr (or_intror NR)). rewrite Ps.
  destruct Sr as [_ _ _ _ _ _ _ I]. cbn [in_phase] in I. destruct I as (I1 & _). rewrite I1.
  destruct Hn as [k [-> | ->]]; cbn [expected_call fst bytes at_ target]; split; lia || reflexivity.
Qed.
Print Assumptions C62_go_back_forward_partial.

Example C62_example :
  all_allowed 1 0 (Store A_J 0) Neutral ([Read [0; 0; 0]%N 3] ++ [GoBack 2]) /\
  exists r a, run call_io (new_resource A_J 1 0) [Read [0; 0; 0]%N 3; GoBack 2; Read [0; 0]%N 2]
  = Ok (r, a) /\ received a = [[65; 66; 67]; [66; 67]]%N.
Proof.
  split.
  - cbn; repeat split; try discriminate; try lia; auto.
  - eexists. eexists. split; [vm_compute; reflexivity|]. vm_compute. reflexivity.
Qed.

(** With a buffer, go_back after a read has no effect on the next read, and bytes
    are skipped or read twice when the buffer is filled again: the content is
    ABCDEFGHIJ, A is read, one step back should give A again but B follows; then
    the next filling starts at position -1. *)
Theorem C62_go_back_refuted :
  (exists r a, run call_io (new_resource A_J 1 4) [Read [0]%N 1; GoBack 1; Read [0]%N 1] = Ok (r, a) /\
    received a = [[65]; [66]]%N) /\
  run call_io (new_resource A_J 1 4) [Read [0]%N 1; GoBack 1; Read [0; 0; 0; 0]%N 4] = UB OutOfBoundsRead.
Proof. split; [eexists; eexists; split; [vm_compute; reflexivity|]; vm_compute; reflexivity|vm_compute; reflexivity]. Qed.
Print Assumptions C62_go_back_refuted.
