(** Values passed on through a container or a file to a reader that does not wait (C167, C168). *)
From Coq Require Import NArith ZArith List Bool Lia ZifyBool ZifyNat ZifyN.
From Verif Require Import Base Integers UnicodeModel ResourceSpec ResourceModel ResourceText
  FileSpec FileModel FileText StreamSpec StreamModel StreamText SharedSpec SharedModel.
From Verif Require Import ResourceLemmas FileLemmas SharedLemmas StreamLemmas TextFileLemmas2 FollowText TextFileProps RelayText RelayLemmas.
From Verif Require Import PassSpec PassText PassLemmas PassLemmas2.
Import ListNotations.
Open Scope Z_scope.

Lemma len_value_bytes : forall native size l, len (value_bytes native size 0 l) = bytes_of_values size (length l).
Proof.
  intros native size l. induction l as [|v l IH] using rev_ind; [reflexivity|].
  rewrite value_bytes_app, len_app, IH, app_length, Nat.add_1_r. cbn [value_bytes bytes_of_values plus].
  now rewrite app_nil_r, len_in_order.
Qed.

Lemma bytes_more : forall size a b, bytes_of_values size a <= bytes_of_values size (a + b).
Proof.
  intros size a b. induction b as [|b IH]; [rewrite Nat.add_0_r; lia|]. rewrite Nat.add_succ_r. cbn [bytes_of_values]. lia.
Qed.

(** C167.  Values are in a container.  A data stream writes more values of any types behind
    them, another one tries to read values of the same types from the beginning, at any
    time, and flushes happen at any time.  For all buffer capacities (the input's holding the
    largest value, C33) a try that comes too early throws the exception for reading past the
    end and nothing is lost by it: whatever is read is the next value that was written, in
    full.  A try does not fail if the next value was there at first or was flushed.  When
    the program ends, wherever that is, whole values are in the container.  Both streams have the byte order of
    the machine. *)
Theorem C167_values_passed_on : forall native size wcap rcap old acts,
  sizes_fit size rcap -> values_fit size (old ++ all_values acts) ->
  bytes_of_values size (length (old ++ all_values acts)) < 2 ^ 62 ->
  exists s replies rest, pass_on native size wcap rcap old acts = Ok (s, replies) /\
    passes (length old) old acts replies rest /\
    whole_values native size (old ++ all_values acts) (owned s).
Proof.
  intros native size wcap rcap old acts Sz Fit L. unfold pass_on.
  assert (L0 : len (value_bytes native size 0 old) < 2 ^ 62).
  { rewrite len_value_bytes. rewrite app_length in L. pose proof (bytes_more size (length old) (length (all_values acts))). lia. }
  destruct (piped_start 1 wcap rcap (value_bytes native size 0 old)) as (s & E & V & O); [lia|apply Z.divide_1_l|lia|].
  rewrite E. cbn [bind].
  destruct (pass_runs native size _ _ _ _ _ _ (container_passage (Z.of_nat wcap) (Z.of_nat rcap))) with
    (acts := acts) (P := @nil N) (U := old) (V := old) (s := s) (sure := length old) as (s' & replies & P' & U' & V' & E' & H & Hd & Al); cbn [app].
  - intro i. destruct (Sz i) as [A B]. unfold biggest_read, roomy in *. destruct (Z.eqb_spec (Z.of_nat rcap) 0); lia.
  - exact Fit.
  - now rewrite len_value_bytes.
  - constructor; [split; [exact V|exact O]|]. exists []. now rewrite app_nil_r.
  - lia.
  - exists s', replies, U'. split; [exact E'|]. split; [exact H|].
    pose proof (held_whole _ _ _ _ _ _ _ _ _ Hd Al) as W. destruct Hd as [[_ ->] _]. exact W.
Qed.
Print Assumptions C167_values_passed_on.

(** Values of one and of four bytes in turn, buffers of 6 and 4 bytes: the second try is too
    early, the buffer is written through when the fourth value does not fit, the last two
    are there after the flush. *)
Definition one_and_four (i : nat) : nat := if Nat.even i then 1%nat else 4%nat.
Definition some_acts : list act :=
  [TriesValue; TriesValue; Puts 4000000000; TriesValue; Puts 7; Puts 1234567; TriesValue; TriesValue; TriesValue; Publishes; TriesValue;
   TriesValue].

Example C167_hypotheses : sizes_fit one_and_four 4 /\ values_fit one_and_four ([200]%N ++ all_values some_acts) /\
  bytes_of_values one_and_four (length ([200]%N ++ all_values some_acts)) < 2 ^ 62.
Proof.
  split; [|split].
  - intro i. unfold one_and_four, roomy. destruct (Nat.even i); lia.
  - intros i v H. do 4 (destruct i as [|i]; [injection H as <-; reflexivity|]). destruct i; discriminate H.
  - reflexivity.
Qed.

Example C167_case : match pass_on StreamSpec.LittleEndian one_and_four 6 4 [200]%N some_acts with
  | Ok (s, replies) => (owned s, replies) | _ => ([], []) end
  = ([200; 0; 40; 107; 238; 7; 135; 214; 18; 0]%N,
     [Value 200; TooEarly; TooEarly; Value 4000000000; Value 7; TooEarly; Value 1234567; TooEarly]).
Proof. vm_compute. reflexivity. Qed.

(** C168.  The same with a file, which is there or will be created: one file object writes
    at its end, another one reads from its beginning.  The operating system does all it is
    asked to do, and the buffers are not larger than one transfer. *)
Theorem C168_values_through_a_file : forall pl native w q mw mr how wcap rcap size old acts,
  disk w q = Some (value_bytes native size 0 old) \/ disk w q = None /\ how = Create /\ old = [] ->
  obliging w -> mode_writes mw = true -> mode_reads mr = true ->
  Z.of_nat wcap <= chunk_max pl -> Z.of_nat rcap <= chunk_max pl ->
  sizes_fit size rcap -> values_fit size (old ++ all_values acts) ->
  bytes_of_values size (length (old ++ all_values acts)) < 2 ^ 63 ->
  exists d replies rest bytes, pass_on_file pl w q mw mr how wcap rcap native size old acts = Ok (d, replies) /\
    passes (length old) old acts replies rest /\
    disk (system d) q = Some bytes /\ whole_values native size (old ++ all_values acts) bytes.
Proof.
  intros pl native w q mw mr how wcap rcap size old acts D Ob Mw Mr C1 C2 Sz Fit L. unfold pass_on_file.
  assert (L0 : len (value_bytes native size 0 old) < 2 ^ 63).
  { rewrite len_value_bytes. rewrite app_length in L. pose proof (bytes_more size (length old) (length (all_values acts))). lia. }
  assert (D' : disk w q = Some (value_bytes native size 0 old) \/ disk w q = None /\ how = Create /\ value_bytes native size 0 old = [])
    by (destruct D as [D|(D1 & D2 & ->)]; auto).
  destruct (in_file_start pl w q mw mr how wcap rcap _ Mw D' L0 Ob C1 C2) as (f & g & E & H0).
  rewrite E. cbn [bind].
  destruct (pass_runs native size _ _ _ _ _ _ (file_passage pl (Z.of_nat wcap) (Z.of_nat rcap) q mw mr Mw Mr)) with
    (acts := acts) (P := @nil N) (U := old) (V := old) (s := Duo (system_of g) f g) (sure := length old)
    as (d & replies & P' & U' & V' & E' & H & Hd & Al); cbn [app].
  - intro i. destruct (Sz i) as [A B]. pose proof (chunk_100 pl). unfold file_biggest, roomy in *.
    destruct (Z.eqb_spec (Z.of_nat rcap) 0); lia.
  - exact Fit.
  - now rewrite len_value_bytes.
  - constructor; [exact H0|]. exists []. now rewrite app_nil_r.
  - lia.
  - exists d, replies, U', (value_bytes native size 0 (P' ++ V')). split; [exact E'|]. split; [exact H|].
    split; [|exact (held_whole _ _ _ _ _ _ _ _ _ Hd Al)]. destruct Hd as [F _]. exact (in_file_disk _ _ _ _ _ _ _ _ _ _ F).
Qed.
Print Assumptions C168_values_through_a_file.

(** The values of C167, in a file. *)
Example C168_case : forall pl,
  match pass_on_file pl (desk (Some [200]%N) None []) 1 WriteOnly ReadOnly Fail 6 4 StreamSpec.LittleEndian one_and_four [200]%N some_acts with
  | Ok (d, replies) => (disk (system d) 1%N, replies) | _ => (None, []) end
  = (Some [200; 0; 40; 107; 238; 7; 135; 214; 18; 0]%N,
     [Value 200; TooEarly; TooEarly; Value 4000000000; Value 7; TooEarly; Value 1234567; TooEarly]).
Proof. intros []; vm_compute; reflexivity. Qed.

Example C168_hypotheses : forall pl,
  let w := desk (Some [200]%N) None [] in
  disk w 1 = Some (value_bytes StreamSpec.LittleEndian one_and_four 0 [200]%N) /\ obliging w /\
  mode_writes WriteOnly = true /\ mode_reads ReadOnly = true /\ Z.of_nat 6 <= chunk_max pl /\ Z.of_nat 4 <= chunk_max pl.
Proof.
  intros pl w. split; [reflexivity|]. split; [|split; [reflexivity|split; [reflexivity|pose proof (chunk_100 pl); lia]]].
  constructor.
Qed.
