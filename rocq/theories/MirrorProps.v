(** Values passed on in the byte order that is not that of the machine (C170). *)
From Coq Require Import NArith ZArith List Bool Lia ZifyBool ZifyNat ZifyN.
From Verif Require Import Base Integers UnicodeModel ResourceSpec ResourceModel ResourceText
  FileSpec FileModel FileText StreamSpec StreamModel StreamText SharedSpec SharedModel FollowText TextFileProps RelayText.
From Verif Require Import PassSpec PassText PassProps MirrorSpec MirrorText MirrorLemmas.
Import ListNotations.
Open Scope Z_scope.

Lemma all_mirrored : forall size old acts,
  mirrored size 0 old ++ all_values (mirrored_acts size (length old) acts) = mirrored size 0 (old ++ all_values acts).
Proof. intros size old acts. now rewrite mirrored_values, mirrored_app. Qed.

Lemma whole_mirrored : forall o size l bytes, whole_values o size (mirrored size 0 l) bytes -> whole_values (opposite o) size l bytes.
Proof. intros o size l bytes (k & ->). exists k. now rewrite <- mirrored_firstn, mirrored_bytes. Qed.

(** C170.  "What C167 and C168 say holds, too, when both streams are given the byte order
    that is not that of the machine" is false (see below): every value that is read has its
    bytes in the opposite order.

    All the rest holds: the values are in the container in the byte order of the streams, always
    whole; what is read is exactly what C167 says, for values with their bytes reversed. *)
Theorem C170_container_partial : forall native size wcap rcap old acts,
  sizes_fit size rcap -> bytes_of_values size (length (old ++ all_values acts)) < 2 ^ 62 ->
  exists s replies rest, pass_on_in native (opposite native) size wcap rcap old acts = Ok (s, replies) /\
    passes (length old) (mirrored size 0 old) (mirrored_acts size (length old) acts) replies rest /\
    whole_values (opposite native) size (old ++ all_values acts) (owned s).
Proof.
  intros native size wcap rcap old acts Sz L.
  destruct (C167_values_passed_on native size wcap rcap (mirrored size 0 old) (mirrored_acts size (length old) acts)) as (s & replies & rest & E & P & W).
  - exact Sz.
  - rewrite all_mirrored. apply mirrored_fits.
  - now rewrite all_mirrored, mirrored_length.
  - rewrite all_mirrored in W. rewrite mirrored_length in P. exists s, replies, rest. split; [|split; [exact P|exact (whole_mirrored _ _ _ _ W)]].
    unfold pass_on_in. unfold pass_on in E. rewrite mirrored_bytes, mirrored_length in E.
    destruct (shared_seek _ _ _) as [s0| | | |]; try discriminate E. cbn [bind] in *.
    rewrite other_run; [exact E|exact shared_keeps|]. intro i. apply Sz.
Qed.
Print Assumptions C170_container_partial.

(** The same with a file. *)
Theorem C170_file_partial : forall pl native w q mw mr how wcap rcap size old acts,
  disk w q = Some (value_bytes (opposite native) size 0 old) \/ disk w q = None /\ how = Create /\ old = [] ->
  obliging w -> mode_writes mw = true -> mode_reads mr = true ->
  Z.of_nat wcap <= chunk_max pl -> Z.of_nat rcap <= chunk_max pl ->
  sizes_fit size rcap -> bytes_of_values size (length (old ++ all_values acts)) < 2 ^ 63 ->
  exists d replies rest bytes, pass_on_file_in pl w q mw mr how wcap rcap native (opposite native) size old acts = Ok (d, replies) /\
    passes (length old) (mirrored size 0 old) (mirrored_acts size (length old) acts) replies rest /\
    disk (system d) q = Some bytes /\ whole_values (opposite native) size (old ++ all_values acts) bytes.
Proof.
  intros pl native w q mw mr how wcap rcap size old acts D Ob Mw Mr C1 C2 Sz L.
  destruct (C168_values_through_a_file pl native w q mw mr how wcap rcap size (mirrored size 0 old) (mirrored_acts size (length old) acts))
    as (d & replies & rest & bytes & E & P & Dq & W); try assumption.
  - rewrite mirrored_bytes. destruct D as [D|(D1 & D2 & ->)]; auto.
  - rewrite all_mirrored. apply mirrored_fits.
  - now rewrite all_mirrored, mirrored_length.
  - rewrite all_mirrored in W. rewrite mirrored_length in P. exists d, replies, rest, bytes.
    split; [|split; [exact P|split; [exact Dq|exact (whole_mirrored _ _ _ _ W)]]].
    unfold pass_on_file_in. unfold pass_on_file in E. rewrite mirrored_length in E.
    destruct (open_both _ _ _ _ _ _ _ _) as [[f g]| | | |]; try discriminate E. cbn [bind] in *.
    rewrite other_run; [exact E|exact (second_keeps pl)|]. intro i. apply Sz.
Qed.
Print Assumptions C170_file_partial.

(** Hence the claim holds for values that read the same in both directions, such as single
    bytes. *)
Definition palindromes (size : nat -> nat) (i : nat) (l : list N) : Prop := mirrored size i l = l.
Lemma palindrome_acts : forall size acts i, palindromes size i (all_values acts) -> mirrored_acts size i acts = acts.
Proof.
  intros size acts. induction acts as [|[v| |] acts IH]; intros i H; cbn [mirrored_acts]; [reflexivity|..];
    unfold palindromes in *; cbn [all_values flat_map app mirrored] in H; fold (all_values acts) in H.
  - injection H as E H. now rewrite E, IH.
  - now rewrite IH.
  - now rewrite IH.
Qed.
Lemma palindromes_app : forall size old l, palindromes size 0 (old ++ l) -> mirrored size 0 old = old /\ palindromes size (length old) l.
Proof.
  intros size old l Pa. unfold palindromes in *. rewrite mirrored_app in Pa.
  apply (f_equal (firstn (length old))) in Pa as P1. apply (f_equal (skipn (length old))) in Pa as P2.
  rewrite <- (mirrored_length size old 0) in P1 at 1. rewrite <- (mirrored_length size old 0) in P2 at 1.
  rewrite firstn_app, Nat.sub_diag, firstn_all in P1. rewrite skipn_app, Nat.sub_diag, skipn_all in P2.
  rewrite firstn_app, Nat.sub_diag, firstn_all in P1. rewrite skipn_app, Nat.sub_diag, skipn_all in P2.
  cbn [firstn skipn app] in P1, P2. rewrite !app_nil_r in P1. split; [exact P1|exact P2].
Qed.
Theorem C170_palindromes_partial : forall native size wcap rcap old acts,
  sizes_fit size rcap -> bytes_of_values size (length (old ++ all_values acts)) < 2 ^ 62 ->
  palindromes size 0 (old ++ all_values acts) ->
  exists s replies rest, pass_on_in native (opposite native) size wcap rcap old acts = Ok (s, replies) /\
    passes (length old) old acts replies rest /\ whole_values (opposite native) size (old ++ all_values acts) (owned s).
Proof.
  intros native size wcap rcap old acts Sz L Pa. destruct (palindromes_app _ _ _ Pa) as [P1 P2].
  destruct (C170_container_partial native size wcap rcap old acts Sz L) as (s & replies & rest & E & P & W).
  rewrite P1, (palindrome_acts _ _ _ P2) in P. now exists s, replies, rest.
Qed.
Print Assumptions C170_palindromes_partial.

Theorem C170_file_palindromes_partial : forall pl native w q mw mr how wcap rcap size old acts,
  disk w q = Some (value_bytes (opposite native) size 0 old) \/ disk w q = None /\ how = Create /\ old = [] ->
  obliging w -> mode_writes mw = true -> mode_reads mr = true ->
  Z.of_nat wcap <= chunk_max pl -> Z.of_nat rcap <= chunk_max pl ->
  sizes_fit size rcap -> bytes_of_values size (length (old ++ all_values acts)) < 2 ^ 63 ->
  palindromes size 0 (old ++ all_values acts) ->
  exists d replies rest bytes, pass_on_file_in pl w q mw mr how wcap rcap native (opposite native) size old acts = Ok (d, replies) /\
    passes (length old) old acts replies rest /\
    disk (system d) q = Some bytes /\ whole_values (opposite native) size (old ++ all_values acts) bytes.
Proof.
  intros pl native w q mw mr how wcap rcap size old acts D Ob Mw Mr C1 C2 Sz L Pa. destruct (palindromes_app _ _ _ Pa) as [P1 P2].
  destruct (C170_file_partial pl native w q mw mr how wcap rcap size old acts D Ob Mw Mr C1 C2 Sz L) as (d & replies & rest & bytes & E & P & Q & W).
  rewrite P1, (palindrome_acts _ _ _ P2) in P. now exists d, replies, rest, bytes.
Qed.
Print Assumptions C170_file_palindromes_partial.

(** The values of C167_case in the other byte order. *)
Example C170_hypotheses : sizes_fit one_and_four 4 /\ bytes_of_values one_and_four (length ([200]%N ++ all_values some_acts)) < 2 ^ 62 /\
  match pass_on_in StreamSpec.LittleEndian StreamSpec.BigEndian one_and_four 6 4 [200]%N some_acts with
  | Ok (s, replies) => (owned s, replies) | _ => ([], []) end
  = ([200; 238; 107; 40; 0; 7; 0; 18; 214; 135]%N,
     [Value 200; TooEarly; TooEarly; Value 2649070; Value 7; TooEarly; Value 2278953472; TooEarly]) /\
  palindromes one_and_four 0 ([200]%N ++ [0x12343412]%N).
Proof. split; [apply C167_hypotheses|]. split; [reflexivity|]. split; vm_compute; reflexivity. Qed.

(** The same values in a file, and a file of values that read the same in both directions. *)
Example C170_file_hypotheses : forall pl,
  let w := desk (Some [200]%N) None [] in
  disk w 1%N = Some (value_bytes StreamSpec.BigEndian one_and_four 0 [200]%N) /\ obliging w /\
  mode_writes WriteOnly = true /\ mode_reads ReadOnly = true /\ Z.of_nat 6 <= chunk_max pl /\ Z.of_nat 4 <= chunk_max pl /\
  palindromes one_and_four 0 ([200]%N ++ all_values [TriesValue; Puts 0x12343412%N; Publishes; TriesValue]) /\
  match pass_on_file_in pl w 1 WriteOnly ReadOnly Fail 6 4 StreamSpec.LittleEndian StreamSpec.BigEndian one_and_four [200]%N
    [TriesValue; Puts 0x12343412%N; Publishes; TriesValue] with
  | Ok (d, replies) => (disk (system d) 1%N, replies) | _ => (None, []) end
  = (Some [200; 18; 52; 52; 18]%N, [Value 200; Value 0x12343412%N]).
Proof.
  intros pl w. split; [reflexivity|]. split; [constructor|]. split; [reflexivity|]. split; [reflexivity|].
  split; [pose proof (chunk_100 pl); lia|]. split; [pose proof (chunk_100 pl); lia|]. split; [reflexivity|].
  destruct pl; vm_compute; reflexivity.
Qed.

(** The refutation: on machines of both byte orders, with buffers of 8 and 4 bytes, the number
    1 in four bytes comes out as 16777216. *)
Theorem C170_refuted : forall native, exists size old acts s,
  sizes_fit size 4 /\ values_fit size (old ++ all_values acts) /\ bytes_of_values size (length (old ++ all_values acts)) < 2 ^ 62 /\
  pass_on_in native (opposite native) size 8 4 old acts = Ok (s, [Value 16777216%N]) /\
  forall replies rest, passes (length old) old acts replies rest -> replies = [Value 1%N].
Proof.
  intro native. exists (fun _ => 4%nat), [], [Puts 1%N; Publishes; TriesValue].
  assert (X : exists s, pass_on_in native (opposite native) (fun _ => 4%nat) 8 4 [] [Puts 1%N; Publishes; TriesValue] = Ok (s, [Value 16777216%N])).
  { destruct native; eexists; vm_compute; reflexivity. }
  destruct X as (s & X). exists s. split; [intro i; split; [lia|right; lia]|]. split.
  { intros [|i] v H; [injection H as <-; reflexivity|destruct i; discriminate H]. }
  split; [reflexivity|]. split; [exact X|]. intros replies rest P.
  repeat match goal with H : passes _ _ (_ :: _) _ _ |- _ => inversion H; clear H; subst; cbn [app length] in * end;
    match goal with H : passes _ _ [] _ _ |- _ => inversion H; subst end; try discriminate; reflexivity.
Qed.
Print Assumptions C170_refuted.
