(** A reader that does not wait for the writer (C166). *)
From Coq Require Import NArith ZArith List Bool Lia ZifyBool ZifyNat ZifyN.
From Verif Require Import Base Integers UnicodeSpec UnicodeModel UnicodeText NumeralSpec ResourceSpec ResourceModel ResourceText
  StreamSpec StreamModel StreamText SharedSpec SharedModel TextFileSpec TextFileModel TextFileText.
From Verif Require Import ResourceLemmas SharedLemmas StreamLemmas StreamLemmas2 RecoverSpec RelaySpec RelayText RelayLemmas RelayProps.
From Verif Require Import EarlySpec EarlyText EarlyLemmas.
Import ListNotations.
Open Scope Z_scope.

(** The program begins. *)
Lemma early_runs : forall native cs e o wcap rcap old actions deeds fit ok,
  Forall2 says actions deeds -> Forall (can_say native e o) actions -> Forall fit actions ->
  Forall scalar old -> whole_lines old -> Forall whole_deed deeds -> Forall ok (old ++ said deeds) ->
  enters_well native cs e o (Z.of_nat wcap) (Z.of_nat rcap) fit ok ->
  roomy rcap (unit_width e) -> len (text_bytes e o (old ++ said deeds)) < 2 ^ 62 ->
  exists s events rest, early native cs e o wcap rcap old actions = Ok (s, events) /\
    patient (length (lf_text old)) (lf_text old) deeds events rest.
Proof.
  intros native cs e o wcap rcap old actions deeds fit ok T C Ft Sc W Wd K Well Rm L. unfold early.
  assert (L0 : len (text_bytes e o old) < 2 ^ 62)
    by (rewrite text_bytes_app, len_app in L; pose proof (len_nonneg (text_bytes e o (said deeds))); lia).
  destruct (piped_start 1 wcap rcap (text_bytes e o old)) as (s & E & V & O); [lia|apply Z.divide_1_l|lia|].
  rewrite E. cbn [bind].
  apply (program_runs native cs e o (Z.of_nat wcap) (Z.of_nat rcap) fit ok (roomy_biggest _ _ Rm) Well actions deeds [] old old); try assumption.
  - constructor; cbn [app]; try assumption; [|split; reflexivity..]. exists []. now rewrite app_nil_r.
  - lia.
Qed.

Lemma plain_lf : forall l, Forall (fun c => c <> 13%N) l -> lf_text l = l.
Proof.
  intros l K. rewrite <- (whole_filtered l (no_return l K)).
  induction K as [|c l Hc K IH]; [reflexivity|]. rewrite StreamLemmas3.filtered_other by exact Hc. now rewrite IH.
Qed.

Lemma plain_deeds : forall deeds, Forall (fun c => c <> 13%N) (said deeds) -> Forall whole_deed deeds.
Proof.
  intros deeds K. apply Forall_forall. intros [l| |] X; try exact I. cbn [whole_deed]. apply none_whole. intro Y.
  rewrite Forall_forall in K. apply (K 13%N); [|reflexivity]. unfold said. apply in_flat_map. exists (Says l). auto.
Qed.

(** C166.  "One stream writes text to a container while another one tries to read it,
    character by character, at any time: a try that comes too early fails, nothing is lost
    by it, and whatever is read is the next character that was written; a try does not fail
    if the next character was flushed" is false in general (see below).

    It holds, for all buffer capacities and orders of writing, flushing and trying, for
    every text without carriage returns that is written character by character, or
    string by string if the strings have the form of the stream, unless a character
    needs two units in UTF-16 in the byte order that is not that of the machine. *)
Theorem C166_pieces_partial : forall native cs e o wcap rcap old actions deeds,
  Forall2 says actions deeds -> Forall (can_say native e o) actions -> Forall (says_in_pieces native e o) actions ->
  Forall scalar old -> Forall (fun c => c <> 13%N) (old ++ said deeds) ->
  roomy rcap (unit_width e) -> len (text_bytes e o (old ++ said deeds)) < 2 ^ 62 ->
  exists s events rest, early native cs e o wcap rcap old actions = Ok (s, events) /\
    patient (length old) old deeds events rest.
Proof.
  intros native cs e o wcap rcap old actions deeds T C Ft Sc K Rm L.
  assert (K2 := K). apply Forall_app in K2. destruct K2 as [Ko Kd].
  destruct (early_runs native cs e o wcap rcap old actions deeds _ _ T C Ft Sc (no_return old Ko) (plain_deeds deeds Kd) K
    (whole_well native cs e o _ _) Rm L) as (s & ev & rest & E & H).
  rewrite (plain_lf old Ko) in H. eauto.
Qed.
Print Assumptions C166_pieces_partial.

(** U+1F600 and the euro sign in UTF-8 through a buffer of five bytes. *)
Example C166_pieces_example :
  let actions := [Enters [(EnterCharacter 128512%N, K8); (EnterText [8364]%N, K8)]; TriesCharacter; TriesCharacter; FlushesOutput; TriesCharacter] in
  let deeds := [Says [128512; 8364]%N; Tries; Tries; Flushes; Tries] in
  Forall2 says actions deeds /\ Forall (can_say LittleEndian UTF8 LittleEndian) actions /\
  Forall (says_in_pieces LittleEndian UTF8 LittleEndian) actions /\ Forall (fun c => c <> 13%N) (said deeds) /\
  match early LittleEndian true UTF8 LittleEndian 5 2 [] actions with
  | Ok (_, events) => events = [Got 128512; Failed ReadPastEnd; Got 8364]%N
  | _ => False end.
Proof.
  cbv zeta. split; [|split; [|split; [|split]]].
  - repeat (apply Forall2_cons; [|]); try constructor; cbn [map fst].
    change [128512; 8364]%N with ([128512] ++ [8364] ++ [])%N. repeat econstructor.
  - assert (W : forall c, c = 128512%N \/ c = 8364%N -> writable UTF8 c)
      by (intros c [-> | ->]; (split; [unfold scalar; lia|]); intros _; vm_compute; intros [X Y]; congruence).
    repeat apply Forall_cons; try apply Forall_nil; try exact I; [apply W; auto|].
    split; [unfold scalar; lia|discriminate].
  - repeat apply Forall_cons; try apply Forall_nil; try exact I; [discriminate|reflexivity].
  - repeat constructor; discriminate.
  - vm_compute. reflexivity.
Qed.

(** For ASCII text in UTF-8 without carriage returns it holds whatever entries are made. *)
Theorem C166_ascii_partial : forall native cs o wcap rcap old actions deeds,
  Forall2 says actions deeds -> Forall (can_say native UTF8 o) actions ->
  Forall (fun c => (c < 128)%N /\ c <> 13%N) (old ++ said deeds) ->
  len (text_bytes UTF8 o (old ++ said deeds)) < 2 ^ 62 ->
  exists s events rest, early native cs UTF8 o wcap rcap old actions = Ok (s, events) /\
    patient (length old) old deeds events rest.
Proof.
  intros native cs o wcap rcap old actions deeds T C K L.
  assert (K1 : Forall (fun c => c <> 13%N) (old ++ said deeds)) by (eapply Forall_impl; [|exact K]; intros c [_ X]; exact X).
  apply Forall_app in K1. destruct K1 as [Ko Kd].
  assert (Sc : Forall scalar old).
  { apply Forall_app in K. destruct K as [K _]. eapply Forall_impl; [|exact K]. unfold scalar. intros a [X _]. lia. }
  assert (Ft : Forall (fun _ : action => True) actions) by (apply Forall_forall; auto).
  destruct (early_runs native cs UTF8 o wcap rcap old actions deeds _ _ T C Ft Sc (no_return old Ko) (plain_deeds deeds Kd) K
    (ascii_well native cs o _ _)) as (s & ev & rest & E & H); [unfold roomy; cbn; lia|exact L|].
  rewrite (plain_lf old Ko) in H. eauto.
Qed.
Print Assumptions C166_ascii_partial.

(** "ab", a flush, two tries, two tries more, "cd", a try, a flush and a try, through buffers
    of 3 and 2 bytes. *)
Definition C166_actions : list action :=
  [Enters [(EnterText [97; 98]%N, K8)]; FlushesOutput; TriesCharacter; TriesCharacter; TriesCharacter;
   Enters [(EnterText [99; 100]%N, K8)]; TriesCharacter; FlushesOutput; TriesCharacter].
Definition C166_deeds : list deed :=
  [Says [97; 98]%N; Flushes; Tries; Tries; Tries; Says [99; 100]%N; Tries; Flushes; Tries].
Example C166_hypotheses : Forall2 says C166_actions C166_deeds /\ Forall (can_say LittleEndian UTF8 BigEndian) C166_actions /\
  Forall (fun c => (c < 128)%N /\ c <> 13%N) ([33]%N ++ said C166_deeds) /\
  match early LittleEndian true UTF8 BigEndian 3 2 [33]%N C166_actions with
  | Ok (_, events) => events = [Got 33; Got 97; Got 98; Failed ReadPastEnd; Got 99]%N
  | _ => False end.
Proof.
  split; [|split; [|split]].
  - repeat (apply Forall2_cons; [|]); try constructor; cbn [map fst];
      (rewrite <- (app_nil_r [97; 98]%N) || rewrite <- (app_nil_r [99; 100]%N)); (eapply AnotherEntry; constructor).
  - repeat constructor; vm_compute; try tauto; try discriminate.
  - repeat constructor; lia || discriminate.
  - vm_compute. reflexivity.
Qed.

(** It also holds for every text in every encoding, with line ends as CR LF or LF, when the
    output resource has no buffer: then everything that has been written can be read at
    once, without a flush. *)
Theorem C166_unbuffered_partial : forall native cs e o rcap old actions deeds,
  Forall2 says actions deeds -> Forall (can_say native e o) actions ->
  Forall scalar old -> whole_lines old ->
  (forall l, In (Says l) deeds -> whole_lines l) ->
  roomy rcap (unit_width e) -> len (text_bytes e o (old ++ said deeds)) < 2 ^ 62 ->
  exists s events rest, early native cs e o 0 rcap old actions = Ok (s, events) /\
    patient (length (lf_text old)) (lf_text old) (at_once deeds) events rest.
Proof.
  intros native cs e o rcap old actions deeds T C Sc W Wd Rm L. unfold early.
  assert (L0 : len (text_bytes e o old) < 2 ^ 62)
    by (rewrite text_bytes_app, len_app in L; pose proof (len_nonneg (text_bytes e o (said deeds))); lia).
  destruct (piped_start 1 0 rcap (text_bytes e o old)) as (s & E & V & O); [lia|apply Z.divide_1_l|lia|].
  rewrite E. cbn [bind].
  apply (prompt_runs native cs e o (Z.of_nat rcap) (roomy_biggest _ _ Rm) actions deeds [] old); try assumption.
  - apply Forall_forall. intros [l| |] X; try exact I. exact (Wd l X).
  - constructor; cbn [app]; try assumption; [|split; reflexivity..]. exists []. now rewrite app_nil_r.
Qed.
Print Assumptions C166_unbuffered_partial.

(** The euro sign and CR LF in UTF-16. *)
Definition C166_prompt : list action :=
  [TriesCharacter; Enters [(EnterCharacter 8364%N, K16); (EnterText [13; 10]%N, K16)]; TriesCharacter; TriesCharacter; TriesCharacter].
Definition C166_prompt_deeds : list deed := [Tries; Says [8364; 13; 10]%N; Tries; Tries; Tries].
Example C166_prompt_hypotheses : Forall2 says C166_prompt C166_prompt_deeds /\
  Forall (can_say LittleEndian UTF16 BigEndian) C166_prompt /\
  (forall l, In (Says l) C166_prompt_deeds -> whole_lines l) /\ roomy 2 (unit_width UTF16) /\
  match early LittleEndian true UTF16 BigEndian 0 2 [] C166_prompt with
  | Ok (_, events) => events = [Failed ReadPastEnd; Got 8364; Got 10; Failed ReadPastEnd]%N
  | _ => False end.
Proof.
  split; [|split; [|split; [|split]]].
  - repeat (apply Forall2_cons; [|]); try constructor; cbn [map fst].
    change [8364; 13; 10]%N with ([8364] ++ [13; 10] ++ [])%N. repeat econstructor.
  - assert (Pr : forall c, (c < 128)%N -> printable LittleEndian UTF16 BigEndian K16 c).
    { intros c H. split; [unfold scalar; lia|]. intros _. split; [split; [unfold scalar; lia|discriminate]|cbn; unfold bmp; lia]. }
    unfold C166_prompt. repeat apply Forall_cons; try apply Forall_nil; try exact I.
    + split; [unfold scalar; lia|discriminate].
    + apply Pr. lia.
    + apply Pr. lia.
  - intros l [X|[X|[X|[X|[X|[]]]]]]; try discriminate. injection X as <-. intros a b X.
    do 2 (destruct a as [|? a]; [try discriminate X; injection X as <-; now exists []|injection X as <- X]).
    destruct a as [|? a]; [discriminate X|injection X as <- X]. destruct a; discriminate.
  - right. cbn. lia.
  - vm_compute. reflexivity.
Qed.

(** The refutation of C166: U+1F600 is written in big-endian UTF-16 on a little-endian machine
    through a buffer of two bytes, a character is tried, the output is flushed, and a character
    is tried again.  The first try takes the first unit of the character and fails; the
    second one finds the other unit only, and the character is lost. *)
Theorem C166_refuted : exists actions deeds wcap rcap,
  Forall2 says actions deeds /\ Forall (can_say LittleEndian UTF16 BigEndian) actions /\
  Forall (fun c => scalar c /\ c <> 13%N) (said deeds) /\ roomy rcap (unit_width UTF16) /\
  (exists s, early LittleEndian true UTF16 BigEndian wcap rcap [] actions
    = Ok (s, [Failed ReadPastEnd; Failed InvalidUnicodeEncoding])) /\
  forall events rest, patient 0 [] deeds events rest ->
    events = [Failed ReadPastEnd; Got 128512%N] \/ events = [Got 128512%N; Failed ReadPastEnd].
Proof.
  exists [Enters [(EnterCharacter 128512%N, K16)]; TriesCharacter; FlushesOutput; TriesCharacter],
    [Says [128512]%N; Tries; Flushes; Tries], 2%nat, 4%nat.
  split; [|split; [|split; [|split; [|split]]]].
  - repeat (apply Forall2_cons; [|]); try constructor; cbn [map fst].
    change [128512]%N with ([128512] ++ [])%N. repeat econstructor.
  - repeat apply Forall_cons; try apply Forall_nil; try exact I. split; [unfold scalar; lia|discriminate].
  - repeat constructor; try discriminate. unfold scalar. lia.
  - right. cbn. lia.
  - eexists. vm_compute. reflexivity.
  - intros events rest H.
    repeat match goal with X : patient _ _ (_ :: _) _ _ |- _ => inversion X; clear X; subst; cbn [app lf_text length] in * end;
      match goal with X : patient _ _ [] _ _ |- _ => inversion X; subst end; auto; try discriminate.
Qed.
Print Assumptions C166_refuted.
