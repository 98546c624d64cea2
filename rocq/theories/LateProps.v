(** A reader of a text file that does not wait for the writer (C169). *)
From Coq Require Import NArith ZArith List Bool Lia ZifyBool ZifyNat ZifyN.
From Verif Require Import Base Integers UnicodeSpec UnicodeModel UnicodeText NumeralSpec ResourceSpec ResourceModel ResourceText
  StreamSpec StreamModel StreamText TextFileSpec TextFileModel TextFileText FileSpec FileModel FileText.
From Verif Require Import ResourceLemmas StreamLemmas StreamLemmas2 TextFileLemmas2 TextFileProps FollowText RecoverSpec RelaySpec RelayText RelayLemmas RelayProps.
From Verif Require Import EarlySpec EarlyText EarlyLemmas EarlyProps PassLemmas PassLemmas2 LateText LateLemmas LateLemmas2 LateLemmas3.
Import ListNotations.
Open Scope Z_scope.

(** The program begins. *)
Lemma late_begins : forall pl native cs w q mw mr how e o wcap rcap old actions deeds fit ok,
  disk w q = Some (text_bytes e o old) \/ disk w q = None /\ how = Create /\ old = [] ->
  obliging w -> mode_writes mw = true -> mode_reads mr = true ->
  Z.of_nat wcap <= chunk_max pl -> Z.of_nat rcap <= chunk_max pl ->
  Forall2 says actions deeds -> Forall (can_say native e o) actions -> Forall fit actions ->
  Forall scalar old -> Forall (fun c => c <> 13%N) (old ++ said deeds) -> Forall ok (old ++ said deeds) ->
  goes_well native cs e o (first_sink pl) (2 ^ 63) (in_file pl (Z.of_nat wcap) (Z.of_nat rcap) q mw mr) fit ok ->
  roomy rcap (unit_width e) -> len (text_bytes e o (old ++ said deeds)) < 2 ^ 63 ->
  exists d events rest, late pl w q mw mr how wcap rcap native cs e o actions = Ok (d, events) /\
    patient (length old) old deeds events rest /\ whole_characters e o (old ++ said deeds) (disk (system d) q).
Proof.
  intros pl native cs w q mw mr how e o wcap rcap old actions deeds fit ok D Ob Mw Mr C1 C2 T C Ft Sc K Ok Well Rm L. unfold late.
  assert (L0 : len (text_bytes e o old) < 2 ^ 63)
    by (rewrite text_bytes_app, len_app in L; pose proof (len_nonneg (text_bytes e o (said deeds))); lia).
  assert (D' : disk w q = Some (text_bytes e o old) \/ disk w q = None /\ how = Create /\ text_bytes e o old = [])
    by (destruct D as [D|(D1 & D2 & ->)]; auto).
  destruct (in_file_start pl w q mw mr how wcap rcap _ Mw D' L0 Ob C1 C2) as (f & g & E & H0).
  rewrite E. cbn [bind].
  destruct (late_runs native cs e o _ _ _ _ _ _ (file_passage pl (Z.of_nat wcap) (Z.of_nat rcap) q mw mr Mw Mr) (roomy_file _ _ _ Rm)
    fit ok Well actions deeds [] old old (Duo (system_of g) f g) (TextInput (Duo (system_of g) f g) (order_of o) (form_of e))
    (TextOutput (Duo (system_of g) f g) (order_of o) (form_of e)) (length old))
    as (d & events & P' & U' & V' & inp' & out' & E' & H & [Hd [B Hb] _ _] & Al); cbn [app]; try assumption.
  - constructor; cbn [app]; [exact H0| |split; reflexivity..]. exists []. now rewrite app_nil_r.
  - lia.
  - exists d, events, U'. split; [exact E'|]. split; [exact H|]. exists (length (P' ++ V')).
    rewrite (in_file_disk _ _ _ _ _ _ _ _ _ _ Hd). cbn [app] in Al. rewrite <- Al, Hb, app_assoc, firstn_app, Nat.sub_diag, firstn_all.
    cbn [firstn]. now rewrite app_nil_r.
Qed.

(** C169.  "One stream appends text to a file while another one, on another file object,
    tries to read it, character by character, at any time: a try that comes too early
    fails, nothing is lost by it, and whatever is read is the next character of the file; a try
    does not fail if the next character was there at first or was flushed; and the file
    always holds whole characters" is false in general (see below).

    It holds, on both platforms, for all buffer capacities and orders of writing,
    flushing and trying, for every text without carriage returns that is written
    character by character, or string by string if the strings have the form of the stream,
    unless a character needs two units in UTF-16 in the byte order that is not that of
    the machine.  Here and below the operating system does all it is asked to do, and
    neither a buffer nor an entry is larger than one transfer. *)
Theorem C169_pieces_partial : forall pl native cs w q mw mr how e o wcap rcap old actions deeds,
  disk w q = Some (text_bytes e o old) \/ disk w q = None /\ how = Create /\ old = [] ->
  obliging w -> mode_writes mw = true -> mode_reads mr = true ->
  Z.of_nat wcap <= chunk_max pl -> Z.of_nat rcap <= chunk_max pl ->
  Forall2 says actions deeds -> Forall (can_say native e o) actions ->
  Forall (says_in_pieces native e o) actions -> Forall (says_little pl e o) actions ->
  Forall scalar old -> Forall (fun c => c <> 13%N) (old ++ said deeds) ->
  roomy rcap (unit_width e) -> len (text_bytes e o (old ++ said deeds)) < 2 ^ 63 ->
  exists d events rest, late pl w q mw mr how wcap rcap native cs e o actions = Ok (d, events) /\
    patient (length old) old deeds events rest /\ whole_characters e o (old ++ said deeds) (disk (system d) q).
Proof.
  intros pl native cs w q mw mr how e o wcap rcap old actions deeds D Ob Mw Mr C1 C2 T C Ft Li Sc K Rm L.
  apply (late_begins pl native cs w q mw mr how e o wcap rcap old actions deeds (fits_well native e o (chunk_max pl)) (fun _ => True)); try assumption.
  - rewrite Forall_forall in *. intros a X. specialize (Ft a X). specialize (Li a X). destruct a as [ps| |]; try exact I.
    cbn [says_in_pieces says_little fits_well] in *. rewrite Forall_forall in *. intros [p k] Y. split; [exact (Ft _ Y)|exact (Li _ Y)].
  - apply Forall_forall. auto.
  - exact (pieces_go_well native cs e o _ _ _ _ _ _ (file_passage pl _ _ q mw mr Mw Mr)).
Qed.
Print Assumptions C169_pieces_partial.

(** For ASCII text in UTF-8 without carriage returns it holds whatever entries are made. *)
Theorem C169_ascii_partial : forall pl native cs w q mw mr how o wcap rcap old actions deeds,
  disk w q = Some (text_bytes UTF8 o old) \/ disk w q = None /\ how = Create /\ old = [] ->
  obliging w -> mode_writes mw = true -> mode_reads mr = true ->
  Z.of_nat wcap <= chunk_max pl -> Z.of_nat rcap <= chunk_max pl ->
  Forall2 says actions deeds -> Forall (can_say native UTF8 o) actions -> Forall (says_little pl UTF8 o) actions ->
  Forall (fun c => (c < 128)%N /\ c <> 13%N) (old ++ said deeds) ->
  len (text_bytes UTF8 o (old ++ said deeds)) < 2 ^ 63 ->
  exists d events rest, late pl w q mw mr how wcap rcap native cs UTF8 o actions = Ok (d, events) /\
    patient (length old) old deeds events rest /\ whole_characters UTF8 o (old ++ said deeds) (disk (system d) q).
Proof.
  intros pl native cs w q mw mr how o wcap rcap old actions deeds D Ob Mw Mr C1 C2 T C Li K L.
  assert (Sc : Forall scalar old).
  { apply Forall_app in K. destruct K as [K _]. eapply Forall_impl; [|exact K]. unfold scalar. intros a [X _]. lia. }
  apply (late_begins pl native cs w q mw mr how UTF8 o wcap rcap old actions deeds (small_entries o (chunk_max pl)) (fun c => (c < 128)%N)); try assumption.
  - eapply Forall_impl; [|exact K]. intros c [_ X]. exact X.
  - eapply Forall_impl; [|exact K]. intros c [X _]. exact X.
  - exact (ascii_goes_well native cs o _ _ _ _ _ _ (file_passage pl _ _ q mw mr Mw Mr)).
  - unfold roomy. cbn. lia.
Qed.
Print Assumptions C169_ascii_partial.

(** The program of C166 with a file that holds "!", buffers of 3 and 2 bytes; the other
    hypotheses are those of C166_hypotheses. *)
Example C169_hypotheses : forall pl,
  disk (desk (Some [33]%N) None []) 1%N = Some (text_bytes UTF8 BigEndian [33]%N) /\ obliging (desk (Some [33]%N) None []) /\
  Forall (says_little pl UTF8 BigEndian) C166_actions /\ Forall (says_in_pieces LittleEndian UTF8 BigEndian) C166_actions /\
  match late pl (desk (Some [33]%N) None []) 1 WriteOnly ReadOnly Fail 3 2 LittleEndian true UTF8 BigEndian C166_actions with
  | Ok (d, events) => events = [Got 33; Got 97; Got 98; Failed ReadPastEnd; Got 99]%N /\ disk (system d) 1%N = Some [33; 97; 98; 99; 100]%N
  | _ => False end.
Proof.
  intros pl. pose proof (chunk_100 pl) as Ch. split; [reflexivity|]. split; [constructor|]. split; [|split].
  - unfold C166_actions. repeat apply Forall_cons; try apply Forall_nil; try exact I; intros t T; inversion T; subst; vm_compute (len _); lia.
  - unfold C166_actions. repeat apply Forall_cons; try apply Forall_nil; try exact I; reflexivity.
  - destruct pl; vm_compute; split; reflexivity.
Qed.

(** Without an output buffer it holds for every text in every encoding and byte order,
    with line ends as CR LF or LF, whatever entries are made: everything that has been
    written can be read at once, without a flush, and it is all in the file. *)
Theorem C169_unbuffered_partial : forall pl native cs w q mw mr how e o rcap old actions deeds,
  disk w q = Some (text_bytes e o old) \/ disk w q = None /\ how = Create /\ old = [] ->
  obliging w -> mode_writes mw = true -> mode_reads mr = true -> Z.of_nat rcap <= chunk_max pl ->
  Forall2 says actions deeds -> Forall (can_say native e o) actions -> Forall (says_little pl e o) actions ->
  Forall scalar old -> whole_lines old -> (forall l, In (Says l) deeds -> whole_lines l) ->
  roomy rcap (unit_width e) -> len (text_bytes e o (old ++ said deeds)) < 2 ^ 63 ->
  exists d events rest, late pl w q mw mr how 0 rcap native cs e o actions = Ok (d, events) /\
    patient (length (lf_text old)) (lf_text old) (at_once deeds) events rest /\
    disk (system d) q = Some (text_bytes e o (old ++ said deeds)).
Proof.
  intros pl native cs w q mw mr how e o rcap old actions deeds D Ob Mw Mr C2 T C Li Sc W Wd Rm L. unfold late.
  assert (L0 : len (text_bytes e o old) < 2 ^ 63)
    by (rewrite text_bytes_app, len_app in L; pose proof (len_nonneg (text_bytes e o (said deeds))); lia).
  assert (D' : disk w q = Some (text_bytes e o old) \/ disk w q = None /\ how = Create /\ text_bytes e o old = [])
    by (destruct D as [D|(D1 & D2 & ->)]; auto).
  pose proof (chunk_100 pl) as Ch.
  destruct (in_file_start pl w q mw mr how 0 rcap _ Mw D' L0 Ob ltac:(lia) C2) as (f & g & E & H0).
  rewrite E. cbn [bind]. change (Z.of_nat 0) with 0 in H0.
  destruct (late_at_once native cs e o _ _ _ _ _ _ (file_passage pl 0 (Z.of_nat rcap) q mw mr Mw Mr) (roomy_file _ _ _ Rm)
    (unbuffered_file pl (Z.of_nat rcap) q mw mr) actions deeds [] old (Duo (system_of g) f g)
    (TextInput (Duo (system_of g) f g) (order_of o) (form_of e)) (TextOutput (Duo (system_of g) f g) (order_of o) (form_of e)))
    as (d & events & rest & k & E' & H & Hd); cbn [app]; try assumption.
  - apply Forall_forall. intros [l| |] X; try exact I. exact (Wd l X).
  - constructor; cbn [app]; [exact H0| |split; reflexivity..]. exists []. now rewrite app_nil_r.
  - exists d, events, rest. split; [exact E'|]. split; [exact H|]. exact (in_file_disk _ _ _ _ _ _ _ _ _ _ Hd).
Qed.
Print Assumptions C169_unbuffered_partial.

(** The euro sign and CR LF in UTF-16, in a new file; the other hypotheses are those of
    C166_prompt_hypotheses. *)
Example C169_unbuffered_hypotheses : forall pl,
  disk (desk None None []) 1%N = None /\ obliging (desk None None []) /\ Forall (says_little pl UTF16 BigEndian) C166_prompt /\
  match late pl (desk None None []) 1 WriteOnly ReadOnly Create 0 2 LittleEndian true UTF16 BigEndian C166_prompt with
  | Ok (d, events) => events = [Failed ReadPastEnd; Got 8364; Got 10; Failed ReadPastEnd]%N /\
      disk (system d) 1%N = Some [32; 172; 0; 13; 0; 10]%N
  | _ => False end.
Proof.
  intros pl. pose proof (chunk_100 pl) as Ch. split; [reflexivity|]. split; [constructor|]. split.
  - unfold C166_prompt. repeat apply Forall_cons; try apply Forall_nil; try exact I; intros t T; inversion T; subst; vm_compute (len _); lia.
  - destruct pl; vm_compute; split; reflexivity.
Qed.

(** The refutation: the program of C166_refuted with an empty file.  Between the two writes
    the file holds half a character, and the character is lost. *)
Theorem C169_refuted : forall pl, exists actions deeds wcap rcap,
  let w := desk (Some []) None [] in
  obliging w /\ Forall2 says actions deeds /\ Forall (can_say LittleEndian UTF16 BigEndian) actions /\
  Forall (says_little pl UTF16 BigEndian) actions /\
  Forall (fun c => scalar c /\ c <> 13%N) (said deeds) /\ roomy rcap (unit_width UTF16) /\
  (exists d, late pl w 1 WriteOnly ReadOnly Fail wcap rcap LittleEndian true UTF16 BigEndian actions
    = Ok (d, [Failed ReadPastEnd; Failed InvalidUnicodeEncoding])) /\
  forall events rest, patient 0 [] deeds events rest ->
    events = [Failed ReadPastEnd; Got 128512%N] \/ events = [Got 128512%N; Failed ReadPastEnd].
Proof.
  intros pl. exists [Enters [(EnterCharacter 128512%N, K16)]; TriesCharacter; FlushesOutput; TriesCharacter],
    [Says [128512]%N; Tries; Flushes; Tries], 2%nat, 4%nat. intro w.
  split; [constructor|]. split; [|split; [|split; [|split; [|split; [|split]]]]].
  - repeat (apply Forall2_cons; [|]); try constructor; cbn [map fst].
    change [128512]%N with ([128512] ++ [])%N. repeat econstructor.
  - repeat apply Forall_cons; try apply Forall_nil; try exact I. split; [unfold scalar; lia|discriminate].
  - pose proof (chunk_100 pl). repeat apply Forall_cons; try apply Forall_nil; try exact I.
    intros t T; inversion T; subst; vm_compute (len _); lia.
  - repeat constructor; try discriminate. unfold scalar. lia.
  - right. cbn. lia.
  - set (r := late _ _ _ _ _ _ _ _ _ _ _ _ _).
    assert (E : match r with Ok (_, l) => l = [Failed ReadPastEnd; Failed InvalidUnicodeEncoding] | _ => False end)
      by (destruct pl; vm_compute; reflexivity).
    destruct r as [[d l]| | | |]; try contradiction. exists d. now rewrite E.
  - intros events rest H.
    repeat match goal with X : patient _ _ (_ :: _) _ _ |- _ => inversion X; clear X; subst; cbn [app lf_text length] in * end;
      match goal with X : patient _ _ [] _ _ |- _ => inversion X; subst end; auto; try discriminate.
Qed.
Print Assumptions C169_refuted.
