(** Theorems C142: reading on after malformed text.

    [native] is the byte order of the machine.  The bytes are in a container of less than
    2^62 bytes.  The program reads until the end and catches every exception
    ([read_on], [salvage] in RecoverModel.v). *)
From Coq Require Import NArith ZArith List Bool Lia ZifyBool ZifyNat ZifyN.
From Verif Require Import Base Integers UnicodeSpec UnicodeModel UnicodeText UnicodeLemmas UnicodeLemmas2
  ResourceSpec ResourceModel ResourceLemmas StreamSpec StreamModel StreamText
  StreamLemmas StreamLemmas2 StreamLemmas3 StreamLemmas4 StreamLemmas5
  RecoverSpec RecoverModel RecoverLemmas RecoverLemmas2.
Import ListNotations.
Open Scope Z_scope.

Local Notation size l := (Z.of_nat (length l)).

(** The functions that keep the stream do what those of StreamModel.v do. *)
Theorem C142_same_reading : forall R native (ops : source R) fuel k st target,
  match kept_filtered native ops st with
  | (st', Ok c) => read_filtered_code_point native ops st = Ok (st', c)
  | (_, Throw x) => read_filtered_code_point native ops st = Throw x
  | (_, UB u) => read_filtered_code_point native ops st = UB u
  | (_, Terminate) => read_filtered_code_point native ops st = Terminate
  | (_, Diverge) => read_filtered_code_point native ops st = Diverge
  end /\
  match kept_append_all native ops fuel k st target with
  | ((st', target'), Ok _) => append_all native ops fuel k target st = Ok (st', target')
  | (_, Throw x) => append_all native ops fuel k target st = Throw x
  | (_, UB u) => append_all native ops fuel k target st = UB u
  | (_, Terminate) => append_all native ops fuel k target st = Terminate
  | (_, Diverge) => append_all native ops fuel k target st = Diverge
  end.
Proof.
  intros R native ops fuel k st target. split; [|apply append_all_same].
  rewrite <- filtered_same. destruct (kept_filtered native ops st) as [st' [c|x|u| |]]; reflexivity.
Qed.
Print Assumptions C142_same_reading.

(** False as stated: the character after a torn one is lost. *)
Theorem C142_nothing_lost_refuted :
  let run e ps := read_on Little container_source 20 (open_input (damaged e LittleEndian ps) 0 e LittleEndian) in
  let utf8 := [Torn 0x20AC 2 65; Whole 66] in
  let utf16 := [Torn 0x1F600 1 65; Whole 66] in
  Forall (proper_piece UTF8) utf8 /\ Forall (proper_piece UTF16) utf16 /\
  damaged UTF8 LittleEndian utf8 = [0xE2; 0x82; 0x41; 0x42]%N /\
  flat_map wished utf8 = [Failed InvalidUnicodeEncoding; Got 65; Got 66] /\
  run UTF8 utf8 = Ok [Failed InvalidUnicodeEncoding; Got 66] /\
  damaged UTF16 LittleEndian utf16 = [0x3D; 0xD8; 0x41; 0; 0x42; 0]%N /\
  flat_map wished utf16 = [Failed InvalidUnicodeEncoding; Got 65; Got 66] /\
  run UTF16 utf16 = Ok [Failed InvalidUnicodeEncoding; Got 66].
Proof.
  assert (P : forall e c n, scalar c -> c <> 13%N -> (0 < n < length (encode1 e c))%nat -> Forall (proper_piece e) [Torn c n 65; Whole 66]).
  { intros e c n S C L. assert (plain 65) by (split; [unfold scalar; lia|lia]). assert (plain 66) by (split; [unfold scalar; lia|lia]).
    constructor; [|constructor; [assumption|constructor]]. split; [now split|]. now split. }
  cbv zeta. split; [apply P; [unfold scalar; lia|lia|cbn; lia]|]. split; [apply P; [unfold scalar; lia|lia|cbn; lia]|].
  vm_compute. repeat split; reflexivity.
Qed.
Print Assumptions C142_nothing_lost_refuted.

(** What holds: after a unit that starts no character reading goes on with the next
    unit and nothing is lost; after a torn character just the next character is lost,
    with one exception for each of its units.  Everything else is read, in order. *)
Theorem C142_damage_partial : forall native e o cap ps fuel,
  Forall (proper_piece e) ps -> size (damaged e o ps) < 2 ^ 62 -> roomy cap (unit_width e) ->
  (length (damaged e o ps) < fuel)%nat ->
  read_on (order_of native) container_source fuel (open_input (damaged e o ps) cap e o) = Ok (flat_map (given e) ps).
Proof.
  intros native e o cap ps fuel F L Rm Fu.
  pose proof (settled_damaged native container_source _ _ (container_good_source (Z.of_nat cap)) e o (unit_roomy _ _ Rm)
    ps [] [] F (settled_nil native container_source _ _ (container_good_source (Z.of_nat cap)) e o)) as S.
  rewrite !app_nil_r in S. apply S; [|exact Fu]. now apply open_input_ok.
Qed.
Print Assumptions C142_damage_partial.
Example C142_damage_example :
  let ps := [Whole 0x20AC; Stray 0x80; Torn 0x1F600 3 0xE9; Whole 65; Stray 0xFF; Whole 0x1F600] in
  Forall (proper_piece UTF8) ps /\
  flat_map (given UTF8) ps = [Got 0x20AC; Failed InvalidUnicodeEncoding; Failed InvalidUnicodeEncoding;
    Failed InvalidUnicodeEncoding; Got 65; Failed InvalidUnicodeEncoding; Got 0x1F600] /\
  read_on Big container_source 40 (open_input (damaged UTF8 LittleEndian ps) 3 UTF8 LittleEndian) = Ok (flat_map (given UTF8) ps).
Proof.
  assert (P : forall c, (c < 0xD800 \/ 0xDFFF < c < 0x110000)%N -> c <> 13%N -> plain c) by (intros c C D; split; [unfold scalar; lia|exact D]).
  cbv zeta. split; [|vm_compute; split; reflexivity].
  constructor; [apply P; lia|]. constructor; [cbn; lia|].
  constructor; [split; [apply P; lia|]; split; [apply P; lia|vm_compute; lia]|].
  constructor; [apply P; lia|]. constructor; [cbn; lia|]. constructor; [apply P; lia|constructor].
Qed.

(** A last character of which some bytes are missing: one exception, then the end. *)
Theorem C142_cut_short : forall native e o cap ps c n fuel,
  Forall (proper_piece e) ps -> scalar c -> (0 < n < length (text_bytes e o [c]))%nat ->
  let bytes := damaged e o ps ++ firstn n (text_bytes e o [c]) in
  size bytes < 2 ^ 62 -> roomy cap (unit_width e) -> (length bytes < fuel)%nat ->
  read_on (order_of native) container_source fuel (open_input bytes cap e o)
  = Ok (flat_map (given e) ps ++ [Failed ReadPastEnd]).
Proof.
  intros native e o cap ps c n fuel F Sc Nn bytes L Rm Fu.
  pose proof (settled_damaged native container_source _ _ (container_good_source (Z.of_nat cap)) e o (unit_roomy _ _ Rm)
    ps _ _ F (settled_cut native container_source _ _ (container_good_source (Z.of_nat cap)) e o (unit_roomy _ _ Rm) c n Sc Nn)) as S.
  apply S; [|exact Fu]. now apply open_input_ok.
Qed.
Print Assumptions C142_cut_short.
Example C142_cut_short_example :
  scalar 0x1F600 /\ (0 < 3 < length (text_bytes UTF16 BigEndian [0x1F600%N]))%nat /\
  read_on Little container_source 40
    (open_input (damaged UTF16 BigEndian [Whole 65; Stray 0xDE00] ++ firstn 3 (text_bytes UTF16 BigEndian [0x1F600%N])) 2 UTF16 BigEndian)
  = Ok [Got 65; Failed InvalidUnicodeEncoding; Failed ReadPastEnd].
Proof. split; [unfold scalar; lia|]. split; [vm_compute; lia|]. vm_compute. reflexivity. Qed.

(** Whatever the bytes are, reading on comes to an end, after at most as many attempts
    as there are bytes; there are two kinds of exceptions, one of them at the end only. *)
Theorem C142_reaches_the_end : forall native e o cap bytes fuel,
  Forall (fun b => b < 256)%N bytes -> size bytes < 2 ^ 62 -> roomy cap (unit_width e) -> (length bytes < fuel)%nat ->
  exists l, read_on (order_of native) container_source fuel (open_input bytes cap e o) = Ok l /\
    (length l <= length bytes)%nat /\
    forall l1 x l2, l = l1 ++ Failed x :: l2 -> x = InvalidUnicodeEncoding \/ (x = ReadPastEnd /\ l2 = []).
Proof.
  intros native e o cap bytes fuel F L Rm Fu.
  destruct (read_on_any native container_source _ _ (container_good_source (Z.of_nat cap)) e o fuel bytes _
    (open_input_ok bytes cap e o L) F (unit_roomy _ _ Rm) Fu) as (l & E & Ll & O).
  exists l. split; [exact E|]. split; [exact Ll|]. clear - O. intro l1. revert l O.
  induction l1 as [|[c|y] l1 IH]; intros l O x l2 ->; cbn [app orderly] in O.
  - destruct x; try contradiction; auto.
  - exact (IH _ O x l2 eq_refl).
  - destruct y; try contradiction; solve [exact (IH _ O x l2 eq_refl)|destruct l1; discriminate].
Qed.
Print Assumptions C142_reaches_the_end.
Example C142_reaches_the_end_example :
  let bytes := [0xE2; 0xE2; 0x82; 0xC0; 0x80; 0xF0; 0x90]%N in
  Forall (fun b => b < 256)%N bytes /\
  read_on Little container_source 8 (open_input bytes 0 UTF8 LittleEndian)
  = Ok [Failed InvalidUnicodeEncoding; Failed InvalidUnicodeEncoding; Got 0; Failed ReadPastEnd].
Proof. cbv zeta. split; [repeat constructor|vm_compute; reflexivity]. Qed.

(** Calling append_all again after each exception collects exactly what the attempts one
    by one give; of a damaged text, the saved characters. *)
Theorem C142_salvage_partial : forall native e o cap k ps target fuel,
  Forall (proper_piece e) ps -> Forall (storable k) (saved ps) -> size (damaged e o ps) < 2 ^ 62 ->
  roomy cap (unit_width e) -> (length (damaged e o ps) < fuel)%nat ->
  salvage (order_of native) container_source fuel k (open_input (damaged e o ps) cap e o) target
  = Ok (target ++ units k (saved ps)).
Proof.
  intros native e o cap k ps target fuel F St L Rm Fu. rewrite <- (got_given e ps) in *.
  apply salvage_read_on; [now apply C142_damage_partial|exact St].
Qed.
Print Assumptions C142_salvage_partial.
Example C142_salvage_example :
  let ps := [Whole 0x20AC; Torn 0x1F600 3 0xE9; Whole 65; Stray 0xFF; Whole 0x1F600] in
  Forall (storable K16) (saved ps) /\
  salvage Little container_source 40 K16 (open_input (damaged UTF8 LittleEndian ps) 0 UTF8 LittleEndian) [32%N]
  = Ok (32%N :: utf16_of 0x20AC ++ [65%N] ++ utf16_of 0x1F600).
Proof.
  cbv zeta. split; [|vm_compute; reflexivity].
  cbn [saved flat_map app]. repeat (constructor; [split; [vm_compute; intuition discriminate|discriminate]|]). constructor.
Qed.
