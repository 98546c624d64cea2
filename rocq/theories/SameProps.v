(** Theorems C143: the same bytes are read as the same text everywhere.

    [native] and [native'] are the byte orders of two machines.  Contents are smaller than
    2^62 bytes.  [roomy cap n], [wide_enough cap e]: the buffer is absent or holds a code
    unit. *)
From Coq Require Import NArith ZArith List Bool Lia ZifyBool ZifyNat ZifyN.
From Verif Require Import Base Integers UnicodeSpec UnicodeModel UnicodeText
  ResourceSpec ResourceModel ResourceText ResourceLemmas StreamSpec StreamModel StreamText StreamLemmas StreamLemmas2 StreamLemmas3 StreamLemmas4
  FileSpec FileModel FileText FileLemmas TextFileSpec TextFileModel TextFileText TextFileLemmas TextFileLemmas2
  RecoverSpec RecoverModel SameText SameLemmas.
Import ListNotations.
Open Scope Z_scope.

(** False as stated: through a buffer smaller than a code unit the text AB is read as
    A and U+4200. *)
Theorem C143_any_buffer_refuted :
  let run cap := read_memory cap false Little UTF16 LittleEndian 10 (text_bytes UTF16 LittleEndian [65; 66]%N) [(Rest, K32)] in
  run 0%nat = Ok [AText [65; 66]%N] /\ run 1%nat = Ok [AText [65; 0x4200]%N].
Proof. cbv zeta. split; vm_compute; reflexivity. Qed.
Print Assumptions C143_any_buffer_refuted.

Lemma both_memory : forall cap cap' e o bytes, len bytes < 2 ^ 62 ->
  both (container_left (Z.of_nat cap)) (container_left (Z.of_nat cap')) e (open_input bytes cap e o) (open_input bytes cap' e o).
Proof. intros cap cap' e o bytes L. exists o, bytes. split; now apply open_input_ok. Qed.

(** In memory: neither the buffer nor the byte order of the machine matters, whatever the
    bytes are and however they are read, exceptions included. *)
Theorem C143_memory_partial : forall native native' cap cap' marked e o fuel bytes qs,
  len bytes < 2 ^ 62 -> roomy cap (unit_width e) -> roomy cap' (unit_width e) ->
  read_memory cap marked (order_of native) e o fuel bytes qs = read_memory cap' marked (order_of native') e o fuel bytes qs /\
  read_on (order_of native) container_source fuel (open_input bytes cap e o)
  = read_on (order_of native') container_source fuel (open_input bytes cap' e o).
Proof.
  intros native native' cap cap' marked e o fuel bytes qs L R R'.
  pose proof (container_good_source (Z.of_nat cap)) as G. pose proof (container_good_source (Z.of_nat cap')) as G'.
  pose proof (unit_roomy _ _ R) as B. pose proof (unit_roomy _ _ R') as B'.
  pose proof (both_memory cap cap' e o bytes L) as H. split.
  - unfold read_memory. cbv zeta.
    assert (A : agree (container_left (Z.of_nat cap)) (container_left (Z.of_nat cap')) e
      (bind (if marked then bind (read_bom (order_of native) container_source (open_input bytes cap e o)) (fun '(st, _) => Ok st)
             else Ok (open_input bytes cap e o)) (fun st => answer_requests (order_of native) container_source fuel st qs))
      (bind (if marked then bind (read_bom (order_of native') container_source (open_input bytes cap' e o)) (fun '(st, _) => Ok st)
             else Ok (open_input bytes cap' e o)) (fun st => answer_requests (order_of native') container_source fuel st qs))).
    { destruct marked; [|now apply (agree_requests native native' container_source container_source _ _ _ _ G G' e B B')].
      pose proof (agree_bom native native' container_source container_source _ _ _ _ G G' e B B' _ _ H) as A.
      destruct (read_bom (order_of native) container_source (open_input bytes cap e o)) as [[s1 a]|p|u| |],
        (read_bom (order_of native') container_source (open_input bytes cap' e o)) as [[s2 b]|q|v| |]; cbn in A |- *; try contradiction; try exact A.
      destruct A as [_ A]. now apply (agree_requests native native' container_source container_source _ _ _ _ G G' e B B'). }
    pose proof (agree_obtained _ _ _ _ _ _ A) as Q. unfold obtained in Q.
    destruct marked; cbn [bind] in *; [|exact Q].
    destruct (read_bom (order_of native) container_source (open_input bytes cap e o)) as [[s1 a]|p|u| |],
        (read_bom (order_of native') container_source (open_input bytes cap' e o)) as [[s2 b]|q|v| |]; exact Q.
  - now apply (read_on_agree native native' container_source container_source _ _ _ _ G G' e B B').
Qed.
Print Assumptions C143_memory_partial.
Example C143_memory_example : roomy 2 (unit_width UTF16) /\
  read_memory 2 true Big UTF16 BigEndian 20 [0xFF; 0xFE; 0x41; 0; 0x0A; 0; 0x3D; 0xD8; 0x42; 0]%N [(Line, K8); (Rest, K8)]
  = Throw InvalidUnicodeEncoding /\
  read_memory 0 true Little UTF16 LittleEndian 20 [0xFF; 0xFE; 0x41; 0; 0x0A; 0; 0x42; 0]%N [(Line, K8); (Rest, K8)]
  = Ok [AText [0x41]%N; AText [0x42]%N].
Proof. split; [right; cbn; lia|]. split; vm_compute; reflexivity. Qed.

(** A file is read as the same bytes in memory are: on every platform, with every buffer,
    as long as the operating system does not fail (and on Unix-like systems does not
    transfer less than it is asked for, C49). *)
Theorem C143_file_partial : forall pl native native' cap cap' marked e o fuel bytes qs w q m,
  len bytes < 2 ^ 62 -> roomy cap (unit_width e) -> wide_enough cap' e -> Z.of_nat cap' <= chunk_max pl ->
  disk w q = Some bytes -> m <> WriteOnly -> no_failure w -> no_short_read_on_unix pl w ->
  obtained (read_text_file pl w q m cap' marked (order_of native') e o fuel qs)
  = read_memory cap marked (order_of native) e o fuel bytes qs /\
  read_on_file pl w q m cap' (order_of native') e o fuel
  = read_on (order_of native) container_source fuel (open_input bytes cap e o).
Proof.
  intros pl native native' cap cap' marked e o fuel bytes qs w q m L R W C D M Nf Ns.
  set (Pr := fun r => r <> Refuse /\ (pl = Windows \/ r = InFull \/ r = Refuse)).
  assert (Sp : sound_responses pl True Pr).
  { split; [|intros _ r [X _]; exact X]. destruct pl; [right; intros r [_ [X|X]]; [discriminate|exact X]|now left]. }
  assert (Fr : Forall Pr (script w)).
  { apply Forall_forall. intros r I. unfold no_failure in Nf. rewrite Forall_forall in Nf. split; [now apply Nf|].
    destruct Ns as [X|X]; [now left|]. rewrite Forall_forall in X. right. now apply X. }
  assert (Mr : mode_reads m = true) by (destruct m; [reflexivity|congruence|reflexivity]).
  assert (Rn : response_now w <> Refuse).
  { unfold response_now. destruct (script w) as [|r s] eqn:S; [discriminate|]. inversion Fr as [|? ? [X _] _]. exact X. }
  destruct (opened_left Pr pl w q cap' m bytes D ltac:(lia) Rn Fr C) as (f & E & Lf).
  pose proof (container_good_source (Z.of_nat cap)) as G.
  pose proof (sure_good _ _ _ _ (file_text_source Pr True pl (Z.of_nat cap') q m (disk w) bytes Sp Mr)) as G'.
  pose proof (unit_roomy _ _ R) as B. pose proof (file_biggest_wide pl cap' e W C) as B'.
  set (LF := file_left Pr pl (Z.of_nat cap') q m (disk w) bytes) in *.
  set (f0 := TextInput f (order_of o) (form_of e)).
  assert (H : both LF (container_left (Z.of_nat cap)) e f0 (open_input bytes cap e o)).
  { exists o, bytes. split; [split; [exact Lf|split; reflexivity]|now apply open_input_ok]. }
  split.
  - unfold read_text_file, read_memory, obtained. rewrite E. cbn [bind]. cbv zeta. fold f0.
    assert (A : agree LF (container_left (Z.of_nat cap)) e
      (bind (if marked then bind (read_bom (order_of native') (file_source pl) f0) (fun '(st, _) => Ok st)
             else Ok f0) (fun st => answer_requests (order_of native') (file_source pl) fuel st qs))
      (bind (if marked then bind (read_bom (order_of native) container_source (open_input bytes cap e o)) (fun '(st, _) => Ok st)
             else Ok (open_input bytes cap e o)) (fun st => answer_requests (order_of native) container_source fuel st qs))).
    { destruct marked; [|now apply (agree_requests native' native (file_source pl) container_source _ _ _ _ G' G e B' B)].
      pose proof (agree_bom native' native (file_source pl) container_source _ _ _ _ G' G e B' B _ _ H) as A.
      destruct (read_bom (order_of native') (file_source pl) f0) as [[s1 a]|p|u| |],
        (read_bom (order_of native) container_source (open_input bytes cap e o)) as [[s2 b]|r|v| |]; cbn in A |- *; try contradiction; try exact A.
      destruct A as [_ A]. now apply (agree_requests native' native (file_source pl) container_source _ _ _ _ G' G e B' B). }
    assert (Cl : forall st1 s2, both LF (container_left (Z.of_nat cap)) e st1 s2 -> exists w', destroy pl (in_res st1) = Ok w').
    { intros st1 s2 (o' & rest & (Lf' & _) & _). destruct Lf' as (p & s & K' & _ & Pw & _).
      destruct (close_reader pl (Z.of_nat cap') q m (disk w) p s (in_res st1) K' Pw) as (f' & E' & _).
      unfold destroy. rewrite E'. cbn [bind]. eauto. }
    destruct (if marked then bind (read_bom (order_of native') (file_source pl) f0) (fun '(st, _) => Ok st) else Ok f0) as [st1|p|u| |],
      (if marked then bind (read_bom (order_of native) container_source (open_input bytes cap e o)) (fun '(st, _) => Ok st)
             else Ok (open_input bytes cap e o)) as [st2|p2|u2| |]; cbn [bind] in *; try contradiction;
      try (cbn in A; now subst); try reflexivity;
      try (destruct (answer_requests (order_of native') (file_source pl) fuel st1 qs) as [[s1 a]|x|y| |]; cbn in A; contradiction);
      try (destruct (answer_requests (order_of native) container_source fuel st2 qs) as [[s1 a]|x|y| |]; cbn in A; contradiction);
      try (destruct (answer_requests (order_of native') (file_source pl) fuel st1 qs) as [[s1 a]|x|y| |],
             (answer_requests (order_of native) container_source fuel st2 qs) as [[s2 b]|x2|y2| |]; cbn in A; try contradiction;
           try (cbn [bind]; subst; reflexivity);
           destruct A as [-> A]; destruct (Cl _ _ A) as (w' & Ew); cbn [bind]; rewrite Ew; reflexivity);
      try (destruct (answer_requests (order_of native') (file_source pl) fuel st1 qs) as [[s1 a]|x|y| |]; cbn in A |- *; try contradiction; subst; reflexivity);
      try (destruct (answer_requests (order_of native) container_source fuel st2 qs) as [[s1 a]|x|y| |]; cbn in A |- *; try contradiction; subst; reflexivity).
  - unfold read_on_file. rewrite E. cbn [bind]. fold f0.
    now apply (read_on_agree native' native (file_source pl) container_source _ _ _ _ G' G e B' B).
Qed.
Print Assumptions C143_file_partial.
Example C143_file_example :
  let bytes := [0xE2; 0x82; 0xAC; 0x0D; 0x0A; 0x31; 0x32; 0x20; 0xFF; 0x42]%N in
  let w := World (fun q => if N.eqb q 1 then Some bytes else None) (fun _ => None) 0 [InFull; AtMost 1; InFull] in
  disk w 1 = Some bytes /\ no_failure w /\ no_short_read_on_unix Windows w /\ wide_enough 3 UTF8 /\
  obtained (read_text_file Windows w 1 ReadOnly 3 false Little UTF8 LittleEndian 20 [(Line, K16); (Integer I32, K8)])
  = Ok [AText [0x20AC]%N; AnInteger 12] /\
  read_on_file Windows w 1 ReadOnly 3 Little UTF8 LittleEndian 20
  = Ok [Got 0x20AC; Got 10; Got 0x31; Got 0x32; Got 0x20; Failed InvalidUnicodeEncoding; Got 0x42].
Proof.
  cbv zeta. split; [reflexivity|]. split; [repeat constructor; discriminate|]. split; [now left|]. split; [right; cbn; lia|].
  split; vm_compute; reflexivity.
Qed.
