(** Properties C80-C88 of texts in files, on both platforms. *)
From Coq Require Import NArith ZArith List Bool Lia.
From Coq Require Import ZifyBool ZifyNat ZifyN.
From Verif Require Import Base Integers UnicodeSpec UnicodeModel UnicodeText NumeralSpec
  ResourceSpec ResourceModel ResourceText StreamSpec StreamModel StreamText FileSpec FileModel FileText
  TextFileSpec TextFileModel TextFileText.
From Verif Require Import NumberLemmas2 UnicodeLemmas ResourceLemmas StreamLemmas StreamLemmas2 StreamLemmas3 StreamLemmas4
  FileLemmas FileLemmas2 FileLemmas3 FileLemmas5 FileLemmas6
  TextFileLemmas TextFileLemmas2 TextFileLemmas3 TextFileLemmas4 TextFileLemmas5.
From Verif Require Import TextFileSpec TextFileText.
Import ListNotations.
Open Scope Z_scope.

(** For the examples: the contents of files 1 and 2, no others, none open, and the
    responses of the operating system. *)
Definition desk (l1 l2 : option (list N)) (s : list response) : world :=
  World (fun q => if N.eqb q 1 then l1 else if N.eqb q 2 then l2 else None) (fun _ => None) 0 s.

(** The state after a successful run. *)
Definition done (x : outcome world) : world := match x with Ok w => w | _ => desk None None [] end.
Definition done_with {A : Type} (x : outcome (world * A)) : world := match x with Ok (w, _) => w | _ => desk None None [] end.

(** Hé 12 -7, 1, CR LF, €𝄞, LF, z *)
Definition sample_entries : list (entry * ukind) :=
  [(EnterText [0x48; 0xE9; 0x20]%N, K16); (EnterInteger U8 12, K8); (EnterText [0x20]%N, KChar true);
   (EnterInteger I32 (-7), K8); (EnterText [0x20]%N, K8); (EnterBoolean true, K8); (EnterNothing, K8);
   (EnterText [0x0D; 0x0A; 0x20AC; 0x1D11E]%N, K32); (EnterCharacter 0x0A, K8); (EnterCharacter 0x7A, K8)].
Definition sample_text : list N :=
  [0x48; 0xE9; 0x20; 0x31; 0x32; 0x20; 0x2D; 0x37; 0x20; 0x31; 0x0D; 0x0A; 0x20AC; 0x1D11E; 0x0A; 0x7A]%N.
Definition sample_requests : list (request * ukind) :=
  [(Word, K8); (Integer U8, K8); (Integer I32, K8); (Boolean, K8); (Line, K16); (AtEnd, K8); (Character, K8); (AtEnd, K8)].
Definition sample_answers : list piece :=
  [AText [0x48; 0xE9]; AnInteger 12; AnInteger (-7); ABoolean true; AText [0x20AC; 0x1D11E]; ABoolean false; ACharacter 0x7A; ABoolean true]%N.

Lemma sample_entered : entries_text (map fst sample_entries) sample_text.
Proof.
  change sample_text with ([0x48; 0xE9; 0x20] ++ [0x31; 0x32] ++ [0x20] ++ [0x2D; 0x37] ++ [0x20] ++ [0x31] ++ [] ++
    [0x0D; 0x0A; 0x20AC; 0x1D11E] ++ [0x0A] ++ [0x7A] ++ [])%N.
  cbn [map fst sample_entries]. repeat (apply AnotherEntry); try apply NoEntries; try constructor.
  - exists [1; 2]%N. split; [|split; [|vm_compute; reflexivity]].
    + split; [discriminate|]. split; [repeat constructor; lia|]. vm_compute. discriminate.
    + vm_compute. reflexivity.
  - exists [7]%N. split; [|split; [|vm_compute; reflexivity]].
    + split; [discriminate|]. split; [repeat constructor; lia|]. vm_compute. discriminate.
    + vm_compute. reflexivity.
Qed.

Lemma chunk_100 : forall pl, 100 <= chunk_max pl.
Proof. intros []; vm_compute; discriminate. Qed.

Lemma sample_can_enter : forall pl native o, Forall (fun '(p, k) => can_enter native UTF16 o p k /\ small_entry pl UTF16 o p) sample_entries.
Proof.
  intros pl native o. pose proof (chunk_100 pl) as Ch.
  assert (Sm : forall p s, (forall s', entry_text p s' -> s' = s) -> len (text_bytes UTF16 o s) <= 100 -> small_entry pl UTF16 o p).
  { intros p s U L s' T. rewrite (U s' T). lia. }
  assert (St : forall l, len (text_bytes UTF16 o l) <= 100 -> small_entry pl UTF16 o (EnterText l)).
  { intros l L. apply (Sm _ l); [|exact L]. intros s' T. now inversion T. }
  assert (Sc : forall c, len (text_bytes UTF16 o [c]) <= 100 -> small_entry pl UTF16 o (EnterCharacter c)).
  { intros c L. apply (Sm _ [c]); [|exact L]. intros s' T. now inversion T. }
  assert (Si : forall t x s, numeral 10 false None x s -> len (text_bytes UTF16 o s) <= 100 -> small_entry pl UTF16 o (EnterInteger t x)).
  { intros t x s Nu L. apply (Sm _ s); [|exact L]. intros s' T. inversion T; subst.
    eapply (numeral_unique 10 false None x); [lia|eassumption|exact Nu]. }
  pose proof sample_entered as E. unfold sample_entries.
  repeat match goal with |- Forall _ (_ :: _) => apply Forall_cons end; try apply Forall_nil; cbn beta iota; split;
    try (apply St; destruct o; vm_compute; discriminate); try (apply Sc; destruct o; vm_compute; discriminate).
  - cbn [can_enter]. repeat constructor; try (unfold scalar; lia); intros; cbn; lia.
  - split; [vm_compute; tauto|]. split; [vm_compute; split; discriminate|]. vm_compute. discriminate.
  - apply (Si _ _ [0x31; 0x32]%N); [|destruct o; vm_compute; discriminate].
    exists [1; 2]%N. split; [|split; [|vm_compute; reflexivity]].
    + split; [discriminate|]. split; [repeat constructor; lia|]. vm_compute. discriminate.
    + vm_compute. reflexivity.
  - cbn [can_enter]. repeat constructor; lia.
  - split; [vm_compute; tauto|]. split; [vm_compute; split; discriminate|]. intros _. vm_compute. discriminate.
  - apply (Si _ _ [0x2D; 0x37]%N); [|destruct o; vm_compute; discriminate].
    exists [7]%N. split; [|split; [|vm_compute; reflexivity]].
    + split; [discriminate|]. split; [repeat constructor; lia|]. vm_compute. discriminate.
    + vm_compute. reflexivity.
  - cbn [can_enter]. repeat constructor; try (unfold scalar; lia); intros; cbn; lia.
  - exact I.
  - intros s T. inversion T; subst. destruct o; vm_compute; destruct pl; discriminate.
  - exact I.
  - intros s T. inversion T; subst. destruct o; vm_compute; destruct pl; discriminate.
  - cbn [can_enter]. repeat constructor; try (unfold scalar; lia); intros; cbn; lia.
  - cbn [can_enter]. split; [unfold scalar; lia|discriminate].
  - cbn [can_enter]. split; [unfold scalar; lia|discriminate].
Qed.

Lemma sample_obtained : obtains_all (map fst sample_requests) (lf_text sample_text) sample_answers [].
Proof.
  change (lf_text sample_text) with
    ([0x48; 0xE9; 0x20; 0x31; 0x32; 0x20; 0x2D; 0x37; 0x20; 0x31; 0x0A; 0x20AC; 0x1D11E; 0x0A; 0x7A]%N).
  assert (Sp : white_space 0x20%N) by (unfold white_space; lia). assert (Lf : white_space 0x0A%N) by (unfold white_space; lia).
  unfold sample_requests, sample_answers. cbn [map fst].
  eapply ObtainsNext.
  { apply ObtainsWord. apply (WordThenSpace [] [0x48; 0xE9]%N 0x20%N); [constructor|discriminate| |exact Sp].
    repeat constructor; unfold white_space; lia. }
  eapply ObtainsNext.
  { eapply ObtainsInteger with (w := [0x31; 0x32]%N).
    - apply (WordThenSpace [] [0x31; 0x32]%N 0x20%N); [constructor|discriminate| |exact Sp]. repeat constructor; unfold white_space; lia.
    - exists [1; 2]%N. split; [|split; [|vm_compute; reflexivity]].
      + split; [discriminate|]. split; [repeat constructor; lia|]. vm_compute. discriminate.
      + vm_compute. reflexivity.
    - vm_compute. split; discriminate. }
  eapply ObtainsNext.
  { eapply ObtainsInteger with (w := [0x2D; 0x37]%N).
    - apply (WordThenSpace [] [0x2D; 0x37]%N 0x20%N); [constructor|discriminate| |exact Sp]. repeat constructor; unfold white_space; lia.
    - exists [7]%N. split; [|split; [|vm_compute; reflexivity]].
      + split; [discriminate|]. split; [repeat constructor; lia|]. vm_compute. discriminate.
      + vm_compute. reflexivity.
    - vm_compute. split; discriminate. }
  eapply ObtainsNext.
  { apply (ObtainsBoolean true). apply (WordThenSpace [] [0x31]%N 0x0A%N); [constructor|discriminate| |exact Lf].
    repeat constructor; unfold white_space; lia. }
  eapply ObtainsNext.
  { apply (ObtainsLine [0x20AC; 0x1D11E]%N [0x7A]%N). cbn. intuition discriminate. }
  eapply ObtainsNext; [exact (ObtainsAtEnd [0x7A]%N)|].
  eapply ObtainsNext; [apply ObtainsCharacter|].
  eapply ObtainsNext; [exact (ObtainsAtEnd [])|]. apply ObtainsNothing.
Qed.

Lemma sample_can_arrive : all_can_arrive sample_requests sample_answers.
Proof.
  unfold all_can_arrive, sample_requests, sample_answers. cbn [combine].
  repeat match goal with |- Forall _ (_ :: _) => apply Forall_cons end; try apply Forall_nil; cbn beta iota; cbn [can_arrive]; try exact I.
  - repeat constructor; try (unfold scalar; lia); cbn; lia.
  - split; [vm_compute; tauto|]. vm_compute. discriminate.
  - split; [vm_compute; tauto|]. intros _. vm_compute. discriminate.
  - repeat constructor; try (unfold scalar; lia); cbn; lia.
Qed.

Lemma sample_paired : carriage_returns_paired sample_text.
Proof. repeat split; discriminate. Qed.

(* ---------------------------------------------------------------------- C80 *)

(** Whatever has been written to a file through a text stream is read from it, in any
    mix of pieces, on the same or another machine and platform.  Missing: the operating system must transfer all it is asked to
    (C83, C85), an older file must not be longer (see below), a CR must be followed by LF, the strings must
    be convertible (C01, C42), the least values of signed types are left out (C17), and
    no single entry may exceed 2^32 - 1 bytes on Windows (C49). *)
Theorem C80_text_file_partial : forall pl pl' native native' cs w q old how cap cap' m m' e o ps l qs answers rest fuel,
  will_open w q how old -> len old <= len (text_bytes e o l) < 2 ^ 62 -> obliging w ->
  Z.of_nat cap <= chunk_max pl -> Z.of_nat cap' <= chunk_max pl' -> wide_enough cap' e ->
  m <> ReadOnly -> m' <> WriteOnly ->
  entries_text (map fst ps) l -> Forall (fun '(p, k) => can_enter native e o p k /\ small_entry pl e o p) ps ->
  carriage_returns_paired l ->
  obtains_all (map fst qs) (lf_text l) answers rest -> all_can_arrive qs answers -> (length l < fuel)%nat ->
  exists w1 w2,
    write_text_file pl w q m how cap false (order_of native) cs e o ps = Ok w1 /\
    disk w1 q = Some (text_bytes e o l) /\ (forall x, x <> q -> disk w1 x = disk w x) /\
    read_text_file pl' w1 q m' cap' false (order_of native') e o fuel qs = Ok (w2, pieces_in qs answers) /\
    (forall x, disk w2 x = disk w1 x).
Proof.
  intros pl pl' native native' cs w q old how cap cap' m m' e o ps l qs answers rest fuel Wo L B C C' Wi Mw Mr T Pc Cr Ob Ca F.
  pose proof (len_nonneg old).
  assert (Mw' : mode_writes m = true) by (destruct m; [congruence|reflexivity|reflexivity]).
  assert (Mr' : mode_reads m' = true) by (destruct m'; [reflexivity|congruence|reflexivity]).
  destruct (write_text_file_ok pl native cs w q old how cap false m e o ps l Wo B C Mw' T Pc) as (w1 & E1 & D1 & O1 & B1); [lia|].
  rewrite put_over in D1 by lia.
  rewrite <- (filtered_lf_text (length l) l (le_n _) Cr) in Ob.
  assert (Sc : Forall scalar l).
  { apply (entries_scalar native e o ps l T). eapply Forall_impl; [|exact Pc]. intros [p k] X. exact (proj1 X). }
  destruct (gives_true _ _ _ (read_text_file_gives _ True pl' native' w1 q cap' m' e o l fuel qs answers rest (sound_full pl' True) D1
    ltac:(lia) (obliging_now w1 B1) B1 C' Wi Mr' Sc F Ob Ca)) as ([w2 xs] & E2 & -> & D2 & O2).
  exists w1, w2. split; [exact E1|]. split; [exact D1|]. split; [exact O1|]. split; [exact E2|].
  intro x. destruct (N.eq_dec x q) as [->|X]; [exact D2|now apply O2].
Qed.
Print Assumptions C80_text_file_partial.
Example C80_example : forall pl,
  let w := desk None (Some [1; 2; 3]%N) [] in
  will_open w 1 Create [] /\ len (@nil N) <= len (text_bytes UTF16 BigEndian sample_text) < 2 ^ 62 /\ obliging w /\
  wide_enough 3 UTF16 /\ entries_text (map fst sample_entries) sample_text /\
  Forall (fun '(p, k) => can_enter LittleEndian UTF16 BigEndian p k /\ small_entry pl UTF16 BigEndian p) sample_entries /\
  carriage_returns_paired sample_text /\
  obtains_all (map fst sample_requests) (lf_text sample_text) sample_answers [] /\ all_can_arrive sample_requests sample_answers.
Proof.
  intros pl w. split; [right; split; [reflexivity|split; reflexivity]|]. split; [vm_compute; split; [discriminate|reflexivity]|].
  split; [constructor|]. split; [right; cbn; lia|]. split; [exact sample_entered|]. split; [apply sample_can_enter|].
  split; [exact sample_paired|]. split; [exact sample_obtained|exact sample_can_arrive].
Qed.

(** An existing file is not emptied when it is opened: writing "x" over "abcd" makes the
    file contain "xbcd". *)
Theorem C80_longer_file_refuted : forall pl, exists w1 w2,
  write_text_file pl (desk (Some [0x61; 0x62; 0x63; 0x64]%N) None []) 1 WriteOnly Create 16 false Little true UTF8 LittleEndian
    [(EnterText [0x78]%N, K8)] = Ok w1 /\
  read_text_file pl w1 1 ReadOnly 16 false Little UTF8 LittleEndian 10 [(Rest, K8)] = Ok (w2, [AText [0x78; 0x62; 0x63; 0x64]%N]).
Proof.
  intro pl.
  exists (done (write_text_file pl (desk (Some [0x61; 0x62; 0x63; 0x64]%N) None []) 1 WriteOnly Create 16 false Little true UTF8 LittleEndian
    [(EnterText [0x78]%N, K8)])).
  exists (done_with (read_text_file pl (done (write_text_file pl (desk (Some [0x61; 0x62; 0x63; 0x64]%N) None []) 1 WriteOnly Create 16 false Little true UTF8 LittleEndian
    [(EnterText [0x78]%N, K8)])) 1 ReadOnly 16 false Little UTF8 LittleEndian 10 [(Rest, K8)])).
  destruct pl; split; vm_compute; reflexivity.
Qed.
Print Assumptions C80_longer_file_refuted.

(* ---------------------------------------------------------------------- C81 *)

(** Requests of any kinds, in any order, obtain consecutive pieces of a text in memory,
    and what they leave is obtained by the next ones.  Missing: as in C80. *)
Theorem C81_any_mix_partial : forall native e o cap l qs answers rest fuel,
  len (text_bytes e o l) < 2 ^ 62 -> roomy cap (unit_width e) -> Forall scalar l -> carriage_returns_paired l ->
  obtains_all (map fst qs) (lf_text l) answers rest -> all_can_arrive qs answers -> (length l < fuel)%nat ->
  exists st, answer_requests (order_of native) container_source fuel (open_input (text_bytes e o l) cap e o) qs
    = Ok (st, pieces_in qs answers).
Proof.
  intros native e o cap l qs answers rest fuel L W Sc Cr Ob Ca F.
  rewrite <- (filtered_lf_text (length l) l (le_n _) Cr) in Ob.
  destruct (gives_true _ _ _ (requests_give True native container_source _ _ (good_text_source _ True _ _ _ (container_good_source (Z.of_nat cap)))
    e o (length l) fuel (unit_roomy cap e W) F qs l answers rest (open_input (text_bytes e o l) cap e o)
    (conj (open_input_ok _ cap e o L) (conj Sc (le_n _))) Ob Ca)) as ([st xs] & E & -> & _).
  exists st. exact E.
Qed.
Print Assumptions C81_any_mix_partial.
Example C81_example : len (text_bytes UTF8 LittleEndian sample_text) < 2 ^ 62 /\ roomy 1 (unit_width UTF8) /\ Forall scalar sample_text /\
  carriage_returns_paired sample_text /\
  obtains_all (map fst sample_requests) (lf_text sample_text) sample_answers [] /\ all_can_arrive sample_requests sample_answers.
Proof.
  split; [vm_compute; reflexivity|]. split; [right; cbn; lia|]. split; [repeat constructor; unfold scalar; lia|].
  split; [exact sample_paired|]. split; [exact sample_obtained|exact sample_can_arrive].
Qed.

(** A CR that is not followed by LF disappears: the text a CR b is read as ab. *)
Theorem C81_single_cr_refuted : exists st,
  answer_requests Little container_source 10 (open_input (text_bytes UTF8 LittleEndian [0x61; 0x0D; 0x62]%N) 0 UTF8 LittleEndian)
    [(Character, K8); (Character, K8); (AtEnd, K8)] = Ok (st, [ACharacter 0x61; ACharacter 0x62; ABoolean true]%N).
Proof.
  exists (match answer_requests Little container_source 10 (open_input (text_bytes UTF8 LittleEndian [0x61; 0x0D; 0x62]%N) 0 UTF8 LittleEndian)
    [(Character, K8); (Character, K8); (AtEnd, K8)] with Ok (st, _) => st | _ => open_input [] 0 UTF8 LittleEndian end).
  vm_compute. reflexivity.
Qed.
Print Assumptions C81_single_cr_refuted.

(** Exactly what is obtained, for every text. *)
Theorem C81_any_mix_exact : forall native e o cap l qs answers rest fuel,
  len (text_bytes e o l) < 2 ^ 62 -> roomy cap (unit_width e) -> Forall scalar l ->
  obtains_all (map fst qs) (filtered l) answers rest -> all_can_arrive qs answers -> (length l < fuel)%nat ->
  exists st, answer_requests (order_of native) container_source fuel (open_input (text_bytes e o l) cap e o) qs
    = Ok (st, pieces_in qs answers).
Proof.
  intros native e o cap l qs answers rest fuel L W Sc Ob Ca F.
  destruct (gives_true _ _ _ (requests_give True native container_source _ _ (good_text_source _ True _ _ _ (container_good_source (Z.of_nat cap)))
    e o (length l) fuel (unit_roomy cap e W) F qs l answers rest (open_input (text_bytes e o l) cap e o)
    (conj (open_input_ok _ cap e o L) (conj Sc (le_n _))) Ob Ca)) as ([st xs] & E & -> & _).
  exists st. exact E.
Qed.
Print Assumptions C81_any_mix_exact.
Example C81_exact_example : obtains_all [Character; Line; Rest] (filtered [0x61; 0x0D; 0x62; 0x0A; 0x63]%N) [ACharacter 0x61; AText [0x62]; AText [0x63]]%N [].
Proof.
  change (filtered [0x61; 0x0D; 0x62; 0x0A; 0x63]%N) with [0x61; 0x62; 0x0A; 0x63]%N.
  eapply ObtainsNext; [apply ObtainsCharacter|]. eapply ObtainsNext; [apply (ObtainsLine [0x62]%N [0x63]%N); cbn; intuition discriminate|].
  eapply ObtainsNext; [apply ObtainsRest|]. apply ObtainsNothing.
Qed.

(* ---------------------------------------------------------------------- C82 *)

(** What is written after setting the position to the end is behind what was in the
    file, in the same encoding and byte order: the file is the text of both.  Missing: as
    in C80. *)
Theorem C82_appended_partial : forall pl native cs w q l0 cap m e o ps l,
  disk w q = Some (text_bytes e o l0) -> len (text_bytes e o (l0 ++ l)) < 2 ^ 63 -> obliging w ->
  Z.of_nat cap <= chunk_max pl -> m <> ReadOnly ->
  entries_text (map fst ps) l -> Forall (fun '(p, k) => can_enter native e o p k /\ small_entry pl e o p) ps ->
  exists w1, write_text_file pl w q m Fail cap true (order_of native) cs e o ps = Ok w1 /\
    disk w1 q = Some (text_bytes e o (l0 ++ l)) /\ (forall x, x <> q -> disk w1 x = disk w x).
Proof.
  intros pl native cs w q l0 cap m e o ps l D L B C Mw T Pc. rewrite text_bytes_app in *. rewrite len_app in L.
  assert (Mw' : mode_writes m = true) by (destruct m; [congruence|reflexivity|reflexivity]).
  destruct (write_text_file_ok pl native cs w q _ Fail cap true m e o ps l (or_introl D) B C Mw' T Pc L) as (w1 & E1 & D1 & O1 & B1).
  rewrite put_end in D1. exists w1. auto.
Qed.
Print Assumptions C82_appended_partial.
Example C82_example : forall pl,
  let w := desk (Some (text_bytes UTF16 BigEndian [0x61; 0x62]%N)) None [InFull; InFull] in
  disk w 1%N = Some (text_bytes UTF16 BigEndian [0x61; 0x62]%N) /\ len (text_bytes UTF16 BigEndian ([0x61; 0x62]%N ++ sample_text)) < 2 ^ 63 /\
  obliging w /\ entries_text (map fst sample_entries) sample_text /\
  Forall (fun '(p, k) => can_enter LittleEndian UTF16 BigEndian p k /\ small_entry pl UTF16 BigEndian p) sample_entries.
Proof.
  intros pl w. split; [reflexivity|]. split; [vm_compute; reflexivity|]. split; [repeat constructor|].
  split; [exact sample_entered|apply sample_can_enter].
Qed.

(** U+1D800 cannot be appended to a UTF-8 file: the stream refuses it (C01), and the file
    stays as it was. *)
Theorem C82_character_refuted : forall pl cap, cap = 0%nat \/ cap = 16%nat ->
  entry_text (EnterText [0x1D800]%N) [0x1D800]%N /\ Forall scalar [0x1D800]%N /\
  write_text_file pl (desk (Some [0x61]%N) None []) 1 WriteOnly Fail cap true Little true UTF8 LittleEndian
    [(EnterText [0x1D800]%N, K32)] = Throw InvalidCodePoint.
Proof.
  intros pl cap H. split; [constructor|]. split; [repeat constructor; unfold scalar; lia|].
  destruct pl, H as [->| ->]; vm_compute; reflexivity.
Qed.
Print Assumptions C82_character_refuted.

(* ---------------------------------------------------------------------- C83 *)

(** However the operating system behaves once the file is open (on Windows; on Unix-like
    systems it may only fail): the requests obtain the right pieces, or a
    read_past_end exception is thrown.  No wrong text is returned.  Missing: as in C80,
    and short reads on Unix-like systems. *)
Theorem C83_any_system_partial : forall pl native w q cap m e o l qs answers rest fuel,
  disk w q = Some (text_bytes e o l) -> len (text_bytes e o l) < 2 ^ 63 ->
  opens w -> no_short_read_on_unix pl w -> Z.of_nat cap <= chunk_max pl -> wide_enough cap e -> m <> WriteOnly ->
  Forall scalar l -> carriage_returns_paired l -> (length l < fuel)%nat ->
  obtains_all (map fst qs) (lf_text l) answers rest -> all_can_arrive qs answers ->
  (exists w', read_text_file pl w q m cap false (order_of native) e o fuel qs = Ok (w', pieces_in qs answers) /\
     (forall x, disk w' x = disk w x)) \/
  read_text_file pl w q m cap false (order_of native) e o fuel qs = Throw ReadPastEnd.
Proof.
  intros pl native w q cap m e o l qs answers rest fuel D L Op Ns C W Mr Sc Cr F Ob Ca.
  assert (Mr' : mode_reads m = true) by (destruct m; [reflexivity|congruence|reflexivity]).
  rewrite <- (filtered_lf_text (length l) l (le_n _) Cr) in Ob.
  assert (Op' : response_now w <> Refuse).
  { unfold opens in Op. unfold response_now. destruct (script w) as [|[]]; cbn; congruence || tauto. }
  assert (G : gives False (read_text_file pl w q m cap false (order_of native) e o fuel qs) (fun '(w', xs) =>
    xs = pieces_in qs answers /\ disk w' q = disk w q /\ (forall x, x <> q -> disk w' x = disk w x))).
  { destruct Ns as [->|Ns].
    - apply (read_text_file_gives (fun _ => True) False Windows native w q cap m e o l fuel qs answers rest); try assumption.
      + split; [now left|intros []].
      + apply Forall_forall. auto.
    - apply (read_text_file_gives (fun r => r = InFull \/ r = Refuse) False pl native w q cap m e o l fuel qs answers rest); try assumption.
      split; [now right|intros []]. }
  destruct G as [([w' xs] & E & -> & D' & O')|[_ E]]; [left|right; exact E].
  exists w'. split; [exact E|]. intro x. destruct (N.eq_dec x q) as [->|X]; [exact D'|now apply O'].
Qed.
Print Assumptions C83_any_system_partial.
Example C83_example :
  let w := desk (Some (text_bytes UTF16 BigEndian sample_text)) None [InFull; AtMost 1; AtMost 3; Refuse] in
  disk w 1%N = Some (text_bytes UTF16 BigEndian sample_text) /\ len (text_bytes UTF16 BigEndian sample_text) < 2 ^ 63 /\ opens w /\
  no_short_read_on_unix Windows w /\ wide_enough 3 UTF16 /\ Forall scalar sample_text /\ carriage_returns_paired sample_text /\
  obtains_all (map fst sample_requests) (lf_text sample_text) sample_answers [] /\ all_can_arrive sample_requests sample_answers.
Proof.
  intro w. split; [reflexivity|]. split; [vm_compute; reflexivity|]. split; [exact I|]. split; [now left|]. split; [right; cbn; lia|].
  split; [repeat constructor; unfold scalar; lia|].
  split; [exact sample_paired|]. split; [exact sample_obtained|exact sample_can_arrive].
Qed.

(** On a Unix-like system, one short read: the file "abcd" is read as "bcd" and a null
    character, or memory outside the buffer is read. *)
Theorem C83_short_read_refuted : exists w',
  read_text_file UnixLike (desk (Some [0x61; 0x62; 0x63; 0x64]%N) None [InFull; AtMost 1]) 1 ReadOnly 4 false Little UTF8 LittleEndian 10
    [(Rest, K8)] = Ok (w', [AText [0x62; 0x63; 0x64; 0]%N]) /\
  read_text_file UnixLike (desk (Some [0x61; 0x62; 0x63; 0x64]%N) None [InFull; AtMost 1]) 1 ReadOnly 2 false Little UTF8 LittleEndian 10
    [(Rest, K8)] = UB OutOfBoundsRead.
Proof.
  exists (done_with (read_text_file UnixLike (desk (Some [0x61; 0x62; 0x63; 0x64]%N) None [InFull; AtMost 1]) 1 ReadOnly 4 false Little UTF8 LittleEndian 10
    [(Rest, K8)])). split; vm_compute; reflexivity.
Qed.
Print Assumptions C83_short_read_refuted.

(* ---------------------------------------------------------------------- C84 *)

(** Text cannot be written to a file opened for reading: an exception is thrown. *)
Theorem C84_write_refused : forall pl w q how cap f native cs e o ps l,
  new_file pl w q ReadOnly how cap = Ok f ->
  entries_text (map fst ps) l -> Forall (fun '(p, k) => can_enter native e o p k) ps -> l <> [] ->
  make_entries (order_of native) cs (file_sink pl) (TextOutput f (order_of o) (form_of e)) ps = Throw InvalidAccessMode.
Proof.
  intros pl w q how cap f native cs e o ps l H T C Ne. destruct (new_file_cases _ _ _ _ _ _ _ H) as [M _].
  apply (read_only_refuses pl f native cs e o ps l); try assumption.
  unfold new_file in H. destruct (file_open _ _ _ _ _) as [[f1 b]| | | |] eqn:E in H; cbn [bind] in H; try discriminate. injection H as <-.
  unfold file_open, is_open in E. cbn [res inner descriptor bind] in E.
  cbn [os] in E. destruct how, (disk w q); try (injection E as <- _; reflexivity);
    destruct (sys_open _ _ _ _ _) as [w1 fd] in E; injection E as <- _; reflexivity.
Qed.
Print Assumptions C84_write_refused.
Example C84_write_example : exists f,
  new_file UnixLike (desk (Some [1; 2]%N) None []) 1 ReadOnly Fail 4 = Ok f /\
  entries_text [EnterNothing; EnterText []; EnterCharacter 0x61] ([] ++ [] ++ [0x61] ++ [])%N /\
  Forall (fun '(p, k) => can_enter LittleEndian UTF8 LittleEndian p k) [(EnterNothing, K8); (EnterText [], K8); (EnterCharacter 0x61, K8)].
Proof.
  exists (match new_file UnixLike (desk (Some [1; 2]%N) None []) 1 ReadOnly Fail 4 with Ok f => f | _ => no_file (desk None None []) 0 end).
  split; [vm_compute; reflexivity|]. split; [repeat (apply AnotherEntry; [constructor|]); apply NoEntries|].
  repeat constructor; cbn; try (unfold scalar; lia); lia.
Qed.

(** Text cannot be read from a file opened for writing: an exception is thrown.  Missing:
    except for a single character, only when the position is not at the end. *)
Theorem C84_read_refused_partial : forall pl w q how cap f native e o q' k fuel,
  new_file pl w q WriteOnly how cap = Ok f -> q' <> AtEnd -> (0 < fuel)%nat ->
  q' = Character \/ file_is_at_end pl f = Ok false ->
  answer_request (order_of native) (file_source pl) fuel (TextInput f (order_of o) (form_of e)) q' k = Throw InvalidAccessMode.
Proof.
  intros pl w q how cap f native e o q' k fuel H Q F A. destruct (new_file_cases _ _ _ _ _ _ _ H) as [M _].
  now apply write_only_refuses.
Qed.
Print Assumptions C84_read_refused_partial.
Example C84_read_example : exists f,
  new_file Windows (desk (Some [1; 2]%N) None []) 1 WriteOnly Fail 4 = Ok f /\ file_is_at_end Windows f = Ok false.
Proof.
  exists (match new_file Windows (desk (Some [1; 2]%N) None []) 1 WriteOnly Fail 4 with Ok f => f | _ => no_file (desk None None []) 0 end).
  split; vm_compute; reflexivity.
Qed.

(** At the end of a file opened for writing, lines, words and all the rest are read as
    empty strings, and nothing is thrown. *)
Theorem C84_at_end_refuted : forall pl, exists w',
  read_text_file pl (desk (Some []) None []) 1 WriteOnly 4 false Little UTF8 LittleEndian 10 [(Line, K8); (Word, K16); (Rest, K32)]
  = Ok (w', [AText []; AText []; AText []]).
Proof.
  intro pl. exists (done_with (read_text_file pl (desk (Some []) None []) 1 WriteOnly 4 false Little UTF8 LittleEndian 10 [(Line, K8); (Word, K16); (Rest, K32)])).
  destruct pl; vm_compute; reflexivity.
Qed.
Print Assumptions C84_at_end_refuted.

(* ---------------------------------------------------------------------- C85 *)

(** The operating system refuses the write (a full disk, for example): the text is lost,
    with a buffer and without, and no exception is thrown. *)
Theorem C85_lost_refuted : forall pl cap, cap = 0%nat \/ cap = 16%nat -> exists w',
  write_text_file pl (desk (Some []) None [InFull; Refuse]) 1 WriteOnly Create cap false Little true UTF8 LittleEndian
    [(EnterText [0x61; 0x62]%N, K8)] = Ok w' /\ disk w' 1%N = Some [].
Proof.
  intros pl cap H.
  exists (done (write_text_file pl (desk (Some []) None [InFull; Refuse]) 1 WriteOnly Create cap false Little true UTF8 LittleEndian
    [(EnterText [0x61; 0x62]%N, K8)])).
  destruct pl, H as [->| ->]; split; vm_compute; reflexivity.
Qed.
Print Assumptions C85_lost_refuted.

(** The file is not there, and could not be opened: the text is lost, and no exception is
    thrown. *)
Theorem C85_not_there_refuted : forall pl cap, cap = 0%nat \/ cap = 16%nat -> exists w',
  write_text_file pl (desk None None []) 1 WriteOnly Fail cap false Little true UTF8 LittleEndian
    [(EnterText [0x61; 0x62]%N, K8)] = Ok w' /\ disk w' 1%N = None.
Proof.
  intros pl cap H.
  exists (done (write_text_file pl (desk None None []) 1 WriteOnly Fail cap false Little true UTF8 LittleEndian [(EnterText [0x61; 0x62]%N, K8)])).
  destruct pl, H as [->| ->]; split; vm_compute; reflexivity.
Qed.
Print Assumptions C85_not_there_refuted.

(** When the operating system transfers all it is asked to, nothing is lost: the file
    begins with the text written (what an older, longer file has behind it stays).
    Missing: every other behaviour of the operating system. *)
Theorem C85_kept_partial : forall pl native cs w q old how cap m e o ps l,
  will_open w q how old -> len old + len (text_bytes e o l) < 2 ^ 63 -> obliging w ->
  Z.of_nat cap <= chunk_max pl -> m <> ReadOnly ->
  entries_text (map fst ps) l -> Forall (fun '(p, k) => can_enter native e o p k /\ small_entry pl e o p) ps ->
  exists w1, write_text_file pl w q m how cap false (order_of native) cs e o ps = Ok w1 /\
    disk w1 q = Some (text_bytes e o l ++ skipn (length (text_bytes e o l)) old) /\
    (forall x, x <> q -> disk w1 x = disk w x).
Proof.
  intros pl native cs w q old how cap m e o ps l Wo L B C Mw T Pc.
  assert (Mw' : mode_writes m = true) by (destruct m; [congruence|reflexivity|reflexivity]).
  destruct (write_text_file_ok pl native cs w q old how cap false m e o ps l Wo B C Mw' T Pc L) as (w1 & E1 & D1 & O1 & B1).
  exists w1. split; [exact E1|]. split; [|exact O1]. rewrite D1. f_equal. generalize (text_bytes e o l). intros d.
  destruct d as [|c d]; [now rewrite put_nil|]. rewrite put_eq by discriminate.
  rewrite take_0. rewrite zeros_none by (pose proof (len_nonneg old); lia). cbn [app]. rewrite Z.add_0_l.
  unfold drop, len. rewrite Nat2Z.id. reflexivity.
Qed.
Print Assumptions C85_kept_partial.
Example C85_example : forall pl,
  let w := desk (Some (repeat 7%N 100)) None [InFull; InFull] in
  will_open w 1 Fail (repeat 7%N 100) /\ len (repeat 7%N 100) + len (text_bytes UTF16 LittleEndian sample_text) < 2 ^ 63 /\
  obliging w /\ entries_text (map fst sample_entries) sample_text /\
  Forall (fun '(p, k) => can_enter LittleEndian UTF16 LittleEndian p k /\ small_entry pl UTF16 LittleEndian p) sample_entries.
Proof.
  intros pl w. split; [now left|]. split; [vm_compute; reflexivity|]. split; [repeat constructor|].
  split; [exact sample_entered|apply sample_can_enter].
Qed.

(* ---------------------------------------------------------------------- C86 *)

(** Copying a text character by character from one file to another, in another encoding
    and byte order: the second file is the encoded text (with LF for CR LF), and nothing
    else changes.  Missing: as in C80; for UTF-8 the characters of C01. *)
Theorem C86_copied_partial : forall pl native w q r how cap1 cap2 e1 o1 e2 o2 l old fuel, q <> r ->
  disk w q = Some (text_bytes e1 o1 l) -> len (text_bytes e1 o1 l) < 2 ^ 63 ->
  will_open w r how old -> len old <= len (text_bytes e2 o2 (lf_text l)) < 2 ^ 62 -> obliging w ->
  Z.of_nat cap1 <= chunk_max pl -> Z.of_nat cap2 <= chunk_max pl -> wide_enough cap1 e1 ->
  Forall scalar l -> Forall (StreamText.writable e2) l -> carriage_returns_paired l -> (length l < fuel)%nat ->
  exists w', copy_text_file pl w q r how cap1 cap2 (order_of native) e1 o1 e2 o2 fuel = Ok w' /\
    disk w' r = Some (text_bytes e2 o2 (lf_text l)) /\ (forall x, x <> r -> disk w' x = disk w x).
Proof.
  intros pl native w q r how cap1 cap2 e1 o1 e2 o2 l old fuel Qr D L Wo Lo B C1 C2 W Sc Wr Cr F.
  rewrite <- (filtered_lf_text (length l) l (le_n _) Cr) in *.
  destruct (copy_text_file_ok pl native w q r how cap1 cap2 e1 o1 e2 o2 l old fuel) as (w' & E & D' & O'); try assumption; try lia.
  { clear - Wr. assert (Sub : forall x, In x (filtered l) -> In x l); [|rewrite Forall_forall in *; auto].
    intros x. assert (H : forall n l, (length l <= n)%nat -> In x (filtered l) -> In x l); [|exact (H (length l) l (le_n _))].
    clear. induction n as [|n IH]; intros [|c l] Ln; cbn [length filtered] in *; try tauto; try lia.
    destruct (c =? 13)%N; [destruct l as [|d l]; cbn [length] in *; [tauto|]|];
      (intros [->|H]; [cbn; tauto|apply IH in H; [cbn; tauto|lia]]). }
  rewrite put_over in D' by lia. exists w'. auto.
Qed.
Print Assumptions C86_copied_partial.
Example C86_example :
  let w := desk (Some (text_bytes UTF16 BigEndian sample_text)) None [] in
  disk w 1%N = Some (text_bytes UTF16 BigEndian sample_text) /\ will_open w 2 Create [] /\ obliging w /\
  wide_enough 16 UTF16 /\ Forall scalar sample_text /\ Forall (StreamText.writable UTF8) sample_text /\
  carriage_returns_paired sample_text.
Proof.
  intro w. split; [reflexivity|]. split; [right; split; [reflexivity|split; reflexivity]|]. split; [constructor|]. split; [right; cbn; lia|].
  split; [repeat constructor; unfold scalar; lia|]. split; [|exact sample_paired].
  repeat constructor; try (unfold scalar; lia); cbn; lia.
Qed.

(** A UTF-16 file with U+1D800 cannot be copied to a UTF-8 file; and when the target was
    longer before, its old end is still there. *)
Theorem C86_character_refuted : forall pl,
  copy_text_file pl (desk (Some (text_bytes UTF16 LittleEndian [0x61; 0x1D800]%N)) None []) 1 2 Create 16 16 Little
    UTF16 LittleEndian UTF8 LittleEndian 10 = Throw InvalidCodePoint.
Proof. intros []; vm_compute; reflexivity. Qed.
Print Assumptions C86_character_refuted.

Theorem C86_longer_refuted : forall pl, exists w',
  copy_text_file pl (desk (Some (text_bytes UTF16 LittleEndian [0x61]%N)) (Some [0x78; 0x79; 0x7A]%N) []) 1 2 Create 16 16 Little
    UTF16 LittleEndian UTF8 LittleEndian 10 = Ok w' /\ disk w' 2%N = Some [0x61; 0x79; 0x7A]%N.
Proof.
  intro pl. exists (done (copy_text_file pl (desk (Some (text_bytes UTF16 LittleEndian [0x61]%N)) (Some [0x78; 0x79; 0x7A]%N) []) 1 2 Create 16 16 Little
    UTF16 LittleEndian UTF8 LittleEndian 10)).
  destruct pl; split; vm_compute; reflexivity.
Qed.
Print Assumptions C86_longer_refuted.

(* ---------------------------------------------------------------------- C87 *)

(** A file that begins with a byte order mark is read correctly by a stream constructed
    with either byte order, after read_bom.  Missing: as in C80. *)
Theorem C87_marked_partial : forall pl native w q cap m e o o' l fuel qs answers rest,
  disk w q = Some (text_bytes e o (byte_order_mark :: l)) -> len (text_bytes e o (byte_order_mark :: l)) < 2 ^ 63 -> obliging w ->
  Z.of_nat cap <= chunk_max pl -> wide_enough cap e -> m <> WriteOnly ->
  Forall scalar l -> carriage_returns_paired l -> (length l < fuel)%nat ->
  obtains_all (map fst qs) (lf_text l) answers rest -> all_can_arrive qs answers ->
  exists w', read_text_file pl w q m cap true (order_of native) e o' fuel qs = Ok (w', pieces_in qs answers) /\
    (forall x, disk w' x = disk w x).
Proof.
  intros pl native w q cap m e o o' l fuel qs answers rest D L B C W Mr Sc Cr F Ob Ca.
  assert (Mr' : mode_reads m = true) by (destruct m; [reflexivity|congruence|reflexivity]).
  rewrite <- (filtered_lf_text (length l) l (le_n _) Cr) in Ob.
  destruct (read_marked_file pl native w q cap m e o o' l fuel qs answers rest) as (w' & E & D' & O'); try assumption.
  exists w'. split; [exact E|]. intro x. destruct (N.eq_dec x q) as [->|X]; [exact D'|now apply O'].
Qed.
Print Assumptions C87_marked_partial.
Example C87_example :
  let w := desk (Some (text_bytes UTF16 BigEndian (byte_order_mark :: sample_text))) None [] in
  disk w 1%N = Some (text_bytes UTF16 BigEndian (byte_order_mark :: sample_text)) /\
  len (text_bytes UTF16 BigEndian (byte_order_mark :: sample_text)) < 2 ^ 63 /\ obliging w /\ wide_enough 4 UTF16 /\
  Forall scalar sample_text /\ carriage_returns_paired sample_text /\
  obtains_all (map fst sample_requests) (lf_text sample_text) sample_answers [] /\ all_can_arrive sample_requests sample_answers.
Proof.
  intro w. split; [reflexivity|]. split; [vm_compute; reflexivity|]. split; [constructor|]. split; [right; cbn; lia|].
  split; [repeat constructor; unfold scalar; lia|].
  split; [exact sample_paired|]. split; [exact sample_obtained|exact sample_can_arrive].
Qed.

(** Behind the mark, too, a carriage return that is not before a line feed disappears
    (C45). *)
Theorem C87_single_cr_refuted : forall pl o', exists w',
  read_text_file pl (desk (Some (text_bytes UTF16 BigEndian [byte_order_mark; 0x61; 0x0D; 0x62]%N)) None []) 1 ReadOnly 16 true Little UTF16 o' 10
    [(Rest, K16)] = Ok (w', [AText [0x61; 0x62]%N]).
Proof.
  intros pl o'. exists (done_with (read_text_file pl (desk (Some (text_bytes UTF16 BigEndian [byte_order_mark; 0x61; 0x0D; 0x62]%N)) None []) 1 ReadOnly 16 true Little UTF16 o' 10
    [(Rest, K16)])).
  destruct pl, o'; vm_compute; reflexivity.
Qed.
Print Assumptions C87_single_cr_refuted.

(* ---------------------------------------------------------------------- C88 *)

(** A text I/O stream that has read the byte order mark of a file still writes in the
    byte order it was constructed with: "b", appended to a big-endian file by a stream
    constructed as little-endian, is read back as U+6200. *)
Theorem C88_byte_order_refuted : forall pl, exists w1 w2,
  edit_text_file pl (desk (Some (text_bytes UTF16 BigEndian [byte_order_mark; 0x61]%N)) None []) 1 16 Little true UTF16 LittleEndian 10 K16
    [(EnterText [0x62]%N, K16)] = Ok (w1, AText [0x61]%N) /\
  read_text_file pl w1 1 ReadOnly 16 true Little UTF16 LittleEndian 10 [(Rest, K16)] = Ok (w2, [AText [0x61; 0x6200]%N]).
Proof.
  intro pl.
  exists (done_with (edit_text_file pl (desk (Some (text_bytes UTF16 BigEndian [byte_order_mark; 0x61]%N)) None []) 1 16 Little true UTF16 LittleEndian 10 K16
    [(EnterText [0x62]%N, K16)])).
  exists (done_with (read_text_file pl (done_with (edit_text_file pl (desk (Some (text_bytes UTF16 BigEndian [byte_order_mark; 0x61]%N)) None []) 1 16 Little true UTF16 LittleEndian 10 K16
    [(EnterText [0x62]%N, K16)])) 1 ReadOnly 16 true Little UTF16 LittleEndian 10 [(Rest, K16)])).
  destruct pl; split; vm_compute; reflexivity.
Qed.
Print Assumptions C88_byte_order_refuted.

(** Constructed with the byte order of the file, the stream reads the text and
    appends to it; the file is then the mark and both texts.  Missing: the other byte
    order, and as in C80. *)
Theorem C88_appended_partial : forall pl native cs w q cap e o l0 l fuel k ps,
  disk w q = Some (text_bytes e o (byte_order_mark :: l0)) -> obliging w ->
  Z.of_nat cap <= chunk_max pl -> wide_enough cap e ->
  Forall scalar l0 -> carriage_returns_paired l0 -> Forall (storable k) l0 -> (length l0 < fuel)%nat ->
  entries_text (map fst ps) l -> Forall (fun '(p, k) => can_enter native e o p k /\ small_entry pl e o p) ps ->
  len (text_bytes e o (byte_order_mark :: l0 ++ l)) < 2 ^ 63 ->
  exists w', edit_text_file pl w q cap (order_of native) cs e o fuel k ps = Ok (w', AText (units k (lf_text l0))) /\
    disk w' q = Some (text_bytes e o (byte_order_mark :: l0 ++ l)) /\ (forall x, x <> q -> disk w' x = disk w x).
Proof.
  intros pl native cs w q cap e o l0 l fuel k ps D B C W Sc Cr St F T Pc L.
  change (byte_order_mark :: l0 ++ l) with ((byte_order_mark :: l0) ++ l) in L |- *. rewrite text_bytes_app in L |- *. rewrite len_app in L.
  rewrite <- (filtered_lf_text (length l0) l0 (le_n _) Cr).
  apply (edit_text_file_ok pl native cs w q cap e o o l0 l fuel k ps); try assumption.
  clear - St. assert (Sub : forall x, In x (filtered l0) -> In x l0); [|rewrite Forall_forall in *; auto].
  intros x. assert (H : forall n l, (length l <= n)%nat -> In x (filtered l) -> In x l); [|exact (H (length l0) l0 (le_n _))].
  clear. induction n as [|n IH]; intros [|c l] Ln; cbn [length filtered] in *; try tauto; try lia.
  destruct (c =? 13)%N; [destruct l as [|d l]; cbn [length] in *; [tauto|]|];
    (intros [->|H]; [cbn; tauto|apply IH in H; [cbn; tauto|lia]]).
Qed.
Print Assumptions C88_appended_partial.
Example C88_example : forall pl,
  let w := desk (Some (text_bytes UTF16 BigEndian [byte_order_mark; 0x61; 0x1F600]%N)) None [] in
  obliging w /\ wide_enough 16 UTF16 /\ Forall scalar [0x61; 0x1F600]%N /\ Forall (storable K16) [0x61; 0x1F600]%N /\
  entries_text (map fst sample_entries) sample_text /\
  Forall (fun '(p, k) => can_enter LittleEndian UTF16 BigEndian p k /\ small_entry pl UTF16 BigEndian p) sample_entries /\
  len (text_bytes UTF16 BigEndian (byte_order_mark :: [0x61; 0x1F600]%N ++ sample_text)) < 2 ^ 63.
Proof.
  intros pl w. split; [constructor|]. split; [right; cbn; lia|]. split; [repeat constructor; unfold scalar; lia|].
  split; [repeat constructor; try (unfold scalar; lia); cbn; lia|]. split; [exact sample_entered|]. split; [apply sample_can_enter|].
  vm_compute. reflexivity.
Qed.
