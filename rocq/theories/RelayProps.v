(** Text passed through a container in parts (C163, C164). *)
From Coq Require Import NArith ZArith List Bool Lia ZifyBool ZifyNat ZifyN.
From Verif Require Import Base Integers UnicodeSpec UnicodeModel UnicodeText NumeralSpec ResourceSpec ResourceModel ResourceText
  StreamSpec StreamModel StreamText SharedSpec SharedModel TextFileSpec TextFileModel TextFileText.
From Verif Require Import ResourceLemmas StreamLemmas StreamLemmas2 StreamLemmas3 TextFileLemmas TextFileLemmas2 TextFileLemmas3.
From Verif Require Import NumberLemmas2 FileSpec FileModel FileText FollowText TextFileProps.
From Verif Require Import RelaySpec RelayText RelayLemmas.
Import ListNotations.
Open Scope Z_scope.

Lemma roomy_biggest : forall cap e, roomy cap (unit_width e) -> Z.of_nat (unit_width e) <= biggest_read (Z.of_nat cap).
Proof.
  intros cap e H. unfold biggest_read, roomy in *. destruct (Z.eqb_spec (Z.of_nat cap) 0); [|lia].
  assert (Z.of_nat (unit_width e) <= 4) by (destruct e; cbn; lia). lia.
Qed.

Lemma enter_all : forall native most total e o rounds, rounds_enter native e o rounds -> total <= most ->
  Forall (fun r => Forall (fun '(p, k) => enters native most total e o p k) (fst r)) rounds.
Proof.
  intros native most total e o rounds H L. eapply Forall_impl; [|exact H]. intros r Hr. eapply Forall_impl; [|exact Hr].
  intros [p k] C. split; [exact C|now left].
Qed.

(** C163.  A container of bytes holds some text.  An output stream (at the end) and an input
    stream (at the beginning) are used on it in turn: in every round entries are made, the
    output stream is flushed, and requests are made.  For every encoding, byte order, buffer
    capacities (the input's holding at least one code unit), entries and requests: the
    requests of each round obtain, one after the other, the pieces of what has been
    written and not been read, over the borders of the rounds, with nothing lost, repeated or
    mixed up; and in the end the container holds the old text and everything that
    was written. *)
Theorem C163_passed_on : forall native cs e o wcap rcap old rounds text answers fuel,
  Forall scalar old -> whole_lines old ->
  relayed (bare rounds) (lf_text old) text answers ->
  rounds_enter native e o rounds -> rounds_arrive rounds answers ->
  roomy rcap (unit_width e) -> len (text_bytes e o (old ++ text)) < 2 ^ 62 ->
  (length (old ++ text) < fuel)%nat ->
  exists s, relay native cs shared_source true fuel e o wcap rcap old rounds = Ok (s, all_pieces rounds answers) /\
    owned s = text_bytes e o (old ++ text).
Proof.
  intros native cs e o wcap rcap old rounds text answers fuel Sc W R En Ar Rm L F. unfold relay.
  assert (L0 : len (text_bytes e o old) < 2 ^ 62)
    by (rewrite text_bytes_app, len_app in L; pose proof (len_nonneg (text_bytes e o text)); lia).
  destruct (relay_start wcap rcap e o old Sc L0) as (s & E & H). rewrite E. cbn [bind]. rewrite <- (whole_filtered old W) in R.
  pose proof (container_pipeline (Z.of_nat wcap) (Z.of_nat rcap) shared_source (shared_good_source _ _)) as Pn.
  destruct (relay_rounds native cs shared_source shared_sink _ _ _ _ Pn e o fuel _ true _
    (flushed_requests native _ _ _ _ _ _ Pn e o fuel (roomy_biggest _ _ Rm)) rounds old old (length old) s _ _ text answers H)
    as (s' & g & E' & _ & K); try assumption.
  - rewrite (whole_filtered old W). exact (whole_none old W).
  - apply Forall_forall. auto.
  - exact (enter_all native (2 ^ 62) (2 ^ 62) e o rounds En (Z.le_refl _)).
  - rewrite app_length in F. exact F.
  - exists s'. auto.
Qed.
Print Assumptions C163_passed_on.

(** "a" is there; "bc", CR LF and "1" are written and the line and one more character read;
    then " 42" and LF are written and a number is read, and there is nothing left. *)
Definition C163_rounds : list (list (entry * ukind) * list (TextFileSpec.request * ukind)) :=
  [([(EnterText [98; 99; 13; 10]%N, K8); (EnterBoolean true, K8)], [(Line, K8); (Character, K8)]);
   ([(EnterCharacter 32%N, K8); (EnterInteger I32 42, K8); (EnterCharacter 10%N, K8)], [(Integer I32, K8); (AtEnd, K8)])].
Definition C163_answers : list (list piece) :=
  [[AText [97; 98; 99]%N; ACharacter 49%N]; [AnInteger 42; ABoolean true]].
Example C163_hypotheses : exists text,
  relayed (bare C163_rounds) (lf_text [97]%N) text C163_answers /\ rounds_enter LittleEndian UTF16 BigEndian C163_rounds /\
  rounds_arrive C163_rounds C163_answers /\ whole_lines [97]%N /\ roomy 2 (unit_width UTF16) /\
  len (text_bytes UTF16 BigEndian ([97]%N ++ text)) < 2 ^ 62.
Proof.
  assert (Nu : numeral 10 false None 42 [52; 50]%N).
  { exists [4; 2]%N. split; [|split; [|vm_compute; reflexivity]].
    - split; [discriminate|]. split; [repeat constructor; lia|]. vm_compute. discriminate.
    - vm_compute. reflexivity. }
  assert (None_ : forall l, ~ In 13%N l -> whole_lines l)
    by (intros l H a b ->; elim H; apply in_or_app; right; now left).
  exists (([98; 99; 13; 10] ++ [49] ++ []) ++ ([32] ++ [52; 50] ++ [10] ++ []) ++ [])%N.
  split; [|split; [|split; [|split; [|split]]]].
  - cbn [bare C163_rounds map fst]. eapply RelayedRound; [| | |eapply RelayedRound; [| | |apply RelayedNothing]].
    + repeat (apply AnotherEntry); try apply NoEntries; constructor.
    + intros a b X. do 2 (destruct a as [|? a]; [discriminate X|]; injection X as <- X).
      destruct a as [|? a]; injection X as <-; [exists [49]%N; auto|]. 
      repeat (destruct a as [|? a]; [discriminate|]; injection H as <- H). destruct a; discriminate.
    + change (lf_text [97] ++ lf_text ([98; 99; 13; 10] ++ [49] ++ []))%N with ([97; 98; 99] ++ 10 :: [49])%N.
      eapply ObtainsNext; [apply ObtainsLine; cbn; intuition discriminate|]. eapply ObtainsNext; [apply ObtainsCharacter|apply ObtainsNothing].
    + repeat (apply AnotherEntry); try apply NoEntries; try constructor. exact Nu.
    + apply None_. cbn. intuition discriminate.
    + change ([] ++ lf_text ([32] ++ [52; 50] ++ [10] ++ []))%N with ([32] ++ [52; 50] ++ 10 :: [])%N.
      eapply ObtainsNext; [eapply ObtainsInteger with (w := [52; 50]%N)|eapply ObtainsNext; [exact (ObtainsAtEnd [])|apply ObtainsNothing]].
      * apply WordThenSpace; [repeat constructor; unfold white_space; lia|discriminate| |unfold white_space; lia].
        repeat constructor; unfold white_space; lia.
      * exact Nu.
      * vm_compute. split; discriminate.
  - assert (St : standard I32) by (vm_compute; tauto).
    unfold C163_rounds. repeat apply Forall_cons; try apply Forall_nil; cbn beta iota; cbn [can_enter fst]; try (split; [exact St|]);
      repeat constructor; try (unfold scalar; lia); try (intros; cbn; lia); try (vm_compute; discriminate); try discriminate.
  - assert (St : standard I32) by (vm_compute; tauto).
    apply Forall_cons; [|apply Forall_cons; [|apply Forall_nil]]; apply Forall_cons.
    + repeat constructor; unfold scalar; lia.
    + apply Forall_cons; [exact I|apply Forall_nil].
    + split; [exact St|]. intros _. vm_compute. discriminate.
    + apply Forall_cons; [exact I|apply Forall_nil].
  - apply None_. cbn. intuition discriminate.
  - right. cbn. lia.
  - vm_compute. reflexivity.
Qed.
Example C163_example : exists s,
  relay LittleEndian true shared_source true 20 UTF16 BigEndian 5 2 [97]%N C163_rounds = Ok (s, C163_answers).
Proof. eexists. vm_compute. reflexivity. Qed.

(** The refutation of C164: with the output resource tied to the input resource, but
    without a flush, the line that has been written is not found: what is read is
    an empty line, although a read would have flushed the output.  The
    input stream asks for the end first, and that does not flush. *)
Theorem C164_refuted : exists e o wcap rcap rounds text answers s,
  relayed (bare rounds) [] text answers /\ rounds_enter LittleEndian e o rounds /\ rounds_arrive rounds answers /\
  ~ In 13%N text /\ roomy rcap (unit_width e) /\
  relay LittleEndian true tied_source false 20 e o wcap rcap [] rounds = Ok (s, [[AText []]]) /\
  all_pieces rounds answers = [[AText [104; 105]%N]].
Proof.
  exists UTF8, LittleEndian, 16%nat, 16%nat, [([(EnterText [104; 105; 10]%N, K8)], [(Line, K8)])], [104; 105; 10]%N, [[AText [104; 105]%N]].
  eexists. split; [|split; [|split; [|split; [|split; [|split]]]]]; [| | | | |vm_compute; reflexivity|reflexivity].
  - change [104; 105; 10]%N with (([104; 105; 10] ++ []) ++ [] : list N)%N at 2. econstructor; [| | |constructor].
    + cbn [map fst]. repeat econstructor.
    + intros a b X. do 4 (destruct a as [|? a]; [discriminate|]). destruct a; discriminate.
    + econstructor; [|constructor]. change ([] ++ lf_text ([104; 105; 10] ++ []))%N with ([104; 105] ++ 10%N :: [])%N.
      apply ObtainsLine. intros [X|[X|[]]]; discriminate.
  - repeat constructor; unfold scalar; try lia.
  - repeat constructor; unfold scalar; lia.
  - intros [X|[X|[X|[]]]]; discriminate.
  - unfold roomy. cbn. lia.
Qed.
Print Assumptions C164_refuted.

(** Missing: rounds in which something else than a character is asked for first.  The first
    read flushes the output resource, and from then on everything is found. *)
Theorem C164_character_first_partial : forall native cs e o wcap rcap old rounds text answers fuel,
  Forall scalar old -> whole_lines old -> character_first rounds ->
  relayed (bare rounds) (lf_text old) text answers ->
  rounds_enter native e o rounds -> rounds_arrive rounds answers ->
  roomy rcap (unit_width e) -> len (text_bytes e o (old ++ text)) < 2 ^ 62 ->
  (length (old ++ text) < fuel)%nat ->
  exists s, relay native cs tied_source false fuel e o wcap rcap old rounds = Ok (s, all_pieces rounds answers).
Proof.
  intros native cs e o wcap rcap old rounds text answers fuel Sc W Q R En Ar Rm L F. unfold relay.
  assert (L0 : len (text_bytes e o old) < 2 ^ 62)
    by (rewrite text_bytes_app, len_app in L; pose proof (len_nonneg (text_bytes e o text)); lia).
  destruct (relay_start wcap rcap e o old Sc L0) as (s & E & H). rewrite E. cbn [bind]. rewrite <- (whole_filtered old W) in R.
  pose proof (container_pipeline (Z.of_nat wcap) (Z.of_nat rcap) shared_source (shared_good_source _ _)) as Pn.
  destruct (relay_rounds native cs shared_source shared_sink _ _ _ _ Pn e o fuel _ false _
    (tied_requests native _ _ e o fuel (roomy_biggest _ _ Rm)) rounds old old (length old) s _ _ text answers
    (between_weak _ _ _ _ _ _ Pn _ _ _ _ _ _ _ _ _ H)) as (s' & g & E' & _); try assumption.
  - rewrite (whole_filtered old W). exact (whole_none old W).
  - exact (enter_all native (2 ^ 62) (2 ^ 62) e o rounds En (Z.le_refl _)).
  - rewrite app_length in F. exact F.
  - exists s'. exact E'.
Qed.
Print Assumptions C164_character_first_partial.

Definition C164_rounds : list (list (entry * ukind) * list (TextFileSpec.request * ukind)) :=
  [([(EnterText [0x20AC; 98; 10]%N, K8)], [(Character, K8); (Line, K8)]);
   ([], []); ([(EnterText [32; 99; 32; 100]%N, K8)], [(Character, K8); (Word, K8); (Rest, K8)])].
Definition C164_answers : list (list piece) :=
  [[ACharacter 0x20AC; AText [98]]; []; [ACharacter 32; AText [99]; AText [100]]]%N.
Example C164_hypotheses : exists text,
  relayed (bare C164_rounds) (lf_text []) text C164_answers /\ rounds_enter BigEndian UTF8 LittleEndian C164_rounds /\
  rounds_arrive C164_rounds C164_answers /\ character_first C164_rounds /\ roomy 4 (unit_width UTF8) /\
  len (text_bytes UTF8 LittleEndian ([] ++ text)) < 2 ^ 62.
Proof.
  assert (None_ : forall l, ~ In 13%N l -> whole_lines l)
    by (intros l H a b ->; elim H; apply in_or_app; right; now left).
  exists (([0x20AC; 98; 10] ++ []) ++ [] ++ ([32; 99; 32; 100] ++ []) ++ [])%N.
  split; [|split; [|split; [|split; [|split]]]].
  - cbn [bare C164_rounds map fst].
    eapply RelayedRound; [| | |eapply RelayedRound; [| | |eapply RelayedRound; [| | |apply RelayedNothing]]].
    + repeat constructor.
    + apply None_. cbn. intuition discriminate.
    + change (lf_text [] ++ lf_text ([0x20AC; 98; 10] ++ []))%N with (0x20AC :: [98] ++ 10 :: [])%N.
      eapply ObtainsNext; [apply ObtainsCharacter|]. eapply ObtainsNext; [apply ObtainsLine; cbn; intuition discriminate|apply ObtainsNothing].
    + constructor.
    + apply None_. intros [].
    + apply ObtainsNothing.
    + repeat constructor.
    + apply None_. cbn. intuition discriminate.
    + change (lf_text [] ++ lf_text ([32; 99; 32; 100] ++ []))%N with (32 :: [] ++ [99] ++ 32 :: [100])%N.
      eapply ObtainsNext; [apply ObtainsCharacter|].
      eapply ObtainsNext; [apply ObtainsWord; apply (WordThenSpace [] [99]%N 32%N [100]%N); [constructor|discriminate| |unfold white_space; lia]|].
      * repeat constructor; unfold white_space; lia.
      * eapply ObtainsNext; [apply ObtainsRest|apply ObtainsNothing].
  - repeat constructor; unfold scalar; lia.
  - repeat constructor; unfold scalar; lia.
  - repeat constructor.
  - right. cbn. lia.
  - vm_compute. reflexivity.
Qed.
Example C164_example : exists s,
  relay BigEndian true tied_source false 20 UTF8 LittleEndian 16 4 [] C164_rounds = Ok (s, C164_answers).
Proof. eexists. vm_compute. reflexivity. Qed.

(* ----------------------------------------------------------------------- files *)

Lemma roomy_file : forall pl cap e, roomy cap (unit_width e) -> Z.of_nat (unit_width e) <= file_biggest pl (Z.of_nat cap).
Proof.
  intros pl cap e H. unfold file_biggest, roomy in *. destruct (Z.eqb_spec (Z.of_nat cap) 0); [|lia].
  assert (Z.of_nat (unit_width e) <= 4) by (destruct e; cbn; lia). pose proof (chunk_100 pl). lia.
Qed.

(** C165.  A text file is there, or will be created.  One file object is at its end and
    another one at its beginning, and an output stream and an input stream on them are used
    in turn: the requests of each round obtain, one after the other, the pieces of
    what has been written and not been read, and the file holds the old text and
    everything that was written.  Partial: the operating system does all it is asked to
    do, and no single entry is larger than one transfer. *)
Theorem C165_followed_partial : forall pl native cs w q mw mr how e o wcap rcap old rounds text answers fuel,
  disk w q = Some (text_bytes e o old) \/ disk w q = None /\ how = Create /\ old = [] ->
  obliging w -> mode_writes mw = true -> mode_reads mr = true ->
  Z.of_nat wcap <= chunk_max pl -> Z.of_nat rcap <= chunk_max pl ->
  Forall scalar old -> whole_lines old ->
  relayed (bare rounds) (lf_text old) text answers ->
  rounds_enter native e o rounds -> rounds_small pl e o rounds -> rounds_arrive rounds answers ->
  roomy rcap (unit_width e) -> len (text_bytes e o (old ++ text)) < 2 ^ 63 ->
  (length (old ++ text) < fuel)%nat ->
  exists d, follow_text pl w q mw mr how wcap rcap native cs fuel e o rounds = Ok (d, all_pieces rounds answers) /\
    disk (system d) q = Some (text_bytes e o (old ++ text)).
Proof.
  intros pl native cs w q mw mr how e o wcap rcap old rounds text answers fuel D Ob Mw Mr C1 C2 Sc W R En Sm Ar Rm L F.
  assert (L0 : len (text_bytes e o old) < 2 ^ 63)
    by (rewrite text_bytes_app, len_app in L; pose proof (len_nonneg (text_bytes e o text)); lia).
  destruct (follow_start pl w q mw mr how wcap rcap e o old Mw D Sc L0 Ob C1 C2) as (f & g & E & H).
  unfold follow_text. rewrite E. cbn [bind]. rewrite <- (whole_filtered old W) in R.
  pose proof (file_pipeline pl (Z.of_nat wcap) (Z.of_nat rcap) q mw mr Mw Mr) as Pn.
  destruct (relay_rounds native cs (second_source pl) (first_sink pl) _ _ _ _ Pn e o fuel _ true _
    (flushed_requests native _ _ _ _ _ _ Pn e o fuel (roomy_file _ _ _ Rm)) rounds old old (length old) _ _ _ text answers H)
    as (d & p & E' & K); try assumption.
  - rewrite (whole_filtered old W). exact (whole_none old W).
  - apply Forall_forall. auto.
  - clear - En Sm. induction rounds as [|[ps qs] rounds IH]; [constructor|].
    inversion En as [|? ? En1 En2]; subst. inversion Sm as [|? ? Sm1 Sm2]; subst. constructor; [|exact (IH En2 Sm2)].
    cbn [fst] in *. clear - En1 Sm1. induction ps as [|[p k] ps IH]; [constructor|].
    inversion En1 as [|? ? A1 A2]; subst. inversion Sm1 as [|? ? B1 B2]; subst. constructor; [|exact (IH A2 B2)].
    split; [exact A1|right; exact B1].
  - rewrite app_length in F. exact F.
  - exists d. split; [exact E'|]. exact (file_end _ _ _ _ _ _ _ _ _ K).
Qed.
Print Assumptions C165_followed_partial.

(** The rounds of C163, on a file. *)
Example C165_hypotheses : forall pl, rounds_small pl UTF16 BigEndian C163_rounds.
Proof.
  intros pl. pose proof (chunk_100 pl) as Ch.
  assert (One : forall p s, entry_text p s -> (forall s', entry_text p s' -> s' = s) -> len (text_bytes UTF16 BigEndian s) <= 100 ->
    small_entry pl UTF16 BigEndian p) by (intros p s T U L s' T'; rewrite (U s' T'); lia).
  assert (Nu : numeral 10 false None 42 [52; 50]%N).
  { exists [4; 2]%N. split; [|split; [|vm_compute; reflexivity]].
    - split; [discriminate|]. split; [repeat constructor; lia|]. vm_compute. discriminate.
    - vm_compute. reflexivity. }
  unfold C163_rounds. repeat apply Forall_cons; try apply Forall_nil; cbn beta iota.
  - apply (One _ [98; 99; 13; 10]%N); [constructor|intros s' T; now inversion T|vm_compute; discriminate].
  - apply (One _ [49]%N); [apply (TextOfBoolean true)|intros s' T; now inversion T|vm_compute; discriminate].
  - apply (One _ [32]%N); [constructor|intros s' T; now inversion T|vm_compute; discriminate].
  - apply (One _ [52; 50]%N); [constructor; exact Nu| |vm_compute; discriminate].
    intros s' T. inversion T; subst. eapply (numeral_unique 10 false None 42); [lia|eassumption|exact Nu].
  - apply (One _ [10]%N); [constructor|intros s' T; now inversion T|vm_compute; discriminate].
Qed.
Example C165_example : forall pl,
  match follow_text pl (desk (Some (text_bytes UTF16 BigEndian [97]%N)) None []) 1 WriteOnly ReadOnly Fail 5 2 LittleEndian true 20 UTF16 BigEndian C163_rounds with
  | Ok (_, a) => Some a | _ => None end = Some C163_answers.
Proof. intros []; vm_compute; reflexivity. Qed.

(** Whole lines: in every round some lines are written, each with its LF, and as many are
    read. *)
Definition line_rounds (k : ukind) (rounds : list (list (list N))) : list (list (entry * ukind) * list (TextFileSpec.request * ukind)) :=
  map (fun ls => (map (fun l => (EnterText (l ++ [10%N]), k)) ls, map (fun _ => (Line, k)) ls)) rounds.
Definition lines_text (ls : list (list N)) : list N := flat_map (fun l => l ++ [10%N]) ls.

Lemma line_obtained : forall ls rest, Forall (fun l => ~ In 10%N l) ls ->
  obtains_all (map (fun _ => Line) ls) (lines_text ls ++ rest) (map AText ls) rest.
Proof.
  induction ls as [|l ls IH]; intros rest H; inversion H as [|? ? H1 H2]; subst; cbn [map lines_text flat_map app]; [constructor|].
  econstructor; [|exact (IH rest H2)]. fold (lines_text ls). rewrite <- !app_assoc. cbn [app]. now constructor.
Qed.

Lemma line_entered : forall k ls, entries_text (map fst (map (fun l => (EnterText (l ++ [10%N]), k)) ls : list (entry * ukind))) (lines_text ls).
Proof. intros k. induction ls as [|l ls IH]; [constructor|]. cbn [map fst lines_text flat_map]. constructor; [constructor|exact IH]. Qed.

Lemma lines_no_cr : forall ls, Forall (fun l => ~ In 13%N l) ls -> ~ In 13%N (lines_text ls).
Proof.
  induction ls as [|l ls IH]; intros H; inversion H as [|? ? H1 H2]; subst; [intros []|]. cbn [lines_text flat_map]. intro X.
  apply in_app_or in X. destruct X as [X|X]; [|exact (IH H2 X)]. apply in_app_or in X. destruct X as [X|[X|[]]]; [exact (H1 X)|discriminate].
Qed.

Lemma line_relayed : forall k rounds, Forall (Forall (fun l => ~ In 10%N l /\ ~ In 13%N l)) rounds ->
  relayed (bare (line_rounds k rounds)) [] (lines_text (concat rounds)) (map (map AText) rounds).
Proof.
  intros k. induction rounds as [|ls rounds IH]; intros H; [constructor|]. inversion H as [|? ? H1 H2]; subst.
  cbn [line_rounds map bare concat]. unfold lines_text. rewrite flat_map_app. fold (lines_text ls) (lines_text (concat rounds)).
  assert (Cr : ~ In 13%N (lines_text ls)) by (apply lines_no_cr; eapply Forall_impl; [|exact H1]; intros l Hl; exact (proj2 Hl)).
  econstructor; [exact (line_entered k ls)| | |exact (IH H2)].
  - intros a b X. elim Cr. rewrite X. apply in_or_app. right. now left.
  - assert (Nf : lf_text (lines_text ls) = lines_text ls).
    { rewrite <- whole_filtered; [now apply filtered_none|]. intros a b X. elim Cr. rewrite X. apply in_or_app. right. now left. }
    rewrite Nf. cbn [app]. rewrite map_map. cbn [fst]. rewrite <- (app_nil_r (lines_text ls)).
    apply line_obtained. eapply Forall_impl; [|exact H1]. intros l Hl. exact (proj1 Hl).
Qed.

(** Lines that are written and read in turns come out as they went in, and are the lines
    of the file.  Partial: as C165_followed_partial; the lines are written whole (see the
    refutation). *)
Theorem C165_lines_partial : forall pl native cs w q mw mr e o k wcap rcap rounds fuel,
  disk w q = None \/ disk w q = Some [] -> obliging w -> mode_writes mw = true -> mode_reads mr = true ->
  Z.of_nat wcap <= chunk_max pl -> Z.of_nat rcap <= chunk_max pl -> roomy rcap (unit_width e) ->
  Forall (Forall (fun l => ~ In 10%N l /\ ~ In 13%N l /\ Forall (storable k) l /\ Forall (printable native e o k) (l ++ [10%N]) /\
    len (text_bytes e o (l ++ [10%N])) <= chunk_max pl)) rounds ->
  len (text_bytes e o (lines_text (concat rounds))) < 2 ^ 63 -> (length (lines_text (concat rounds)) < fuel)%nat ->
  exists d, follow_text pl w q mw mr Create wcap rcap native cs fuel e o (line_rounds k rounds)
      = Ok (d, map (map (fun l => AText (units k l))) rounds) /\
    disk (system d) q = Some (text_bytes e o (lines_text (concat rounds))).
Proof.
  intros pl native cs w q mw mr e o k wcap rcap rounds fuel D Ob Mw Mr C1 C2 Rm H L F.
  assert (Ans : all_pieces (line_rounds k rounds) (map (map AText) rounds) = map (map (fun l => AText (units k l))) rounds).
  { clear. unfold all_pieces, line_rounds. induction rounds as [|ls rounds IH]; [reflexivity|]. cbn [map combine]. f_equal; [|exact IH].
    unfold pieces_in. induction ls as [|l ls IH2]; [reflexivity|]. cbn [map combine piece_in]. f_equal. exact IH2. }
  destruct (C165_followed_partial pl native cs w q mw mr Create e o wcap rcap [] (line_rounds k rounds) (lines_text (concat rounds))
    (map (map AText) rounds) fuel) as (d & E & K); try assumption.
  - destruct D as [D|D]; [right; auto|left; exact D].
  - constructor.
  - intros a b X. destruct a; discriminate.
  - apply line_relayed. eapply Forall_impl; [|exact H]. intros ls Hl. eapply Forall_impl; [|exact Hl]. intros l (A & B & _). auto.
  - unfold rounds_enter, line_rounds. apply Forall_map. eapply Forall_impl; [|exact H]. intros ls Hl. cbn [fst]. apply Forall_map.
    eapply Forall_impl; [|exact Hl]. intros l (_ & _ & _ & A & _). exact A.
  - unfold rounds_small, line_rounds. apply Forall_map. eapply Forall_impl; [|exact H]. intros ls Hl. cbn [fst]. apply Forall_map.
    eapply Forall_impl; [|exact Hl]. intros l (_ & _ & _ & _ & A) s T. inversion T; subst. exact A.
  - clear - H. unfold rounds_arrive, line_rounds. induction rounds as [|ls rounds IH]; [constructor|]. inversion H as [|? ? H1 H2]; subst.
    cbn [map combine]. constructor; [|exact (IH H2)]. unfold all_can_arrive. clear - H1.
    induction ls as [|l ls IH]; [constructor|]. inversion H1 as [|? ? A B]; subst. cbn [map combine]. constructor; [|exact (IH B)].
    cbn [can_arrive]. tauto.
  - exists d. rewrite <- Ans. split; [exact E|]. cbn [app] in K. exact K.
Qed.
Print Assumptions C165_lines_partial.

Example C165_lines_example : forall pl,
  Forall (Forall (fun l => ~ In 10%N l /\ ~ In 13%N l /\ Forall (storable K16) l /\ Forall (printable BigEndian UTF8 LittleEndian K16) (l ++ [10%N]) /\
    len (text_bytes UTF8 LittleEndian (l ++ [10%N])) <= chunk_max pl)) [[[97; 0x20AC]; []]; []; [[98; 32; 99]]]%N /\
  match follow_text pl (desk None None []) 1 ReadAndWrite ReadOnly Create 16 1 BigEndian true 20 UTF8 LittleEndian
    (line_rounds K16 [[[97; 0x20AC]; []]; []; [[98; 32; 99]]]%N) with
  | Ok (_, a) => Some a | _ => None end = Some [[AText [97; 0x20AC]; AText []]; []; [AText [98; 32; 99]]]%N.
Proof.
  intros pl. pose proof (chunk_100 pl) as Ch. split.
  - assert (One : forall l, ~ In 10%N l -> ~ In 13%N l -> Forall (storable K16) l -> Forall (printable BigEndian UTF8 LittleEndian K16) (l ++ [10%N]) ->
      len (text_bytes UTF8 LittleEndian (l ++ [10%N])) <= 100 ->
      ~ In 10%N l /\ ~ In 13%N l /\ Forall (storable K16) l /\ Forall (printable BigEndian UTF8 LittleEndian K16) (l ++ [10%N]) /\
      len (text_bytes UTF8 LittleEndian (l ++ [10%N])) <= chunk_max pl) by (intros; repeat split; auto; lia).
    assert (St : forall l, Forall (fun c => scalar c /\ (c < 0xD800)%N) l -> Forall (storable K16) l).
    { intros l X. eapply Forall_impl; [|exact X]. intros c [A B]. split; [exact A|discriminate]. }
    assert (Pr : forall l, Forall (fun c => scalar c /\ (c < 0xD800)%N) l -> Forall (printable BigEndian UTF8 LittleEndian K16) l).
    { intros l X. eapply Forall_impl; [|exact X]. intros c [A B]. split; [exact A|]. intros _. split; [|unfold single_unit; try unfold bmp; try split; try exact A; try lia]. split; [exact A|]. intros _. rewrite N.mod_small by lia. lia. }
    apply Forall_cons; [apply Forall_cons; [|apply Forall_cons; [|apply Forall_nil]]|apply Forall_cons; [apply Forall_nil|apply Forall_cons; [apply Forall_cons; [|apply Forall_nil]|apply Forall_nil]]].
    + apply One; [cbn; intuition discriminate|cbn; intuition discriminate|apply St|apply Pr|vm_compute; discriminate];
        repeat apply Forall_cons; try apply Forall_nil; unfold scalar; lia.
    + apply One; [cbn; intuition discriminate|cbn; intuition discriminate|apply St|apply Pr|vm_compute; discriminate];
        repeat apply Forall_cons; try apply Forall_nil; unfold scalar; lia.
    + apply One; [cbn; intuition discriminate|cbn; intuition discriminate|apply St|apply Pr|vm_compute; discriminate];
        repeat apply Forall_cons; try apply Forall_nil; unfold scalar; lia.
  - destruct pl; vm_compute; reflexivity.
Qed.

(** The refutation of C165: a reader that comes in the middle of a line takes what is there
    for a line, so that one line is read as two. *)
Theorem C165_line_refuted : forall pl,
  match follow_text pl (desk (Some []) None []) 1 WriteOnly ReadOnly Fail 0 16 LittleEndian true 20 UTF8 LittleEndian
    [([(EnterText [104; 101]%N, K8)], [(Line, K8)]); ([(EnterText [121; 10]%N, K8)], [(Line, K8); (AtEnd, K8)])] with
  | Ok (_, a) => Some a | _ => None end = Some [[AText [104; 101]%N]; [AText [121]%N; ABoolean true]].
Proof. intros []; vm_compute; reflexivity. Qed.
Print Assumptions C165_line_refuted.
