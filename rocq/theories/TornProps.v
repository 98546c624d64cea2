(** Properties C129 and C130: texts and values in the files of a killed process. *)
From Coq Require Import NArith ZArith List Bool Lia.
From Coq Require Import ZifyBool ZifyNat ZifyN.
From Verif Require Import Base Integers UnicodeSpec UnicodeModel ResourceSpec ResourceModel ResourceText
  StreamSpec StreamModel StreamText FileSpec FileModel FileText TextFileSpec TextFileModel TextFileText DataFileText
  CrashSpec CrashModel TornSpec TornModel.
From Verif Require Import ResourceLemmas StreamLemmas StreamLemmas2 StreamLemmas3 StreamLemmas4 FileLemmas FileLemmas2 FileLemmas3 FileLemmas5
  TextFileLemmas TextFileLemmas2 TextFileLemmas3 DataFileLemmas DataFileLemmas2 DataFileProps CrashProps TornLemmas TornLemmas2.
Import ListNotations.
Open Scope Z_scope.

Lemma begins_written : forall part cs, begins part cs -> prefix_of (written part) (written cs).
Proof.
  intros part cs H. induction H as [cs|d e cs|c part cs H IH].
  - now exists (written cs).
  - exists (e ++ written cs). unfold written. cbn [flat_map]. now rewrite app_nil_r, <- app_assoc.
  - destruct IH as [t IH]. exists t. unfold written in *. cbn [flat_map]. now rewrite IH, app_assoc.
Qed.

Lemma prefix_of_trans : forall a b c, prefix_of a b -> prefix_of b c -> prefix_of a c.
Proof. intros a b c [x ->] [y ->]. exists (x ++ y). now rewrite app_assoc. Qed.

Lemma prefix_of_app : forall a b c, prefix_of b c -> prefix_of (a ++ b) (a ++ c).
Proof. intros a b c [x ->]. exists x. now rewrite app_assoc. Qed.

Lemma lose_enough : forall cap before kept lost b, may_lose cap before kept lost -> enough cap before (written kept ++ b).
Proof.
  intros cap before kept lost b (-> & N & L). pose proof (len_nonneg b). split.
  - rewrite written_app, !len_app. lia.
  - intros flushed later E.
    assert (X : exists more, kept = flushed ++ more).
    { clear L. revert kept E. induction flushed as [|c flushed IH]; intros kept E; [now exists kept|].
      destruct kept as [|c' kept]; cbn [app] in E.
      - subst lost. exfalso. assert (F : In Flush (c :: flushed ++ Flush :: later)) by (right; apply in_or_app; right; now left).
        rewrite Forall_forall in N. exact (N Flush F I).
      - injection E as -> E. destruct (IH kept E) as [more ->]. now exists more. }
    destruct X as [more ->]. rewrite written_app, <- app_assoc. now eexists.
Qed.

(** The same for any writes and flushes. *)
Lemma plain_killed : forall pl w q old m how cap cs,
  will_open w q how old -> obliging w -> Z.of_nat cap <= chunk_max pl -> mode_writes m = true ->
  Forall (plain (chunk_max pl)) cs -> len old + len (written cs) < 2 ^ 63 ->
  exists f f' answers, new_file pl w q m how cap = Ok f /\ run_file pl f cs = Ok (f', map Returned answers) /\
    forall torn before d, killed_in pl f cs torn before d ->
      (forall x, x <> q -> d x = disk w x) /\
      (exists b, prefix_of b (written cs) /\ d q = Some (put old 0 b) /\ enough (Z.of_nat cap) before b) /\
      (torn = false -> exists kept rest, cs = kept ++ rest /\ d q = Some (put old 0 (written kept)) /\
         enough (Z.of_nat cap) before (written kept)).
Proof.
  intros pl w q old m how cap cs Wo B C Mw P L. pose proof (len_nonneg old) as L0. pose proof (len_nonneg (written cs)) as L1.
  destruct (C128_closing pl w q old m how cap cs Wo ltac:(lia) B C (plain_permits _ _ _ Mw P) (plain_allowed _ _ _ _ P ltac:(lia)))
    as (f & f' & _ & _ & E & R & _).
  exists f, f', (snd (file_calls (Store old 0) cs)). split; [exact E|]. split; [exact R|].
  intros torn before d (c & later & f1 & answers & f2 & a & tries & -> & R1 & W1 & K).
  assert (P1 : Forall (plain (chunk_max pl)) (before ++ [c])).
  { change (before ++ c :: later) with (before ++ [c] ++ later) in P. rewrite app_assoc in P. apply Forall_app in P. tauto. }
  assert (Pb : forall kept rest, before = kept ++ rest -> Forall (plain (chunk_max pl)) kept).
  { intros kept rest ->. apply Forall_app in P1. destruct P1 as [P1 _]. apply Forall_app in P1. tauto. }
  assert (Wa : written (before ++ c :: later) = written (before ++ [c]) ++ written later).
  { rewrite <- written_app, <- app_assoc. reflexivity. }
  assert (Lb : len (written (before ++ [c])) < 2 ^ 63).
  { rewrite Wa, len_app in L. pose proof (len_nonneg (written later)). lia. }
  pose proof (plain_permits _ _ _ Mw P1) as Pe. pose proof (plain_allowed _ (Z.of_nat cap) _ old P1 Lb) as Al.
  destruct (C128_torn pl w q old m how cap before c Wo ltac:(lia) B C Pe Al) as (g & g1 & g2 & a' & tries' & E' & R' & W' & T).
  rewrite E in E'. injection E' as <-. rewrite R1 in R'. injection R' as <- _. rewrite W1 in W'. injection W' as <- <- <-.
  destruct (C128_whole pl w q old m how cap before c Wo ltac:(lia) B C Pe Al) as (g & g1 & g2' & a' & tries' & E' & R' & W' & T').
  rewrite E in E'. injection E' as <-. rewrite R1 in R'. injection R' as <- _. rewrite W1 in W'. injection W' as <- <- <-.
  assert (K' : left_by_kill true (disk_of f1) tries d).
  { destruct K; [apply Untouched|now apply BeforeOne|now apply AfterOne|now apply WithinOne]. }
  destruct (T d K') as (O & kept & lost & part & M & Bg & D). split; [exact O|]. split.
  - exists (written (kept ++ part)). pose proof M as (Eb & _ & _).
    assert (Fb : file_bytes old (kept ++ part) = put old 0 (written (kept ++ part))).
    { apply (plain_bytes (len (written part) + chunk_max pl)). apply Forall_app. split.
      - eapply Forall_impl; [|exact (Pb kept lost Eb)]. intros x Hx. destruct x; try contradiction; [|exact I].
        cbn [plain] in *. pose proof (len_nonneg (written part)). lia.
      - assert (Pl : Forall (plain (chunk_max pl)) (lost ++ [c])).
        { rewrite Eb, <- app_assoc in P1. apply Forall_app in P1. tauto. }
        clear - Bg Pl. revert Pl. induction Bg as [cs|d e cs|c0 part cs Bg IH]; intro Pl.
        + constructor.
        + repeat constructor. cbn [plain]. unfold written. cbn [flat_map]. rewrite app_nil_r. pose proof (Forall_inv Pl) as X. cbn [plain] in X.
          rewrite len_app in X. pose proof (len_nonneg e). pose proof (len_nonneg d). lia.
        + inversion Pl as [|? ? H1 H2]; subst. specialize (IH H2). unfold written in *. cbn [flat_map]. rewrite len_app. constructor.
          * destruct c0; cbn [plain] in *; try contradiction; [|exact I]. pose proof (len_nonneg data). pose proof (len_nonneg (flat_map (fun c => match c with Write d => d | _ => [] end) part)). lia.
          * eapply Forall_impl; [|exact IH]. intros x Hx. destruct x; try contradiction; [|exact I].
            cbn [plain] in *. pose proof (len_nonneg (match c0 with Write d => d | _ => [] end)). lia. }
    split; [|split; [now rewrite D, Fb|rewrite written_app; now apply (lose_enough _ _ _ lost)]].
    rewrite Wa. eapply prefix_of_trans; [|now eexists]. rewrite Eb, !written_app, <- app_assoc. apply prefix_of_app.
    apply begins_written in Bg. rewrite written_app in Bg. exact Bg.
  - intros ->. destruct (T' d K) as (_ & [D'|(k2 & l2 & M2 & D')]).
    + exists (before ++ [c]), later. split; [now rewrite <- app_assoc|]. rewrite D', (plain_bytes _ _ _ P1). split; [reflexivity|].
      rewrite written_app. apply (lose_enough _ before before []). split; [now rewrite app_nil_r|]. split; [constructor|]. cbn. lia.
    + pose proof M2 as (Eb & _ & _). exists k2, (l2 ++ c :: later). split; [rewrite Eb; now rewrite <- app_assoc|].
      rewrite D', (plain_bytes _ _ _ (Pb k2 l2 Eb)). split; [reflexivity|]. rewrite <- (app_nil_r (written k2)). now apply (lose_enough _ _ _ l2).
Qed.

(* -------------------------------------------------------------------- C129 *)

(** C129.  A process that writes a text through a stream to a file, makes the stream flush
    at the end, and is killed somewhere on the way: what is on the disk is an initial part
    of the text, up to the last flush at least, and lacks at most as much as the buffer holds;
    no character is there in part.
    Missing: kills within a system call, and UTF-16 in the other byte order with characters
    of two code units (both refuted below); files larger than 2^63 bytes; entries larger than
    one transfer; failing operating systems (C85). *)
Theorem C129_characters_partial : forall pl native cs w q old how cap m e o ps l,
  will_open w q how old -> obliging w -> Z.of_nat cap <= chunk_max pl -> m <> ReadOnly ->
  entries_text (map fst ps) l ->
  Forall (fun '(p, k) => can_enter native e o p k /\ small_entry pl e o p) ps ->
  len old + len (text_bytes e o l) < 2 ^ 63 -> at_once native e o l ->
  exists calls f st answers,
    calls_of_entries (order_of native) cs e o ps = Ok calls /\
    new_file pl w q m how cap = Ok f /\
    bind (make_entries (order_of native) cs (file_sink pl) (TextOutput f (order_of o) (form_of e)) ps) (text_flush (file_sink pl)) = Ok st /\
    run_file pl f (calls ++ [Flush]) = Ok (out_res st, map Returned answers) /\
    forall before d, killed_in pl f (calls ++ [Flush]) false before d ->
      (forall x, x <> q -> d x = disk w x) /\
      exists l', prefix_of l' l /\ d q = Some (put old 0 (text_bytes e o l')) /\
        enough (Z.of_nat cap) before (text_bytes e o l').
Proof.
  intros pl native cs w q old how cap m e o ps l Wo B C Mw T Cn L A.
  destruct (note_entries pl native cs e o ps l [] T Cn) as (calls & E & Wr & P). cbn [app] in E.
  assert (P' : Forall (plain (chunk_max pl)) (calls ++ [Flush])) by (apply Forall_app; split; [assumption|repeat constructor]).
  assert (Wr' : written (calls ++ [Flush]) = text_bytes e o l) by (rewrite written_app, Wr; apply app_nil_r).
  destruct (plain_killed pl w q old m how cap (calls ++ [Flush]) Wo B C (mode_writes_not m Mw) P' ltac:(rewrite Wr'; exact L))
    as (f & f' & answers & En & R & K).
  destruct (spell_entries native cs e o ps l [] (TextOutput [] (order_of o) (form_of e)) T) as (st0 & E0 & (Sp & _)); try assumption.
  { eapply Forall_impl; [|exact Cn]. intros [p k] [X _]. exact X. }
  { split; [constructor|split; reflexivity]. }
  rewrite E in E0. injection E0 as <-. cbn [out_res app] in Sp. apply SpellsFlush in Sp.
  exists calls, f, (TextOutput f' (order_of o) (form_of e)), answers.
  split; [unfold calls_of_entries; rewrite E; reflexivity|]. split; [exact En|]. split; [|split; [exact R|]].
  - assert (Fo : follows (file_sink pl) (order_of o) (form_of e)
      (fun st => bind (make_entries (order_of native) cs note st ps) (text_flush note))
      (fun st => bind (make_entries (order_of native) cs (file_sink pl) st ps) (text_flush (file_sink pl)))).
    { apply (follow_then (file_sink pl) _ _ (fun st => make_entries (order_of native) cs note st ps) (text_flush note)
        (fun st => make_entries (order_of native) cs (file_sink pl) st ps) (text_flush (file_sink pl))).
      - apply follow_entries.
      - apply follow_flush. }
    destruct (Fo [] f (TextOutput (calls ++ [Flush]) (order_of o) (form_of e))) as (cs' & Ec & X); [rewrite E; reflexivity|].
    cbn [app] in Ec. assert (cs' = calls ++ [Flush]) by congruence. subst cs'. rewrite X, (run_calls_file pl _ f f' answers); [reflexivity| |exact R].
    eapply Forall_impl; [|exact P']. intros c Hc. destruct c; try contradiction; exact I.
  - intros before d Kd. destruct (K false before d Kd) as (O & _ & H). split; [exact O|].
    destruct (H eq_refl) as (kept & rest & Ek & D & En'). destruct (spells_part _ _ _ _ Sp kept rest Ek) as (l' & Pl & Wk).
    exists l'. rewrite <- Wk. auto.
Qed.
Print Assumptions C129_characters_partial.

(** Whatever the encoding, and when the system call itself may be carried out in part: what
    is on the disk is an initial part of the bytes of the text.
    Missing: whole characters (refuted below); the other restrictions above. *)
Theorem C129_bytes_partial : forall pl native cs w q old how cap m e o ps l,
  will_open w q how old -> obliging w -> Z.of_nat cap <= chunk_max pl -> m <> ReadOnly ->
  entries_text (map fst ps) l ->
  Forall (fun '(p, k) => can_enter native e o p k /\ small_entry pl e o p) ps ->
  len old + len (text_bytes e o l) < 2 ^ 63 ->
  exists calls f f' answers,
    calls_of_entries (order_of native) cs e o ps = Ok calls /\
    new_file pl w q m how cap = Ok f /\
    run_file pl f (calls ++ [Flush]) = Ok (f', map Returned answers) /\
    forall torn before d, killed_in pl f (calls ++ [Flush]) torn before d ->
      (forall x, x <> q -> d x = disk w x) /\
      exists b, prefix_of b (text_bytes e o l) /\ d q = Some (put old 0 b) /\ enough (Z.of_nat cap) before b.
Proof.
  intros pl native cs w q old how cap m e o ps l Wo B C Mw T Cn L.
  destruct (note_entries pl native cs e o ps l [] T Cn) as (calls & E & Wr & P). cbn [app] in E.
  assert (P' : Forall (plain (chunk_max pl)) (calls ++ [Flush])) by (apply Forall_app; split; [assumption|repeat constructor]).
  assert (Wr' : written (calls ++ [Flush]) = text_bytes e o l) by (rewrite written_app, Wr; apply app_nil_r).
  destruct (plain_killed pl w q old m how cap (calls ++ [Flush]) Wo B C (mode_writes_not m Mw) P' ltac:(rewrite Wr'; exact L))
    as (f & f' & answers & En & R & K). rewrite Wr' in K.
  exists calls, f, f', answers. split; [unfold calls_of_entries; rewrite E; reflexivity|]. split; [exact En|]. split; [exact R|].
  intros torn before d Kd. destruct (K torn before d Kd) as (O & H & _). auto.
Qed.
Print Assumptions C129_bytes_partial.

(** For the examples: the text a grinning face, an e acute, with a flush between. *)
Definition two_characters : list (entry * ukind) :=
  [(EnterCharacter 0x1F600, K32); (EnterNothing, K32); (EnterText [233]%N, K16)]%N.

Definition file_of {A : Type} (x : outcome (file * A)) : file := match x with Ok (f, _) => f | _ => no_file eight 0 end.
Definition tries_of (x : outcome (file * reply answer * list attempt)) : list attempt := match x with Ok (_, _, t) => t | _ => [] end.
Definition after_call (x : outcome (file * reply answer * list attempt)) : file := match x with Ok (f, _, _) => f | _ => no_file eight 0 end.
Definition answer_of (x : outcome (file * reply answer * list attempt)) : reply answer := match x with Ok (_, a, _) => a | _ => Returned Done end.

Example C129_example : forall pl,
  will_open (shelf None []) 1 Create [] /\ obliging (shelf None []) /\ Z.of_nat 4 <= chunk_max pl /\
  entries_text (map fst two_characters) [0x1F600; 233]%N /\
  Forall (fun '(p, k) => can_enter LittleEndian UTF8 BigEndian p k /\ small_entry pl UTF8 BigEndian p) two_characters /\
  at_once LittleEndian UTF8 BigEndian [0x1F600; 233]%N /\
  at_once LittleEndian UTF16 LittleEndian [0x1F600; 233]%N /\ at_once LittleEndian UTF16 BigEndian [0xFFFF; 233]%N /\
  calls_of_entries Little true UTF8 BigEndian two_characters = Ok [Write [0xF0; 0x9F; 0x98; 0x80]; Flush; Write [0xC3; 0xA9]]%N.
Proof.
  intro pl. pose proof (chunk_100 pl). split; [right; repeat split|]. split; [constructor|]. split; [lia|]. split.
  { change [0x1F600; 233]%N with ([0x1F600] ++ [] ++ [233] ++ [])%N. unfold two_characters. cbn [map fst]. repeat (apply AnotherEntry || apply NoEntries || constructor). }
  split.
  { unfold two_characters. repeat apply Forall_cons; try apply Forall_nil; split; cbn [can_enter].
    - split; [unfold scalar; lia|]. intros _. vm_compute. intuition discriminate.
    - intros s T. inversion T; subst. vm_compute. destruct pl; discriminate.
    - exact I.
    - intros s T. inversion T; subst. vm_compute. destruct pl; discriminate.
    - repeat constructor; try (unfold scalar; lia); vm_compute; intuition discriminate.
    - intros s T. inversion T; subst. vm_compute. destruct pl; discriminate. }
  split; [left; discriminate|]. split; [right; left; reflexivity|]. split; [right; right; repeat constructor|]. vm_compute. reflexivity.
Qed.

(** A character of two code units in UTF-16 of the other byte order is written in two
    calls: a kill between them leaves half of it. *)
Theorem C129_surrogates_refuted : forall pl, exists calls f d,
  calls_of_entries Little true UTF16 BigEndian [(EnterCharacter 0x1F600%N, K32)] = Ok calls /\
  new_file pl (shelf None []) 1 WriteOnly Create 0 = Ok f /\
  killed_in pl f (calls ++ [Flush]) false [Write [0xD8; 0x3D]]%N d /\
  d 1%N = Some [0xD8; 0x3D]%N /\
  ~ exists l', prefix_of l' [0x1F600]%N /\ d 1%N = Some (text_bytes UTF16 BigEndian l').
Proof.
  intro pl. set (f := made (new_file pl (shelf None []) 1 WriteOnly Create 0)).
  set (r := run_file pl f [Write [0xD8; 0x3D]]%N). set (x := watched_call pl (file_of r) (Write [0xDE; 0x00])%N).
  exists [Write [0xD8; 0x3D]; Write [0xDE; 0x00]]%N, f, (disk_of (file_of r)).
  split; [vm_compute; reflexivity|]. split; [destruct pl; vm_compute; reflexivity|].
  assert (D : disk_of (file_of r) 1%N = Some [0xD8; 0x3D]%N) by (destruct pl; vm_compute; reflexivity).
  split; [|split; [exact D|]].
  - exists (Write [0xDE; 0x00])%N, [Flush], (file_of r), [Returned (Wrote 2)], (after_call x), (answer_of x), (tries_of x).
    split; [reflexivity|]. split; [destruct pl; vm_compute; reflexivity|]. split; [destruct pl; vm_compute; reflexivity|]. apply Untouched.
  - intros (l' & [t Pf] & X). rewrite D in X. destruct l' as [|c [|c' l']]; try discriminate Pf.
    + discriminate X.
    + injection Pf as <- _. revert X. vm_compute. discriminate.
Qed.
Print Assumptions C129_surrogates_refuted.

(** A system call carried out in part leaves part of a character, in UTF-8 too. *)
Theorem C129_torn_refuted : forall pl, exists calls f d,
  calls_of_entries Little true UTF8 BigEndian [(EnterCharacter 233%N, K32)] = Ok calls /\
  new_file pl (shelf None []) 1 WriteOnly Create 16 = Ok f /\
  killed_in pl f (calls ++ [Flush]) true [Write [0xC3; 0xA9]]%N d /\
  d 1%N = Some [0xC3]%N /\
  ~ exists l', prefix_of l' [233]%N /\ d 1%N = Some (text_bytes UTF8 BigEndian l').
Proof.
  intro pl. set (f := made (new_file pl (shelf None []) 1 WriteOnly Create 16)).
  set (r := run_file pl f [Write [0xC3; 0xA9]]%N). set (x := watched_call pl (file_of r) Flush).
  set (a := hd (Attempt eight None []) (tries_of x)).
  exists [Write [0xC3; 0xA9]]%N, f, (left_at a (AtMost 1)).
  split; [vm_compute; reflexivity|]. split; [destruct pl; vm_compute; reflexivity|].
  assert (D : left_at a (AtMost 1) 1%N = Some [0xC3]%N) by (destruct pl; vm_compute; reflexivity).
  split; [|split; [exact D|]].
  - exists Flush, [], (file_of r), [Returned (Wrote 2)], (after_call x), (answer_of x), (tries_of x).
    split; [reflexivity|]. split; [destruct pl; vm_compute; reflexivity|]. split; [destruct pl; vm_compute; reflexivity|].
    apply WithinOne; [|reflexivity]. subst a. destruct pl; vm_compute; left; reflexivity.
  - intros (l' & [t Pf] & X). rewrite D in X. destruct l' as [|c [|c' l']]; try discriminate Pf.
    + discriminate X.
    + injection Pf as <- _. revert X. vm_compute. discriminate.
Qed.
Print Assumptions C129_torn_refuted.

(* -------------------------------------------------------------------- C130 *)

Lemma note_values : forall native o vs cs0, Forall (fun x : nat * N => (0 < fst x)%nat) vs ->
  send_values (order_of native) note (order_of o) cs0 vs = Ok (cs0 ++ map (fun '(w, v) => Write (in_order o w v)) vs).
Proof.
  intros native o. induction vs as [|[w v] vs IH]; intros cs0 H; cbn [send_values map]; [now rewrite app_nil_r|].
  inversion H as [|? ? H1 H2]; subst. cbn [fst] in H1.
  assert (X : data_write (order_of native) note (order_of o) cs0 (to_memory (order_of native) w v) = Ok (cs0 ++ [Write (in_order o w v)])).
  { unfold data_write. rewrite to_memory_in_order. destruct (endian_eqb _ _) eqn:E.
    - apply (same_order native) in E. subst o. reflexivity.
    - apply (other_order native) in E. subst o. unfold reverse_write. change size_of with len. rewrite invert_whole.
      + rewrite <- in_order_opposite. reflexivity.
      + intro Z. apply (f_equal (@length N)) in Z. rewrite in_order_length in Z. cbn in Z. lia. }
  rewrite X. cbn [bind]. rewrite IH by assumption. now rewrite <- app_assoc.
Qed.

(** C130.  A process that writes values through a data stream to a file and is killed
    somewhere on the way leaves an initial part of the bytes of the values; if no system call
    was cut short, a number of the first values, each whole.  All that was written before a
    flush is there, and at most as much as the buffer holds is not. *)
Theorem C130_values : forall pl native w q old how cap m o vs,
  will_open w q how old -> obliging w -> Z.of_nat cap <= chunk_max pl -> m <> ReadOnly ->
  Forall (fun x => (0 < fst x)%nat /\ Z.of_nat (fst x) <= chunk_max pl) vs ->
  len old + len (values_bytes o vs) < 2 ^ 63 ->
  exists calls f f' answers,
    calls_of_values (order_of native) o vs = Ok calls /\
    new_file pl w q m how cap = Ok f /\
    bind (send_values (order_of native) (file_sink pl) (order_of o) f vs) (sink_flush (file_sink pl)) = Ok f' /\
    run_file pl f (calls ++ [Flush]) = Ok (f', map Returned answers) /\
    forall torn before d, killed_in pl f (calls ++ [Flush]) torn before d ->
      (forall x, x <> q -> d x = disk w x) /\
      (exists b, prefix_of b (values_bytes o vs) /\ d q = Some (put old 0 b) /\ enough (Z.of_nat cap) before b) /\
      (torn = false -> exists vs' more, vs = vs' ++ more /\ d q = Some (put old 0 (values_bytes o vs')) /\
         enough (Z.of_nat cap) before (values_bytes o vs')).
Proof.
  intros pl native w q old how cap m o vs Wo B C Mw F L.
  set (calls := map (fun '(w, v) => Write (in_order o w v)) vs).
  assert (E : calls_of_values (order_of native) o vs = Ok calls).
  { unfold calls_of_values. rewrite note_values; [reflexivity|]. eapply Forall_impl; [|exact F]. cbn beta. tauto. }
  assert (Wr : forall vs, written (map (fun '(w, v) => Write (in_order o w v)) vs) = values_bytes o vs).
  { clear. intro vs. induction vs as [|[w v] vs IH]; [reflexivity|]. unfold written, values_bytes in *. cbn [map flat_map]. now rewrite IH. }
  assert (P : Forall (plain (chunk_max pl)) (calls ++ [Flush])).
  { apply Forall_app. split; [|repeat constructor]. apply Forall_map. eapply Forall_impl; [|exact F]. intros [a b] [_ X].
    cbn [plain fst] in *. rewrite len_in_order. exact X. }
  assert (Wr' : written (calls ++ [Flush]) = values_bytes o vs) by (rewrite written_app; unfold calls; rewrite Wr; apply app_nil_r).
  destruct (plain_killed pl w q old m how cap (calls ++ [Flush]) Wo B C (mode_writes_not m Mw) P ltac:(rewrite Wr'; exact L))
    as (f & f' & answers & En & R & K). rewrite Wr' in K.
  exists calls, f, f', answers. split; [exact E|]. split; [exact En|]. split; [|split; [exact R|]].
  - destruct (follow_values _ (file_sink pl) (order_of native) (order_of o) vs [] f calls E) as (cs' & Ec & X). cbn [app] in Ec. subst cs'.
    rewrite X. assert (Y : run_calls (file_sink pl) f (calls ++ [Flush]) = Ok f').
    { apply (run_calls_file pl _ f f' answers); [|exact R]. eapply Forall_impl; [|exact P]. intros c Hc. destruct c; try contradiction; exact I. }
    rewrite run_calls_app in Y. rewrite <- Y. destruct (run_calls (file_sink pl) f calls) as [g| | | |]; try reflexivity. cbn [bind run_calls].
    destruct (sink_flush (file_sink pl) g); reflexivity.
  - intros torn before d Kd. destruct (K torn before d Kd) as (O & H1 & H2). split; [exact O|]. split; [exact H1|].
    intros T. destruct (H2 T) as (kept & rest & Ek & D & En').
    assert (X : exists vs' more, vs = vs' ++ more /\ written kept = values_bytes o vs').
    { clear - Ek Wr. subst calls. revert kept Ek. induction vs as [|[w v] vs IH]; intros kept Ek.
      - exists [], []. split; [reflexivity|]. destruct kept as [|c [|]]; try discriminate; [reflexivity|]. injection Ek as <- _. reflexivity.
      - destruct kept as [|c kept]; [exists [], ((w, v) :: vs); split; reflexivity|]. cbn [map app] in Ek. injection Ek as <- Ek.
        destruct (IH kept Ek) as (vs' & more & -> & X). exists ((w, v) :: vs'), more. split; [reflexivity|].
        unfold written, values_bytes in *. cbn [flat_map]. now rewrite X. }
    destruct X as (vs' & more & Ev & Wk). exists vs', more. rewrite <- Wk. auto.
Qed.
Print Assumptions C130_values.

(** What a later process then reads, if the file was new: the first values, as they were. *)
Theorem C130_read_back : forall pl native w q how cap m o vs cap' m',
  will_open w q how [] -> obliging w -> Z.of_nat cap <= chunk_max pl -> m <> ReadOnly ->
  Z.of_nat cap' <= chunk_max pl -> m' <> WriteOnly -> suits pl cap' (map fst vs) -> Forall fits vs ->
  len (values_bytes o vs) < 2 ^ 62 ->
  exists calls f, calls_of_values (order_of native) o vs = Ok calls /\ new_file pl w q m how cap = Ok f /\
    forall before d w', killed_in pl f (calls ++ [Flush]) false before d -> disk w' = d -> obliging w' ->
      exists vs' more w2, vs = vs' ++ more /\ enough (Z.of_nat cap) before (values_bytes o vs') /\
        read_data_file pl w' q m' cap' (order_of o) (order_of o) (map fst vs') = Ok (w2, map snd vs').
Proof.
  intros pl native w q how cap m o vs cap' m' Wo B C Mw C' Mr Su Fi L.
  destruct (C130_values pl native w q [] how cap m o vs Wo B C Mw (suits_chunk pl cap' vs Su) ltac:(cbn; lia))
    as (calls & f & f' & answers & E1 & E2 & _ & _ & K).
  exists calls, f. split; [exact E1|]. split; [exact E2|]. intros before d w' Kd Dw B'.
  destruct (K false before d Kd) as (_ & _ & H). destruct (H eq_refl) as (vs' & more & -> & D & En).
  rewrite put_over in D by (cbn; apply len_nonneg). subst d.
  assert (D' : disk w' q = Some (values_bytes o vs' ++ [])) by now rewrite app_nil_r.
  assert (L' : len (values_bytes o vs') < 2 ^ 62).
  { unfold values_bytes in *. rewrite flat_map_app, len_app in L. pose proof (len_nonneg (flat_map (fun '(w, v) => in_order o w v) more)). lia. }
  assert (Su' : suits pl cap' (map fst vs')) by (unfold suits in *; rewrite map_app in Su; apply Forall_app in Su; tauto).
  destruct (gives_true _ _ _ (read_data_file_gives (fun r => r = InFull) True pl o o o w' q cap' m' vs' []
    ltac:(split; [right; intros r ->; now left|intros _ r ->; discriminate]) D' ltac:(rewrite app_nil_r; lia) (obliging_now w' B') B' C' Su'
    (mode_reads_not m' Mr))) as ([w2 xs] & R2 & -> & _ & _).
  exists vs', more, w2. rewrite arrives_same in R2 by (apply Forall_app in Fi; tauto). auto.
Qed.
Print Assumptions C130_read_back.

(** Cases: a buffer of 8 bytes.  The values of 4, 1, 8 and 2 bytes; when the third is
    written the first two go to the file, and the kill comes after that. *)
Example C130_example : forall pl,
  will_open (shelf None []) 1 Create [] /\ suits pl 8 (map fst sample_values) /\ Forall fits sample_values /\
  exists f d, new_file pl (shelf None []) 1 WriteOnly Create 8 = Ok f /\
    calls_of_values Little BigEndian sample_values =
      Ok [Write [1; 2; 3; 4]; Write [7]; Write [255; 255; 255; 255; 255; 255; 255; 255]; Write [0; 0]]%N /\
    killed_in pl f ([Write [1; 2; 3; 4]; Write [7]; Write [255; 255; 255; 255; 255; 255; 255; 255]; Write [0; 0]] ++ [Flush])%N
      false [Write [1; 2; 3; 4]; Write [7]]%N d /\ d 1%N = Some [1; 2; 3; 4; 7]%N.
Proof.
  intro pl. split; [right; repeat split|]. split; [apply suits_100; cbn [map fst sample_values]; small_sizes|].
  split; [unfold sample_values; repeat constructor|].
  set (f := made (new_file pl (shelf None []) 1 WriteOnly Create 8)).
  set (r := run_file pl f [Write [1; 2; 3; 4]; Write [7]]%N).
  set (x := watched_call pl (file_of r) (Write [255; 255; 255; 255; 255; 255; 255; 255])%N).
  set (a := hd (Attempt eight None []) (tries_of x)).
  exists f, (left_at a InFull). split; [destruct pl; vm_compute; reflexivity|]. split; [vm_compute; reflexivity|]. split.
  - exists (Write [255; 255; 255; 255; 255; 255; 255; 255])%N, [Write [0; 0]; Flush]%N, (file_of r), [Returned (Wrote 4); Returned (Wrote 1)], (after_call x), (answer_of x), (tries_of x).
    split; [reflexivity|]. split; [destruct pl; vm_compute; reflexivity|]. split; [destruct pl; vm_compute; reflexivity|].
    apply AfterOne. subst a. destruct pl; vm_compute; left; reflexivity.
  - destruct pl; vm_compute; reflexivity.
Qed.
