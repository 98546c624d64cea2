(** The project's tests of reading text files, with any buffer that holds a code unit. *)
From Coq Require Import NArith ZArith List Bool String Lia.
From Coq Require Import ZifyBool ZifyNat ZifyN.
From Verif Require Import Base Integers UnicodeSpec UnicodeModel UnicodeText UnicodeLemmas UnicodeLemmas2 UnicodeLemmas3 ResourceSpec ResourceModel ResourceText ResourceLemmas
  StreamSpec StreamModel StreamText StreamLemmas StreamLemmas2 StreamLemmas3 StreamLemmas4
  FileSpec FileModel FileText FileLemmas FileLemmas2 FileLemmas3 FileLemmas4 FileLemmas6
  TextFileSpec TextFileModel TextFileText TextFileLemmas TextFileLemmas2 TextFileLemmas3.
From Verif Require Import TestSpec ReportSpec SuiteModel SuiteModel2 SuiteLemmas.
Import ListNotations.
Open Scope Z_scope.

(** The rest of the test has this verdict. *)
Definition ends (t : test) (b : bool) : Prop := exists es, observe t [] = Some (es, b) /\ TestSpec.starts es = 0%N.

Lemma ends_true : ends (Return true) true.
Proof. exists []. split; reflexivity. Qed.

Lemma ends_stage : forall t b, ends t b -> ends (EndStage t) b.
Proof. intros t b (es & E & S). exists (StageEnded :: es). cbn [observe]. rewrite E. split; [reflexivity|exact S]. Qed.

Lemma passes_start : forall n t, ends t true -> passes (StartTest n t) = true.
Proof. intros n t (es & E & S). unfold passes. cbn [observe]. rewrite E. cbn [TestSpec.starts]. rewrite S. reflexivity. Qed.

Lemma same_string_refl : forall s, same_string s s = true.
Proof. intro s. unfold same_string. destruct (list_eq_dec N.eq_dec s s); [reflexivity|congruence]. Qed.

Lemma left_rewound : forall pl cap q m others c rest f, file_left (fun r => r = InFull) pl cap q m others c rest f ->
  exists f', file_seek pl f 0 FromBegin = Ok f' /\ file_left (fun r => r = InFull) pl cap q m others c c f'.
Proof.
  intros pl cap q m others c rest f (p & s & [K Md] & Pa & Pw & Bs & At & Dr & Fr).
  assert (Wd : write_dirty (buf (res f)) = false).
  { destruct K as [(c' & a & O & A0 & I) K CM At' Fi Ot U]. destruct p; cbn [in_stage] in I; tauto. }
  destruct (seek_file_raw pl cap q (mode_reads m) (mode_writes m) others p s (res f) 0 Begin K Pw) as (K1 & S1 & _);
    [discriminate|cbn; lia|].
  unfold file_seek, flush. rewrite Wd. cbn [bind noexcept]. eexists. split; [reflexivity|].
  exists Resting, (Store (bytes s) 0). split; [split; [exact K1|exact Md]|]. cbn [path res bytes at_]. split; [exact Pa|].
  split; [discriminate|]. split; [exact Bs|]. split; [apply len_nonneg|]. split; [apply drop_0|].
  cbn [inner]. change FromBegin with (reference Begin). now rewrite S1.
Qed.

Section Text.
Context (c : computer) (no : byte_order) (e : encoding) (o : byte_order) (q : N) (contents : list N).
Context (Hno : native c = order_of no).
Context (Room : wide_enough (default_capacity c) e) (Cm : Z.of_nat (default_capacity c) <= chunk_max (system c)).

Local Notation at_rest := (file_left (fun r => r = InFull) (system c) (Z.of_nat (default_capacity c)) q ReadOnly (disk start) contents).
Local Notation biggest := (file_biggest (system c) (Z.of_nat (default_capacity c))).

Lemma source_ok : text_source True (file_source (system c)) biggest at_rest.
Proof. apply file_text_source; [apply sound_full|reflexivity]. Qed.

Lemma line_step : forall k l last rest st, TextFileLemmas.after at_rest e o 99 l st -> Forall (insertable k) line ->
  fst (upto_lf (filtered l)) = line -> last = (match snd (upto_lf (filtered l)) with [] => true | _ => false end) ->
  (forall st' l', TextFileLemmas.after at_rest e o 99 l' st' -> filtered l' = snd (upto_lf (filtered l)) -> ends (rest st') true) ->
  ends (line_read c st k last rest) true.
Proof.
  intros k l last rest st A I F La K. unfold line_read, read_line. rewrite Hno.
  destruct (gives_true _ _ _ (line_gives True no (file_source (system c)) _ _ source_ok e o k 99 l enough [] st A
    (file_biggest_wide _ _ _ Room Cm) ltac:(unfold enough; lia) ltac:(rewrite F; exact I))) as ([st1 a] & E & -> & l1 & F1 & A1).
  rewrite E. cbn [call app]. rewrite F, same_string_refl. cbn [must].
  rewrite (at_end_gives True (file_source (system c)) _ _ source_ok e o 99 l1 st1 A1). cbn [call].
  assert (X : match l1 with [] => true | _ => false end = last).
  { rewrite La, <- F1. clear. destruct l1 as [|x l]; [reflexivity|]. cbn [filtered]. destruct (x =? 13)%N; [|reflexivity]. now destruct l. }
  rewrite X, eqb_reflx. cbn [must]. exact (K st1 l1 A1 F1).
Qed.

Lemma all_step : forall k l rest st, TextFileLemmas.after at_rest e o 99 l st -> Forall (insertable k) four_lines ->
  filtered l = four_lines ->
  (forall st', in_order_ st' = order_of o -> in_form st' = StreamText.form_of e -> (exists r, at_rest r (in_res st')) -> ends (rest st') true) ->
  ends (call (read_all (native c) (file_source (system c)) enough k st) (fun '(st, l) =>
    must (same_string l (units k four_lines)) (
    call (text_at_end (file_source (system c)) st) (fun e => must e (rest st))))) true.
Proof.
  intros k l rest st A I F K. unfold read_all. rewrite Hno.
  destruct (gives_true _ _ _ (rest_gives True no (file_source (system c)) _ _ source_ok e o k 99 l enough [] st A
    (file_biggest_wide _ _ _ Room Cm) ltac:(unfold enough; lia) ltac:(rewrite F; exact I))) as ([st1 a] & E & -> & A1).
  rewrite E. cbn [call app]. rewrite F, same_string_refl. cbn [must].
  rewrite (at_end_gives True (file_source (system c)) _ _ source_ok e o 99 [] st1 A1). cbn [call must].
  destruct A1 as ((L1 & O1 & F1) & _). apply K; eauto.
Qed.

(** The file holds the four lines, in UTF-16 and UTF-32 after a byte order mark. *)
Context (Holds : contents = match e with UTF8 => text_bytes e o four_lines | _ => text_bytes e o (byte_order_mark :: four_lines) end).

Lemma bom_step : forall rest f, at_rest contents f ->
  (forall st, TextFileLemmas.after at_rest e o 99 four_lines st -> ends (rest st) true) ->
  ends (bom_read c (TextInput f (order_of o) (StreamText.form_of e)) rest) true.
Proof.
  intros rest f L K.
  assert (S : Forall scalar four_lines) by (repeat (apply Forall_cons; [unfold scalar; cbn; lia|]); apply Forall_nil).
  assert (Ln : (List.length four_lines <= 99)%nat) by (vm_compute; lia).
  unfold bom_read. cbn [in_form].
  destruct (SuiteModel2.is_utf8 (StreamText.form_of e)) eqn:U.
  - apply K. split; [|split; [exact S|exact Ln]]. split; [|split; reflexivity]. cbn [in_res].
    destruct e; try discriminate U. rewrite <- Holds. exact L.
  - assert (Hc : contents = text_bytes e o (byte_order_mark :: four_lines)) by (destruct e; [discriminate U|exact Holds|exact Holds]).
    rewrite Hno.
    destruct (read_bom_marked no (file_source (system c)) _ _ (sure_good _ _ _ _ source_ok) e o o four_lines
      (TextInput f (order_of o) (StreamText.form_of e))) as (st1 & E1 & H1);
      [split; [cbn [in_res]; rewrite <- Hc; exact L|split; reflexivity]|exact (file_biggest_wide _ _ _ Room Cm)|].
    rewrite E1. cbn [call]. apply K. split; [|split; [exact S|exact Ln]]. destruct e; exact H1.
Qed.

Lemma insertable_line : forall k, (forall b, k <> KChar b) -> Forall (insertable k) line /\ Forall (insertable k) four_lines.
Proof.
  intros k K.
  assert (Forall (insertable k) four_lines).
  { repeat (apply Forall_cons; [split; [destruct k; cbn; try (unfold scalar; lia); destruct (K _ eq_refl)|intros _; vm_compute; intros [? ?]; auto]|]); apply Forall_nil. }
  split; [|assumption]. unfold four_lines in H. now apply Forall_app in H.
Qed.

Lemma read_line_passes : forall f rest, at_rest contents f -> ends rest true ->
  ends (test_read_line_generic c f (StreamText.form_of e) (order_of o) rest) true.
Proof.
  intros f rest L K. unfold test_read_line_generic. apply bom_step; [exact L|]. intros st0 A0.
  assert (W : forall b, wide (processor c) <> KChar b) by (intros b; unfold wide; destruct (wide_is_4 _); discriminate).
  eapply line_step; [exact A0|apply insertable_line; discriminate|vm_compute; reflexivity|vm_compute; reflexivity|].
  intros st1 l1 A1 F1. change (snd (upto_lf (filtered four_lines))) with (line ++ [10] ++ line ++ [10] ++ line)%N in F1.
  eapply line_step; [exact A1|apply insertable_line; discriminate|rewrite F1; vm_compute; reflexivity|rewrite F1; vm_compute; reflexivity|].
  intros st2 l2 A2 F2. rewrite F1 in F2. change (snd (upto_lf (line ++ [10] ++ line ++ [10] ++ line)%N)) with (line ++ [10] ++ line)%N in F2.
  eapply line_step; [exact A2|apply insertable_line; discriminate|rewrite F2; vm_compute; reflexivity|rewrite F2; vm_compute; reflexivity|].
  intros st3 l3 A3 F3. rewrite F2 in F3. change (snd (upto_lf (line ++ [10] ++ line)%N)) with line in F3.
  eapply line_step; [exact A3|now apply insertable_line|rewrite F3; vm_compute; reflexivity|rewrite F3; vm_compute; reflexivity|].
  intros st4 l4 _ _. now apply ends_stage.
Qed.

Lemma all_read_passes : forall k f rest, at_rest contents f -> (forall b, k <> KChar b) ->
  (forall st', in_order_ st' = order_of o -> in_form st' = StreamText.form_of e -> (exists r, at_rest r (in_res st')) -> ends (rest st') true) ->
  ends (all_read c (TextInput f (order_of o) (StreamText.form_of e)) k rest) true.
Proof.
  intros k f rest L W K. unfold all_read. apply bom_step; [exact L|]. intros st0 A0.
  eapply all_step; [exact A0|now apply insertable_line|vm_compute; reflexivity|exact K].
Qed.

Lemma rewind_passes : forall st rest, in_order_ st = order_of o -> in_form st = StreamText.form_of e -> (exists r, at_rest r (in_res st)) ->
  (forall f, at_rest contents f -> ends (rest (TextInput f (order_of o) (StreamText.form_of e))) true) -> ends (rewind c st rest) true.
Proof.
  intros st rest O F (r & L) K. unfold rewind. destruct (left_rewound _ _ _ _ _ _ _ _ L) as (f & E & L'). rewrite E, O, F. cbn [call]. now apply K.
Qed.

Lemma read_all_passes : forall f rest, at_rest contents f -> ends rest true ->
  ends (test_read_all_generic c f (StreamText.form_of e) (order_of o) rest) true.
Proof.
  intros f rest L K. unfold test_read_all_generic.
  assert (W : forall b, wide (processor c) <> KChar b) by (intros b; unfold wide; destruct (wide_is_4 _); discriminate).
  apply all_read_passes; [exact L|discriminate|]. intros st1 O1 F1 L1. apply rewind_passes; try assumption. clear - W K Room Cm Hno Holds. intros f L.
  apply all_read_passes; [exact L|discriminate|]. intros st1 O1 F1 L1. apply rewind_passes; try assumption. clear - W K Room Cm Hno Holds. intros f L.
  apply all_read_passes; [exact L|discriminate|]. intros st1 O1 F1 L1. apply rewind_passes; try assumption. clear - W K Room Cm Hno Holds. intros f L.
  apply all_read_passes; [exact L|exact W|]. intros st1 O1 F1 L1. now apply ends_stage.
Qed.
End Text.

(** The files of the directory test_data hold what the tests expect in them. *)
Lemma file_holds : forall e o, test_data (with_bom (StreamText.form_of e) (order_of o)) =
  Some (match e with UTF8 => text_bytes e o four_lines | _ => text_bytes e o (byte_order_mark :: four_lines) end).
Proof. intros [| |] [|]; vm_compute; reflexivity. Qed.

Definition unit_fits (cap : nat) : Prop := cap = 0%nat \/ (4 <= cap)%nat.

Lemma fits : forall cap e, unit_fits cap -> wide_enough cap e.
Proof. intros cap e [->|H]; [now left|right]. destruct e; cbn; lia. Qed.

Lemma order_given : forall n, exists o, n = order_of o.
Proof. intros [|]; [now exists LittleEndian|now exists BigEndian]. Qed.

Lemma multibyte_passes : forall c generic e o rest, unit_fits (default_capacity c) ->
  Z.of_nat (default_capacity c) <= chunk_max (system c) ->
  (generic = test_read_line_generic \/ generic = test_read_all_generic) -> ends rest true ->
  ends (read_multibyte c generic (StreamText.form_of e) (order_of o) rest) true.
Proof.
  intros c generic e o rest U C G K. destruct (order_given (native c)) as (no & Hno).
  unfold read_multibyte, SuiteModel2.opens.
  destruct (opened_left (fun r => r = InFull) (system c) start (with_bom (StreamText.form_of e) (order_of o)) (default_capacity c) ReadOnly _
    (file_holds e o)) as (f & E & L).
  { destruct e, o; vm_compute; reflexivity. } { discriminate. } { constructor. } { exact C. }
  rewrite E. cbn [call].
  assert (Op : FileModel.is_open f = true).
  { destruct L as (p & s & [[(c' & a & [(k & h & L1 & _) _] & _) _] _] & _). unfold FileModel.is_open. 
    unfold lookup in L1. destruct (descriptor (inner (res f))); [reflexivity|discriminate L1]. }
  rewrite Op. cbn [must].
  destruct G as [-> | ->]; [eapply read_line_passes|eapply read_all_passes]; eauto using fits.
Qed.

Lemma text_files_pass : forall c, unit_fits (default_capacity c) -> Z.of_nat (default_capacity c) <= chunk_max (system c) ->
  pass (skipn 5 (text_input_stream_tests c)) = true.
Proof.
  intros c U C.
  assert (T : forall s generic, (generic = test_read_line_generic \/ generic = test_read_all_generic) -> pass (read_tests c s generic) = true).
  { intros s generic G. unfold read_tests, pass. cbn [forallb].
    destruct (order_given (native c)) as (no & Hno).
    assert (W : SuiteModel2.form_of (wide (processor c)) = StreamText.form_of (if wide_is_4 (processor c) then UTF32 else UTF16))
      by (unfold wide; destruct (wide_is_4 _); reflexivity).
    rewrite Hno, W.
    repeat (apply andb_true_intro; split); try reflexivity; apply passes_start.
    - apply (multibyte_passes c generic UTF8 no); auto using ends_true.
    - apply (multibyte_passes c generic UTF16 LittleEndian); auto. apply (multibyte_passes c generic UTF16 BigEndian); auto using ends_true.
    - apply (multibyte_passes c generic UTF32 LittleEndian); auto. apply (multibyte_passes c generic UTF32 BigEndian); auto using ends_true.
    - apply (multibyte_passes c generic _ LittleEndian); auto. apply (multibyte_passes c generic _ BigEndian); auto using ends_true. }
  change (skipn 5 (text_input_stream_tests c)) with
    (read_tests c "test_read_line" test_read_line_generic ++ read_tests c "test_read_all" test_read_all_generic).
  unfold pass. rewrite forallb_app. apply andb_true_intro. split; apply T; auto.
Qed.

Lemma text_input_pass : forall c, unit_fits (default_capacity c) -> Z.of_nat (default_capacity c) <= chunk_max (system c) ->
  pass (text_input_stream_tests c) = true.
Proof.
  intros c U C. rewrite <- (firstn_skipn 5 (text_input_stream_tests c)). unfold pass. rewrite forallb_app. apply andb_true_intro.
  split; [apply text_strings_pass|now apply text_files_pass].
Qed.
