(** Lemmas for C145. *)
From Coq Require Import NArith ZArith List Bool Lia ZifyBool ZifyNat ZifyN.
From Verif Require Import Base Integers UnicodeSpec UnicodeModel UnicodeText UnicodeLemmas UnicodeLemmas2
  ResourceSpec ResourceModel ResourceText ResourceLemmas ResourceLemmas2 ResourceLemmas3
  StreamSpec StreamModel StreamText StreamLemmas StreamLemmas2 StreamLemmas3 StreamLemmas4
  FileSpec FileModel FileText FileLemmas FileLemmas2 FileLemmas3 FileLemmas4
  TextFileSpec TextFileModel TextFileText TextFileLemmas TextFileLemmas2 BlendSpec BlendText.
Import ListNotations.
Open Scope Z_scope.

Lemma items_bytes_cons : forall d e o i l, items_bytes d e o (i :: l) = item_bytes d e o i ++ items_bytes d e o l.
Proof. reflexivity. Qed.

(** LF can be written whenever the line can. *)
Lemma printable_lf : forall native e o k, printable native e o k 10%N.
Proof.
  intros native e o k. assert (S : scalar 10%N) by (unfold scalar; lia). unfold printable. destruct k; try (cbn; lia); (split; [exact S|]);
    intros _; (split; [split; [exact S|intros _ [X _]; vm_compute in X; congruence]|]); unfold single_unit, bmp, scalar in *; try exact Logic.I; try lia.
Qed.

Section Reading.
Context {R : Type} (native : byte_order) (ops : source R) (big : Z) (left : list N -> R -> Prop).
Context (G : good_source ops big left).
Context (e : encoding) (o : byte_order) (B : Z.of_nat (unit_width e) <= big).

Lemma line_then : forall k l t rest fuel st, before left e o (text_bytes e o (l ++ [10%N]) ++ rest) st ->
  Forall (fun c => scalar c /\ storable k c /\ c <> 10%N /\ c <> 13%N) l -> (length l < fuel)%nat ->
  exists st', append_line (order_of native) ops fuel k t st = Ok (st', t ++ units k l) /\ before left e o rest st'.
Proof.
  intro k. induction l as [|c l IH]; intros t rest fuel st H F L; (destruct fuel as [|fuel]; [cbn [length] in L; lia|]); cbn [append_line];
    cbn [app] in H; rewrite text_bytes_cons, <- app_assoc in H;
    rewrite (at_end_before ops big left G _ _ _ _ H); cbn [bind].
  - replace (len _ =? 0) with false.
    2: { pose proof (text_bytes_ne e o 10%N []) as X. rewrite text_bytes_cons in X. rewrite !len_app in *.
         pose proof (len_nonneg rest). pose proof (len_nonneg (unit_bytes e o (encode1 e 10%N))). change (text_bytes e o []) with (@nil N) in *. unfold len at 2. cbn [length] in *.
         change (len []) with 0 in X. lia. }
    destruct (read_code_point_ok native ops big left G e o (encode1 e 10%N) 10%N (text_bytes e o [] ++ rest) st) as (st' & E & H');
      [apply scalar_sequence; unfold scalar; lia|exact H|exact B|].
    unfold read_filtered_code_point. rewrite E. cbn [bind]. change (10 =? 13)%N with false. cbn [bind]. change (10 =? 10)%N with true.
    exists st'. split; [|exact H']. now rewrite app_nil_r.
  - inversion F as [|? ? (Sc & St & N1 & N2) F']; subst.
    replace (len _ =? 0) with false.
    2: { pose proof (text_bytes_ne e o c []) as X. rewrite text_bytes_cons in X. rewrite !len_app in *.
         pose proof (len_nonneg rest). pose proof (len_nonneg (text_bytes e o (l ++ [10%N]))). pose proof (len_nonneg (unit_bytes e o (encode1 e c))).
         change (text_bytes e o []) with (@nil N) in *. change (len []) with 0 in X. lia. }
    destruct (read_code_point_ok native ops big left G e o (encode1 e c) c (text_bytes e o (l ++ [10%N]) ++ rest) st) as (st' & E & H');
      [now apply scalar_sequence|exact H|exact B|].
    unfold read_filtered_code_point. rewrite E. cbn [bind]. replace (c =? 13)%N with false by (symmetry; now apply N.eqb_neq). cbn [bind].
    replace (c =? 10)%N with false by (symmetry; now apply N.eqb_neq).
    rewrite append_to_ok by exact St. cbn [bind].
    destruct (IH (t ++ units k [c]) rest fuel st' H' F' ltac:(cbn [length] in L; lia)) as (st2 & E2 & H2).
    exists st2. split; [|exact H2]. rewrite E2, <- app_assoc, <- units_app. reflexivity.
Qed.

Lemma take_items_ok : forall k cap fuel l rest r, left (items_bytes native e o l ++ rest) r ->
  Forall (proper_item native e o k cap fuel) l -> (forall w, roomy cap w -> Z.of_nat w < 2 ^ 32 -> Z.of_nat w <= big) ->
  exists r', take_items (order_of native) ops fuel k native e o r (map wish_for l) = Ok (r', map (item_in k) l) /\ left rest r'.
Proof.
  intros k cap fuel. induction l as [|i l IH]; intros rest r H F W; cbn [take_items map].
  - exists r. split; [reflexivity|exact H].
  - inversion F as [|? ? P F']; subst. rewrite items_bytes_cons, <- app_assoc in H. destruct i as [w v|t]; cbn [wish_for item_bytes proper_item item_in] in *.
    + destruct P as (W0 & Ws & Fv & Rw).
      destruct (data_read_ok native native ops big left _ _ r w G H (in_order_length _ _ _) W0 (W w Rw Ws)) as (r1 & E & H1).
      rewrite E. cbn [bind]. destruct (IH rest r1 H1 F' W) as (r2 & E2 & H2). rewrite E2. cbn [bind].
      rewrite from_memory_in_order by exact Fv. exists r2. split; [reflexivity|exact H2].
    + destruct P as (P & Lt).
      destruct (line_then k t [] (items_bytes native e o l ++ rest) fuel (TextInput r (order_of o) (form_of e))) as (st1 & E & (H1 & _)).
      { split; [exact H|split; reflexivity]. }
      { eapply Forall_impl; [|exact P]. cbn. tauto. }
      { exact Lt. }
      unfold read_line. rewrite E. cbn [bind app]. destruct (IH rest (in_res st1) H1 F' W) as (r2 & E2 & H2). rewrite E2. cbn [bind].
      exists r2. split; [reflexivity|exact H2].
Qed.
End Reading.

Section Writing.
Context {R : Type} (native : byte_order) (ops : sink R) (limit : Z) (got : list N -> R -> Prop).
Context (G : good_sink ops limit got).
Context (e : encoding) (o d : byte_order).

Lemma put_item : forall k cap fuel i l b r, got b r -> proper_item native e o k cap fuel i -> len (b ++ item_bytes d e o i) <= limit ->
  exists r', put_items (order_of native) ops k d e o r (i :: l) = put_items (order_of native) ops k d e o r' l /\
    got (b ++ item_bytes d e o i) r'.
Proof.
  intros k cap fuel i l b r H P L. destruct i as [w v|t]; cbn [put_items item_bytes proper_item] in *.
  - destruct P as (W & _). destruct (data_write_ok native d ops limit got b r w v G H W L) as (r' & E & H').
    rewrite E. cbn [bind]. exists r'. split; [reflexivity|exact H'].
  - destruct P as (P & _).
    destruct (write_string_ok native ops limit got G e o k (t ++ [10%N]) b (TextOutput r (order_of o) (form_of e))) as (st & E & (H' & _)).
    { apply Forall_app. split; [eapply Forall_impl; [|exact P]; cbn; tauto|]. constructor; [apply printable_lf|constructor]. }
    { split; [exact H|split; reflexivity]. }
    { exact L. }
    rewrite E. cbn [bind]. exists (out_res st). split; [reflexivity|exact H'].
Qed.

Lemma put_items_ok : forall k cap fuel l b r, got b r -> Forall (proper_item native e o k cap fuel) l ->
  len (b ++ items_bytes d e o l) <= limit ->
  exists r', put_items (order_of native) ops k d e o r l = Ok r' /\ got (b ++ items_bytes d e o l) r'.
Proof.
  intros k cap fuel. induction l as [|i l IH]; intros b r H F L.
  - exists r. cbn. rewrite app_nil_r. split; [reflexivity|exact H].
  - inversion F as [|? ? P F']; subst. rewrite items_bytes_cons, app_assoc in L |- *.
    destruct (put_item k cap fuel i l b r H P) as (r' & E & H').
    { rewrite len_app in L. pose proof (len_nonneg (items_bytes d e o l)). lia. }
    rewrite E. now apply IH.
Qed.
End Writing.

Lemma put_on_file : forall pl native e o d cap q m others k rcap fuel l l0 p0 f, mode_writes m = true -> 0 <= p0 ->
  Forall (proper_item native e o k rcap fuel) l -> Forall (fun i => len (item_bytes d e o i) <= chunk_max pl) l ->
  p0 + len (items_bytes d e o l) < 2 ^ 63 -> file_got pl cap q m others l0 p0 [] f ->
  exists f', put_items (order_of native) (file_sink pl) k d e o f l = Ok f' /\
    file_got pl cap q m others l0 p0 (items_bytes d e o l) f'.
Proof.
  intros pl native e o d cap q m others k rcap fuel. induction l as [|i l IH]; intros l0 p0 f Mw P0 F S L H.
  - exists f. split; [reflexivity|exact H].
  - inversion F as [|? ? P F']; subst. inversion S as [|? ? Si S']; subst. rewrite items_bytes_cons in *. rewrite len_app in L.
    pose proof (len_nonneg (items_bytes d e o l)) as La. pose proof (len_nonneg (item_bytes d e o i)) as Li.
    destruct (put_item native (file_sink pl) _ _ (file_good_sink pl cap q m others l0 p0 Mw P0) e o d k rcap fuel i l [] f H P) as (f1 & E & H1).
    { cbn [app]. unfold most. lia. }
    rewrite E. cbn [app] in H1.
    destruct (IH (put l0 p0 (item_bytes d e o i)) (p0 + len (item_bytes d e o i)) f1 Mw ltac:(lia) F' S' ltac:(lia) (file_rebase _ _ _ _ _ _ _ _ _ H1))
      as (f2 & E2 & pp & K2 & R2).
    exists f2. split; [exact E2|]. exists pp. rewrite put_app in K2 by exact P0. rewrite len_app, Z.add_assoc. auto.
Qed.
