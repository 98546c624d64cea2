(** Lemmas for C142: whole runs over damaged text. *)
From Coq Require Import NArith ZArith List Bool Lia ZifyBool ZifyNat ZifyN.
From Verif Require Import Base Integers UnicodeSpec UnicodeModel UnicodeText UnicodeLemmas UnicodeLemmas2
  ResourceSpec ResourceModel ResourceLemmas StreamSpec StreamModel StreamText
  StreamLemmas StreamLemmas2 StreamLemmas3 StreamLemmas4 StreamLemmas5 RecoverSpec RecoverModel RecoverLemmas.
Import ListNotations.
Open Scope Z_scope.

(** A character's first unit continues nothing, its others start nothing. *)
Lemma encode_shape : forall e d, scalar d ->
  exists h t, encode1 e d = h :: t /\ Forall (starts_nothing e) t /\ (h < 256 ^ N.of_nat (unit_width e))%N /\
    match e with UTF8 => ~ (128 <= h < 192)%N | UTF16 => ~ (0xDC00 <= h <= 0xDFFF)%N | UTF32 => True end.
Proof.
  intros e d S. pose proof (loose_encode1 e d S) as L. destruct e; cbn [encode1 loose unit_width] in *.
  - destruct (loose8_lead _ _ L) as (h & t & v & -> & B & T & _ & F). exists h, t. split; [reflexivity|].
    split; [|split; [cbn; lia|exact T]]. eapply Forall_impl; [|exact F]. cbn. intros; lia.
  - remember (utf16_of d) as us eqn:Eu. clear Eu. inv16 L; (eexists _, _; split; [reflexivity|]); (split; [|split; [cbn; lia|lia]]); repeat constructor; cbn; lia.
  - exists d, []. split; [reflexivity|]. split; [constructor|]. split; [|exact Logic.I]. destruct S. cbn. lia.
Qed.

Section Runs.
Context {R : Type} (native : byte_order) (ops : source R) (biggest : Z) (left : list N -> R -> Prop).
Context (G : good_source ops biggest left).
Context (e : encoding) (o : byte_order) (B : Z.of_nat (unit_width e) <= biggest).
Local Notation before := (@before R left e o).
Local Notation native_ := (order_of native).
Local Notation code_point := (kept_code_point native_ ops).

Lemma whole_char : forall c rest st, scalar c -> before (unit_bytes e o (encode1 e c) ++ rest) st ->
  exists st', code_point st = (st', Ok c) /\ before rest st'.
Proof.
  intros c rest st S H.
  destruct (read_code_point_ok native ops biggest left G e o _ c rest st (scalar_sequence e c S) H B) as (st' & E & H').
  exists st'. split; [|exact H']. apply forget_ok. now rewrite code_point_same.
Qed.

Lemma torn_char : forall c n h rest st, scalar c -> (0 < n < length (encode1 e c))%nat -> (h < 256 ^ N.of_nat (unit_width e))%N ->
  match e with UTF8 => ~ (128 <= h < 192)%N | UTF16 => ~ (0xDC00 <= h <= 0xDFFF)%N | UTF32 => True end ->
  before (unit_bytes e o (firstn n (encode1 e c)) ++ in_order o (unit_width e) h ++ rest) st ->
  exists st', code_point st = (st', Throw InvalidUnicodeEncoding) /\ before rest st'.
Proof.
  intros c n h rest st S Nn Bh Th H. pose proof H as (_ & _ & Fm). unfold kept_code_point. rewrite Fm.
  pose proof (loose_encode1 e c S) as L. destruct e; cbn [encode1 loose unit_width form_of] in *.
  - unfold kept_utf8_code_point. destruct (loose8_lead _ _ L) as (lead & tr & v & E & Bl & Tl & I & F). rewrite E in *.
    destruct n as [|n]; [lia|]. cbn [firstn length] in *. unfold unit_bytes in H. cbn [flat_map unit_width] in H.
    rewrite in_order_1 in H by assumption. rewrite in_order_1 in H by (cbn in Bh; lia).
    change (flat_map (in_order o 1) (firstn n tr)) with (unit_bytes UTF8 o (firstn n tr)) in H.
    rewrite unit_bytes_8 in H. 2: { apply firstn_forall. eapply Forall_impl; [|exact F]. cbn. intros; lia. }
    cbn [app] in H. destruct (take_byte native ops biggest left G UTF8 o lead _ st H B Bl) as (st' & E' & H'). rewrite E'. cbn [then_].
    rewrite I. cbn [then_].
    apply (finish8_torn native ops biggest left G UTF8 o (firstn n tr) _ v h rest st'); auto.
    + now apply firstn_forall.
    + rewrite firstn_length. lia.
  - unfold kept_utf16_code_point. remember (utf16_of c) as us eqn:Eu. clear Eu. inv16 L; cbn [length] in Nn; [lia|]. assert (n = 1%nat) by lia. subst n.
    unfold unit_bytes in H. cbn [firstn flat_map unit_width] in H. rewrite app_nil_r in H.
    destruct (take_ok native ops biggest left G UTF16 o 2 _ _ st H ltac:(lia) B ltac:(cbn; lia)) as (st' & E' & H'). rewrite E'. cbn [then_].
    rewrite init16_lead by assumption. cbn [then_]. unfold kept_finish_utf16. cbn [Nat.eqb].
    destruct (take_ok native ops biggest left G UTF16 o 2 h rest st' H' ltac:(lia) B Bh) as (st2 & E2 & K2). rewrite E2. cbn [then_].
    destruct (is_trailing_surrogate h) eqn:T; [apply trailing_surrogate_iff in T; [elim (Th T)|exact Bh]|]. cbn [negb]. exists st2; split; [reflexivity|assumption].
  - cbn [utf32_of length] in Nn. lia.
Qed.

(** Some of the bytes of a character, at the end. *)
Lemma cut_char : forall c n st, scalar c -> (0 < n < length (unit_bytes e o (encode1 e c)))%nat ->
  before (firstn n (unit_bytes e o (encode1 e c))) st ->
  exists st', code_point st = (st', Throw ReadPastEnd) /\ before [] st'.
Proof.
  intros c n st S Nn H. pose proof H as (_ & _ & Fm). unfold kept_code_point. rewrite Fm.
  pose proof (loose_encode1 e c S) as L. destruct e; cbn [encode1 loose unit_width form_of] in *.
  - unfold kept_utf8_code_point. destruct (loose8_lead _ _ L) as (lead & tr & v & E & Bl & Tl & I & F). rewrite E in *.
    rewrite unit_bytes_8 in *. 2,3: constructor; [exact Bl|]; eapply Forall_impl; [|exact F]; cbn; intros; lia.
    destruct n as [|n]; [lia|]. cbn [firstn length] in *.
    destruct (take_byte native ops biggest left G UTF8 o lead _ st H B Bl) as (st' & E' & H'). rewrite E'. cbn [then_].
    rewrite I. cbn [then_].
    apply (finish8_cut native ops biggest left G UTF8 o (firstn n tr) _ v st'); auto.
    + now apply firstn_forall.
    + rewrite firstn_length. lia.
  - unfold kept_utf16_code_point.
    assert (Short : forall rest st, StreamLemmas2.before left UTF16 o rest st -> (length rest < 2)%nat ->
      exists st', take_unit native_ ops 2 st = (st', Ok None) /\ StreamLemmas2.before left UTF16 o [] st').
    { intros rest st1 H1 L1. apply (take_short native ops biggest left G UTF16 o 2 rest st1 H1); [lia|exact B|unfold len; lia]. }
    assert (Lb : length (unit_bytes UTF16 o (utf16_of c)) = (2 * length (utf16_of c))%nat).
    { pose proof (len_unit_bytes UTF16 o (utf16_of c)) as X. unfold len in X. cbn [unit_width] in X. lia. }
    rewrite Lb in Nn.
    destruct (Nat.ltb_spec n 2) as [N2|N2].
    { destruct (Short _ st H) as (st' & E' & H'); [rewrite firstn_length; lia|]. rewrite E'. exists st'; split; [reflexivity|assumption]. }
    remember (utf16_of c) as us eqn:Eu. clear Eu. inv16 L; cbn [length] in Nn; [lia|].
    unfold unit_bytes in H. cbn [flat_map unit_width] in H. rewrite app_nil_r, firstn_app, in_order_length in H.
    rewrite firstn_all2 in H by (rewrite in_order_length; lia).
    destruct (take_ok native ops biggest left G UTF16 o 2 _ _ st H ltac:(lia) B ltac:(cbn; lia)) as (st' & E' & H'). rewrite E'. cbn [then_].
    rewrite init16_lead by assumption. cbn [then_]. unfold kept_finish_utf16. cbn [Nat.eqb].
    destruct (Short _ st' H') as (st2 & E2 & K2); [rewrite firstn_length, in_order_length; lia|]. rewrite E2. exists st2; split; [reflexivity|assumption].
  - unfold kept_utf32_code_point, unit_bytes in *. cbn [utf32_of flat_map unit_width] in *. rewrite app_nil_r, in_order_length in *.
    destruct (take_short native ops biggest left G UTF32 o 4 _ st H ltac:(lia) B) as (st' & E' & H').
    { unfold len. rewrite firstn_length, in_order_length. lia. }
    rewrite E'. exists st'; split; [reflexivity|assumption].
Qed.

(** [settled rest l]: reading on from rest gives l. *)
Definition settled (rest : list N) (l : list event) : Prop :=
  forall fuel st, before rest st -> (length rest < fuel)%nat -> read_on native_ ops fuel st = Ok l.

Lemma settled_nil : settled [] [].
Proof.
  intros [|fuel] st H L; [cbn in L; lia|]. cbn [read_on]. rewrite (at_end_before ops biggest left G _ _ _ _ H). reflexivity.
Qed.

Lemma settled_got : forall bytes rest c l, c <> 13%N -> (length rest < length bytes)%nat ->
  (forall st, before bytes st -> exists st', code_point st = (st', Ok c) /\ before rest st') ->
  settled rest l -> settled bytes (Got c :: l).
Proof.
  intros bytes rest c l Nc Le K S [|fuel] st H L; [lia|]. cbn [read_on]. rewrite (at_end_before ops biggest left G _ _ _ _ H).
  replace (len bytes =? 0) with false by (unfold len; lia). cbn [bind]. unfold kept_filtered.
  destruct (K st H) as (st' & E & H'). rewrite E. cbn [then_]. replace (c =? 13)%N with false by lia.
  rewrite (S fuel st' H' ltac:(lia)). reflexivity.
Qed.

Lemma settled_failed : forall bytes rest x l, (length rest < length bytes)%nat ->
  (forall st, before bytes st -> exists st', code_point st = (st', Throw x) /\ before rest st') ->
  settled rest l -> settled bytes (Failed x :: l).
Proof.
  intros bytes rest x l Le K S [|fuel] st H L; [lia|]. cbn [read_on]. rewrite (at_end_before ops biggest left G _ _ _ _ H).
  replace (len bytes =? 0) with false by (unfold len; lia). cbn [bind]. unfold kept_filtered.
  destruct (K st H) as (st' & E & H'). rewrite E. cbn [then_].
  rewrite (S fuel st' H' ltac:(lia)). reflexivity.
Qed.

Lemma unit_bytes_length : forall us, (length (unit_bytes e o us) = unit_width e * length us)%nat.
Proof. intro us. pose proof (len_unit_bytes e o us) as X. unfold len in X. nia. Qed.

Lemma settled_strays : forall us rest l, Forall (starts_nothing e) us -> settled rest l ->
  settled (unit_bytes e o us ++ rest) (repeat (Failed InvalidUnicodeEncoding) (length us) ++ l).
Proof.
  intros us rest l F S. induction F as [|u us Fu F IH]; [exact S|]. pose proof (unit_width_pos e).
  apply (settled_failed _ (unit_bytes e o us ++ rest)); [| |exact IH].
  - rewrite !app_length, !unit_bytes_length. cbn [length]. nia.
  - intros st H'. unfold unit_bytes in H'. cbn [flat_map] in H'. rewrite <- app_assoc in H'.
    exact (stray_unit native ops biggest left G e o u _ st Fu H' B).
Qed.

Lemma settled_piece : forall p rest l, proper_piece e p -> settled rest l ->
  settled (unit_bytes e o (piece_units e p) ++ rest) (given e p ++ l).
Proof.
  intros p rest l P S. pose proof (unit_width_pos e). destruct p as [c|u|c n d]; cbn [proper_piece piece_units given] in *.
  - destruct P as [P1 P2]. apply (settled_got _ rest); [exact P2| |intros st H'; now apply whole_char|exact S].
    rewrite app_length, unit_bytes_length. pose proof (encode1_nonempty e c). destruct (encode1 e c); [congruence|]. cbn [length]. nia.
  - exact (settled_strays [u] rest l (Forall_cons _ P (Forall_nil _)) S).
  - destruct P as ((Sc & _) & (Sd & _) & Nn). destruct (encode_shape e d Sd) as (h & t & E & F & Bh & Th). rewrite E. cbn [length repeat app].
    rewrite unit_bytes_app, <- app_assoc.
    apply (settled_failed _ (unit_bytes e o t ++ rest)); [| |now apply settled_strays].
    + rewrite !app_length, !unit_bytes_length, firstn_length. cbn [length]. nia.
    + intros st H'. apply (torn_char c n h); auto.
      unfold unit_bytes at 2 in H'. cbn [flat_map] in H'. rewrite <- app_assoc in H'. exact H'.
Qed.

Lemma damaged_cons : forall p ps, damaged e o (p :: ps) = unit_bytes e o (piece_units e p) ++ damaged e o ps.
Proof. intros. unfold damaged. cbn [flat_map]. now rewrite flat_map_app. Qed.

Lemma settled_damaged : forall ps rest l, Forall (proper_piece e) ps -> settled rest l ->
  settled (damaged e o ps ++ rest) (flat_map (given e) ps ++ l).
Proof.
  intros ps rest l F S. induction F as [|p ps P F IH]; [exact S|]. rewrite damaged_cons. cbn [flat_map]. rewrite <- !app_assoc.
  now apply settled_piece.
Qed.

Lemma settled_cut : forall c n, scalar c -> (0 < n < length (text_bytes e o [c]))%nat ->
  settled (firstn n (text_bytes e o [c])) [Failed ReadPastEnd].
Proof.
  intros c n S Nn. replace (text_bytes e o [c]) with (unit_bytes e o (encode1 e c)) in *
    by (unfold text_bytes, encode, unit_bytes; cbn [flat_map]; now rewrite app_nil_r).
  apply (settled_failed _ []); [rewrite firstn_length; cbn; lia| |exact settled_nil].
  intros st H. now apply (cut_char c n).
Qed.
End Runs.

(* -------------------------------------------------------------- salvaging *)

Section Salvaging.
Context {R : Type} (native : endian) (ops : source R) (k : ukind).

Lemma read_on_more : forall fuel st l, read_on native ops fuel st = Ok l -> forall fuel', (fuel <= fuel')%nat ->
  read_on native ops fuel' st = Ok l.
Proof.
  induction fuel as [|fuel IH]; intros st l E fuel' L; [discriminate|]. destruct fuel' as [|fuel']; [lia|].
  cbn [read_on] in *. destruct (text_at_end ops st) as [[|]|x|u| |]; cbn [bind] in *; try exact E.
  destruct (kept_filtered native ops st) as [st' [c|x|u| |]]; cbn [bind] in *; try discriminate;
    (destruct (read_on native ops fuel st') as [l'|y|v| |] eqn:E'; cbn [bind] in E; try discriminate);
    (rewrite (IH _ _ E' fuel' ltac:(lia)); exact E).
Qed.

Lemma read_on_append : forall fuel st l target, read_on native ops fuel st = Ok l -> Forall (insertable k) (got_of l) ->
  (exists st', kept_append_all native ops fuel k st target = ((st', target ++ units k (got_of l)), Ok tt) /\
     text_at_end ops st' = Ok true) \/
  (exists cs x l' st' fuel', kept_append_all native ops fuel k st target = ((st', target ++ units k cs), Throw x) /\
     got_of l = cs ++ got_of l' /\ (fuel' < fuel)%nat /\ read_on native ops fuel' st' = Ok l').
Proof.
  induction fuel as [|fuel IH]; intros st l target E F; [discriminate|].
  cbn [read_on] in E. cbn [kept_append_all]. destruct (text_at_end ops st) as [[|]|x|u| |] eqn:T; cbn [bind] in E; try discriminate.
  { inversion E; subst. left. exists st. cbn [got_of flat_map units encode]. rewrite app_nil_r. now split. }
  destruct (kept_filtered native ops st) as [st1 [c|x|u| |]]; cbn [bind] in *; try discriminate;
    (destruct (read_on native ops fuel st1) as [l1|y|v| |] eqn:E1; cbn [bind] in E; try discriminate); inversion E; subst l.
  - change (got_of (Got c :: l1)) with (c :: got_of l1) in *. inversion F as [|? ? Fc F1]; subst.
    rewrite append_ok by assumption.
    assert (U : forall t a, (t ++ encode1 (encoding_of k) c) ++ units k a = t ++ units k (c :: a)).
    { intros t a. change (c :: a) with ([c] ++ a). now rewrite units_app, units_one, app_assoc. }
    destruct (IH st1 l1 (target ++ encode1 (encoding_of k) c) E1 F1) as [(st2 & E2 & T2)|(cs & x & l2 & st2 & f2 & E2 & Eg & Lf & E3)];
      rewrite E2, U; [left; now exists st2|].
    right. exists (c :: cs), x, l2, st2, f2. split; [reflexivity|]. split; [cbn; now rewrite Eg|]. split; [lia|exact E3].
  - right. exists [], x, l1, st1, fuel. cbn [units encode flat_map app]. rewrite app_nil_r. auto.
Qed.

Lemma salvage_read_on : forall fuel st l target, read_on native ops fuel st = Ok l -> Forall (insertable k) (got_of l) ->
  salvage native ops fuel k st target = Ok (target ++ units k (got_of l)).
Proof.
  induction fuel as [|fuel IH]; intros st l target E F; [discriminate|]. pose proof E as E0.
  cbn [read_on] in E. cbn [salvage].
  destruct (text_at_end ops st) as [[|]|x|u| |] eqn:T; cbn [bind] in *; try discriminate.
  { inversion E; subst. cbn [got_of flat_map units encode]. now rewrite app_nil_r. }
  destruct (read_on_append _ _ _ target E0 F) as [(st2 & E2 & T2)|(cs & x & l2 & st2 & f2 & E2 & Eg & Lf & E3)]; rewrite E2.
  - destruct fuel as [|fuel].
    + exfalso. destruct (kept_filtered native ops st) as [st' [c|x|u| |]]; cbn in E; discriminate.
    + cbn [salvage]. rewrite T2. reflexivity.
  - rewrite Eg in *. apply Forall_app in F. rewrite (IH st2 l2 (target ++ units k cs)); [|apply (read_on_more f2); [exact E3|lia]|tauto].
    rewrite units_app. now rewrite app_assoc.
Qed.
End Salvaging.

Lemma got_app : forall a b, got_of (a ++ b) = got_of a ++ got_of b.
Proof. intros. apply flat_map_app. Qed.

Lemma got_given : forall e ps, got_of (flat_map (given e) ps) = saved ps.
Proof.
  intros e ps. induction ps as [|p ps IH]; [reflexivity|]. cbn [flat_map saved]. rewrite got_app, IH. f_equal.
  destruct p as [c|u|c n d]; try reflexivity. cbn [given]. induction (length (encode1 e d)); [reflexivity|assumption].
Qed.
