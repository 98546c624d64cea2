(** Reading code points, lines and words. *)
From Coq Require Import NArith ZArith List Bool Lia ZifyBool ZifyNat ZifyN.
From Verif Require Import Base Integers UnicodeSpec UnicodeModel UnicodeText UnicodeLemmas UnicodeLemmas2 UnicodeLemmas3
  ResourceSpec ResourceModel ResourceLemmas StreamSpec StreamModel StreamText StreamLemmas.
Import ListNotations.
Open Scope Z_scope.

Definition unit_bytes (e : encoding) (o : byte_order) (us : list N) : list N :=
  flat_map (in_order o (unit_width e)) us.

Lemma text_bytes_cons : forall e o c l,
  text_bytes e o (c :: l) = unit_bytes e o (encode1 e c) ++ text_bytes e o l.
Proof. intros. unfold text_bytes, unit_bytes. cbn [encode flat_map]. apply flat_map_app. Qed.

Lemma text_bytes_app : forall e o a b, text_bytes e o (a ++ b) = text_bytes e o a ++ text_bytes e o b.
Proof. intros. unfold text_bytes. rewrite encode_app. apply flat_map_app. Qed.

Lemma unit_bytes_app : forall e o a b, unit_bytes e o (a ++ b) = unit_bytes e o a ++ unit_bytes e o b.
Proof. intros. apply flat_map_app. Qed.

Lemma unit_width_pos : forall e, (0 < unit_width e)%nat.
Proof. intros [| |]; cbn; lia. Qed.

Lemma len_unit_bytes : forall e o us, len (unit_bytes e o us) = Z.of_nat (unit_width e) * len us.
Proof.
  intros e o. induction us as [|u us IH]; [cbn; lia|].
  unfold unit_bytes in *. cbn [flat_map]. rewrite len_app, IH, len_in_order. unfold len. cbn [length]. lia.
Qed.

Lemma in_order_1 : forall o u, (u < 256)%N -> in_order o 1 u = [u].
Proof. intros [|] u H; cbn; now rewrite N.mod_small by lia. Qed.

Section Reading.
Context {R : Type} (native : byte_order) (ops : source R) (biggest : Z) (left : list N -> R -> Prop).
Context (G : good_reader ops biggest left).

(** The stream is about to read the bytes [rest]. *)
Definition before (e : encoding) (o : byte_order) (rest : list N) (st : text_input R) : Prop :=
  left rest (in_res st) /\ in_order_ st = order_of o /\ in_form st = form_of e.

Lemma text_read_ok : forall e o d rest st, before e o (d ++ rest) st -> (0 < length d)%nat -> len d <= biggest ->
  exists st', text_read (order_of native) ops st (length d)
    = Ok (st', (if endian_eqb (order_of o) (order_of native) then d else rev d), len d) /\ before e o rest st'.
Proof.
  intros e o d rest st (L & O & F) W B. unfold text_read. rewrite O.
  destruct (stream_read_ok native o ops biggest left d rest _ (length d) G L eq_refl W B) as (r' & E & L').
  rewrite E. cbn [bind]. eexists. split; [reflexivity|]. split; [exact L'|]. split; [reflexivity|exact F].
Qed.

Lemma read_code_unit_ok : forall e o w u rest st, before e o (in_order o w u ++ rest) st ->
  (0 < w)%nat -> Z.of_nat w <= biggest -> (u < 256 ^ N.of_nat w)%N ->
  exists st', read_code_unit (order_of native) ops w st = Ok (st', Some u) /\ before e o rest st'.
Proof.
  intros e o w u rest st H W B U. unfold read_code_unit.
  destruct (text_read_ok _ _ _ _ _ H) as (st' & E & H').
  - rewrite in_order_length. exact W.
  - rewrite len_in_order. exact B.
  - rewrite in_order_length, len_in_order in E. rewrite E. cbn [bind]. rewrite Z.ltb_irrefl. exists st'. split; [|exact H'].
    do 3 f_equal. destruct (endian_eqb _ _) eqn:Q.
    + assert (o = native) by (destruct o, native; cbn in Q; congruence). subst o. now apply from_memory_in_order.
    + rewrite in_order_opposite. replace (opposite o) with native; [now apply from_memory_in_order|].
      destruct o, native; cbn in Q; try discriminate; reflexivity.
Qed.

Lemma byte_unit_ok : forall e o u rest st, before e o (u :: rest) st -> 1 <= biggest -> (u < 256)%N ->
  exists st', read_code_unit (order_of native) ops 1 st = Ok (st', Some u) /\ before e o rest st'.
Proof.
  intros e o u rest st H B U. apply (read_code_unit_ok e o 1 u rest st); try assumption.
  - now rewrite in_order_1 by assumption.
  - lia.
Qed.

Lemma read_utf8_ok : forall e o bs c rest st, loose8 bs c -> before e o (bs ++ rest) st -> 1 <= biggest ->
  exists st', read_utf8_code_point (order_of native) ops st = Ok (st', c) /\ before e o rest st'.
Proof.
  intros e o bs c rest st L H B. unfold read_utf8_code_point.
  inv8 L; cbn [app] in H; (edestruct byte_unit_ok as (st1 & E1 & K1); [exact H|exact B|lia|]); rewrite E1; cbn [bind].
  - rewrite init8_1 by assumption. cbn [bind]. eexists. split; [reflexivity|exact K1].
  - rewrite init8_2 by assumption. cbn [bind Nat.sub finish_utf8_sequence].
    (edestruct byte_unit_ok as (st2 & E2 & K2); [exact K1|exact B|lia|]). rewrite E2. cbn [bind].
    rewrite trailing_true by assumption. cbn [negb finish_utf8_sequence]. rewrite push6 by assumption.
    eexists. split; [reflexivity|exact K2].
  - rewrite init8_3 by assumption. cbn [bind Nat.sub finish_utf8_sequence].
    (edestruct byte_unit_ok as (st2 & E2 & K2); [exact K1|exact B|lia|]). rewrite E2. cbn [bind].
    rewrite trailing_true by assumption. cbn [negb finish_utf8_sequence]. rewrite push6 by assumption.
    (edestruct byte_unit_ok as (st3 & E3 & K3); [exact K2|exact B|lia|]). rewrite E3. cbn [bind].
    rewrite trailing_true by assumption. cbn [negb finish_utf8_sequence]. rewrite push6 by assumption.
    eexists. split; [|exact K3]. do 2 f_equal. lia.
  - rewrite init8_4 by assumption. cbn [bind Nat.sub finish_utf8_sequence].
    (edestruct byte_unit_ok as (st2 & E2 & K2); [exact K1|exact B|lia|]). rewrite E2. cbn [bind].
    rewrite trailing_true by assumption. cbn [negb finish_utf8_sequence]. rewrite push6 by assumption.
    (edestruct byte_unit_ok as (st3 & E3 & K3); [exact K2|exact B|lia|]). rewrite E3. cbn [bind].
    rewrite trailing_true by assumption. cbn [negb finish_utf8_sequence]. rewrite push6 by assumption.
    (edestruct byte_unit_ok as (st4 & E4 & K4); [exact K3|exact B|lia|]). rewrite E4. cbn [bind].
    rewrite trailing_true by assumption. cbn [negb finish_utf8_sequence]. rewrite push6 by assumption.
    eexists. split; [|exact K4]. do 2 f_equal. lia.
Qed.

Lemma finish16_ok : forall e o b v rest st, before e o (in_order o 2 b ++ rest) st -> 2 <= biggest ->
  (0xDC00 <= b <= 0xDFFF)%N ->
  exists st', finish_utf16_sequence (order_of native) ops 2 v st = Ok (st', (v + (b - 0xDC00) + 0x10000)%N) /\
    before e o rest st'.
Proof.
  intros e o b v rest st H B Hb. unfold finish_utf16_sequence. cbn [Nat.eqb].
  destruct (read_code_unit_ok e o 2 b rest st H) as (st' & E & H'); try lia.
  rewrite E. cbn [bind]. rewrite (proj2 (trailing_surrogate_iff b ltac:(lia))) by lia. eexists. split; [reflexivity|exact H'].
Qed.

Lemma read_utf16_ok : forall e o us c rest st, loose16 us c -> before e o (unit_bytes UTF16 o us ++ rest) st ->
  2 <= biggest ->
  exists st', read_utf16_code_point (order_of native) ops st = Ok (st', c) /\ before e o rest st'.
Proof.
  intros e o us c rest st L H B. unfold read_utf16_code_point.
  inv16 L; unfold unit_bytes in H; cbn [unit_width flat_map] in H; rewrite ?app_nil_r, <- ?app_assoc in H;
    (edestruct (read_code_unit_ok e o 2) as (st1 & E1 & K1); [exact H|lia|exact B|lia|]); rewrite E1; cbn [bind].
  - rewrite init16_other by assumption. cbn [bind finish_utf16_sequence Nat.eqb]. eexists. split; [reflexivity|exact K1].
  - rewrite init16_lead by assumption. cbn [bind].
    edestruct finish16_ok as (st2 & E2 & K2); [exact K1|exact B|eassumption|]. rewrite E2.
    eexists. split; [reflexivity|exact K2].
Qed.

Lemma read_utf32_ok : forall e o c rest st, before e o (in_order o 4 c ++ rest) st ->
  4 <= biggest -> (c < 0x100000000)%N ->
  exists st', read_utf32_code_point (order_of native) ops st = Ok (st', c) /\ before e o rest st'.
Proof.
  intros e o c rest st H B C. unfold read_utf32_code_point.
  destruct (read_code_unit_ok e o 4 c rest st H) as (st' & E & H'); try lia.
  rewrite E. cbn [bind]. eexists. split; [reflexivity|exact H'].
Qed.

(** A sequence of code units that is a (possibly overlong) encoding of c. *)
Definition one_sequence (e : encoding) (us : list N) (c : N) : Prop :=
  loose e us c /\ (e = UTF32 -> (c < 0x100000000)%N).

Lemma read_code_point_ok : forall e o us c rest st, one_sequence e us c ->
  before e o (unit_bytes e o us ++ rest) st -> Z.of_nat (unit_width e) <= biggest ->
  exists st', read_code_point (order_of native) ops st = Ok (st', c) /\ before e o rest st'.
Proof.
  intros e o us c rest st [L S] H B. pose proof H as (_ & _ & F). unfold read_code_point. rewrite F.
  destruct e; cbn [form_of loose unit_width] in *.
  - apply (read_utf8_ok UTF8 o us c rest st L); [|lia].
    replace us with (unit_bytes UTF8 o us); [exact H|].
    unfold unit_bytes. cbn [unit_width]. assert (Hr : Forall (fun u => (u < 256)%N) us) by (inv8 L; repeat constructor; lia).
    clear - Hr. induction Hr as [|u us Hu Hr IH]; [reflexivity|]. cbn [flat_map]. rewrite IH, in_order_1 by assumption. reflexivity.
  - apply (read_utf16_ok UTF16 o us c rest st L); [exact H|lia].
  - inversion L; subst. unfold unit_bytes in H. cbn [unit_width flat_map] in H. rewrite app_nil_r in H.
    apply (read_utf32_ok UTF32 o c rest st H); [lia|auto].
Qed.

(** Texts. *)
Lemma scalar_sequence : forall e c, scalar c -> one_sequence e (encode1 e c) c.
Proof. intros e c H. split; [now apply loose_encode1|]. intros ->. destruct H. lia. Qed.

Lemma text_bytes_ne : forall e o c l, (len (text_bytes e o (c :: l)) =? 0) = false.
Proof.
  intros. rewrite text_bytes_cons, len_app, len_unit_bytes. pose proof (len_nonneg (text_bytes e o l)).
  pose proof (unit_width_pos e). assert (0 < len (encode1 e c)).
  { pose proof (encode1_nonempty e c). destruct (encode1 e c); [congruence|]. unfold len. cbn [length]. lia. }
  nia.
Qed.

Lemma read_one : forall e o c l st, scalar c -> before e o (text_bytes e o (c :: l)) st ->
  Z.of_nat (unit_width e) <= biggest ->
  exists st', read_code_point (order_of native) ops st = Ok (st', c) /\ before e o (text_bytes e o l) st'.
Proof.
  intros e o c l st S H B. rewrite text_bytes_cons in H.
  exact (read_code_point_ok e o _ c _ st (scalar_sequence e c S) H B).
Qed.

End Reading.

Section ReadingToTheEnd.
Context {R : Type} (native : byte_order) (ops : source R) (biggest : Z) (left : list N -> R -> Prop).
Context (G : good_source ops biggest left).
Local Notation before := (before left).
Local Notation read_one := (read_one native ops biggest left G).

Lemma at_end_before : forall e o rest st, before e o rest st -> text_at_end ops st = Ok (len rest =? 0).
Proof. intros e o rest st (L & _). exact (gs_at_end _ _ _ G _ _ L). Qed.

Lemma filtered_one : forall e o c l st, Forall scalar (c :: l) -> before e o (text_bytes e o (c :: l)) st ->
  Z.of_nat (unit_width e) <= biggest ->
  exists st' d l', read_filtered_code_point (order_of native) ops st = Ok (st', d) /\ before e o (text_bytes e o l') st' /\
    filtered (c :: l) = d :: filtered l' /\ Forall scalar (d :: l') /\ (length l' <= length l)%nat /\
    (exists pre, c :: l = pre ++ l').
Proof.
  intros e o c l st S H B. inversion S as [|? ? Sc Sl]; subst. unfold read_filtered_code_point.
  destruct (read_one e o c l st Sc H B) as (st1 & E1 & H1). rewrite E1. cbn [bind filtered].
  destruct (N.eqb_spec c 13) as [->|N].
  - rewrite (at_end_before _ _ _ _ H1). cbn [bind]. destruct l as [|d l].
    + cbn. exists st1, 13%N, []. split; [reflexivity|]. split; [exact H1|]. split; [reflexivity|]. split; [assumption|]. split; [cbn; lia|]. now exists [13%N].
    + rewrite text_bytes_ne. cbn [negb]. inversion Sl as [|? ? Sd Sl']; subst.
      destruct (read_one e o d l st1 Sd H1 B) as (st2 & E2 & H2). rewrite E2. exists st2, d, l.
      split; [reflexivity|]. split; [exact H2|]. split; [reflexivity|]. split; [assumption|]. split; [cbn; lia|]. now exists [13%N; d].
  - exists st1, c, l. split; [reflexivity|]. split; [exact H1|]. split; [reflexivity|]. split; [assumption|]. split; [cbn; lia|]. now exists [c].
Qed.

Lemma append_to_ok : forall k t c, insertable k c -> append_to k t c = Ok (t ++ units k [c]).
Proof. intros. unfold append_to. rewrite append_ok by assumption. cbn [bind]. now rewrite units_one. Qed.

Lemma append_line_ok : forall e o k n l, (length l <= n)%nat -> forall fuel t st, Forall scalar l ->
  Forall (insertable k) (filtered l) ->
  before e o (text_bytes e o l) st -> Z.of_nat (unit_width e) <= biggest -> (length l < fuel)%nat ->
  exists st' l', append_line (order_of native) ops fuel k t st = Ok (st', t ++ units k (fst (upto_lf (filtered l)))) /\
    before e o (text_bytes e o l') st' /\ snd (upto_lf (filtered l)) = filtered l' /\ Forall scalar l' /\
    (l <> [] -> (length l' < length l)%nat) /\ (exists pre, l = pre ++ l').
Proof.
  intros e o k. induction n as [|n IH]; intros l Hn fuel t st S I H B F.
  - destruct l; [|cbn in Hn; lia]. destruct fuel; [lia|]. cbn [append_line].
    rewrite (at_end_before _ _ _ _ H). cbn. rewrite app_nil_r. exists st, []. repeat split; auto; try apply H; try congruence.
    now exists [].
  - destruct fuel as [|fuel]; [lia|]. cbn [append_line]. destruct l as [|c l].
    { rewrite (at_end_before _ _ _ _ H). cbn. rewrite app_nil_r. exists st, []. repeat split; auto; try apply H; try congruence.
      now exists []. }
    rewrite (at_end_before _ _ _ _ H), text_bytes_ne. cbn [bind].
    destruct (filtered_one e o c l st S H B) as (st1 & d & l1 & E & H1 & Ef & S1 & L1 & P1). rewrite E. cbn [bind].
    rewrite Ef in *. cbn [upto_lf]. inversion S1 as [|? ? Sd S1']; subst. inversion I as [|? ? Id I']; subst.
    destruct (N.eqb_spec d 10) as [->|Nd].
    + cbn [fst snd units encode flat_map]. rewrite app_nil_r. exists st1, l1. cbn [length] in *.
      split; [reflexivity|]. split; [exact H1|]. repeat split; auto; lia.
    + rewrite append_to_ok by assumption. cbn [bind]. cbn [length] in *.
      destruct (IH l1 ltac:(lia) fuel (t ++ units k [d]) st1 S1' I' H1 B ltac:(lia))
        as (st2 & l2 & E2 & H2 & Q & S2 & L2 & P2). rewrite E2.
      destruct (upto_lf (filtered l1)) as [a b] eqn:U. cbn [fst snd] in *.
      exists st2, l2. rewrite <- app_assoc, <- units_app. cbn [app]. split; [reflexivity|]. split; [exact H2|].
      destruct P1 as [p1 P1], P2 as [p2 P2]. repeat split; auto.
      * intros _. destruct l1; [|assert (length l2 < length (n0 :: l1))%nat by (apply L2; discriminate); lia].
        destruct l2; [cbn; lia|]. destruct p2; discriminate.
      * exists (p1 ++ p2). rewrite P1, P2. apply app_assoc.
Qed.

Lemma append_all_text : forall e o k n l, (length l <= n)%nat -> forall fuel t st, Forall scalar l ->
  Forall (insertable k) (filtered l) ->
  before e o (text_bytes e o l) st -> Z.of_nat (unit_width e) <= biggest -> (length l < fuel)%nat ->
  exists st', StreamModel.append_all (order_of native) ops fuel k t st = Ok (st', t ++ units k (filtered l)) /\
    before e o [] st'.
Proof.
  intros e o k. induction n as [|n IH]; intros l Hn fuel t st S I H B F.
  - destruct l; [|cbn in Hn; lia]. destruct fuel; [lia|]. cbn [StreamModel.append_all].
    rewrite (at_end_before _ _ _ _ H). cbn. rewrite app_nil_r. exists st. split; [reflexivity|exact H].
  - destruct fuel as [|fuel]; [lia|]. cbn [StreamModel.append_all]. destruct l as [|c l].
    { rewrite (at_end_before _ _ _ _ H). cbn. rewrite app_nil_r. exists st. split; [reflexivity|exact H]. }
    rewrite (at_end_before _ _ _ _ H), text_bytes_ne. cbn [bind].
    destruct (filtered_one e o c l st S H B) as (st1 & d & l1 & E & H1 & Ef & S1 & L1 & P1). rewrite E. cbn [bind].
    rewrite Ef in *. inversion S1 as [|? ? Sd S1']; subst. inversion I as [|? ? Id I']; subst.
    rewrite append_to_ok by assumption. cbn [bind]. cbn [length] in *.
    destruct (IH l1 ltac:(lia) fuel (t ++ units k [d]) st1 S1' I' H1 B ltac:(lia)) as (st2 & E2 & H2). rewrite E2.
    exists st2. rewrite <- app_assoc, <- units_app. split; [reflexivity|exact H2].
Qed.

(** Words: leading white space skipped, then up to white space, which is consumed. *)
Fixpoint skip_white (l : list N) : list N :=
  match l with
  | [] => []
  | c :: r => if is_whitespace c then skip_white r else l
  end.
Fixpoint upto_white (l : list N) : list N * list N :=
  match l with
  | [] => ([], [])
  | c :: r => if is_whitespace c then ([], r) else let '(a, b) := upto_white r in (c :: a, b)
  end.

Lemma skip_ok : forall e o k n l, (length l <= n)%nat -> forall fuel st, Forall scalar l ->
  Forall (insertable k) (filtered l) ->
  before e o (text_bytes e o l) st -> Z.of_nat (unit_width e) <= biggest -> (length l < fuel)%nat ->
  exists st' w l', skip_whitespace (order_of native) ops fuel k st = Ok (st', units k w) /\
    before e o (text_bytes e o l') st' /\ skip_white (filtered l) = w ++ filtered l' /\
    (w = [] -> l' = []) /\ Forall (fun c => is_whitespace c = false) w /\
    Forall scalar l' /\ (length l' <= length l)%nat.
Proof.
  intros e o k. induction n as [|n IH]; intros l Hn fuel st S I H B F.
  - destruct l; [|cbn in Hn; lia]. destruct fuel; [lia|]. cbn [skip_whitespace].
    rewrite (at_end_before _ _ _ _ H). cbn. exists st, [], []. repeat split; auto; apply H.
  - destruct fuel as [|fuel]; [lia|]. cbn [skip_whitespace]. destruct l as [|c l].
    { rewrite (at_end_before _ _ _ _ H). cbn. exists st, [], []. repeat split; auto; apply H. }
    rewrite (at_end_before _ _ _ _ H), text_bytes_ne. cbn [bind].
    destruct (filtered_one e o c l st S H B) as (st1 & d & l1 & E & H1 & Ef & S1 & L1 & P1). rewrite E. cbn [bind].
    rewrite Ef in *. cbn [skip_white length] in *. inversion S1 as [|? ? Sd S1']; subst. inversion I as [|? ? Id I']; subst.
    destruct (is_whitespace d) eqn:W; cbn [negb].
    + destruct (IH l1 ltac:(lia) fuel st1 S1' I' H1 B ltac:(lia)) as (st2 & w & l2 & E2 & H2 & Q & X & Y & S2 & L2).
      rewrite E2. exists st2, w, l2. split; [reflexivity|]. split; [exact H2|]. repeat split; auto. lia.
    + rewrite append_to_ok by assumption. cbn [bind app]. exists st1, [d], l1. split; [reflexivity|].
      split; [exact H1|]. split; [reflexivity|]. split; [discriminate|]. split; [now constructor|]. split; [assumption|lia].
Qed.

Lemma take_word_ok : forall e o k n l, (length l <= n)%nat -> forall fuel t st, Forall scalar l ->
  Forall (insertable k) (filtered l) ->
  before e o (text_bytes e o l) st -> Z.of_nat (unit_width e) <= biggest -> (length l < fuel)%nat ->
  exists st' l', take_word (order_of native) ops fuel k t st = Ok (st', t ++ units k (fst (upto_white (filtered l)))) /\
    before e o (text_bytes e o l') st' /\ snd (upto_white (filtered l)) = filtered l' /\ Forall scalar l' /\
    (length l' <= length l)%nat.
Proof.
  intros e o k. induction n as [|n IH]; intros l Hn fuel t st S I H B F.
  - destruct l; [|cbn in Hn; lia]. destruct fuel; [lia|]. cbn [take_word].
    rewrite (at_end_before _ _ _ _ H). cbn. rewrite app_nil_r. exists st, []. repeat split; auto; apply H.
  - destruct fuel as [|fuel]; [lia|]. cbn [take_word]. destruct l as [|c l].
    { rewrite (at_end_before _ _ _ _ H). cbn. rewrite app_nil_r. exists st, []. repeat split; auto; apply H. }
    rewrite (at_end_before _ _ _ _ H), text_bytes_ne. cbn [bind].
    destruct (filtered_one e o c l st S H B) as (st1 & d & l1 & E & H1 & Ef & S1 & L1 & P1). rewrite E. cbn [bind].
    rewrite Ef in *. cbn [upto_white length] in *. inversion S1 as [|? ? Sd S1']; subst. inversion I as [|? ? Id I']; subst.
    destruct (is_whitespace d).
    + cbn [fst snd units encode flat_map]. rewrite app_nil_r. exists st1, l1.
      split; [reflexivity|]. split; [exact H1|]. repeat split; auto; lia.
    + rewrite append_to_ok by assumption. cbn [bind].
      destruct (IH l1 ltac:(lia) fuel (t ++ units k [d]) st1 S1' I' H1 B ltac:(lia))
        as (st2 & l2 & E2 & H2 & Q & S2 & L2). rewrite E2.
      destruct (upto_white (filtered l1)) as [a b] eqn:U. cbn [fst snd] in *.
      exists st2, l2. rewrite <- app_assoc, <- units_app. cbn [app]. split; [reflexivity|]. split; [exact H2|].
      repeat split; auto. lia.
Qed.

End ReadingToTheEnd.
