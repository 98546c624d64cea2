(** Lemmas for C143: two text input streams with the same bytes to come. *)
From Coq Require Import NArith ZArith List Bool Lia ZifyBool ZifyNat ZifyN.
From Verif Require Import Base Integers UnicodeSpec UnicodeModel UnicodeText UnicodeLemmas UnicodeLemmas2
  NumberModel ResourceSpec ResourceModel ResourceLemmas StreamSpec StreamModel StreamText
  StreamLemmas StreamLemmas2 StreamLemmas3 StreamLemmas4 TextFileSpec TextFileText
  RecoverSpec RecoverModel SameText.
Import ListNotations.
Open Scope Z_scope.

(** The next unit of w bytes among the bytes to come. *)
Definition unit_at (o : byte_order) (w : nat) (rest : list N) : option N :=
  if len rest <? Z.of_nat w then None
  else Some (from_memory (order_of o) (take (Z.of_nat w) rest)).

Lemma form_width : forall e, unit_width e = match form_of e with utf8 => 1 | utf16 => 2 | utf32 => 4 end%nat.
Proof. now intros []. Qed.

Section One.
Context {R : Type} (native : byte_order) (ops : source R) (biggest : Z) (left : list N -> R -> Prop).
Context (G : good_source ops biggest left).
Local Notation before := (before left).

Lemma unit_depends : forall e o w rest st, before e o rest st -> (0 < w)%nat -> Z.of_nat w <= biggest ->
  exists st', read_code_unit (order_of native) ops w st = Ok (st', unit_at o w rest) /\ before e o (drop (Z.of_nat w) rest) st'.
Proof.
  intros e o w rest st (H & O & Fm) W B. unfold read_code_unit, text_read, stream_read, unit_at.
  assert (Lw : len (repeat 0%N w) = Z.of_nat w) by (unfold len; now rewrite repeat_length).
  pose proof (len_nonneg rest) as P.
  destruct (gs_read _ _ _ G _ _ (repeat 0%N w) (Z.of_nat w) H) as (r' & E & L'); [lia|exact B|].
  rewrite E. cbn [bind]. rewrite O.
  assert (Lt : len (take (Z.of_nat w) rest) = Z.min (Z.of_nat w) (len rest)) by (rewrite len_take; lia).
  set (m := take (Z.of_nat w) rest ++ drop (len (take (Z.of_nat w) rest)) (repeat 0%N w)).
  assert (M : len m = Z.of_nat w). { unfold m. rewrite len_app, len_drop by lia. lia. }
  assert (K : forall data, (Z.of_nat w <= len rest -> from_memory (order_of native) data = from_memory (order_of o) (take (Z.of_nat w) rest)) ->
    (TextInput r' (order_of o) (in_form st), if len (take (Z.of_nat w) rest) <? Z.of_nat w then None else Some (from_memory (order_of native) data))
    = (TextInput r' (order_of o) (in_form st), if len rest <? Z.of_nat w then None else Some (from_memory (order_of o) (take (Z.of_nat w) rest)))).
  { intros data Eq. f_equal. destruct (Z.ltb_spec (len rest) (Z.of_nat w)).
    - replace (len (take (Z.of_nat w) rest) <? Z.of_nat w) with true by lia. reflexivity.
    - replace (len (take (Z.of_nat w) rest) <? Z.of_nat w) with false by lia. now rewrite Eq. }
  assert (Em : Z.of_nat w <= len rest -> m = take (Z.of_nat w) rest).
  { intro X. unfold m. rewrite drop_all by lia. apply app_nil_r. }
  exists (TextInput r' (order_of o) (in_form st)).
  split; [|split; [exact L'|split; [reflexivity|exact Fm]]].
  destruct (endian_eqb (order_of o) (order_of native)) eqn:Q; cbn [negb bind].
  - rewrite K; [reflexivity|]. intro X. rewrite (Em X). destruct o, native; cbn in Q; try discriminate; reflexivity.
  - rewrite <- M at 1. rewrite invert_whole. 2: { intro X. rewrite X in M. cbn in M. lia. }
    cbn [bind]. rewrite K; [reflexivity|]. intro X. rewrite (Em X).
    destruct o, native; cbn in Q; try discriminate; cbn [from_memory order_of]; now rewrite ?rev_involutive.
Qed.

Lemma byte_depends : forall e o rest st, before e o rest st -> 1 <= biggest ->
  match rest with
  | [] => exists st', text_read (order_of native) ops st 1 = Ok (st', [0%N], 0) /\ before e o [] st'
  | b :: rest => exists st', text_read (order_of native) ops st 1 = Ok (st', [b], 1) /\ before e o rest st'
  end.
Proof.
  intros e o rest st (H & O & Fm) B. unfold text_read, stream_read.
  destruct (gs_read _ _ _ G _ _ (repeat 0%N 1) 1 H) as (r' & E & L'); [cbn; lia|exact B|].
  change (Z.of_nat 1) with 1. rewrite E. cbn [bind]. rewrite O.
  destruct rest as [|b rest].
  - change (take 1 (@nil N) ++ drop (len (take 1 (@nil N))) (repeat 0%N 1)) with [0%N].
    destruct (endian_eqb (order_of o) (order_of native)); cbn [negb bind];
      (exists (TextInput r' (order_of o) (in_form st)); split; [vm_compute; reflexivity|]; split; [exact L'|]; split; [reflexivity|exact Fm]).
  - change (take 1 (b :: rest)) with [b]. change (len [b]) with 1. change (drop 1 (repeat 0%N 1)) with (@nil N).
    change (drop 1 (b :: rest)) with rest in L'. cbn [app].
    destruct (endian_eqb (order_of o) (order_of native)); cbn [negb bind].
    + exists (TextInput r' (order_of o) (in_form st)). split; [reflexivity|]. split; [exact L'|]. split; [reflexivity|exact Fm].
    + pose proof (invert_whole [b]) as Iv. change (len [b]) with 1 in Iv. rewrite Iv by discriminate. cbn [rev app bind].
      exists (TextInput r' (order_of o) (in_form st)). split; [reflexivity|]. split; [exact L'|]. split; [reflexivity|exact Fm].
Qed.
End One.

Section Two.
Context {R1 R2 : Type} (native1 native2 : byte_order) (ops1 : source R1) (ops2 : source R2) (big1 big2 : Z)
  (left1 : list N -> R1 -> Prop) (left2 : list N -> R2 -> Prop).
Context (G1 : good_source ops1 big1 left1) (G2 : good_source ops2 big2 left2).
Context (e : encoding) (B1 : Z.of_nat (unit_width e) <= big1) (B2 : Z.of_nat (unit_width e) <= big2).

(** Both streams have the same bytes to come. *)
Definition both (st1 : text_input R1) (st2 : text_input R2) : Prop :=
  exists o rest, before left1 e o rest st1 /\ before left2 e o rest st2.

(** Same results, and again the same bytes to come; or the same exception. *)
Definition agree {A : Type} (x : outcome (text_input R1 * A)) (y : outcome (text_input R2 * A)) : Prop :=
  match x, y with
  | Ok (s1, a), Ok (s2, b) => a = b /\ both s1 s2
  | Throw p, Throw q => p = q
  | UB p, UB q => p = q
  | Terminate, Terminate => True
  | Diverge, Diverge => True
  | _, _ => False
  end.

Lemma agree_ok : forall A (a : A) s1 s2, both s1 s2 -> agree (Ok (s1, a)) (Ok (s2, a)).
Proof. intros. now split. Qed.

Lemma agree_bind : forall A B x y (f : text_input R1 * A -> outcome (text_input R1 * B)) g, agree x y ->
  (forall s1 s2 a, both s1 s2 -> agree (f (s1, a)) (g (s2, a))) -> agree (bind x f) (bind y g).
Proof.
  intros A B [[s1 a]|p|u| |] [[s2 b]|q|v| |] f g H K; cbn in H |- *; try contradiction; try congruence; try exact Logic.I.
  destruct H as [-> H]. now apply K.
Qed.

(** The parts that do not involve the stream. *)
Lemma agree_pure : forall A B (x : outcome A) (f : A -> outcome (text_input R1 * B)) g,
  (forall a, agree (f a) (g a)) -> agree (bind x f) (bind x g).
Proof. intros A B [a|p|u| |] f g K; cbn; auto. Qed.

Lemma agree_unit : forall w s1 s2, both s1 s2 -> (0 < w <= unit_width e)%nat ->
  agree (read_code_unit (order_of native1) ops1 w s1) (read_code_unit (order_of native2) ops2 w s2).
Proof.
  intros w s1 s2 (o & rest & H1 & H2) W.
  destruct (unit_depends native1 ops1 big1 left1 G1 e o w rest s1 H1 ltac:(lia) ltac:(lia)) as (t1 & E1 & K1).
  destruct (unit_depends native2 ops2 big2 left2 G2 e o w rest s2 H2 ltac:(lia) ltac:(lia)) as (t2 & E2 & K2).
  rewrite E1, E2. apply agree_ok. eexists. eauto.
Qed.

Lemma agree_at_end : forall A s1 s2 (f : bool -> outcome (text_input R1 * A)) g, both s1 s2 ->
  (forall b, agree (f b) (g b)) -> agree (bind (text_at_end ops1 s1) f) (bind (text_at_end ops2 s2) g).
Proof.
  intros A s1 s2 f g (o & rest & H1 & H2) K.
  rewrite (at_end_before ops1 big1 left1 G1 _ _ _ _ H1), (at_end_before ops2 big2 left2 G2 _ _ _ _ H2). apply K.
Qed.

Lemma both_form : forall s1 s2, both s1 s2 -> in_form s1 = form_of e /\ in_form s2 = form_of e.
Proof. intros s1 s2 (o & rest & (_ & _ & F1) & (_ & _ & F2)). now split. Qed.
Lemma both_order : forall s1 s2, both s1 s2 -> in_order_ s1 = in_order_ s2.
Proof. intros s1 s2 (o & rest & (_ & O1 & _) & (_ & O2 & _)). congruence. Qed.

Lemma agree_finish8 : forall n v s1 s2, both s1 s2 ->
  agree (finish_utf8_sequence (order_of native1) ops1 n v s1) (finish_utf8_sequence (order_of native2) ops2 n v s2).
Proof.
  pose proof (unit_width_pos e).
  induction n as [|n IH]; intros v s1 s2 H1; cbn [finish_utf8_sequence]; [now apply agree_ok|].
  apply agree_bind; [apply agree_unit; [exact H1|lia]|]. intros t1 t2 [u|] K; [|exact eq_refl].
  destruct (negb _); [exact eq_refl|]. now apply IH.
Qed.

Lemma agree_finish16 : forall n v s1 s2, (2 <= unit_width e)%nat -> both s1 s2 ->
  agree (finish_utf16_sequence (order_of native1) ops1 n v s1) (finish_utf16_sequence (order_of native2) ops2 n v s2).
Proof.
  intros n v s1 s2 W H1. unfold finish_utf16_sequence. destruct (Nat.eqb n 2); [|now apply agree_ok].
  apply agree_bind; [apply agree_unit; [exact H1|lia]|]. intros t1 t2 [u|] K; [|exact eq_refl].
  destruct (negb _); [exact eq_refl|now apply agree_ok].
Qed.

Lemma agree_code_point : forall s1 s2, both s1 s2 ->
  agree (read_code_point (order_of native1) ops1 s1) (read_code_point (order_of native2) ops2 s2).
Proof.
  intros s1 s2 H. destruct (both_form _ _ H) as [F1 F2]. unfold read_code_point. rewrite F1, F2.
  pose proof (form_width e) as W. destruct (form_of e).
  - apply agree_bind; [apply agree_unit; [exact H|lia]|]. intros t1 t2 [u|] K; [|exact eq_refl].
    apply agree_pure. intros [n v]. now apply agree_finish8.
  - apply agree_bind; [apply agree_unit; [exact H|lia]|]. intros t1 t2 [u|] K; [|exact eq_refl].
    apply agree_pure. intros [n v]. apply agree_finish16; [lia|assumption].
  - apply agree_bind; [apply agree_unit; [exact H|lia]|]. intros t1 t2 [u|] K; [|exact eq_refl]. now apply agree_ok.
Qed.

Lemma agree_filtered : forall s1 s2, both s1 s2 ->
  agree (read_filtered_code_point (order_of native1) ops1 s1) (read_filtered_code_point (order_of native2) ops2 s2).
Proof.
  intros s1 s2 H. unfold read_filtered_code_point. apply agree_bind; [now apply agree_code_point|]. intros t1 t2 c K.
  destruct (c =? 13)%N; [|now apply agree_ok]. apply agree_at_end; [exact K|]. intros [|]; cbn [negb]; [now apply agree_ok|now apply agree_code_point].
Qed.

Lemma agree_byte : forall s1 s2, both s1 s2 ->
  agree (read_byte (order_of native1) ops1 s1) (read_byte (order_of native2) ops2 s2).
Proof.
  intros s1 s2 (o & rest & H1 & H2). pose proof (unit_width_pos e) as W. unfold read_byte.
  pose proof (byte_depends native1 ops1 big1 left1 G1 e o rest s1 H1 ltac:(lia)) as D1.
  pose proof (byte_depends native2 ops2 big2 left2 G2 e o rest s2 H2 ltac:(lia)) as D2.
  destruct rest as [|b rest]; destruct D1 as (t1 & E1 & K1), D2 as (t2 & E2 & K2); rewrite E1, E2; cbn [bind nth Z.ltb Z.compare].
  - exact eq_refl.
  - apply agree_ok. exists o, rest. now split.
Qed.

Lemma both_set : forall s1 s2 x, both s1 s2 -> both (set_endianness s1 x) (set_endianness s2 x).
Proof.
  intros s1 s2 x (o & rest & (L1 & O1 & F1) & (L2 & O2 & F2)). exists (match x with Little => LittleEndian | Big => BigEndian end), rest.
  destruct x; (split; [split; [exact L1|]|split; [exact L2|]]); split; try assumption; reflexivity.
Qed.

Lemma agree_bom : forall s1 s2, both s1 s2 ->
  agree (read_bom (order_of native1) ops1 s1) (read_bom (order_of native2) ops2 s2).
Proof.
  intros s1 s2 H. destruct (both_form _ _ H) as [F1 F2]. unfold read_bom. rewrite F1, F2.
  pose proof (form_width e) as W. destruct (form_of e).
  - now apply agree_code_point.
  - unfold read_utf16_bom. apply agree_bind; [now apply agree_byte|]. intros t1 t2 a K1.
    apply agree_bind; [now apply agree_byte|]. intros u1 u2 b K2.
    destruct (_ && _)%bool; [apply agree_ok; now apply both_set|]. destruct (_ && _)%bool; [apply agree_ok; now apply both_set|].
    rewrite (both_order _ _ K2). apply agree_pure. intros [n v]. apply agree_finish16; [lia|exact K2].
  - unfold read_utf32_bom. apply agree_bind; [now apply agree_byte|]. intros t1 t2 a K1.
    apply agree_bind; [now apply agree_byte|]. intros u1 u2 b K2. apply agree_bind; [now apply agree_byte|]. intros v1 v2 c K3.
    apply agree_bind; [now apply agree_byte|]. intros w1 w2 d K4.
    destruct (_ && _)%bool; [apply agree_ok; now apply both_set|]. destruct (_ && _)%bool; [apply agree_ok; now apply both_set|].
    rewrite (both_order _ _ K4). now apply agree_ok.
Qed.

Lemma agree_line : forall k fuel t s1 s2, both s1 s2 ->
  agree (append_line (order_of native1) ops1 fuel k t s1) (append_line (order_of native2) ops2 fuel k t s2).
Proof.
  intros k. induction fuel as [|fuel IH]; intros t s1 s2 H; cbn [append_line]; [exact Logic.I|].
  apply agree_at_end; [exact H|]. intros [|]; [now apply agree_ok|].
  apply agree_bind; [now apply agree_filtered|]. intros t1 t2 c K. destruct (c =? 10)%N; [now apply agree_ok|].
  apply agree_pure. intro x. now apply IH.
Qed.

Lemma agree_all : forall k fuel t s1 s2, both s1 s2 ->
  agree (append_all (order_of native1) ops1 fuel k t s1) (append_all (order_of native2) ops2 fuel k t s2).
Proof.
  intros k. induction fuel as [|fuel IH]; intros t s1 s2 H; cbn [append_all]; [exact Logic.I|].
  apply agree_at_end; [exact H|]. intros [|]; [now apply agree_ok|].
  apply agree_bind; [now apply agree_filtered|]. intros t1 t2 c K. apply agree_pure. intro x. now apply IH.
Qed.

Lemma agree_skip : forall k fuel s1 s2, both s1 s2 ->
  agree (skip_whitespace (order_of native1) ops1 fuel k s1) (skip_whitespace (order_of native2) ops2 fuel k s2).
Proof.
  intros k. induction fuel as [|fuel IH]; intros s1 s2 H; cbn [skip_whitespace]; [exact Logic.I|].
  apply agree_at_end; [exact H|]. intros [|]; [now apply agree_ok|].
  apply agree_bind; [now apply agree_filtered|]. intros t1 t2 c K. destruct (negb _); [|now apply IH].
  apply agree_pure. intro x. now apply agree_ok.
Qed.

Lemma agree_take : forall k fuel t s1 s2, both s1 s2 ->
  agree (take_word (order_of native1) ops1 fuel k t s1) (take_word (order_of native2) ops2 fuel k t s2).
Proof.
  intros k. induction fuel as [|fuel IH]; intros t s1 s2 H; cbn [take_word]; [exact Logic.I|].
  apply agree_at_end; [exact H|]. intros [|]; [now apply agree_ok|].
  apply agree_bind; [now apply agree_filtered|]. intros t1 t2 c K. destruct (is_whitespace c); [now apply agree_ok|].
  apply agree_pure. intro x. now apply IH.
Qed.

Lemma agree_word : forall k fuel s1 s2, both s1 s2 ->
  agree (read_word (order_of native1) ops1 fuel k s1) (read_word (order_of native2) ops2 fuel k s2).
Proof.
  intros k fuel s1 s2 H. apply agree_bind; [now apply agree_skip|]. intros t1 t2 t K. now apply agree_take.
Qed.

Lemma agree_request : forall fuel q k s1 s2, both s1 s2 ->
  agree (answer_request (order_of native1) ops1 fuel s1 q k) (answer_request (order_of native2) ops2 fuel s2 q k).
Proof.
  intros fuel q k s1 s2 H. destruct q; cbn [answer_request].
  - apply agree_bind; [now apply agree_filtered|]. intros. now apply agree_ok.
  - apply agree_bind; [now apply agree_line|]. intros. now apply agree_ok.
  - apply agree_bind; [now apply agree_word|]. intros. now apply agree_ok.
  - apply agree_bind; [now apply agree_all|]. intros. now apply agree_ok.
  - apply agree_bind; [|intros; now apply agree_ok].
    apply agree_bind; [now apply agree_word|]. intros t1 t2 x K. apply agree_pure. intro. now apply agree_ok.
  - apply agree_bind; [|intros; now apply agree_ok].
    apply agree_bind; [now apply agree_word|]. intros t1 t2 x K. apply agree_pure. intro. now apply agree_ok.
  - apply agree_at_end; [exact H|]. intro. now apply agree_ok.
Qed.

Lemma agree_requests : forall fuel qs s1 s2, both s1 s2 ->
  agree (answer_requests (order_of native1) ops1 fuel s1 qs) (answer_requests (order_of native2) ops2 fuel s2 qs).
Proof.
  intro fuel. induction qs as [|[q k] qs IH]; intros s1 s2 H; cbn [answer_requests]; [now apply agree_ok|].
  apply agree_bind; [now apply agree_request|]. intros t1 t2 a K.
  apply agree_bind; [now apply IH|]. intros. now apply agree_ok.
Qed.

Lemma agree_obtained : forall A (x : outcome (text_input R1 * A)) y, agree x y -> obtained x = obtained y.
Proof.
  intros A [[s1 a]|p|u| |] [[s2 b]|q|v| |] H; cbn in *; try contradiction; try reflexivity; try (f_equal; exact H).
  destruct H as [-> _]. reflexivity.
Qed.

(** Reading on after exceptions. *)
Definition agree_kept {A : Type} (x : text_input R1 * outcome A) (y : text_input R2 * outcome A) : Prop :=
  snd x = snd y /\ both (fst x) (fst y).

Lemma agree_then : forall A B x y (f : text_input R1 -> A -> text_input R1 * outcome B) g, agree_kept x y ->
  (forall s1 s2 a, both s1 s2 -> agree_kept (f s1 a) (g s2 a)) -> agree_kept (then_ x f) (then_ y g).
Proof.
  intros A B [s1 r] [s2 r2] f g [E H] K. cbn in E, H. subst r2. destruct r; cbn [then_]; try (split; [reflexivity|exact H]). now apply K.
Qed.

Lemma kept_pair : forall A (r : outcome A) s1 s2, both s1 s2 -> agree_kept (s1, r) (s2, r).
Proof. intros. now split. Qed.

Lemma kept_unit : forall w s1 s2, both s1 s2 -> (0 < w <= unit_width e)%nat ->
  agree_kept (take_unit (order_of native1) ops1 w s1) (take_unit (order_of native2) ops2 w s2).
Proof.
  intros w s1 s2 H W. pose proof (agree_unit w s1 s2 H W) as A. unfold take_unit.
  destruct (read_code_unit (order_of native1) ops1 w s1) as [[t1 u]|p|u| |], (read_code_unit (order_of native2) ops2 w s2) as [[t2 u2]|p2|u2| |];
    cbn in A; try contradiction; try subst; try (now apply kept_pair). destruct A as [-> K]. now apply kept_pair.
Qed.

Lemma kept_finish8_agree : forall n v s1 s2, both s1 s2 ->
  agree_kept (kept_finish_utf8 (order_of native1) ops1 n v s1) (kept_finish_utf8 (order_of native2) ops2 n v s2).
Proof.
  pose proof (unit_width_pos e).
  induction n as [|n IH]; intros v s1 s2 H1; cbn [kept_finish_utf8]; [now apply kept_pair|].
  apply agree_then; [apply kept_unit; [exact H1|lia]|]. intros t1 t2 [u|] K; [|now apply kept_pair].
  destruct (negb _); [now apply kept_pair|]. now apply IH.
Qed.

Lemma kept_code_point_agree : forall s1 s2, both s1 s2 ->
  agree_kept (kept_code_point (order_of native1) ops1 s1) (kept_code_point (order_of native2) ops2 s2).
Proof.
  intros s1 s2 H. destruct (both_form _ _ H) as [F1 F2]. unfold kept_code_point. rewrite F1, F2.
  pose proof (form_width e) as W. destruct (form_of e).
  - apply agree_then; [apply kept_unit; [exact H|lia]|]. intros t1 t2 [u|] K; [|now apply kept_pair].
    apply agree_then; [now apply kept_pair|]. intros v1 v2 [n v] K2. now apply kept_finish8_agree.
  - apply agree_then; [apply kept_unit; [exact H|lia]|]. intros t1 t2 [u|] K; [|now apply kept_pair].
    apply agree_then; [now apply kept_pair|]. intros v1 v2 [n v] K2. unfold kept_finish_utf16.
    destruct (Nat.eqb n 2); [|now apply kept_pair].
    apply agree_then; [apply kept_unit; [exact K2|lia]|]. intros w1 w2 [x|] K3; [|now apply kept_pair].
    destruct (negb _); now apply kept_pair.
  - apply agree_then; [apply kept_unit; [exact H|lia]|]. intros t1 t2 [u|] K; now apply kept_pair.
Qed.

Lemma kept_filtered_agree : forall s1 s2, both s1 s2 ->
  agree_kept (kept_filtered (order_of native1) ops1 s1) (kept_filtered (order_of native2) ops2 s2).
Proof.
  intros s1 s2 H. unfold kept_filtered. apply agree_then; [now apply kept_code_point_agree|]. intros t1 t2 c K.
  destruct (c =? 13)%N; [|now apply kept_pair]. apply agree_then.
  - destruct K as (o & rest & H1 & H2).
    rewrite (at_end_before ops1 big1 left1 G1 _ _ _ _ H1), (at_end_before ops2 big2 left2 G2 _ _ _ _ H2). apply kept_pair. now exists o, rest.
  - intros u1 u2 [|] K2; cbn [negb]; [now apply kept_pair|now apply kept_code_point_agree].
Qed.

Lemma read_on_agree : forall fuel s1 s2, both s1 s2 ->
  read_on (order_of native1) ops1 fuel s1 = read_on (order_of native2) ops2 fuel s2.
Proof.
  induction fuel as [|fuel IH]; intros s1 s2 H; cbn [read_on]; [reflexivity|].
  pose proof H as (o & rest & H1 & H2).
  rewrite (at_end_before ops1 big1 left1 G1 _ _ _ _ H1), (at_end_before ops2 big2 left2 G2 _ _ _ _ H2). cbn [bind].
  destruct (len rest =? 0); [reflexivity|]. pose proof (kept_filtered_agree s1 s2 H) as [E K].
  destruct (kept_filtered (order_of native1) ops1 s1) as [t1 r1], (kept_filtered (order_of native2) ops2 s2) as [t2 r2].
  cbn in E, K. subst r2. destruct r1; try reflexivity; now rewrite (IH t1 t2 K).
Qed.
End Two.
