(** Lemmas for C142. *)
From Coq Require Import NArith ZArith List Bool Lia ZifyBool ZifyNat ZifyN.
From Verif Require Import Base Integers UnicodeSpec UnicodeModel UnicodeText UnicodeLemmas UnicodeLemmas2
  ResourceSpec ResourceModel ResourceLemmas StreamSpec StreamModel StreamText
  StreamLemmas StreamLemmas2 StreamLemmas3 StreamLemmas4 StreamLemmas5 RecoverSpec RecoverModel.
Import ListNotations.
Open Scope Z_scope.

(** The outcome without the stream an exception leaves. *)
Definition forget {S A : Type} (x : S * outcome A) : outcome (S * A) :=
  match x with
  | (s, Ok a) => Ok (s, a)
  | (_, Throw e) => Throw e
  | (_, UB u) => UB u
  | (_, Terminate) => Terminate
  | (_, Diverge) => Diverge
  end.

Lemma forget_then : forall (S A B : Type) (x : S * outcome A) (f : S -> A -> S * outcome B),
  forget (then_ x f) = bind (forget x) (fun '(s, a) => forget (f s a)).
Proof. intros S A B [s [a|e|u| |]] f; reflexivity. Qed.

Lemma forget_ok : forall (S A : Type) (x : S * outcome A) s a, forget x = Ok (s, a) -> x = (s, Ok a).
Proof. intros S A [s' [a'|e|u| |]] s a H; cbn in H; congruence. Qed.

Lemma bind_same : forall (A B : Type) (x y : outcome A) (f g : A -> outcome B), x = y -> (forall a, f a = g a) ->
  bind x f = bind y g.
Proof. intros A B x y f g -> H. destruct y; cbn; auto. Qed.

Section Agreeing.
Context {R : Type} (native : endian) (ops : source R).

Lemma take_unit_same : forall w st, forget (take_unit native ops w st) = read_code_unit native ops w st.
Proof. intros w st. unfold take_unit. destruct (read_code_unit native ops w st) as [[st' u]|e|u| |]; reflexivity. Qed.

Lemma finish_utf8_same : forall n v st, forget (kept_finish_utf8 native ops n v st) = finish_utf8_sequence native ops n v st.
Proof.
  induction n as [|n IH]; intros v st; cbn [kept_finish_utf8 finish_utf8_sequence]; [reflexivity|].
  rewrite forget_then. apply bind_same; [apply take_unit_same|]. intros [st' [u|]]; [|reflexivity].
  destruct (negb _); [reflexivity|apply IH].
Qed.

Lemma finish_utf16_same : forall n v st, forget (kept_finish_utf16 native ops n v st) = finish_utf16_sequence native ops n v st.
Proof.
  intros n v st. unfold kept_finish_utf16, finish_utf16_sequence. destruct (Nat.eqb n 2); [|reflexivity].
  rewrite forget_then. apply bind_same; [apply take_unit_same|]. intros [st' [u|]]; [|reflexivity].
  now destruct (negb _).
Qed.

Lemma code_point_same : forall st, forget (kept_code_point native ops st) = read_code_point native ops st.
Proof.
  intro st. unfold kept_code_point, read_code_point. destruct (in_form st).
  - unfold kept_utf8_code_point, read_utf8_code_point. rewrite forget_then. apply bind_same; [apply take_unit_same|].
    intros [st' [u|]]; [|reflexivity]. rewrite forget_then. destruct (initialize_utf8_sequence u) as [[n v]|e|z| |]; try reflexivity.
    cbn [forget bind]. apply finish_utf8_same.
  - unfold kept_utf16_code_point, read_utf16_code_point. rewrite forget_then. apply bind_same; [apply take_unit_same|].
    intros [st' [u|]]; [|reflexivity]. rewrite forget_then. destruct (initialize_utf16_sequence u) as [[n v]|e|z| |]; try reflexivity.
    cbn [forget bind]. apply finish_utf16_same.
  - unfold kept_utf32_code_point, read_utf32_code_point. rewrite forget_then. apply bind_same; [apply take_unit_same|].
    now intros [st' [u|]].
Qed.

Lemma filtered_same : forall st, forget (kept_filtered native ops st) = read_filtered_code_point native ops st.
Proof.
  intro st. unfold kept_filtered, read_filtered_code_point. rewrite forget_then. apply bind_same; [apply code_point_same|].
  intros [st' c]. destruct (c =? 13)%N; [|reflexivity]. rewrite forget_then.
  destruct (text_at_end ops st') as [e|x|u| |]; try reflexivity. cbn [forget bind].
  destruct (negb e); [apply code_point_same|reflexivity].
Qed.

Lemma append_all_same : forall fuel k st target,
  match kept_append_all native ops fuel k st target with
  | ((st', target'), Ok _) => append_all native ops fuel k target st = Ok (st', target')
  | (_, Throw x) => append_all native ops fuel k target st = Throw x
  | (_, UB u) => append_all native ops fuel k target st = UB u
  | (_, Terminate) => append_all native ops fuel k target st = Terminate
  | (_, Diverge) => append_all native ops fuel k target st = Diverge
  end.
Proof.
  induction fuel as [|fuel IH]; intros k st target; cbn [kept_append_all append_all]; [reflexivity|].
  destruct (text_at_end ops st) as [[|]|x|u| |]; cbn [bind]; try reflexivity.
  rewrite <- filtered_same. destruct (kept_filtered native ops st) as [st' [c|x|u| |]]; cbn [forget bind]; try reflexivity.
  unfold append_to. destruct (append_code_point k target c) as [t [[]|x|u| |]]; cbn [bind]; try reflexivity. apply IH.
Qed.
End Agreeing.

Section Reading.
Context {R : Type} (native : byte_order) (ops : source R) (biggest : Z) (left : list N -> R -> Prop).
Context (G : good_source ops biggest left).
Let before := @before R left.
Local Notation native_ := (order_of native).

Lemma take_ok : forall e o w u rest st, before e o (in_order o w u ++ rest) st ->
  (0 < w)%nat -> Z.of_nat w <= biggest -> (u < 256 ^ N.of_nat w)%N ->
  exists st', take_unit native_ ops w st = (st', Ok (Some u)) /\ before e o rest st'.
Proof.
  intros e o w u rest st H W B U. destruct (read_code_unit_ok native ops biggest left G e o w u rest st H W B U) as (st' & E & H').
  exists st'. split; [|exact H']. apply forget_ok. now rewrite take_unit_same.
Qed.

Lemma take_byte : forall e o u rest st, before e o (u :: rest) st -> 1 <= biggest -> (u < 256)%N ->
  exists st', take_unit native_ ops 1 st = (st', Ok (Some u)) /\ before e o rest st'.
Proof.
  intros e o u rest st H B U. apply (take_ok e o 1 u rest st); try assumption; [|lia].
  now rewrite in_order_1 by assumption.
Qed.

Lemma take_short : forall e o w rest st, before e o rest st -> (0 < w)%nat -> Z.of_nat w <= biggest ->
  len rest < Z.of_nat w ->
  exists st', take_unit native_ ops w st = (st', Ok None) /\ before e o [] st'.
Proof.
  intros e o w rest st H W B L. unfold take_unit, read_code_unit, text_read, stream_read. destruct H as (H & O & Fm).
  assert (Lw : len (repeat 0%N w) = Z.of_nat w) by (unfold len; now rewrite repeat_length).
  pose proof (len_nonneg rest) as P.
  destruct (gs_read _ _ _ G _ _ (repeat 0%N w) (Z.of_nat w) H) as (r' & E & L'); [lia|exact B|].
  rewrite E. cbn [bind]. rewrite take_all in * by lia.
  assert (D : drop (Z.of_nat w) rest = []).
  { unfold drop. apply skipn_all2. unfold len in L. lia. }
  rewrite D in L'.
  set (m := rest ++ drop (len rest) (repeat 0%N w)).
  assert (M : len m = Z.of_nat w). { unfold m. rewrite len_app, len_drop by lia. lia. }
  destruct (endian_eqb _ _); cbn [negb bind].
  - replace (len rest <? Z.of_nat w) with true by lia. eexists. split; [reflexivity|]. repeat split; assumption.
  - rewrite <- M, invert_whole. 2: { intro X. rewrite X in M. cbn in M. lia. }
    cbn [bind]. rewrite M. replace (len rest <? Z.of_nat w) with true by lia. eexists. split; [reflexivity|]. repeat split; assumption.
Qed.

(** Any number of bytes, whatever they are. *)
Lemma take_any : forall e o w rest st, before e o rest st -> Forall byte rest -> (0 < w)%nat -> Z.of_nat w <= biggest ->
  (exists st', take_unit native_ ops w st = (st', Ok None) /\ before e o [] st' /\ (length rest < w)%nat) \/
  (exists u rest' st', rest = in_order o w u ++ rest' /\ (u < 256 ^ N.of_nat w)%N /\
     take_unit native_ ops w st = (st', Ok (Some u)) /\ before e o rest' st' /\ Forall byte rest' /\
     (length rest = w + length rest')%nat).
Proof.
  intros e o w rest st H F W B. destruct (Z_lt_le_dec (len rest) (Z.of_nat w)) as [L|L].
  - left. destruct (take_short e o w rest st H W B L) as (st' & E & H'). exists st'. split; [exact E|]. split; [exact H'|].
    unfold len in L. lia.
  - right. destruct (unit_any native ops biggest left G e o w rest st H F W B) as [(st' & E)|(u & rest' & st' & Er & Bu & E & H')].
    + exfalso. unfold len in L. assert (Lw : length (firstn w rest) = w) by (rewrite firstn_length_le; lia).
      destruct (in_order_all o (firstn w rest)) as (u & Bu & Eu).
      { apply (forall_sub _ rest); [|assumption]. intros x X. rewrite <- (firstn_skipn w rest). apply in_or_app. now left. }
      rewrite Lw in *. assert (Er : rest = in_order o w u ++ skipn w rest) by (rewrite Eu; symmetry; apply firstn_skipn).
      rewrite Er in H. destruct (take_ok e o w u _ st H W B Bu) as (st2 & E2 & _).
      pose proof (take_unit_same native_ ops w st) as S. rewrite E2, E in S. discriminate.
    + exists u, rest', st'. split; [exact Er|]. split; [exact Bu|]. split; [apply forget_ok; now rewrite take_unit_same|].
      split; [exact H'|]. subst rest. split; [apply Forall_app in F; tauto|]. now rewrite app_length, in_order_length.
Qed.

(** Every attempt takes at least one byte and throws one of two exceptions at most. *)
Definition attempt (e : encoding) (o : byte_order) (n : nat) (x : text_input R * outcome N) : Prop :=
  exists st rest r, x = (st, r) /\ before e o rest st /\ Forall byte rest /\ (length rest <= n)%nat /\
    ((exists c, r = Ok c) \/ r = Throw InvalidUnicodeEncoding \/ (r = Throw ReadPastEnd /\ rest = [])).

Lemma attempt_le : forall e o n m x, attempt e o n x -> (n <= m)%nat -> attempt e o m x.
Proof.
  intros e o n m x (st & rest & r & E & H & F & L & D) Le. exists st, rest, r. split; [exact E|]. split; [exact H|].
  split; [exact F|]. split; [lia|exact D].
Qed.

Lemma finish8_attempt : forall e o n v rest st, before e o rest st -> Forall byte rest -> 1 <= biggest ->
  attempt e o (length rest) (kept_finish_utf8 native_ ops n v st).
Proof.
  intros e o. induction n as [|n IH]; intros v rest st H F B; cbn [kept_finish_utf8].
  - exists st, rest, (Ok v). split; [reflexivity|]. split; [exact H|]. split; [exact F|]. split; [lia|]. left. now exists v.
  - destruct (take_any e o 1 rest st H F ltac:(lia) ltac:(lia)) as [(st' & E & H' & L)|(u & rest' & st' & Er & Bu & E & H' & F' & L)];
      rewrite E; cbn [then_].
    + exists st', [], (Throw ReadPastEnd). split; [reflexivity|]. split; [exact H'|]. split; [constructor|]. split; [cbn; lia|]. now right; right.
    + destruct (negb _).
      * exists st', rest', (Throw InvalidUnicodeEncoding). split; [reflexivity|]. split; [exact H'|]. split; [exact F'|]. split; [lia|]. now right; left.
      * apply (attempt_le e o (length rest')); [|lia]. now apply IH.
Qed.

Lemma code_point_attempt : forall e o rest st, before e o rest st -> Forall byte rest -> Z.of_nat (unit_width e) <= biggest ->
  attempt e o (length rest - 1) (kept_code_point native_ ops st).
Proof.
  intros e o rest st H F B. pose proof H as (_ & _ & Fm). unfold kept_code_point. rewrite Fm.
  assert (W : (0 < unit_width e)%nat) by apply unit_width_pos.
  assert (Short : forall st', before e o [] st' -> attempt e o (length rest - 1) (st', Throw ReadPastEnd)).
  { intros st' H'. exists st', [], (Throw ReadPastEnd). split; [reflexivity|]. split; [exact H'|]. split; [constructor|].
    split; [cbn; lia|]. now right; right. }
  assert (Bad : forall st' rest', before e o rest' st' -> Forall byte rest' -> (length rest' <= length rest - 1)%nat ->
    attempt e o (length rest - 1) (st', Throw InvalidUnicodeEncoding)).
  { intros st' rest' H' F' L'. exists st', rest', (Throw InvalidUnicodeEncoding). split; [reflexivity|]. split; [exact H'|].
    split; [exact F'|]. split; [exact L'|]. now right; left. }
  assert (Good : forall st' rest' c, before e o rest' st' -> Forall byte rest' -> (length rest' <= length rest - 1)%nat ->
    attempt e o (length rest - 1) (st', Ok c)).
  { intros st' rest' c H' F' L'. exists st', rest', (Ok c). split; [reflexivity|]. split; [exact H'|].
    split; [exact F'|]. split; [exact L'|]. left. now exists c. }
  destruct (take_any e o (unit_width e) rest st H F W B) as [(st' & E & H' & L)|(u & rest' & st' & Er & Bu & E & H' & F' & L)];
    destruct e; cbn [form_of unit_width] in *;
    [unfold kept_utf8_code_point|unfold kept_utf16_code_point|unfold kept_utf32_code_point
    |unfold kept_utf8_code_point|unfold kept_utf16_code_point|unfold kept_utf32_code_point];
    rewrite E; cbn [then_]; auto.
  - destruct (byte_cases u) as [C|[C|[C|[C|C]]]].
    + rewrite init8_1 by assumption. apply (Good _ rest'); auto; lia.
    + rewrite init8_bad by assumption. apply (Bad _ rest'); auto; lia.
    + rewrite init8_2 by assumption. cbn [then_]. apply (attempt_le UTF8 o (length rest')); [|lia]. now apply finish8_attempt.
    + rewrite init8_3 by assumption. cbn [then_]. apply (attempt_le UTF8 o (length rest')); [|lia]. now apply finish8_attempt.
    + rewrite init8_4 by assumption. cbn [then_]. apply (attempt_le UTF8 o (length rest')); [|lia]. now apply finish8_attempt.
  - change (256 ^ N.of_nat 2)%N with 0x10000%N in Bu.
    assert (C : (0xD800 <= u <= 0xDBFF \/ 0xDC00 <= u <= 0xDFFF \/ ~ (0xD800 <= u <= 0xDFFF))%N) by lia.
    destruct C as [C|[C|C]].
    + rewrite init16_lead by assumption. cbn [then_]. unfold kept_finish_utf16. cbn [Nat.eqb].
      destruct (take_any UTF16 o 2 rest' st' H' F' ltac:(lia) ltac:(lia))
        as [(st2 & E2 & H2 & L2)|(v & rest2 & st2 & Er2 & Bv & E2 & H2 & F2 & L2)]; rewrite E2; cbn [then_]; auto.
      destruct (negb _); [apply (Bad _ rest2)|apply (Good _ rest2)]; auto; lia.
    + rewrite init16_trail by assumption. apply (Bad _ rest'); auto; lia.
    + rewrite init16_other by assumption. cbn [then_]. unfold kept_finish_utf16. cbn [Nat.eqb]. apply (Good _ rest'); auto; lia.
  - apply (Good _ rest'); auto; lia.
Qed.

Lemma filtered_attempt : forall e o rest st, before e o rest st -> Forall byte rest -> Z.of_nat (unit_width e) <= biggest ->
  attempt e o (length rest - 1) (kept_filtered native_ ops st).
Proof.
  intros e o rest st H F B. unfold kept_filtered.
  destruct (code_point_attempt e o rest st H F B) as (st' & rest' & r & E & H' & F' & L & D). rewrite E.
  destruct D as [[c ->]|[->|[-> ->]]]; cbn [then_].
  - destruct (c =? 13)%N.
    + rewrite (at_end_before ops biggest left G _ _ _ _ H'). cbn [then_]. destruct (len rest' =? 0); cbn [negb].
      * exists st', rest', (Ok c). split; [reflexivity|]. split; [exact H'|]. split; [exact F'|]. split; [exact L|]. left. now exists c.
      * apply (attempt_le e o (length rest' - 1)); [|lia]. now apply code_point_attempt.
    + exists st', rest', (Ok c). split; [reflexivity|]. split; [exact H'|]. split; [exact F'|]. split; [exact L|]. left. now exists c.
  - exists st', rest', (Throw InvalidUnicodeEncoding). split; [reflexivity|]. split; [exact H'|]. split; [exact F'|]. split; [exact L|]. now right; left.
  - exists st', [], (Throw ReadPastEnd). split; [reflexivity|]. split; [exact H'|]. split; [exact F'|]. split; [exact L|]. now right; right.
Qed.

(** The exceptions of a run: the stream is cut short at the end only. *)
Fixpoint orderly (l : list event) : Prop :=
  match l with
  | [] => True
  | Got _ :: l => orderly l
  | Failed InvalidUnicodeEncoding :: l => orderly l
  | Failed ReadPastEnd :: l => l = []
  | Failed _ :: _ => False
  end.

Lemma read_on_any : forall e o fuel rest st, before e o rest st -> Forall byte rest -> Z.of_nat (unit_width e) <= biggest ->
  (length rest < fuel)%nat ->
  exists l, read_on native_ ops fuel st = Ok l /\ (length l <= length rest)%nat /\ orderly l.
Proof.
  intros e o. induction fuel as [|fuel IH]; intros rest st H F B L; [lia|]. cbn [read_on].
  rewrite (at_end_before ops biggest left G _ _ _ _ H). cbn [bind]. destruct (Z.eqb_spec (len rest) 0) as [Z|Z].
  { exists []. split; [reflexivity|]. split; [cbn; lia|exact Logic.I]. }
  assert (P : (0 < length rest)%nat) by (unfold len in Z; lia).
  destruct (filtered_attempt e o rest st H F B) as (st' & rest' & r & E & H' & F' & L' & D). rewrite E.
  destruct (IH rest' st' H' F' B ltac:(lia)) as (l & El & Ll & O).
  destruct D as [[c ->]|[->|[-> ->]]]; rewrite El; cbn [bind]; (eexists; split; [reflexivity|]); (split; [cbn [length]; lia|]); cbn [orderly]; auto.
  destruct l; [reflexivity|cbn [length] in Ll; lia].
Qed.

(* --------------------------------------------------------------- damaged text *)

(** One unit that starts nothing. *)
Lemma stray_unit : forall e o u rest st, starts_nothing e u -> before e o (in_order o (unit_width e) u ++ rest) st ->
  Z.of_nat (unit_width e) <= biggest ->
  exists st', kept_code_point native_ ops st = (st', Throw InvalidUnicodeEncoding) /\ before e o rest st'.
Proof.
  intros e o u rest st S H B. pose proof H as (_ & _ & Fm). unfold kept_code_point. rewrite Fm.
  destruct e; cbn [form_of unit_width starts_nothing] in *; [| |contradiction].
  - unfold kept_utf8_code_point. destruct (take_ok UTF8 o 1 u rest st H ltac:(lia) B ltac:(cbn; lia)) as (st' & E & H'). rewrite E.
    cbn [then_]. rewrite init8_bad by lia. cbn [then_]. now exists st'.
  - unfold kept_utf16_code_point. destruct (take_ok UTF16 o 2 u rest st H ltac:(lia) B ltac:(cbn; lia)) as (st' & E & H'). rewrite E.
    cbn [then_]. rewrite init16_trail by lia. cbn [then_]. now exists st'.
Qed.

Lemma finish8_torn : forall e o xs n v d rest st, before e o (xs ++ d :: rest) st -> Forall (fun x => 128 <= x < 192)%N xs ->
  (length xs < n)%nat -> (d < 256)%N -> ~ (128 <= d < 192)%N -> 1 <= biggest ->
  exists st', kept_finish_utf8 native_ ops n v st = (st', Throw InvalidUnicodeEncoding) /\ before e o rest st'.
Proof.
  intros e o xs. induction xs as [|x xs IH]; intros n v d rest st H F L D T B; destruct n as [|n]; cbn [length] in L; try lia;
    cbn [kept_finish_utf8 app] in *.
  - destruct (take_byte e o d rest st H B D) as (st' & E & H'). rewrite E. cbn [then_]. rewrite trailing_false by assumption.
    now exists st'.
  - inversion F as [|? ? Fx Fxs]; subst. destruct (take_byte e o x (xs ++ d :: rest) st H B ltac:(lia)) as (st' & E & H'). rewrite E. cbn [then_].
    rewrite trailing_true by assumption. cbn [negb]. apply (IH n _ d rest st' H' Fxs); auto. lia.
Qed.

Lemma finish8_cut : forall e o xs n v st, before e o xs st -> Forall (fun x => 128 <= x < 192)%N xs ->
  (length xs < n)%nat -> 1 <= biggest ->
  exists st', kept_finish_utf8 native_ ops n v st = (st', Throw ReadPastEnd) /\ before e o [] st'.
Proof.
  intros e o xs. induction xs as [|x xs IH]; intros n v st H F L B; destruct n as [|n]; cbn [length] in L; try lia;
    cbn [kept_finish_utf8 app] in *.
  - destruct (take_short e o 1 [] st H ltac:(lia) B ltac:(cbn; lia)) as (st' & E & H'). rewrite E. now exists st'.
  - inversion F as [|? ? Fx Fxs]; subst. destruct (take_byte e o x xs st H B ltac:(lia)) as (st' & E & H'). rewrite E. cbn [then_].
    rewrite trailing_true by assumption. cbn [negb]. apply (IH n _ st' H' Fxs); auto. lia.
Qed.

End Reading.

(** The first byte of a sequence tells its length. *)
Lemma loose8_lead : forall bs c, loose8 bs c ->
  exists lead tr v, bs = lead :: tr /\ (lead < 256)%N /\ ~ (128 <= lead < 192)%N /\
    initialize_utf8_sequence lead = Ok (length bs, v) /\ Forall (fun x => 128 <= x < 192)%N tr.
Proof.
  intros bs c L. inv8 L; do 3 eexists; (split; [reflexivity|]); (split; [lia|]); (split; [lia|]); cbn [length].
  - split; [apply init8_1; lia|constructor].
  - split; [apply init8_2; lia|repeat (constructor; [lia|]); constructor].
  - split; [apply init8_3; lia|repeat (constructor; [lia|]); constructor].
  - split; [apply init8_4; lia|repeat (constructor; [lia|]); constructor].
Qed.

Lemma firstn_forall : forall (P : N -> Prop) n l, Forall P l -> Forall P (firstn n l).
Proof. intros P n l H. revert n. induction H as [|x l Hx H IH]; intros [|n]; cbn; auto. Qed.
