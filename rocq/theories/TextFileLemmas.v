(** Reading texts piece by piece from sources that may fail. *)
From Coq Require Import NArith ZArith List Bool Lia ZifyBool ZifyNat ZifyN.
From Verif Require Import Base Integers UnicodeSpec UnicodeModel UnicodeText UnicodeLemmas UnicodeLemmas2 UnicodeLemmas3
  NumeralSpec NumberModel NumberText NumberLemmas NumberProps
  ResourceSpec ResourceModel ResourceLemmas StreamSpec StreamModel StreamText StreamLemmas StreamLemmas2 StreamLemmas3 StreamLemmas4
  TextFileSpec TextFileText.
Import ListNotations.
Open Scope Z_scope.

(** A source that gives the next bytes, but, unless it is sure, perhaps fewer than
    there are. *)
Record text_source {R : Type} (sure : Prop) (ops : source R) (biggest : Z) (left : list N -> R -> Prop) : Prop := {
  ts_read : forall rest r block n, left rest r -> 0 < n <= len block -> n <= biggest ->
    exists r' d, source_read ops r block n = Ok (r', d ++ drop (len d) block, len d) /\
      d = take (len d) (take n rest) /\ left (drop (len d) rest) r' /\ (sure -> d = take n rest);
  ts_at_end : forall rest r, left rest r -> source_at_end ops r = Ok (len rest =? 0) }.

Lemma good_text_source : forall (R : Type) (sure : Prop) (ops : source R) biggest left, good_source ops biggest left ->
  text_source sure ops biggest left.
Proof.
  intros R sure ops biggest left G. split; [|exact (gs_at_end _ _ _ G)].
  intros rest r block n L B M. destruct (gs_read _ _ _ G _ _ _ _ L B M) as (r' & E & L').
  exists r', (take n rest). split; [exact E|]. split; [|split; [|reflexivity]].
  - symmetry. apply take_all. lia.
  - assert (Z.min n (len rest) = len (take n rest)) by (rewrite len_take; pose proof (len_nonneg rest); lia).
    destruct (Z.le_gt_cases n (len rest)).
    + replace (len (take n rest)) with n by lia. exact L'.
    + rewrite drop_all in L' by lia. rewrite drop_all by lia. exact L'.
Qed.

Section Reading.
Context {R : Type} (sure : Prop) (native : byte_order) (ops : source R) (biggest : Z) (left : list N -> R -> Prop).
Context (G : text_source sure ops biggest left).
Local Notation before := (before left).

(** A result with a property, or, unless the source is sure, ReadPastEnd. *)
Definition gives {A : Type} (x : outcome A) (P : A -> Prop) : Prop :=
  (exists a, x = Ok a /\ P a) \/ (~ sure /\ x = Throw ReadPastEnd).

Lemma gives_ok : forall A (a : A) (P : A -> Prop), P a -> gives (Ok a) P.
Proof. intros. left. eauto. Qed.

Lemma gives_bind : forall A B (x : outcome A) (f : A -> outcome B) (P : A -> Prop) (Q : B -> Prop), gives x P ->
  (forall a, P a -> gives (f a) Q) -> gives (bind x f) Q.
Proof. intros A B x f P Q [(a & -> & H)|[N ->]] K; [exact (K a H)|]. right. split; [exact N|reflexivity]. Qed.

Lemma gives_imp : forall A (x : outcome A) (P Q : A -> Prop), gives x P -> (forall a, P a -> Q a) -> gives x Q.
Proof. intros A x P Q [(a & E & H)|N] K; [left; eauto|right; exact N]. Qed.

Lemma code_unit_gives : forall e o w u rest st, before e o (in_order o w u ++ rest) st ->
  (0 < w)%nat -> Z.of_nat w <= biggest -> (u < 256 ^ N.of_nat w)%N ->
  (exists st', read_code_unit (order_of native) ops w st = Ok (st', Some u) /\ before e o rest st') \/
  (~ sure /\ exists st', read_code_unit (order_of native) ops w st = Ok (st', None)).
Proof.
  intros e o w u rest st (L & O & F) W B U. unfold read_code_unit, text_read, stream_read. rewrite O.
  pose proof (len_in_order o w u) as Lw.
  destruct (ts_read _ _ _ _ G _ _ (repeat 0%N w) (Z.of_nat w) L) as (r' & d & E & P & L' & Sd);
    [unfold len; rewrite repeat_length; lia|exact B|].
  rewrite <- Lw in P, Sd. rewrite take_app_exact in P, Sd. rewrite E. cbn [bind].
  assert (Ld : len d <= Z.of_nat w).
  { rewrite P, len_take, Lw by apply len_nonneg. lia. }
  assert (Lr : len (d ++ drop (len d) (repeat 0%N w)) = Z.of_nat w).
  { rewrite len_app. pose proof (len_nonneg d). rewrite len_drop by lia. unfold len at 2. rewrite repeat_length. lia. }
  destruct (Z.eq_dec (len d) (Z.of_nat w)) as [Full|Short].
  - assert (Ed : d = in_order o w u) by (rewrite P; apply take_all; lia). clear Lr. left.
    rewrite Full in *. rewrite drop_all by (unfold len; rewrite repeat_length; lia). rewrite app_nil_r.
    rewrite <- Lw in L'. rewrite drop_app_exact in L'.
    exists (TextInput r' (order_of o) (in_form st)). split; [|split; [exact L'|split; [reflexivity|exact F]]].
    rewrite Ed. destruct (endian_eqb (order_of o) (order_of native)) eqn:Q; cbn [negb bind].
    + rewrite Z.ltb_irrefl. assert (o = native) by (destruct o, native; cbn in Q; congruence). subst o.
      rewrite from_memory_in_order by assumption. reflexivity.
    + assert (Ne : in_order o w u <> []) by (intro X; rewrite X in Lw; cbn in Lw; lia).
      rewrite <- Lw at 1. rewrite invert_whole by exact Ne. cbn [bind].
      rewrite Z.ltb_irrefl, in_order_opposite. replace (opposite o) with native by (destruct o, native; cbn in Q; try discriminate; reflexivity).
      rewrite from_memory_in_order by assumption. reflexivity.
  - right. split; [intro X; apply Short; rewrite (Sd X), Lw; reflexivity|].
    assert (Ne : d ++ drop (len d) (repeat 0%N w) <> []) by (intro X; rewrite X in Lr; cbn in Lr; lia).
    destruct (endian_eqb (order_of o) (order_of native)); cbn [negb bind].
    + rewrite (proj2 (Z.ltb_lt _ _)) by lia. eauto.
    + pose proof (invert_whole _ Ne) as Iv. rewrite Lr in Iv. rewrite Iv. cbn [bind]. rewrite (proj2 (Z.ltb_lt _ _)) by lia. eauto.
Qed.

(** Continue after a code unit; without one, all callers throw ReadPastEnd. *)
Lemma unit_then : forall A e o w u rest st (f : text_input R -> N -> outcome A) (P : A -> Prop),
  before e o (in_order o w u ++ rest) st -> (0 < w)%nat -> Z.of_nat w <= biggest -> (u < 256 ^ N.of_nat w)%N ->
  (forall st', before e o rest st' -> gives (f st' u) P) ->
  gives (bind (read_code_unit (order_of native) ops w st)
           (fun '(st, u) => match u with None => Throw ReadPastEnd | Some u => f st u end)) P.
Proof.
  intros A e o w u rest st f P H W B U K.
  destruct (code_unit_gives e o w u rest st H W B U) as [(st' & E & H')|(N & st' & E)]; rewrite E; cbn [bind].
  - exact (K st' H').
  - right. split; [exact N|reflexivity].
Qed.

Lemma byte_then : forall A e o u rest st (f : text_input R -> N -> outcome A) (P : A -> Prop),
  before e o (u :: rest) st -> 1 <= biggest -> (u < 256)%N ->
  (forall st', before e o rest st' -> gives (f st' u) P) ->
  gives (bind (read_code_unit (order_of native) ops 1 st)
           (fun '(st, u) => match u with None => Throw ReadPastEnd | Some u => f st u end)) P.
Proof.
  intros A e o u rest st f P H B U K. apply (unit_then A e o 1 u rest); try assumption; [|lia].
  rewrite in_order_1 by assumption. exact H.
Qed.

Lemma utf8_gives : forall e o bs c rest st, loose8 bs c -> before e o (bs ++ rest) st -> 1 <= biggest ->
  gives (read_utf8_code_point (order_of native) ops st) (fun '(st', d) => d = c /\ before e o rest st').
Proof.
  intros e o bs c rest st L H B. unfold read_utf8_code_point.
  inv8 L; cbn [app] in H; (eapply byte_then; [exact H|exact B|lia|]); intros st1 K1; cbv beta.
  - rewrite init8_1 by assumption. cbn [bind]. now apply gives_ok.
  - rewrite init8_2 by assumption. cbn [bind Nat.sub finish_utf8_sequence].
    eapply byte_then; [exact K1|exact B|lia|]. intros st2 K2. cbv beta.
    rewrite trailing_true by assumption. cbn [negb finish_utf8_sequence]. rewrite push6 by assumption. now apply gives_ok.
  - rewrite init8_3 by assumption. cbn [bind Nat.sub finish_utf8_sequence].
    eapply byte_then; [exact K1|exact B|lia|]. intros st2 K2. cbv beta.
    rewrite trailing_true by assumption. cbn [negb finish_utf8_sequence]. rewrite push6 by assumption.
    eapply byte_then; [exact K2|exact B|lia|]. intros st3 K3. cbv beta.
    rewrite trailing_true by assumption. cbn [negb finish_utf8_sequence]. rewrite push6 by assumption.
    apply gives_ok. split; [lia|exact K3].
  - rewrite init8_4 by assumption. cbn [bind Nat.sub finish_utf8_sequence].
    eapply byte_then; [exact K1|exact B|lia|]. intros st2 K2. cbv beta.
    rewrite trailing_true by assumption. cbn [negb finish_utf8_sequence]. rewrite push6 by assumption.
    eapply byte_then; [exact K2|exact B|lia|]. intros st3 K3. cbv beta.
    rewrite trailing_true by assumption. cbn [negb finish_utf8_sequence]. rewrite push6 by assumption.
    eapply byte_then; [exact K3|exact B|lia|]. intros st4 K4. cbv beta.
    rewrite trailing_true by assumption. cbn [negb finish_utf8_sequence]. rewrite push6 by assumption.
    apply gives_ok. split; [lia|exact K4].
Qed.

Lemma utf16_gives : forall e o us c rest st, loose16 us c -> before e o (unit_bytes UTF16 o us ++ rest) st ->
  2 <= biggest -> gives (read_utf16_code_point (order_of native) ops st) (fun '(st', d) => d = c /\ before e o rest st').
Proof.
  intros e o us c rest st L H B. unfold read_utf16_code_point.
  inv16 L; unfold unit_bytes in H; cbn [unit_width flat_map] in H; rewrite ?app_nil_r, <- ?app_assoc in H;
    (eapply (unit_then _ e o 2); [exact H|lia|exact B|lia|]); intros st1 K1; cbv beta.
  - rewrite init16_other by assumption. cbn [bind finish_utf16_sequence Nat.eqb]. now apply gives_ok.
  - rewrite init16_lead by assumption. cbn [bind]. unfold finish_utf16_sequence. cbn [Nat.eqb].
    eapply (unit_then _ e o 2); [exact K1|lia|exact B|lia|]. intros st2 K2. cbv beta.
    match goal with |- context [is_trailing_surrogate ?b] => assert (T : is_trailing_surrogate b = true)
      by (apply trailing_surrogate_iff; lia) end.
    rewrite T. now apply gives_ok.
Qed.

Lemma utf32_gives : forall e o c rest st, before e o (in_order o 4 c ++ rest) st ->
  4 <= biggest -> (c < 0x100000000)%N ->
  gives (read_utf32_code_point (order_of native) ops st) (fun '(st', d) => d = c /\ before e o rest st').
Proof.
  intros e o c rest st H B C. unfold read_utf32_code_point.
  eapply (unit_then _ e o 4); [exact H|lia|exact B|lia|]. intros st2 K2. now apply gives_ok.
Qed.

Lemma one_gives : forall e o c l st, scalar c -> before e o (text_bytes e o (c :: l)) st ->
  Z.of_nat (unit_width e) <= biggest ->
  gives (read_code_point (order_of native) ops st) (fun '(st', d) => d = c /\ before e o (text_bytes e o l) st').
Proof.
  intros e o c l st Sc H B. rewrite text_bytes_cons in H. pose proof H as (_ & _ & F). unfold read_code_point. rewrite F.
  destruct (scalar_sequence e c Sc) as [L S]. set (us := encode1 e c) in *. clearbody us.
  destruct e; cbn [form_of loose unit_width] in *.
  - apply (utf8_gives UTF8 o us c _ st L); [|lia].
    replace us with (unit_bytes UTF8 o us); [exact H|].
    apply unit_bytes_8. inv8 L; repeat constructor; lia.
  - apply (utf16_gives UTF16 o us c _ st L); [exact H|lia].
  - inversion L; subst.
    unfold unit_bytes in H. cbn [unit_width flat_map] in H. rewrite app_nil_r in H.
    apply (utf32_gives UTF32 o c _ st H); [lia|auto].
Qed.

(** What is left of a text l is a shorter text. *)
Definition after (e : encoding) (o : byte_order) (n : nat) (l : list N) (st : text_input R) : Prop :=
  before e o (text_bytes e o l) st /\ Forall scalar l /\ (length l <= n)%nat.

Lemma at_end_gives : forall e o n l st, after e o n l st ->
  text_at_end ops st = Ok (match l with [] => true | _ => false end).
Proof.
  intros e o n l st ((L & _) & _). unfold text_at_end. rewrite (ts_at_end _ _ _ _ G _ _ L).
  destruct l; [reflexivity|]. now rewrite text_bytes_ne.
Qed.

Lemma filtered_gives : forall e o n c l st, after e o (S n) (c :: l) st -> Z.of_nat (unit_width e) <= biggest ->
  gives (read_filtered_code_point (order_of native) ops st) (fun '(st', d) =>
    exists l', filtered (c :: l) = d :: filtered l' /\ after e o n l' st').
Proof.
  intros e o n c l st (H & S & Ln) B. inversion S as [|? ? Sc Sl]; subst. cbn [length] in Ln. unfold read_filtered_code_point.
  eapply gives_bind; [exact (one_gives e o c l st Sc H B)|]. intros [st1 d] [-> H1].
  assert (A : after e o n l st1) by (split; [exact H1|split; [exact Sl|lia]]).
  cbn [filtered]. destruct (N.eqb_spec c 13) as [->|N].
  - rewrite (at_end_gives _ _ _ _ _ A). cbn [bind]. destruct l as [|d l]; cbn [negb].
    + apply gives_ok. now exists [].
    + inversion Sl as [|? ? Sd Sl']; subst. eapply gives_imp; [exact (one_gives e o d l st1 Sd H1 B)|].
      intros [st2 x] [-> H2]. exists l. split; [reflexivity|]. split; [exact H2|]. split; [assumption|]. cbn [length] in Ln. lia.
  - apply gives_ok. now exists l.
Qed.

Lemma line_gives : forall e o k n l fuel t st, after e o n l st -> Z.of_nat (unit_width e) <= biggest -> (n < fuel)%nat ->
  Forall (insertable k) (fst (upto_lf (filtered l))) ->
  gives (append_line (order_of native) ops fuel k t st) (fun '(st', a) => a = t ++ units k (fst (upto_lf (filtered l))) /\
    exists l', filtered l' = snd (upto_lf (filtered l)) /\ after e o n l' st').
Proof.
  intros e o k. induction n as [|n IH]; intros l fuel t st A B F I;
    (destruct fuel as [|fuel]; [lia|]); cbn [append_line]; rewrite (at_end_gives _ _ _ _ _ A); cbn [bind];
    destruct l as [|c l]; cbn [negb].
  1, 3: apply gives_ok; cbn; rewrite app_nil_r; split; [reflexivity|]; now exists [].
  1: destruct A as (_ & _ & A); cbn in A; lia.
  eapply gives_bind; [exact (filtered_gives e o n c l st A B)|]. intros [st1 d] (l1 & Ef & A1). rewrite Ef in I |- *. cbn [upto_lf] in I |- *.
  assert (Up : forall l' st', after e o n l' st' -> after e o (S n) l' st') by (intros l' st' (X & Y & Z); split; [exact X|split; [exact Y|lia]]).
  destruct (N.eqb_spec d 10) as [->|Nd].
  - apply gives_ok. cbn [fst snd units encode flat_map]. rewrite app_nil_r. split; [reflexivity|]. exists l1. auto.
  - destruct (upto_lf (filtered l1)) as [a b] eqn:U. cbn [fst snd] in I |- *. inversion I as [|? ? Id I']; subst.
    rewrite append_to_ok by assumption. cbn [bind].
    eapply gives_imp; [apply (IH l1 fuel (t ++ units k [d]) st1 A1 B ltac:(lia)); rewrite U; exact I'|].
    intros [st2 x] [-> (l2 & E2 & A2)]. rewrite U in *. cbn [fst snd] in *. rewrite <- app_assoc, <- units_app. split; [reflexivity|].
    exists l2. auto.
Qed.

Lemma rest_gives : forall e o k n l fuel t st, after e o n l st -> Z.of_nat (unit_width e) <= biggest -> (n < fuel)%nat ->
  Forall (insertable k) (filtered l) ->
  gives (StreamModel.append_all (order_of native) ops fuel k t st) (fun '(st', a) => a = t ++ units k (filtered l) /\ after e o n [] st').
Proof.
  intros e o k. induction n as [|n IH]; intros l fuel t st A B F I;
    (destruct fuel as [|fuel]; [lia|]); cbn [StreamModel.append_all]; rewrite (at_end_gives _ _ _ _ _ A); cbn [bind];
    destruct l as [|c l]; cbn [negb].
  1, 3: apply gives_ok; cbn; rewrite app_nil_r; split; [reflexivity|assumption].
  1: destruct A as (_ & _ & A); cbn in A; lia.
  eapply gives_bind; [exact (filtered_gives e o n c l st A B)|]. intros [st1 d] (l1 & Ef & A1). rewrite Ef in I |- *.
  inversion I as [|? ? Id I']; subst. rewrite append_to_ok by assumption. cbn [bind].
  eapply gives_imp; [apply (IH l1 fuel (t ++ units k [d]) st1 A1 B ltac:(lia) I')|].
  intros [st2 x] [-> (X & Y & Z)]. rewrite <- app_assoc, <- units_app. split; [reflexivity|]. split; [exact X|split; [exact Y|lia]].
Qed.

Lemma skip_gives : forall e o k n l fuel st, after e o n l st -> Z.of_nat (unit_width e) <= biggest -> (n < fuel)%nat ->
  Forall (insertable k) (fst (upto_white (skip_white (filtered l)))) ->
  gives (skip_whitespace (order_of native) ops fuel k st) (fun '(st', a) =>
    exists w l', a = units k w /\ skip_white (filtered l) = w ++ filtered l' /\
      Forall (fun c => is_whitespace c = false) w /\ after e o n l' st').
Proof.
  intros e o k. induction n as [|n IH]; intros l fuel st A B F I;
    (destruct fuel as [|fuel]; [lia|]); cbn [skip_whitespace]; rewrite (at_end_gives _ _ _ _ _ A); cbn [bind];
    destruct l as [|c l]; cbn [negb].
  1, 3: apply gives_ok; cbn; exists [], []; auto.
  1: destruct A as (_ & _ & A); cbn in A; lia.
  eapply gives_bind; [exact (filtered_gives e o n c l st A B)|]. intros [st1 d] (l1 & Ef & A1). rewrite Ef in I |- *. cbn [skip_white] in I |- *.
  assert (Up : forall l' st', after e o n l' st' -> after e o (S n) l' st') by (intros l' st' (X & Y & Z); split; [exact X|split; [exact Y|lia]]).
  destruct (is_whitespace d) eqn:W; cbn [negb].
  - eapply gives_imp; [exact (IH l1 fuel st1 A1 B ltac:(lia) I)|]. intros [st2 x] (w & l2 & X & Y & Z & A2). exists w, l2. auto.
  - cbn [upto_white] in I. rewrite W in I. destruct (upto_white (filtered l1)). inversion I as [|? ? Id I']; subst.
    rewrite append_to_ok by assumption. cbn [bind app]. apply gives_ok. exists [d], l1. repeat split; auto; apply A1 || (constructor; auto).
    destruct A1 as (_ & _ & A1). lia.
Qed.

Lemma take_word_gives : forall e o k n l fuel t st, after e o n l st -> Z.of_nat (unit_width e) <= biggest -> (n < fuel)%nat ->
  Forall (insertable k) (fst (upto_white (filtered l))) ->
  gives (take_word (order_of native) ops fuel k t st) (fun '(st', a) => a = t ++ units k (fst (upto_white (filtered l))) /\
    exists l', filtered l' = snd (upto_white (filtered l)) /\ after e o n l' st').
Proof.
  intros e o k. induction n as [|n IH]; intros l fuel t st A B F I;
    (destruct fuel as [|fuel]; [lia|]); cbn [take_word]; rewrite (at_end_gives _ _ _ _ _ A); cbn [bind];
    destruct l as [|c l]; cbn [negb].
  1, 3: apply gives_ok; cbn; rewrite app_nil_r; split; [reflexivity|]; now exists [].
  1: destruct A as (_ & _ & A); cbn in A; lia.
  eapply gives_bind; [exact (filtered_gives e o n c l st A B)|]. intros [st1 d] (l1 & Ef & A1). rewrite Ef in I |- *. cbn [upto_white] in I |- *.
  assert (Up : forall l' st', after e o n l' st' -> after e o (S n) l' st') by (intros l' st' (X & Y & Z); split; [exact X|split; [exact Y|lia]]).
  destruct (is_whitespace d).
  - apply gives_ok. cbn [fst snd units encode flat_map]. rewrite app_nil_r. split; [reflexivity|]. exists l1. auto.
  - destruct (upto_white (filtered l1)) as [a b] eqn:U. cbn [fst snd] in I |- *. inversion I as [|? ? Id I']; subst.
    rewrite append_to_ok by assumption. cbn [bind].
    eapply gives_imp; [apply (IH l1 fuel (t ++ units k [d]) st1 A1 B ltac:(lia)); rewrite U; exact I'|].
    intros [st2 x] [-> (l2 & E2 & A2)]. rewrite U in *. cbn [fst snd] in *. rewrite <- app_assoc, <- units_app. split; [reflexivity|].
    exists l2. auto.
Qed.

Lemma word_gives : forall e o k n l fuel st, after e o n l st -> Z.of_nat (unit_width e) <= biggest -> (n < fuel)%nat ->
  Forall (insertable k) (fst (upto_white (skip_white (filtered l)))) ->
  gives (read_word (order_of native) ops fuel k st) (fun '(st', a) => a = units k (fst (upto_white (skip_white (filtered l)))) /\
    exists l', filtered l' = snd (upto_white (skip_white (filtered l))) /\ after e o n l' st').
Proof.
  intros e o k n l fuel st A B F I. unfold read_word.
  eapply gives_bind; [exact (skip_gives e o k n l fuel st A B F I)|]. intros [st1 x] (w & l1 & -> & Q & W & A1).
  rewrite Q in I |- *. rewrite upto_white_app in I |- * by assumption. cbn [fst snd] in I |- *. apply Forall_app in I. destruct I as [_ I].
  eapply gives_imp; [exact (take_word_gives e o k n l1 fuel (units k w) st1 A1 B F I)|].
  intros [st2 y] [-> K]. rewrite units_app. auto.
Qed.

(* ------------------------------------------------------------ the requests *)

Lemma next_word_white : forall l w r, next_word l w r -> upto_white (skip_white l) = (w, r) /\ w <> [].
Proof.
  intros l w r H.
  assert (X : forall s w rest, Forall white_space s -> w <> [] -> Forall (fun c => ~ white_space c) w ->
    skip_white (s ++ w ++ rest) = w ++ rest).
  { intros s v rest Hs Hn Hv. destruct v as [|c v]; [congruence|]. apply Forall_inv in Hv. cbn [app]. now apply skip_white_app. }
  assert (Y : forall w, Forall (fun c => ~ white_space c) w -> Forall (fun c => is_whitespace c = false) w).
  { intros v Hv. eapply Forall_impl; [|exact Hv]. intros c Hc. cbn beta in Hc. now apply white_false. }
  destruct H as [s w c r Hs Hn Hw Hc|s w Hs Hn Hw]; (split; [|exact Hn]).
  - rewrite X by assumption. rewrite upto_white_app by auto. cbn [upto_white]. rewrite white_true by assumption.
    cbn [fst snd]. now rewrite app_nil_r.
  - pose proof (X s w [] Hs Hn Hw) as E. rewrite app_nil_r in E. rewrite E.
    pose proof (upto_white_app w [] (Y w Hw)) as E2. rewrite app_nil_r in E2. rewrite E2. cbn. now rewrite app_nil_r.
Qed.

Lemma upto_lf_line : forall a r, ~ In 10%N a -> upto_lf (a ++ 10%N :: r) = (a, r).
Proof.
  induction a as [|c a IH]; intros r H; [reflexivity|]. cbn [app upto_lf]. cbn [In] in H.
  destruct (N.eqb_spec c 10); [tauto|]. rewrite IH by tauto. reflexivity.
Qed.

Lemma upto_lf_last : forall a, ~ In 10%N a -> upto_lf a = (a, []).
Proof.
  induction a as [|c a IH]; intros H; [reflexivity|]. cbn [upto_lf]. cbn [In] in H.
  destruct (N.eqb_spec c 10); [tauto|]. rewrite IH by tauto. reflexivity.
Qed.

Lemma numeral_parses : forall t x s, standard t -> in_range t x -> (is_signed t = true -> x <> min_of t) ->
  numeral 10 false None x s -> parse_integer K8 t s default_integer_format = Ok x.
Proof.
  intros t x s Ht Rx Hm Hn.
  assert (Hr : valid_radix (radix default_integer_format)) by (vm_compute; split; discriminate).
  destruct (C18_canonical_partial K8 true t x default_integer_format Ht Rx Hr Hm) as (s' & E & _ & Un).
  rewrite <- (Un s Hn) in E.
  destruct (C17_round_trip_partial K8 true t x default_integer_format Ht Rx Hr Hm) as (s2 & E2 & P).
  rewrite E in E2. injection E2 as <-. exact P.
Qed.

Lemma visible_insertable : forall k s, Forall visible s -> Forall (insertable k) s.
Proof. intros k s H. eapply Forall_impl; [|exact H]. intros c V. apply ascii_insertable. unfold visible in V. lia. Qed.

Lemma request_gives : forall e o q k n l a m fuel st, after e o n l st -> Z.of_nat (unit_width e) <= biggest -> (n < fuel)%nat ->
  obtains q (filtered l) a m -> can_arrive q k a ->
  gives (answer_request (order_of native) ops fuel st q k) (fun '(st', x) => x = piece_in k a /\
    exists l', filtered l' = m /\ after e o n l' st').
Proof.
  intros e o q k n l a m fuel st A B F H C. remember (filtered l) as fl eqn:El.
  destruct H as [c r|x r Nl|x Nl|fl w r Nw|fl Wh|fl|t x fl w r Nw Nu Rx|b fl r Nw|fl]; cbn [answer_request can_arrive piece_in] in *.
  - destruct l as [|d l]; [discriminate|]. destruct n as [|n]; [destruct A as (_ & _ & A); cbn in A; lia|].
    eapply gives_bind; [exact (filtered_gives e o n d l st A B)|]. intros [st1 y] (l1 & Ef & A1). apply gives_ok.
    rewrite Ef in El. injection El as -> ->. split; [reflexivity|]. exists l1. split; [reflexivity|].
    destruct A1 as (X & Y & Z). split; [exact X|split; [exact Y|lia]].
  - unfold read_line. assert (U : upto_lf (filtered l) = (x, r)) by (rewrite <- El; now apply upto_lf_line).
    eapply gives_bind; [apply (line_gives e o k n l fuel [] st A B F); rewrite U; exact C|]. intros [st1 y] [-> K].
    rewrite U in *. apply gives_ok. auto.
  - unfold read_line. assert (U : upto_lf (filtered l) = (x, [])) by (rewrite <- El; now apply upto_lf_last).
    eapply gives_bind; [apply (line_gives e o k n l fuel [] st A B F); rewrite U; exact C|]. intros [st1 y] [-> K].
    rewrite U in *. apply gives_ok. auto.
  - destruct (next_word_white _ _ _ Nw) as [U _]. rewrite El in U.
    eapply gives_bind; [apply (word_gives e o k n l fuel st A B F); rewrite U; exact C|]. intros [st1 y] [-> K].
    rewrite U in *. apply gives_ok. auto.
  - assert (U : skip_white (filtered l) = []) by (rewrite <- El; now apply skip_white_all).
    eapply gives_bind; [apply (word_gives e o k n l fuel st A B F); rewrite U; constructor|]. intros [st1 y] [-> K].
    rewrite U in *. apply gives_ok. auto.
  - unfold read_all. subst fl.
    eapply gives_bind; [exact (rest_gives e o k n l fuel [] st A B F C)|]. intros [st1 y] [-> K]. apply gives_ok.
    split; [reflexivity|]. now exists [].
  - destruct (next_word_white _ _ _ Nw) as [U _]. rewrite El in U. destruct (numeral_visible x w Nu) as [V _]. destruct C as [Ht Hm].
    unfold read_integer. apply (gives_bind _ _ _ _ (fun '(st', z) => z = x /\ exists l', filtered l' = r /\ after e o n l' st')).
    + eapply gives_bind; [apply (word_gives e o K8 n l fuel st A B F); rewrite U; now apply visible_insertable|].
      intros [st1 y] [-> K]. rewrite U in *. cbn [fst snd] in *. rewrite visible_units by exact V.
      rewrite (numeral_parses t x w Ht Rx Hm Nu). cbn [bind]. apply gives_ok. split; [reflexivity|exact K].
    + intros [st1 z] [-> K]. apply gives_ok. auto.
  - destruct (next_word_white _ _ _ Nw) as [U _]. rewrite El in U.
    assert (V : Forall visible [if b then 49 else 48]%N) by (destruct b; repeat constructor; unfold visible; lia).
    unfold read_bool. apply (gives_bind _ _ _ _ (fun '(st', z) => z = b /\ exists l', filtered l' = r /\ after e o n l' st')).
    + eapply gives_bind; [apply (word_gives e o K8 n l fuel st A B F); rewrite U; now apply visible_insertable|].
      intros [st1 y] [-> K]. rewrite U in *. cbn [fst snd] in *. rewrite visible_units by exact V.
      assert (Pb : parse_bool K8 [if b then 49 else 48]%N default_bool_format = Ok b) by (destruct b; vm_compute; reflexivity).
      rewrite Pb. cbn [bind]. apply gives_ok. split; [reflexivity|exact K].
    + intros [st1 z] [-> K]. apply gives_ok. auto.
  - rewrite (at_end_gives _ _ _ _ _ A). cbn [bind]. apply gives_ok. split; [|subst fl; now exists l].
    f_equal. subst fl. destruct l as [|c l]; [reflexivity|]. destruct (filtered (c :: l)) eqn:E; [|reflexivity].
    apply filtered_nil in E. discriminate.
Qed.

Lemma requests_give : forall e o n fuel, Z.of_nat (unit_width e) <= biggest -> (n < fuel)%nat ->
  forall qs l answers m st, after e o n l st ->
  obtains_all (map fst qs) (filtered l) answers m -> all_can_arrive qs answers ->
  gives (answer_requests (order_of native) ops fuel st qs) (fun '(st', xs) => xs = pieces_in qs answers /\
    exists l', filtered l' = m /\ after e o n l' st').
Proof.
  intros e o n fuel B F. induction qs as [|[q k] qs IH]; intros l answers m st A H C; cbn [map answer_requests fst] in *.
  - inversion H; subst. apply gives_ok. split; [reflexivity|]. now exists l.
  - inversion H as [|? ? ? a m1 answers' ? H1 H2]; subst. unfold all_can_arrive in C. cbn [combine] in C.
    pose proof (Forall_inv C) as C1. apply Forall_inv_tail in C. cbn beta iota in C1.
    eapply gives_bind; [exact (request_gives e o q k n l a m1 fuel st A B F H1 C1)|].
    intros [st1 x] [-> (l1 & <- & A1)]. cbn beta iota.
    eapply gives_bind; [exact (IH l1 answers' m st1 A1 H2 C)|]. intros [st2 xs] [-> K]. apply gives_ok. split; [reflexivity|exact K].
Qed.

End Reading.

(** CR LF becomes LF. *)
Lemma filtered_lf_text : forall n l, (length l <= n)%nat -> carriage_returns_paired l -> filtered l = lf_text l.
Proof.
  induction n as [|n IH]; intros l Hn H; (destruct l as [|c l]; [reflexivity|]); [cbn in Hn; lia|].
  cbn [length] in Hn. destruct l as [|d l]; [cbn; now destruct (c =? 13)%N|].
  pose proof (paired_tail _ _ H) as T. destruct H as [H _]. cbn beta iota in H.
  destruct (N.eqb_spec c 13) as [->|N].
  - specialize (H eq_refl). subst d. rewrite filtered_cr.
    change (lf_text (13%N :: 10%N :: l)) with (lf_text (10%N :: l)). rewrite <- (IH (10%N :: l)) by (assumption || (cbn [length] in *; lia)).
    now rewrite filtered_other by discriminate.
  - rewrite filtered_other by assumption. rewrite (IH (d :: l)) by (assumption || (cbn [length] in *; lia)).
    cbn [lf_text]. rewrite (proj2 (N.eqb_neq c 13) N). reflexivity.
Qed.
