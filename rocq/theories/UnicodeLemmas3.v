(** Lemmas about the Unicode model: arbitrary input, memory safety, examiners. *)
From Coq Require Import NArith ZArith List Bool Lia ZifyBool ZifyNat ZifyN.
From Verif Require Import Base UnicodeSpec UnicodeModel UnicodeText UnicodeLemmas UnicodeLemmas2.
Import ListNotations.
Open Scope N_scope.
Ltac Zify.zify_post_hook ::= Z.div_mod_to_equations.

(* ------------------------------------------------------------- examiners *)

Lemma leading_iff : forall u, is_leading_byte u = true <-> 192 <= u < 248.
Proof.
  intro u. unfold is_leading_byte. rewrite !orb_true_iff, lead2_iff, lead3_iff, lead4_iff. lia.
Qed.

Lemma whitespace_iff : forall c, is_whitespace c = true <-> white_space c.
Proof.
  intro c. unfold is_whitespace, white_space. rewrite !orb_true_iff, !N.eqb_eq. lia.
Qed.

Lemma valid_exact : forall c, is_code_point_valid c = true <->
  scalar c /\ ~ (0xD800 <= c mod 0x10000 <= 0xDFFF).
Proof.
  intro c. rewrite valid_iff. unfold scalar. split.
  - intros [H H']. repeat split; auto. intro K. apply H'. rewrite N.mod_small; lia.
  - intros [[H _] H']. auto.
Qed.

Lemma not_scalar_invalid : forall c, ~ scalar c -> is_code_point_valid c = false.
Proof.
  intros c H. destruct (is_code_point_valid c) eqn:E; auto.
  apply valid_exact in E. tauto.
Qed.

(* -------------------------------------------------- table 3-7 equivalence *)

Lemma table_3_7_utf8_of : forall c, scalar c -> table_3_7 (utf8_of c).
Proof.
  intros c [H H']. unfold utf8_of.
  destruct (c <? 0x80) eqn:E1; [constructor; unfold between; lia|].
  destruct (c <? 0x800) eqn:E2; [constructor; unfold between; lia|].
  destruct (c <? 0x10000) eqn:E3.
  - destruct (N.eq_dec (c / 4096) 0) as [E|E].
    { replace (224 + c / 4096) with 0xE0 by lia. apply T3a; unfold between; lia. }
    destruct (N.eq_dec (c / 4096) 13) as [Ed|Ed].
    { replace (224 + c / 4096) with 0xED by lia. apply T3c; unfold between; lia. }
    destruct (N.lt_ge_cases (c / 4096) 13).
    + apply T3b; unfold between; lia.
    + apply T3d; unfold between; lia.
  - destruct (N.eq_dec (c / 262144) 0) as [E|E].
    { replace (240 + c / 262144) with 0xF0 by lia. apply T4a; unfold between; lia. }
    destruct (N.eq_dec (c / 262144) 4) as [Ed|Ed].
    { replace (240 + c / 262144) with 0xF4 by lia. apply T4c; unfold between; lia. }
    apply T4b; unfold between; lia.
Qed.

Lemma utf8_of_2 : forall a b, 0xC2 <= a <= 0xDF -> 0x80 <= b <= 0xBF ->
  [a; b] = utf8_of ((a - 192) * 64 + (b - 128)).
Proof.
  intros. unfold utf8_of.
  rewrite (ltb_f _ 0x80), (ltb_t _ 0x800) by lia.
  replace (192 + ((a - 192) * 64 + (b - 128)) / 64) with a by lia.
  replace (128 + ((a - 192) * 64 + (b - 128)) mod 64) with b by lia. reflexivity.
Qed.
Lemma utf8_of_3 : forall a b c, 0xE0 <= a <= 0xEF -> 0x80 <= b <= 0xBF -> 0x80 <= c <= 0xBF ->
  0x800 <= (a - 224) * 4096 + (b - 128) * 64 + (c - 128) ->
  [a; b; c] = utf8_of ((a - 224) * 4096 + (b - 128) * 64 + (c - 128)).
Proof.
  intros a b c Ha Hb Hc Hv. set (v := (a - 224) * 4096 + (b - 128) * 64 + (c - 128)) in *.
  unfold utf8_of. rewrite (ltb_f _ 0x80), (ltb_f _ 0x800), (ltb_t _ 0x10000) by lia.
  replace (224 + v / 4096) with a by lia.
  replace (128 + (v / 64) mod 64) with b by lia.
  replace (128 + v mod 64) with c by lia. reflexivity.
Qed.
Lemma utf8_of_4 : forall a b c d, 0xF0 <= a <= 0xF7 -> 0x80 <= b <= 0xBF -> 0x80 <= c <= 0xBF ->
  0x80 <= d <= 0xBF ->
  0x10000 <= (a - 240) * 262144 + (b - 128) * 4096 + (c - 128) * 64 + (d - 128) ->
  [a; b; c; d] = utf8_of ((a - 240) * 262144 + (b - 128) * 4096 + (c - 128) * 64 + (d - 128)).
Proof.
  intros a b c d Ha Hb Hc Hd Hv.
  set (v := (a - 240) * 262144 + (b - 128) * 4096 + (c - 128) * 64 + (d - 128)) in *.
  unfold utf8_of. rewrite (ltb_f _ 0x80), (ltb_f _ 0x800), (ltb_f _ 0x10000) by lia.
  replace (240 + v / 262144) with a by lia.
  replace (128 + (v / 4096) mod 64) with b by lia.
  replace (128 + (v / 64) mod 64) with c by lia.
  replace (128 + v mod 64) with d by lia. reflexivity.
Qed.

Lemma table_3_7_only : forall bs, table_3_7 bs -> exists c, scalar c /\ bs = utf8_of c.
Proof.
  intros bs H. unfold scalar. destruct H; unfold between in *.
  - exists a. split; [lia|]. unfold utf8_of. now rewrite ltb_t by lia.
  - eexists. split; [|apply utf8_of_2; lia]. lia.
  - eexists. split; [|apply utf8_of_3; lia]. lia.
  - eexists. split; [|apply utf8_of_3; lia]. lia.
  - eexists. split; [|apply utf8_of_3; lia]. lia.
  - eexists. split; [|apply utf8_of_3; lia]. lia.
  - eexists. split; [|apply utf8_of_4; lia]. lia.
  - eexists. split; [|apply utf8_of_4; lia]. lia.
  - eexists. split; [|apply utf8_of_4; lia]. lia.
Qed.

(* ------------------------------------------------------- memory safety *)

Definition iteration_end (r : outcome unit) : Prop :=
  r = Ok tt \/ r = Throw InvalidUnicodeEncoding \/ r = Throw IteratedPastEnd.

Lemma step_advance_ok : forall k pre rest c,
  rest <> [] -> Forall (unit_range k) rest ->
  deref k (pre ++ rest) (length pre) = Ok c ->
  exists bs post, rest = bs ++ post /\ bs <> [] /\
    advance k (pre ++ rest) (length pre) = (length (pre ++ bs), Ok tt).
Proof.
  intros k pre rest c Hne Hr D.
  destruct (step k pre rest Hne Hr) as [(bs & v & post & E & L & D' & A & A')|(_ & [[_ D']|[_ D']])];
    [|congruence|congruence].
  assert (S : single_unit k v \/ ~ single_unit k v).
  { destruct k; cbn [single_unit]; auto; unfold bmp; destruct (N.lt_ge_cases v 0x10000); auto; right; lia. }
  destruct S as [S|S].
  - exists bs, post. rewrite (A S), app_length. split; auto. split; auto.
    eapply loose_nonempty; eauto.
  - pose proof (loose_nonempty _ _ _ L) as Hb. destruct bs as [|b bs]; [congruence|].
    exists [b], (bs ++ post). rewrite (A' S), app_length. cbn [length].
    split; [rewrite E; reflexivity|]. split; [discriminate|reflexivity].
Qed.

Lemma step_deref_safe : forall k pre rest,
  rest <> [] -> Forall (unit_range k) rest ->
  (exists c, deref k (pre ++ rest) (length pre) = Ok c) \/
  deref k (pre ++ rest) (length pre) = Throw InvalidUnicodeEncoding \/
  deref k (pre ++ rest) (length pre) = Throw IteratedPastEnd.
Proof.
  intros k pre rest Hne Hr.
  destruct (step k pre rest Hne Hr) as [(bs & v & post & E & L & D' & _)|(_ & [[_ D']|[_ D']])];
    eauto.
Qed.

Lemma visit_from_safe : forall k fuel pre rest,
  Forall (unit_range k) rest -> (length rest < fuel)%nat ->
  iteration_end (snd (visit_from fuel k (pre ++ rest) (length pre))).
Proof.
  intros k fuel; induction fuel as [|fuel IH]; intros pre rest Hr Hf; [lia|].
  cbn [visit_from]. rewrite len_mid0. destruct rest as [|u rest]; [now left|].
  cbn [length Nat.eqb].
  destruct (step_deref_safe k pre (u :: rest) ltac:(discriminate) Hr) as [[c D]|[D|D]].
  - destruct (step_advance_ok k pre (u :: rest) c ltac:(discriminate) Hr D)
      as (bs & post & E & Hb & A).
    rewrite D, A. rewrite E in Hr, Hf |- *. rewrite app_assoc. rewrite app_length in Hf.
    apply Forall_app in Hr as [_ Hp].
    specialize (IH (pre ++ bs) post Hp).
    destruct (visit_from fuel k ((pre ++ bs) ++ post) (length (pre ++ bs))) as [l r].
    apply IH. destruct bs; [congruence|]. cbn [length] in Hf. lia.
  - rewrite D. right; left; reflexivity.
  - rewrite D. right; right; reflexivity.
Qed.

(* ------------------------------------------------- stepping back, safely *)

(** The unit a backwards step stops at: not a continuation unit. *)
Definition stops_back (k : ukind) (u : N) : Prop :=
  match class_of k with
  | Plain => True
  | Multi8 => ~ (128 <= u < 192)
  | Multi16 => ~ (0xDC00 <= u <= 0xDFFF)
  end.

Lemma nth_error_firstn : forall (s : list N) n i, (i < n)%nat ->
  nth_error (firstn n s) i = nth_error s i.
Proof.
  induction s as [|x s IH]; intros n i H; destruct n; try lia; cbn [firstn].
  - reflexivity.
  - destruct i; [reflexivity|]. cbn [nth_error]. apply IH. lia.
Qed.

Lemma retreat8_loop_safe : forall s u i,
  (i < length s)%nat -> nth_error s i = Some u ->
  (exists j v, (j <= i)%nat /\ nth_error s j = Some v /\ is_trailing_byte v = false) ->
  exists j, (j <= i)%nat /\ retreat8_loop s u i = (j, Ok tt).
Proof.
  intros s u i; revert u; induction i as [|i IH]; intros u Hi Hu (j & v & Hj & Hv & T).
  - assert (j = O) as -> by lia. rewrite Hu in Hv. inversion Hv; subst.
    exists O. cbn [retreat8_loop]. rewrite T. auto.
  - cbn [retreat8_loop]. destruct (is_trailing_byte u) eqn:Tu; [|eauto].
    assert (j <> S i) by (intro; subst; rewrite Hu in Hv; inversion Hv; subst; congruence).
    destruct (nth_error s i) as [u'|] eqn:Eu.
    2:{ apply nth_error_None in Eu. lia. }
    destruct (IH u' ltac:(lia) eq_refl) as (j' & Hj' & R).
    { exists j, v. repeat split; auto. lia. }
    exists j'. split; [lia|assumption].
Qed.

Lemma retreat8_loop_ub : forall s u i,
  is_trailing_byte u = true -> (i < length s)%nat ->
  (forall j v, (j < i)%nat -> nth_error s j = Some v -> is_trailing_byte v = true) ->
  retreat8_loop s u i = (O, UB PointerArithmetic).
Proof.
  intros s u i; revert u; induction i as [|i IH]; intros u Tu Hi Hall; cbn [retreat8_loop]; rewrite Tu.
  - reflexivity.
  - destruct (nth_error s i) as [u'|] eqn:Eu.
    2:{ apply nth_error_None in Eu. lia. }
    apply IH; [apply (Hall i u'); auto | lia | intros j v Hj Hv; apply (Hall j v); auto].
Qed.

(** operator-- on UTF-8: exactly when it is defined. *)
Lemma retreat8_exact : forall s i, (0 < i <= length s)%nat ->
  ((exists j, (j < i)%nat /\ retreat8 s i = (j, Ok tt)) <->
   Exists (fun u => ~ (128 <= u < 192)) (firstn i s)) /\
  (Forall (fun u => 128 <= u < 192) (firstn i s) ->
     retreat8 s i = (O, UB PointerArithmetic)).
Proof.
  intros s i Hi. destruct i as [|i]; [lia|]. unfold retreat8. cbn [ptr_dec then_].
  destruct (nth_error s i) as [u|] eqn:Eu.
  2:{ apply nth_error_None in Eu. lia. }
  assert (Hub : Forall (fun u => 128 <= u < 192) (firstn (S i) s) ->
     (if is_standalone_byte u then (i, Ok tt) else retreat8_loop s u i)
     = (O, UB PointerArithmetic)).
  { intro F. rewrite Forall_forall in F.
    assert (Hall : forall j v, (j < S i)%nat -> nth_error s j = Some v -> is_trailing_byte v = true).
    { intros j v Hj Hv. apply trailing_iff, F.
      apply nth_error_In with (n := j). rewrite nth_error_firstn by assumption.
      assumption. }
    assert (Tu : is_trailing_byte u = true) by (apply (Hall i u); auto).
    rewrite standalone_ge by (apply trailing_iff in Tu; lia).
    apply retreat8_loop_ub; [assumption|lia|].
    intros j v Hj. apply Hall. lia. }
  split; [|exact Hub]. split.
  - intros (j & Hj & R).
    destruct (Exists_dec (fun u => ~ (128 <= u < 192)) (firstn (S i) s)) as [E|E]; auto.
    { intro x. destruct (is_trailing_byte x) eqn:T.
      - right. apply trailing_iff in T. tauto.
      - left. now apply trailing_false_iff. }
    exfalso. rewrite Hub in R; [discriminate|].
    apply Forall_forall. intros x Hx.
    destruct (is_trailing_byte x) eqn:T; [now apply trailing_iff|].
    exfalso. apply E. apply Exists_exists. exists x. split; auto. now apply trailing_false_iff.
  - intro E. destruct (is_standalone_byte u) eqn:Su.
    + exists i. split; [lia|reflexivity].
    + destruct (retreat8_loop_safe s u i ltac:(lia) Eu) as (j & Hj & R).
      { apply Exists_exists in E as (x & Hx & T).
        apply In_nth_error in Hx as [j Hj].
        assert (j < length (firstn (S i) s))%nat by (apply nth_error_Some; congruence).
        rewrite firstn_length in *.
        rewrite nth_error_firstn in Hj by lia.
        exists j, x. repeat split; [lia|assumption|]. now apply trailing_false_iff. }
      exists j. split; [lia|assumption].
Qed.

Lemma retreat_safe : forall k s i, Forall (unit_range k) s ->
  (0 < i <= length s)%nat -> (forall u, hd_error s = Some u -> stops_back k u) ->
  exists j, (j < i)%nat /\ retreat k s i = (j, Ok tt).
Proof.
  intros k s i Hr Hi Hh. unfold retreat.
  destruct s as [|h s]; [cbn in Hi; lia|].
  specialize (Hh h eq_refl). unfold stops_back in Hh.
  destruct (class_of k) eqn:C.
  - destruct i; [lia|]. exists i. split; [lia|reflexivity].
  - apply (retreat8_exact (h :: s) i Hi). destruct i; [lia|]. cbn [firstn]. now left.
  - destruct i as [|i]; [lia|]. unfold retreat16. cbn [ptr_dec then_].
    destruct (nth_error (h :: s) i) as [u|] eqn:Eu.
    2:{ apply nth_error_None in Eu. lia. }
    destruct (is_trailing_surrogate u) eqn:T.
    + destruct i as [|i].
      * cbn in Eu. inversion Eu; subst. exfalso.
        assert (u < 0x10000).
        { inversion Hr; subst. destruct k; cbn in *; try discriminate; assumption. }
        apply trailing_surrogate_iff in T; [|assumption]. lia.
      * exists i. split; [lia|reflexivity].
    + exists i. split; [lia|reflexivity].
Qed.

Lemma deref_safe_at : forall k s j, Forall (unit_range k) s -> (j < length s)%nat ->
  (exists c, deref k s j = Ok c) \/
  deref k s j = Throw InvalidUnicodeEncoding \/ deref k s j = Throw IteratedPastEnd.
Proof.
  intros k s j Hr Hj.
  pose proof (step_deref_safe k (firstn j s) (skipn j s)) as P.
  rewrite firstn_skipn, firstn_length, Nat.min_l in P by lia.
  apply P.
  - intro E. apply (f_equal (@length N)) in E. rewrite skipn_length in E. cbn in E. lia.
  - apply Forall_forall. intros x Hx. rewrite Forall_forall in Hr. apply Hr.
    rewrite <- (firstn_skipn j s). apply in_or_app. now right.
Qed.

Lemma rvisit_from_safe : forall k s, Forall (unit_range k) s ->
  (forall u, hd_error s = Some u -> stops_back k u) ->
  forall fuel i, (i <= length s)%nat -> (i < fuel)%nat ->
  iteration_end (snd (rvisit_from fuel k s i)).
Proof.
  intros k s Hr Hh fuel; induction fuel as [|fuel IH]; intros i Hi Hf; [lia|].
  cbn [rvisit_from]. destruct (Nat.eqb_spec i 0); [now left|].
  destruct (retreat_safe k s i Hr ltac:(lia) Hh) as (j & Hj & R).
  unfold rderef. rewrite R.
  destruct (deref_safe_at k s j Hr ltac:(lia)) as [[c D]|[D|D]]; rewrite D.
  - specialize (IH j ltac:(lia) ltac:(lia)).
    destruct (rvisit_from fuel k s j) as [l r]. exact IH.
  - right; left; reflexivity.
  - right; right; reflexivity.
Qed.

(** UTF-16: a backwards step is undefined exactly at index 1 behind a trailing
    surrogate. *)
Lemma retreat16_exact : forall s i, Forall (fun u => u < 0x10000) s -> (0 < i <= length s)%nat ->
  (exists j, (j < i)%nat /\ retreat16 s i = (j, Ok tt)) <->
  ~ (i = 1%nat /\ exists u t, s = u :: t /\ 0xDC00 <= u <= 0xDFFF).
Proof.
  intros s i Hr Hi. destruct i as [|i]; [lia|]. unfold retreat16. cbn [ptr_dec then_].
  destruct (nth_error s i) as [u|] eqn:Eu.
  2:{ apply nth_error_None in Eu. lia. }
  assert (Hu : u < 0x10000).
  { rewrite Forall_forall in Hr. apply Hr. eapply nth_error_In; eauto. }
  split.
  - intros (j & Hj & R) (E & v & t & Es & Hv). assert (i = O) as -> by lia. subst s.
    cbn in Eu. inversion Eu; subst. rewrite (proj2 (trailing_surrogate_iff u Hu)) in R by lia.
    discriminate.
  - intro H. destruct (is_trailing_surrogate u) eqn:T.
    + apply trailing_surrogate_iff in T; [|assumption].
      destruct i as [|i].
      * exfalso. apply H. split; [reflexivity|]. destruct s as [|v t]; [discriminate|].
        cbn in Eu. inversion Eu; subst. eauto.
      * exists i. split; [lia|reflexivity].
    + exists i. split; [lia|reflexivity].
Qed.

(* ------------------------------- starts_with / ends_with on loose texts *)

Lemma at_loose : forall k pre bs c post, class_of k <> Multi16 ->
  loose (encoding_of k) bs c -> Forall (unit_range k) (bs ++ post) ->
  deref k (pre ++ bs ++ post) (length pre) = Ok (widen k c) /\
  advance k (pre ++ bs ++ post) (length pre) = (length (pre ++ bs), Ok tt).
Proof.
  intros k pre bs c post Hk L Hr.
  destruct (step k pre (bs ++ post)) as [(bs' & c' & p' & E & L' & D & A & _)|(Hno & _)]; auto.
  - intro E. apply app_eq_nil in E. destruct E as [E _]. now apply (loose_nonempty _ _ _ L).
  - destruct (loose_det _ _ _ _ _ _ _ L L' E) as [<- <-].
    assert (Sc : single_unit k c) by (destruct k; cbn in *; auto; congruence).
    rewrite app_length. auto.
  - exfalso. exact (Hno _ _ _ eq_refl L).
Qed.

Lemma loose_text_length : forall e s l, loose_text e s l -> (length l <= length s)%nat.
Proof.
  intros e s l H; induction H; cbn [length]; [lia|].
  rewrite app_length. pose proof (loose_nonempty _ _ _ H). destruct bs; [congruence|]. cbn; lia.
Qed.

Lemma loose_ne : forall e bs c (pre s : list N), loose e bs c ->
  Nat.eqb (length pre) (length (pre ++ bs ++ s)) = false.
Proof.
  intros. rewrite len_mid0. pose proof (loose_nonempty _ _ _ H). destruct bs; [congruence|reflexivity].
Qed.

Lemma starts_with_from_loose : forall k1 k2 s l, class_of k1 <> Multi16 -> class_of k2 <> Multi16 ->
  loose_text (encoding_of k1) s l ->
  forall t m pre1 pre2 fuel, loose_text (encoding_of k2) t m ->
  Forall (unit_range k1) s -> Forall (unit_range k2) t -> (length l < fuel)%nat ->
  starts_with_from fuel k1 (pre1 ++ s) k2 (pre2 ++ t) (length pre1) (length pre2)
  = Ok (is_prefix (map (widen k2) m) (map (widen k1) l)).
Proof.
  intros k1 k2 s l H1 H2 LT; induction LT as [|bs c s l L LT IH];
    intros t m pre1 pre2 fuel LT2 R1 R2 Hf;
    (destruct fuel; [cbn in Hf; lia|]); cbn [starts_with_from].
  - destruct LT2 as [|bs2 d t m L2 LT2].
    + rewrite len_mid0. reflexivity.
    + rewrite (loose_ne _ _ _ _ _ L2), len_mid0. reflexivity.
  - destruct LT2 as [|bs2 d t m L2 LT2].
    + rewrite len_mid0. reflexivity.
    + rewrite (loose_ne _ _ _ _ _ L2), (loose_ne _ _ _ _ _ L).
      destruct (at_loose k1 pre1 bs c s H1 L R1) as [D1 A1].
      destruct (at_loose k2 pre2 bs2 d t H2 L2 R2) as [D2 A2].
      unfold post_inc. rewrite D1, A1, D2, A2. cbn [bind].
      apply Forall_app in R1 as [_ R1]. apply Forall_app in R2 as [_ R2].
      rewrite !app_assoc. rewrite (IH t m) by (auto; cbn in Hf; lia).
      cbn [map is_prefix]. now destruct (widen k1 c =? widen k2 d).
Qed.

Lemma starts_with_loose : forall k1 k2 s l t m, class_of k1 <> Multi16 -> class_of k2 <> Multi16 ->
  loose_text (encoding_of k1) s l -> loose_text (encoding_of k2) t m ->
  Forall (unit_range k1) s -> Forall (unit_range k2) t ->
  starts_with k1 s k2 t = Ok (is_prefix (map (widen k2) m) (map (widen k1) l)).
Proof.
  intros k1 k2 s l t m H1 H2 L1 L2 R1 R2. unfold starts_with.
  pose proof (starts_with_from_loose k1 k2 s l H1 H2 L1 t m [] [] (S (length s)) L2 R1 R2) as P.
  cbn [app length] in P. rewrite P; [reflexivity|].
  apply loose_text_length in L1. lia.
Qed.

(** plain strings are loose texts *)
Lemma plain_loose_text : forall k s, class_of k = Plain -> loose_text (encoding_of k) s s.
Proof.
  intros k s H.
  assert (encoding_of k = UTF32) as -> by (destruct k; cbn in H; try discriminate; reflexivity).
  induction s as [|u s IH]; [constructor|].
  change (u :: s) with ([u] ++ s) at 1. constructor; auto. constructor.
Qed.
