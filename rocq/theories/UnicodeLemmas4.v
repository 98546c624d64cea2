(** Pieces used by UnicodeProps. *)
From Coq Require Import NArith ZArith List Bool Lia ZifyBool ZifyNat ZifyN.
From Verif Require Import Base UnicodeSpec UnicodeModel UnicodeText.
From Verif Require Import UnicodeLemmas UnicodeLemmas2 UnicodeLemmas3.
Import ListNotations.
Open Scope N_scope.
Ltac Zify.zify_post_hook ::= Z.div_mod_to_equations.

Lemma visit16_first_pair : forall a c b, Forall scalar (a ++ c :: b) -> Forall bmp a ->
  0x10000 <= c ->
  visit K16 (encode UTF16 (a ++ c :: b)) = (a ++ [c], Throw InvalidUnicodeEncoding).
Proof.
  intros a c b H Ba Hc. unfold visit.
  pose proof (units_range K16 (a ++ c :: b) H) as R.
  assert (Ea : encode UTF16 a = a).
  { clear - Ba. induction Ba; cbn; [reflexivity|]. unfold utf16_of.
    rewrite ltb_t by assumption. cbn [app]. f_equal. exact IHBa. }
  apply Forall_app in H as [Ha H]. inversion H as [|? ? Sc Hb]; subst.
  unfold units, encoding_of in R.
  assert (Es : encode UTF16 (a ++ c :: b) = a ++ utf16_of c ++ encode UTF16 b).
  { unfold encode in *. rewrite flat_map_app, Ea. reflexivity. }
  rewrite Es in *.
  pose proof (visit16_arbitrary K16 [] a (utf16_of c ++ encode UTF16 b)
    (S (length (a ++ utf16_of c ++ encode UTF16 b))) eq_refl R) as P.
  cbn [app length] in P. rewrite P; clear P; [| |lia].
  2:{ rewrite Forall_forall in *. intros x Hx. specialize (Ha x Hx). unfold scalar, surrogate in *. lia. }
  replace (S (length (a ++ utf16_of c ++ encode UTF16 b)) - length a)%nat
    with (S (length (utf16_of c ++ encode UTF16 b))) by (rewrite !app_length; lia).
  assert (Rb : Forall (unit_range K16) (encode UTF16 b)) by (apply (units_range K16); assumption).
  destruct (at_boundary K16 a c (encode UTF16 b) Sc Rb) as (D & _ & A).
  cbn [encoding_of encode1] in D, A.
  specialize (A ltac:(cbn [single_unit]; unfold bmp; lia)).
  cbn [visit_from].
  rewrite len_mid0.
  assert (Eu : utf16_of c = [0xD800 + (c - 0x10000) / 1024; 0xDC00 + (c - 0x10000) mod 1024]).
  { unfold utf16_of. now rewrite ltb_f by assumption. }
  rewrite D, A. rewrite Eu in *.
  set (hi := 0xD800 + (c - 0x10000) / 1024) in *. set (lo := 0xDC00 + (c - 0x10000) mod 1024) in *.
  cbn [app length Nat.eqb].
  replace (length a + 1)%nat with (length (a ++ [hi])) by (rewrite app_length; reflexivity).
  change (hi :: lo :: encode UTF16 b) with ([hi] ++ lo :: encode UTF16 b).
  rewrite app_assoc.
  rewrite visit16_lone_trail; [reflexivity|reflexivity| |].
  - unfold lo. lia.
  - apply Forall_app in R as [_ R]. cbn [app] in R. now inversion R.
Qed.

Lemma utf16_single_steps : forall a c b, Forall scalar (a ++ c :: b) ->
  retreat K16 (encode UTF16 (a ++ c :: b)) (length (encode UTF16 (a ++ [c])))
    = (length (encode UTF16 a), Ok tt) /\
  (advance K16 (encode UTF16 (a ++ c :: b)) (length (encode UTF16 a))
     = (length (encode UTF16 (a ++ [c])), Ok tt) <-> bmp c).
Proof.
  intros a c b H. apply Forall_app in H as [Ha H]. inversion H as [|? ? Sc Hb]; subst.
  assert (E1 : encode UTF16 (a ++ c :: b) = encode UTF16 a ++ utf16_of c ++ encode UTF16 b)
    by (rewrite encode_app; reflexivity).
  assert (E2 : encode UTF16 (a ++ [c]) = encode UTF16 a ++ utf16_of c)
    by (rewrite encode_app; cbn [encode flat_map encode1]; now rewrite (app_nil_r (utf16_of c))).
  rewrite E1, E2. split.
  - exact (retreat_boundary K16 (encode UTF16 a) c (encode UTF16 b) Sc).
  - destruct (at_boundary K16 (encode UTF16 a) c (encode UTF16 b) Sc) as (_ & A & A').
    { apply (units_range K16); assumption. }
    cbn [encoding_of encode1 single_unit] in A, A'. split; [|exact A].
    intro E. destruct (N.lt_ge_cases c 0x10000) as [L|G]; [exact L|exfalso].
    rewrite A' in E by (unfold bmp; lia). apply pair_equal_spec in E as [E _].
    rewrite app_length in E. unfold utf16_of in E. rewrite ltb_f in E by assumption.
    cbn [length] in E. lia.
Qed.

Lemma validate16_exact : forall k s,
  encoding_of k = UTF16 -> Forall (fun u => u < 0x10000) s ->
  (validate_string k s = Ok (length s) <-> Forall (fun u => ~ (0xD800 <= u <= 0xDFFF)) s).
Proof.
  intros k s E H.
  assert (C : class_of k = Multi16) by (destruct k; cbn in *; congruence).
  assert (R : Forall (unit_range k) s) by (destruct k; cbn in *; try discriminate; exact H).
  destruct (validate16_from k (S (length s)) [] s C R ltac:(lia)) as (i & V & B & X).
  cbn [app length] in V, B, X. unfold validate_string. rewrite V. cbn [noexcept].
  change (Forall (fun u => ~ (0xD800 <= u <= 0xDFFF)) s) with (Forall (fun u => ~ surrogate u) s).
  rewrite <- X. split; [intro Q; now inversion Q|intros ->; reflexivity].
Qed.

Lemma validate_exact : forall k s,
  encoding_of k <> UTF16 -> Forall (unit_range k) s ->
  (exists s1 s2 l, s = s1 ++ s2 /\ loose_text (encoding_of k) s1 l /\
     Forall (fun c => widen k c <= 0x10FFFF) l /\
     validate_string k s = Ok (length s1) /\
     (s2 = [] \/ s2 <> [] /\ forall bs c post, s2 = bs ++ post ->
        loose (encoding_of k) bs c -> 0x10FFFF < widen k c)) /\
  (forall l, Forall (holds k) l -> s = units k l -> validate_string k s = Ok (length s)).
Proof.
  intros k s E R.
  assert (C : class_of k <> Multi16) by (destruct k; cbn in *; congruence).
  destruct (validate_from_spec k (S (length s)) [] s C R ltac:(lia))
    as (s1 & s2 & l & E1 & L & F & V & T).
  cbn [app length] in V. unfold validate_string. rewrite V. cbn [noexcept].
  split; [exists s1, s2, l; auto 10|].
  intros m Hm Es. destruct T as [-> |[Hne T]]; [rewrite app_nil_r in E1; now subst|exfalso].
  assert (LT : forall m s1 l s2, Forall (holds k) m -> loose_text (encoding_of k) s1 l ->
     units k m = s1 ++ s2 -> exists m', s2 = units k m' /\ Forall (holds k) m').
  { clear. induction m as [|c m IH]; intros s1 l s2 Hm L Eq.
    - destruct L as [|bs v s1 l Lb L].
      + exists []. split; [|constructor]. exact (eq_sym Eq).
      + cbn in Eq. symmetry in Eq. apply app_eq_nil in Eq as [Eq _].
        apply app_eq_nil in Eq as [Eq _]. now apply (loose_nonempty _ _ _ Lb) in Eq.
    - destruct L as [|bs v s1 l Lb L].
      + exists (c :: m). split; [exact (eq_sym Eq)|assumption].
      + inversion Hm as [|? ? Hc Hm']; subst.
        change (units k (c :: m)) with (encode1 (encoding_of k) c ++ units k m) in Eq.
        rewrite <- app_assoc in Eq.
        destruct (loose_det _ _ _ _ _ _ _ (holds_loose k c Hc) Lb Eq) as [Eb _].
        rewrite Eb in Eq. apply app_inv_head in Eq. eapply IH; eauto. }
  destruct (LT m s1 l s2 Hm L) as (m' & -> & Hm'); [congruence|].
  destruct m' as [|c m']; [now apply Hne|].
  inversion Hm' as [|? ? Hc _]; subst.
  specialize (T _ c _ eq_refl (holds_loose k c Hc)).
  rewrite holds_widen in T by assumption.
  destruct k as [[]| | | | |]; cbn [holds] in Hc; try lia; destruct Hc; lia.
Qed.

Lemma validate_total : forall k s, Forall (unit_range k) s ->
  exists i, validate_string k s = Ok i /\ (i <= length s)%nat.
Proof.
  intros k s R. destruct (encoding_of k) eqn:E.
  - destruct (validate_exact k s ltac:(congruence) R) as [(s1 & s2 & l & -> & _ & _ & V & _) _].
    exists (length s1). rewrite app_length. split; [assumption|lia].
  - assert (C : class_of k = Multi16) by (destruct k; cbn in *; congruence).
    destruct (validate16_from k (S (length s)) [] s C R ltac:(lia)) as (i & V & B & _).
    cbn [app length] in *. exists i. unfold validate_string. rewrite V. split; [reflexivity|lia].
  - destruct (validate_exact k s ltac:(congruence) R) as [(s1 & s2 & l & -> & _ & _ & V & _) _].
    exists (length s1). rewrite app_length. split; [assumption|lia].
Qed.

Lemma not_well_formed_overlong : ~ well_formed UTF8 [0xC0; 0x80].
Proof.
  intros (l & H & E). destruct l as [|c l]; [discriminate|].
  cbn [encode flat_map encode1] in E. inversion H as [|? ? [Hc Hc'] _]; subst.
  unfold utf8_of in E.
  destruct (c <? 0x80) eqn:E1; cbn [app] in E; [cons_eqs; lia|].
  destruct (c <? 0x800) eqn:E2; cbn [app] in E; [cons_eqs; lia|].
  destruct (c <? 0x10000) eqn:E3; cbn [app] in E; cons_eqs; lia.
Qed.

Lemma starts_with_total : forall k1 k2 s t,
  encoding_of k1 <> UTF16 -> encoding_of k2 <> UTF16 ->
  Forall (unit_range k1) s -> Forall (unit_range k2) t ->
  (encoding_of k1 = UTF8 -> exists l, loose_text UTF8 s l) ->
  (encoding_of k2 = UTF8 -> exists m, loose_text UTF8 t m) ->
  exists b, starts_with k1 s k2 t = Ok b.
Proof.
  intros k1 k2 s t E1 E2 R1 R2 L1 L2.
  assert (X : forall k s, encoding_of k <> UTF16 ->
            (encoding_of k = UTF8 -> exists l, loose_text UTF8 s l) ->
            class_of k <> Multi16 /\ exists l, loose_text (encoding_of k) s l).
  { clear. intros k s E L. split; [destruct k; cbn in *; congruence|].
    destruct (class_of k) eqn:C.
    - exists s. now apply plain_loose_text.
    - destruct k; cbn in *; try discriminate. now apply L.
    - destruct k; cbn in *; congruence. }
  destruct (X k1 s E1 L1) as [C1 [l Hl]]. destruct (X k2 t E2 L2) as [C2 [m Hm]].
  eexists. eapply starts_with_loose; eauto.
Qed.
