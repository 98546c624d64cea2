(** Properties C01-C16: Unicode text.  Statements only use the independent
    specification (UnicodeSpec), the correspondence of string kinds with encoding
    forms (UnicodeText) and the modelled API (UnicodeModel). *)
From Coq Require Import NArith ZArith List Bool Lia ZifyBool ZifyNat ZifyN.
From Verif Require Import Base UnicodeSpec UnicodeModel UnicodeText.
From Verif Require Import UnicodeLemmas UnicodeLemmas2 UnicodeLemmas3 UnicodeLemmas4.
Import ListNotations.
Open Scope N_scope.
Ltac Zify.zify_post_hook ::= Z.div_mod_to_equations.

(** The specification agrees with table 3-7 of the standard. *)
Theorem spec_utf8_is_table_3_7 : forall bs,
  table_3_7 bs <-> exists c, scalar c /\ bs = utf8_of c.
Proof.
  intro bs; split; [exact (table_3_7_only bs)|].
  intros (c & H & ->); exact (table_3_7_utf8_of c H).
Qed.
Print Assumptions spec_utf8_is_table_3_7.

(* ------------------------------------------------------------------- C01 *)

(** The English property is false: U+1D800 (SUTTON SIGNWRITING HAND-FIST INDEX)
    is a scalar value that append_code_point refuses. *)
Theorem C01_utf8_insert_refuted :
  ~ (forall s c, scalar c -> append_code_point K8 s c = (s ++ utf8_of c, Ok tt)).
Proof.
  intro H. specialize (H [] 0x1D800 ltac:(unfold scalar; lia)). discriminate H.
Qed.
Print Assumptions C01_utf8_insert_refuted.

(** What is missing from C01 is exactly the scalar values whose low 16 bits lie
    in the surrogate range. *)
Theorem C01_utf8_insert_partial : forall s c i,
  scalar c -> ~ (0xD800 <= c mod 0x10000 <= 0xDFFF) -> (i <= length s)%nat ->
  insert_code_point K8 s c i = (firstn i s ++ utf8_of c ++ skipn i s, Ok tt) /\
  append_code_point K8 s c = (s ++ utf8_of c, Ok tt) /\
  prepend_code_point K8 s c = (utf8_of c ++ s, Ok tt).
Proof.
  intros s c i H H' Hi.
  assert (I : insertable K8 c) by (split; auto).
  exact (conj (insert_ok K8 s c i I Hi) (conj (append_ok K8 s c I) (prepend_ok K8 s c I))).
Qed.
Print Assumptions C01_utf8_insert_partial.
Example C01_utf8_insert_example :
  scalar 0x20AC /\ ~ (0xD800 <= 0x20AC mod 0x10000 <= 0xDFFF) /\
  insert_code_point K8 [65; 66] 0x20AC 1 = ([65; 0xE2; 0x82; 0xAC; 66], Ok tt).
Proof. unfold scalar. split; [lia|]. split; [vm_compute; intuition discriminate|reflexivity]. Qed.

Theorem C01_utf8_refuses_non_scalars : forall s c i,
  ~ scalar c -> insert_code_point K8 s c i = (s, Throw InvalidCodePoint).
Proof. intros s c i H. exact (insert8_invalid s c i (not_scalar_invalid c H)). Qed.
Print Assumptions C01_utf8_refuses_non_scalars.
Example C01_utf8_refuses_example : ~ scalar 0xDFFF /\ ~ scalar 0x110000.
Proof. unfold scalar; lia. Qed.

(** Exactly which code points are accepted. *)
Theorem C01_utf8_accepts_exactly : forall s c i, (i <= length s)%nat ->
  (snd (insert_code_point K8 s c i) = Ok tt <->
   scalar c /\ ~ (0xD800 <= c mod 0x10000 <= 0xDFFF)).
Proof.
  intros s c i Hi. rewrite <- valid_exact.
  destruct (is_code_point_valid c) eqn:V.
  - rewrite insert8_valid by assumption. split; reflexivity.
  - rewrite insert8_invalid by assumption. split; discriminate.
Qed.
Print Assumptions C01_utf8_accepts_exactly.

(* ------------------------------------------------------------------- C02 *)

Theorem C02_utf16_utf32_insert : forall k s c i,
  k = K16 \/ k = KW2 \/ k = K32 \/ k = KW4 -> scalar c -> (i <= length s)%nat ->
  insert_code_point k s c i
    = (firstn i s ++ encode1 (encoding_of k) c ++ skipn i s, Ok tt) /\
  append_code_point k s c = (s ++ encode1 (encoding_of k) c, Ok tt) /\
  prepend_code_point k s c = (encode1 (encoding_of k) c ++ s, Ok tt).
Proof.
  intros k s c i Hk H Hi.
  assert (I : insertable k c).
  { destruct Hk as [-> | [-> | [-> | ->]]]; (split; [assumption|discriminate]). }
  exact (conj (insert_ok k s c i I Hi) (conj (append_ok k s c I) (prepend_ok k s c I))).
Qed.
Print Assumptions C02_utf16_utf32_insert.
Example C02_example :
  scalar 0x1D800 /\
  insert_code_point K16 [65; 66] 0x1D800 1 = ([65; 0xD836; 0xDC00; 66], Ok tt) /\
  insert_code_point K32 [65; 66] 0x1D800 1 = ([65; 0x1D800; 66], Ok tt).
Proof. unfold scalar. split; [lia|split; reflexivity]. Qed.

(* ------------------------------------------------------------------- C03 *)

(** Whatever the kind, code point and index: either nothing changes and an
    exception says why, or units appear at the index and the rest is kept. *)
Theorem C03_insert_preserves_text : forall k s c i,
  let '(s', r) := insert_code_point k s c i in
  ((length s < i)%nat -> s' = s /\
      (r = Throw OutOfRange \/ k = K8 /\ r = Throw InvalidCodePoint)) /\
  ((i <= length s)%nat ->
      (exists us, us <> [] /\ s' = firstn i s ++ us ++ skipn i s /\ r = Ok tt) \/
      (k = K8 /\ s' = s /\ r = Throw InvalidCodePoint)).
Proof.
  intros k s c i. destruct (insert_code_point k s c i) as [s' r] eqn:E.
  destruct (insert_preserves k s c i s' r E)
    as [(-> & [(-> & H)|(-> & -> & V)])|(-> & H & us & Hu & ->)].
  - split; [auto|intro; lia].
  - split; auto.
  - split; [intro; lia|]. intros _. left. eauto.
Qed.
Print Assumptions C03_insert_preserves_text.
Example C03_example :
  insert_code_point K8 [1; 2; 3] 0x10FFFF 2 = ([1; 2; 0xF4; 0x8F; 0xBF; 0xBF; 3], Ok tt) /\
  insert_code_point K16 [1; 2; 3] 65 4 = ([1; 2; 3], Throw OutOfRange).
Proof. split; reflexivity. Qed.

(* ------------------------------------------------------------------- C04 *)

Theorem C04_validity_refuted :
  ~ (forall c, is_code_point_valid c = true <-> scalar c).
Proof.
  intro H. assert (S : scalar 0x1D800) by (unfold scalar; lia).
  apply H in S. discriminate S.
Qed.
Print Assumptions C04_validity_refuted.

(** Exactly what the test computes: it wrongly refuses the scalar values whose
    low 16 bits lie in the surrogate range, and only those. *)
Theorem C04_validity_partial : forall c,
  is_code_point_valid c = true <-> scalar c /\ ~ (0xD800 <= c mod 0x10000 <= 0xDFFF).
Proof. exact valid_exact. Qed.
Print Assumptions C04_validity_partial.
Example C04_example : is_code_point_valid 0x1F600 = true /\ is_code_point_valid 0xDABC = false.
Proof. split; reflexivity. Qed.

(* ------------------------------------------------------------------- C05 *)

Theorem C05_classification :
  (forall u, (is_standalone_byte u = true <-> u <= 0x7F) /\
             (is_trailing_byte u = true <-> 0x80 <= u <= 0xBF) /\
             (is_leading_byte u = true <-> 0xC0 <= u <= 0xF7)) /\
  (forall u, u <= 0xFFFF ->
     (is_leading_surrogate u = true <-> 0xD800 <= u <= 0xDBFF) /\
     (is_trailing_surrogate u = true <-> 0xDC00 <= u <= 0xDFFF) /\
     (is_surrogate u = true <-> 0xD800 <= u <= 0xDFFF)) /\
  (forall c, is_whitespace c = true <-> white_space c).
Proof.
  split; [|split; [|exact whitespace_iff]].
  - intro u. rewrite trailing_iff, leading_iff.
    unfold is_standalone_byte, fits_in_7_bits. lia.
  - intros u H. rewrite leading_surrogate_iff, trailing_surrogate_iff, surrogate_iff by lia.
    lia.
Qed.
Print Assumptions C05_classification.
Example C05_example : is_leading_byte 0xF4 = true /\ is_leading_byte 0xF8 = false /\
  is_whitespace 0x2005 = true /\ is_whitespace 0x200B = false.
Proof. repeat split; reflexivity. Qed.

(* ------------------------------------------------------------------- C06 *)

Theorem C06_iterate_utf8 : forall l,
  Forall scalar l -> visit K8 (encode UTF8 l) = (l, Ok tt).
Proof. intros l H. refine (visit_ok K8 l H _). now apply Forall_forall. Qed.
Print Assumptions C06_iterate_utf8.
Example C06_example :
  Forall scalar [0x41; 0xE9; 0x20AC; 0x1D800] /\
  encode UTF8 [0x41; 0xE9; 0x20AC; 0x1D800]
  = [0x41; 0xC3; 0xA9; 0xE2; 0x82; 0xAC; 0xF0; 0x9D; 0xA0; 0x80].
Proof. split; [repeat constructor; unfold scalar; lia|reflexivity]. Qed.

(** Same for the kinds with one unit per code point. *)
Theorem C06_iterate_plain : forall k l,
  k = K32 \/ k = KW4 -> Forall scalar l -> visit k (encode UTF32 l) = (l, Ok tt).
Proof.
  intros k l [-> | ->] H;
    [refine (visit_ok K32 l H _)|refine (visit_ok KW4 l H _)]; now apply Forall_forall.
Qed.
Print Assumptions C06_iterate_plain.

(* ------------------------------------------------------------------- C07 *)

(** Iterating "U+1F600" in UTF-16 visits it and then throws. *)
Theorem C07_iterate_utf16_refuted :
  ~ (forall l, Forall scalar l -> visit K16 (encode UTF16 l) = (l, Ok tt)).
Proof.
  intro H. specialize (H [0x1F600]).
  assert (K : Forall scalar [0x1F600]) by (repeat constructor; unfold scalar; lia).
  specialize (H K). discriminate H.
Qed.
Print Assumptions C07_iterate_utf16_refuted.

(** Exactly: text of the Basic Multilingual Plane is iterated correctly; at the
    first supplementary code point the loop visits it and then throws
    invalid_unicode_encoding. *)
Theorem C07_iterate_utf16_partial : forall l, Forall scalar l ->
  (Forall bmp l -> visit K16 (encode UTF16 l) = (l, Ok tt)) /\
  (forall a c b, l = a ++ c :: b -> Forall bmp a -> 0x10000 <= c ->
     visit K16 (encode UTF16 l) = (a ++ [c], Throw InvalidUnicodeEncoding)).
Proof.
  intros l H. split.
  - intro B. exact (visit_ok K16 l H B).
  - intros a c b -> Ba Hc. exact (visit16_first_pair a c b H Ba Hc).
Qed.
Print Assumptions C07_iterate_utf16_partial.
Example C07_example :
  visit K16 (encode UTF16 [0x41; 0x20AC]) = ([0x41; 0x20AC], Ok tt) /\
  visit K16 (encode UTF16 [0x41; 0x1F600; 0x42])
    = ([0x41; 0x1F600], Throw InvalidUnicodeEncoding).
Proof. split; reflexivity. Qed.

(* ------------------------------------------------------------------- C08 *)

Theorem C08_reverse_iteration : forall k l,
  Forall (holds k) l -> rvisit k (encode (encoding_of k) l) = (rev l, Ok tt).
Proof. exact rvisit_ok. Qed.
Print Assumptions C08_reverse_iteration.
Example C08_example :
  Forall (holds K16) [0x41; 0x1F600] /\ rvisit K16 [0x41; 0xD83D; 0xDE00] = ([0x1F600; 0x41], Ok tt).
Proof. split; [repeat constructor; cbn; unfold scalar; lia|reflexivity]. Qed.

(* ------------------------------------------------------------------- C09 *)

(** On UTF-16 text [it -= n] moves forward. *)
Theorem C09_arithmetic_utf16_refuted :
  ~ (forall a b c, Forall scalar (a ++ b ++ c) ->
     minus_assign K16 (encode UTF16 (a ++ b ++ c)) (Z.of_nat (length b))
       (length (encode UTF16 (a ++ b))) = (length (encode UTF16 a), Ok tt)).
Proof.
  intro H. specialize (H [65] [66] [67]).
  assert (K : Forall scalar ([65] ++ [66] ++ [67])) by (repeat constructor; unfold scalar; lia).
  specialize (H K). discriminate H.
Qed.
Print Assumptions C09_arithmetic_utf16_refuted.

(** On UTF-8 text a negative offset does nothing instead of moving back. *)
Theorem C09_negative_offset_refuted :
  ~ (forall a b c, Forall scalar (a ++ b ++ c) ->
     advance_by K8 (encode UTF8 (a ++ b ++ c)) (- Z.of_nat (length b))
       (length (encode UTF8 (a ++ b))) = (length (encode UTF8 a), Ok tt)).
Proof.
  intro H. specialize (H [65] [66] [67]).
  assert (K : Forall scalar ([65] ++ [66] ++ [67])) by (repeat constructor; unfold scalar; lia).
  specialize (H K). discriminate H.
Qed.
Print Assumptions C09_negative_offset_refuted.

(** [it += n] from the boundary after [a] reaches the boundary after [a ++ b],
    for every kind as long as no UTF-16 surrogate pair is crossed; [it -= n]
    returns, for every kind but UTF-16.  Missing: UTF-16 [-=] and UTF-16 pairs
    (both refuted). *)
Theorem C09_arithmetic_partial : forall k a b c,
  Forall (holds k) (a ++ b ++ c) ->
  (Forall (single_unit k) b ->
   advance_by k (units k (a ++ b ++ c)) (Z.of_nat (length b)) (length (units k a))
   = (length (units k (a ++ b)), Ok tt) /\
   plus_offset k (units k (a ++ b ++ c)) (Z.of_nat (length b)) (length (units k a))
   = (length (units k (a ++ b)), Ok tt)) /\
  (encoding_of k <> UTF16 ->
   minus_assign k (units k (a ++ b ++ c)) (Z.of_nat (length b)) (length (units k (a ++ b)))
   = (length (units k a), Ok tt)).
Proof.
  intros k a b c H. split.
  - intro S. pose proof (advance_by_ok k a b c H S) as A. split; [exact A|].
    unfold plus_offset. now rewrite A.
  - intro E. apply minus_assign_ok; auto. destruct k; cbn in *; congruence.
Qed.
Print Assumptions C09_arithmetic_partial.
Example C09_example :
  advance_by K8 (encode UTF8 [0x41; 0x20AC; 0x1F600; 0x42]) 2 1 = (8%nat, Ok tt) /\
  minus_assign K8 (encode UTF8 [0x41; 0x20AC; 0x1F600; 0x42]) 2 8 = (1%nat, Ok tt).
Proof. split; reflexivity. Qed.

(** Single steps [++] and [--] on UTF-16: [--] is right everywhere, [++] exactly
    on code points of one unit. *)
Theorem C09_utf16_single_steps : forall a c b, Forall scalar (a ++ c :: b) ->
  retreat K16 (encode UTF16 (a ++ c :: b)) (length (encode UTF16 (a ++ [c])))
    = (length (encode UTF16 a), Ok tt) /\
  (advance K16 (encode UTF16 (a ++ c :: b)) (length (encode UTF16 a))
     = (length (encode UTF16 (a ++ [c])), Ok tt) <-> bmp c).
Proof. exact utf16_single_steps. Qed.
Print Assumptions C09_utf16_single_steps.

(* ------------------------------------------------------------------- C10 *)

(** The range-for loop over any string, of any kind, ends normally or with one of
    the two documented exceptions: no undefined behaviour, no divergence. *)
Theorem C10_iteration_memory_safe : forall k s, Forall (unit_range k) s ->
  snd (visit k s) = Ok tt \/
  snd (visit k s) = Throw InvalidUnicodeEncoding \/
  snd (visit k s) = Throw IteratedPastEnd.
Proof. intros k s H. exact (visit_from_safe k (S (length s)) [] s H (Nat.lt_succ_diag_r _)). Qed.
Print Assumptions C10_iteration_memory_safe.
Example C10_example : Forall (unit_range K8) [0x41; 0xF0; 0x9F] /\
  visit K8 [0x41; 0xF0; 0x9F] = ([0x41], Throw IteratedPastEnd).
Proof. split; [repeat constructor; cbn; lia|reflexivity]. Qed.

(** The number a decoded value is visited as: a char that is signed and negative is the
    value less 256, and its conversion to char32_t adds 2^32. *)
Definition seen (k : ukind) (c : N) : N :=
  match k with KChar true => if c <? 128 then c else c + (2 ^ 32 - 256) | _ => c end.

(** Exactly which code points are visited before the loop ends (kinds other than
    UTF-16): those of the longest decodable prefix, and then
    iterated_past_end if the rest is a truncated sequence, otherwise
    invalid_unicode_encoding. *)
Theorem C10_iteration_exact : forall k s,
  encoding_of k <> UTF16 -> Forall (unit_range k) s ->
  exists s1 s2 l, s = s1 ++ s2 /\ loose_text (encoding_of k) s1 l /\
    fst (visit k s) = map (seen k) l /\
    (s2 = [] /\ snd (visit k s) = Ok tt \/
     s2 <> [] /\ (forall bs c post, s2 = bs ++ post -> ~ loose (encoding_of k) bs c) /\
     ((exists more c, more <> [] /\ loose (encoding_of k) (s2 ++ more) c) /\
        snd (visit k s) = Throw IteratedPastEnd \/
      ~ (exists more c, more <> [] /\ loose (encoding_of k) (s2 ++ more) c) /\
        snd (visit k s) = Throw InvalidUnicodeEncoding)).
Proof.
  intros k s E H.
  destruct (visit_from_loose k (S (length s)) [] s) as (s1 & s2 & l & r & E1 & L & V & T); auto.
  - destruct k; cbn in *; congruence.
  - exists s1, s2, l. unfold visit. cbn [app length] in V. rewrite V. cbn [fst snd].
    split; [assumption|]. split; [assumption|]. split; [reflexivity|].
    destruct T as [T|[[Hne Hno] T]]; [now left|right]. split; [assumption|]. split; assumption.
Qed.
Print Assumptions C10_iteration_exact.

(** Advancing without reading first is not safe: [++it] on a truncated tail
    reads past the end of the string. *)
Theorem C10_increment_without_read_refuted :
  ~ (forall s i, (i < length s)%nat -> Forall (fun u => u < 256) s ->
       snd (advance K8 s i) <> UB OutOfBoundsRead).
Proof.
  intro H. apply (H [0xC3] 0%nat); [cbn; lia|repeat constructor; lia|reflexivity].
Qed.
Print Assumptions C10_increment_without_read_refuted.

(* ------------------------------------------------------------------- C11 *)

Theorem C11_reverse_memory_safe_refuted :
  ~ (forall s, Forall (fun u => u < 256) s -> forall k, snd (rvisit K8 s) <> UB k).
Proof.
  intro H. apply (H [0x80] ltac:(repeat constructor; lia) PointerArithmetic). reflexivity.
Qed.
Print Assumptions C11_reverse_memory_safe_refuted.

(** Reverse iteration is safe for every string that does not begin with a
    continuation unit.  Missing: strings that do. *)
Theorem C11_reverse_memory_safe_partial : forall k s, Forall (unit_range k) s ->
  (forall u t, s = u :: t ->
     match encoding_of k with
     | UTF8 => ~ (0x80 <= u <= 0xBF)
     | UTF16 => ~ (0xDC00 <= u <= 0xDFFF)
     | UTF32 => True
     end) ->
  snd (rvisit k s) = Ok tt \/
  snd (rvisit k s) = Throw InvalidUnicodeEncoding \/
  snd (rvisit k s) = Throw IteratedPastEnd.
Proof.
  intros k s H Hh. refine (rvisit_from_safe k s H _ (S (length s)) (length s) (le_n _) (le_n _)).
  intros u E. destruct s as [|h t]; [discriminate|]. injection E as ->.
  specialize (Hh u t eq_refl). unfold stops_back. destruct k; cbn in *; auto; lia.
Qed.
Print Assumptions C11_reverse_memory_safe_partial.
Example C11_example : rvisit K8 [0x41; 0x80; 0xC3] = ([], Throw IteratedPastEnd) /\
  rvisit K8 [0x41; 0x80; 0x42] = ([0x42; 0x41], Ok tt).
Proof. split; reflexivity. Qed.

(** One step back over UTF-8 is defined exactly if some byte before the iterator
    is not a continuation byte. *)
Theorem C11_step_back_exact : forall s i, (0 < i <= length s)%nat ->
  ((exists j, (j < i)%nat /\ retreat K8 s i = (j, Ok tt)) <->
   Exists (fun u => ~ (0x80 <= u <= 0xBF)) (firstn i s)).
Proof.
  intros s i Hi. destruct (retreat8_exact s i Hi) as [E _].
  unfold retreat; cbn [class_of]. rewrite E, !Exists_exists.
  split; intros (x & Hx & T); exists x; (split; [assumption|lia]).
Qed.
Print Assumptions C11_step_back_exact.

(* ------------------------------------------------------------------- C12 *)

(** Never throws, never undefined, for every string of every kind. *)
Theorem C12_validate_total : forall k s, Forall (unit_range k) s ->
  exists i, validate_string k s = Ok i /\ (i <= length s)%nat.
Proof. exact validate_total. Qed.
Print Assumptions C12_validate_total.

(** Overlong forms and encoded surrogates are not noticed. *)
Theorem C12_validate_refuted :
  ~ (forall s, Forall (fun u => u < 256) s ->
       validate_string K8 s = Ok (length s) -> well_formed UTF8 s).
Proof.
  intro H. apply not_well_formed_overlong.
  apply H; [repeat constructor; lia|reflexivity].
Qed.
Print Assumptions C12_validate_refuted.

(** A well-formed UTF-16 string with a surrogate pair is reported as invalid. *)
Theorem C12_validate_utf16_refuted :
  ~ (forall s, well_formed UTF16 s -> validate_string K16 s = Ok (length s)).
Proof.
  intro H. specialize (H [0xD83D; 0xDE00]).
  assert (K : well_formed UTF16 [0xD83D; 0xDE00]).
  { exists [0x1F600]. split; [repeat constructor; unfold scalar; lia|reflexivity]. }
  specialize (H K). discriminate H.
Qed.
Print Assumptions C12_validate_utf16_refuted.

(** Kinds other than UTF-16: the exact position returned.  Everything before it
    decodes (loosely) to values up to U+10FFFF, and nothing decodable to such a
    value starts there.  In particular well-formed text is accepted. *)
Theorem C12_validate_partial : forall k s,
  encoding_of k <> UTF16 -> Forall (unit_range k) s ->
  (exists s1 s2 l, s = s1 ++ s2 /\ loose_text (encoding_of k) s1 l /\
     Forall (fun c => seen k c <= 0x10FFFF) l /\
     validate_string k s = Ok (length s1) /\
     (s2 = [] \/ s2 <> [] /\ forall bs c post, s2 = bs ++ post ->
        loose (encoding_of k) bs c -> 0x10FFFF < seen k c)) /\
  (forall l, Forall (holds k) l -> s = units k l -> validate_string k s = Ok (length s)).
Proof. exact validate_exact. Qed.
Print Assumptions C12_validate_partial.
Example C12_example : validate_string K8 [0x41; 0xE2; 0x82; 0x41] = Ok 1%nat /\
  validate_string K8 [0x41; 0xF4; 0x90; 0x80; 0x80] = Ok 1%nat /\
  validate_string K8 [0xED; 0xA0; 0x80] = Ok 3%nat.
Proof. repeat split; reflexivity. Qed.

(** UTF-16: the end is returned exactly for strings without any surrogate. *)
Theorem C12_validate_utf16_partial : forall k s,
  encoding_of k = UTF16 -> Forall (fun u => u < 0x10000) s ->
  (validate_string k s = Ok (length s) <-> Forall (fun u => ~ (0xD800 <= u <= 0xDFFF)) s).
Proof. exact validate16_exact. Qed.
Print Assumptions C12_validate_utf16_partial.

(* ------------------------------------------------------------------- C13 *)

Theorem C13_conversion_refuted :
  ~ (forall l, Forall scalar l -> convert_string K8 K16 (encode UTF16 l) = Ok (encode UTF8 l)) /\
  ~ (forall l, Forall scalar l -> convert_string K8 K32 (encode UTF32 l) = Ok (encode UTF8 l)).
Proof.
  split; intro H.
  - specialize (H [0x1F600] ltac:(repeat constructor; unfold scalar; lia)). discriminate H.
  - specialize (H [0x1D800] ltac:(repeat constructor; unfold scalar; lia)). discriminate H.
Qed.
Print Assumptions C13_conversion_refuted.

(** Conversion preserves the text between all kinds.  Missing: supplementary
    code points in a UTF-16 source, and the code points C01 refuses in a UTF-8
    target. *)
Theorem C13_conversion_partial : forall ko ki l,
  Forall (holds ki) l -> Forall (holds ko) l -> Forall (single_unit ki) l ->
  (ko = K8 -> Forall (fun c => ~ (0xD800 <= c mod 0x10000 <= 0xDFFF)) l) ->
  convert_string ko ki (units ki l) = Ok (units ko l).
Proof.
  intros ko ki l Hi Ho Hs H8. apply convert_ok; auto.
  apply Forall_forall. intros c Hc. rewrite Forall_forall in Ho. split; auto.
  intro E. specialize (H8 E). rewrite Forall_forall in H8. auto.
Qed.
Print Assumptions C13_conversion_partial.

(** There and back. *)
Theorem C13_round_trip_partial : forall k1 k2 l,
  Forall (holds k1) l -> Forall (holds k2) l ->
  Forall (single_unit k1) l -> Forall (single_unit k2) l ->
  Forall (fun c => ~ (0xD800 <= c mod 0x10000 <= 0xDFFF)) l ->
  bind (convert_string k2 k1 (units k1 l)) (convert_string k1 k2) = Ok (units k1 l).
Proof.
  intros k1 k2 l H1 H2 S1 S2 Hv.
  rewrite C13_conversion_partial by auto. apply C13_conversion_partial; auto.
Qed.
Print Assumptions C13_round_trip_partial.
Example C13_example :
  convert_string K16 K8 (encode UTF8 [0x41; 0x1F600; 0x20AC])
  = Ok [0x41; 0xD83D; 0xDE00; 0x20AC] /\
  convert_string K8 K16 [0x41; 0x20AC] = Ok [0x41; 0xE2; 0x82; 0xAC].
Proof. split; reflexivity. Qed.

(* ------------------------------------------------------------------- C14 *)

Theorem C14_starts_with_refuted :
  ~ (forall l, Forall scalar l ->
       starts_with K16 (encode UTF16 l) K16 (encode UTF16 l) = Ok true).
Proof.
  intro H. specialize (H [0x1F600] ltac:(repeat constructor; unfold scalar; lia)).
  discriminate H.
Qed.
Print Assumptions C14_starts_with_refuted.

(** Missing: UTF-16 texts with supplementary code points (refuted). *)
Theorem C14_starts_with_partial : forall k1 k2 l m,
  Forall (holds k1) l -> Forall (single_unit k1) l ->
  Forall (holds k2) m -> Forall (single_unit k2) m ->
  exists b, starts_with k1 (units k1 l) k2 (units k2 m) = Ok b /\
    (b = true <-> prefix_of m l).
Proof.
  intros k1 k2 l m H1 S1 H2 S2. exists (is_prefix m l).
  exact (conj (starts_with_ok k1 k2 l m H1 S1 H2 S2) (is_prefix_iff m l)).
Qed.
Print Assumptions C14_starts_with_partial.
Example C14_example :
  starts_with K8 (encode UTF8 [0x20AC; 0x1F600; 0x41]) K32 [0x20AC; 0x1F600] = Ok true /\
  starts_with K8 (encode UTF8 [0x20AC; 0x41]) K32 [0x20AC; 0x1F600] = Ok false.
Proof. split; reflexivity. Qed.

(* ------------------------------------------------------------------- C15 *)

Theorem C15_ends_with : forall k1 k2 l m,
  Forall (holds k1) l -> Forall (holds k2) m ->
  exists b, ends_with k1 (units k1 l) k2 (units k2 m) = Ok b /\
    (b = true <-> suffix_of m l).
Proof.
  intros k1 k2 l m H1 H2. exists (is_prefix (rev m) (rev l)).
  exact (conj (ends_with_ok k1 k2 l m H1 H2) (rev_prefix_suffix m l)).
Qed.
Print Assumptions C15_ends_with.
Example C15_example :
  ends_with K16 (encode UTF16 [0x41; 0x1F600]) K8 (encode UTF8 [0x1F600]) = Ok true /\
  ends_with K16 (encode UTF16 [0x41; 0x1F600]) K8 (encode UTF8 [0x41]) = Ok false.
Proof. split; reflexivity. Qed.

(* ------------------------------------------------------------------- C16 *)

Theorem C16_total_refuted :
  starts_with K8 [0xC3] K8 [0xC3] = UB OutOfBoundsRead /\
  starts_with K8 [0xFF] K8 [0xFF] = Terminate /\
  ends_with K8 [0x80] K8 [0x80] = UB PointerArithmetic /\
  ends_with K8 [0xC3] K8 [0xC3] = Terminate.
Proof. repeat split; reflexivity. Qed.
Print Assumptions C16_total_refuted.

(** Texts that decode loosely (for plain kinds: every string) are compared
    without incident.  Missing: undecodable UTF-8 and UTF-16 with surrogates. *)
Theorem C16_total_partial : forall k1 k2 s t,
  encoding_of k1 <> UTF16 -> encoding_of k2 <> UTF16 ->
  Forall (unit_range k1) s -> Forall (unit_range k2) t ->
  (encoding_of k1 = UTF8 -> exists l, loose_text UTF8 s l) ->
  (encoding_of k2 = UTF8 -> exists m, loose_text UTF8 t m) ->
  exists b, starts_with k1 s k2 t = Ok b.
Proof. exact starts_with_total. Qed.
Print Assumptions C16_total_partial.
Example C16_example : starts_with (KChar true) [0xFF; 0x41] (KChar true) [0xFF] = Ok true /\
  starts_with K8 [0xC0; 0x80] K32 [0] = Ok true.
Proof. split; reflexivity. Qed.
