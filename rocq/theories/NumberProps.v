(** C17-C24: formatting and parsing integers and bools. *)
From Coq Require Import NArith ZArith List Bool Lia ZifyBool ZifyNat ZifyN.
From Verif Require Import Base Integers NumeralSpec UnicodeSpec UnicodeModel UnicodeText
  UnicodeLemmas UnicodeLemmas2 NumberModel NumberText NumberLemmas NumberLemmas2 NumberLemmas3
  NumberLemmas4 NumberLemmas5 NumberLemmas6.
Import ListNotations.
Open Scope N_scope.

(* ------------------------------------------------------------------- C17 *)

(** False at the minimum of a signed type: the value cannot even be formatted. *)
Theorem C17_round_trip_refuted :
  ~ (forall k cs t x f, standard t -> in_range t x -> valid_radix (radix f) ->
       bind (format_integer k cs t x f) (fun s => parse_integer k t s f) = Ok x).
Proof.
  intro H.
  specialize (H K8 true I32 (-2147483648)%Z default_integer_format
    ltac:(vm_compute; tauto) ltac:(vm_compute; split; discriminate) ltac:(vm_compute; split; discriminate)).
  discriminate H.
Qed.
Print Assumptions C17_round_trip_refuted.

(** Every other value, every type, valid format and string type.  Missing: the
    minimum of a signed type (see C17_round_trip_refuted and C19). *)
Theorem C17_round_trip_partial : forall k cs t x f,
  standard t -> in_range t x -> valid_radix (radix f) ->
  (is_signed t = true -> x <> min_of t) ->
  exists s, format_integer k cs t x f = Ok s /\ parse_integer k t s f = Ok x.
Proof.
  intros k cs t x f Ht Rx Hr Hm.
  destruct (format_integer_ok k cs t x f Ht Rx Hr Hm) as (s & E & Hn).
  exists s. split; [assumption|]. now apply parse_numeral_back.
Qed.
Print Assumptions C17_round_trip_partial.

Example C17_example :
  let f := IntegerFormat 16 AlwaysShow SepComma in
  format_integer K16 true I64 (-9223372036854775807) f
    = Ok [45; 55; 44; 70; 70; 70; 44; 70; 70; 70; 44; 70; 70; 70; 44; 70; 70; 70; 44; 70; 70; 70] /\
  bind (format_integer K16 true I64 (-9223372036854775807) f) (fun s => parse_integer K16 I64 s f)
    = Ok (-9223372036854775807)%Z /\
  bind (format_integer K8 true U64 18446744073709551615 f) (fun s => parse_integer K8 U64 s f)
    = Ok 18446744073709551615%Z.
Proof. repeat split; vm_compute; reflexivity. Qed.

(* ------------------------------------------------------------------- C18 *)

(** The canonical numeral of [x], and nothing else: the text produced is the only
    one the specification allows.  Missing: the minimum of a signed type. *)
Theorem C18_canonical_partial : forall k cs t x f,
  standard t -> in_range t x -> valid_radix (radix f) ->
  (is_signed t = true -> x <> min_of t) ->
  exists s, format_integer k cs t x f = Ok s /\
    numeral (radix f) (shows_plus (sign f)) (sep_char (separator f)) x s /\
    (forall s', numeral (radix f) (shows_plus (sign f)) (sep_char (separator f)) x s' -> s' = s).
Proof.
  intros k cs t x f Ht Rx Hr Hm.
  destruct (format_integer_ok k cs t x f Ht Rx Hr Hm) as (s & E & Hn).
  exists s. split; [assumption|]. split; [assumption|].
  intros s' H. apply (numeral_unique (radix f) (shows_plus (sign f)) (sep_char (separator f)) x); auto.
  unfold valid_radix in Hr. lia.
Qed.
Print Assumptions C18_canonical_partial.

(** -128 as signed char in radix 12 prints "-628", which is -896. *)
Theorem C18_canonical_refuted :
  exists t f, standard t /\ valid_radix (radix f) /\
    format_integer K8 true t (min_of t) f = Ok [45; 54; 50; 56] /\
    ~ numeral (radix f) (shows_plus (sign f)) (sep_char (separator f)) (min_of t) [45; 54; 50; 56].
Proof.
  exists I8, (IntegerFormat 12 OnlyWhenNegative SepNone).
  split; [vm_compute; tauto|]. split; [vm_compute; split; discriminate|]. split; [vm_compute; reflexivity|].
  intros (ds & _ & V & E).
  assert (G : forall l, grouped None l = l).
  { unfold grouped. generalize 0%nat. intros n l. induction l; cbn; congruence. }
  cbn [separator sep_char sign shows_plus radix] in *. rewrite G in E.
  change (sign_text false (min_of I8)) with [45] in E. injection E as E.
  assert (D : forall d c, digit_char d = c -> c < 58 -> d = c - 48)
    by (intros d c; unfold digit_char; destruct (N.ltb_spec d 10); lia).
  destruct ds as [|a [|b [|c [|]]]]; try discriminate E.
  injection E as Ea Eb Ec. symmetry in Ea, Eb, Ec.
  apply D in Ea, Eb, Ec; try lia. subst. discriminate V.
Qed.
Print Assumptions C18_canonical_refuted.

Example C18_example :
  numeral 10 true (Some 44) 1234567 [43; 49; 44; 50; 51; 52; 44; 53; 54; 55] /\
  format_integer K8 true I32 1234567 (IntegerFormat 10 AlwaysShow SepComma)
    = Ok [43; 49; 44; 50; 51; 52; 44; 53; 54; 55].
Proof.
  split; [|vm_compute; reflexivity].
  exists [1; 2; 3; 4; 5; 6; 7]. split; [|split; reflexivity].
  split; [discriminate|]. split; [repeat constructor|discriminate].
Qed.

(* ------------------------------------------------------------------- C19 *)

(** The minimum of int and long long: undefined behaviour in every format.  Of
    signed char and short: the call does not return (for signed char already in
    the default radix), or prints a wrong number (C18_canonical_refuted). *)
Theorem C19_every_value_refuted :
  (forall fuel k cs t f, t = I32 \/ t = I64 ->
     format_integer_with fuel k cs t (min_of t) f = UB SignedOverflow) /\
  (forall fuel k cs t sg sep, t = I8 \/ t = I16 ->
     format_integer_with fuel k cs t (min_of t) (IntegerFormat 2 sg sep) = Diverge) /\
  (forall fuel k cs sg sep,
     format_integer_with fuel k cs I8 (-128) (IntegerFormat 10 sg sep) = Diverge).
Proof.
  split; [|split].
  - intros fuel k cs t f Ht. apply format_min_overflow; destruct Ht as [->| ->]; vm_compute; tauto || (split; congruence || discriminate).
  - intros. now apply format_min_narrow.
  - apply format_min_char_10.
Qed.
Print Assumptions C19_every_value_refuted.

(** Every other value is printed.  Missing: the minimum. *)
Theorem C19_every_value_partial : forall k cs t x f,
  standard t -> in_range t x -> valid_radix (radix f) ->
  (is_signed t = true -> x <> min_of t) ->
  exists s, format_integer k cs t x f = Ok s /\
    numeral (radix f) (shows_plus (sign f)) (sep_char (separator f)) x s.
Proof. exact format_integer_ok. Qed.
Print Assumptions C19_every_value_partial.

Example C19_example : format_integer K8 true I8 (-127) default_integer_format = Ok [45; 49; 50; 55].
Proof. vm_compute. reflexivity. Qed.

(* ------------------------------------------------------------------- C20 *)

(** A sign is accepted between the digits: "1-2" is read as -12. *)
Theorem C20_accepts_refuted :
  ~ (forall l v, Forall scalar l -> parse_integer K32 I32 l default_integer_format = Ok v ->
       exists neg sg cs ds, l = sg ++ cs /\ sign_prefix false neg sg /\ digits_text 10 cs ds).
Proof.
  intro H. destruct (H [49; 45; 50] (-12)%Z) as (neg & sg & cs & ds & E & S & D).
  - repeat constructor; unfold scalar; lia.
  - vm_compute. reflexivity.
  - inversion S; subst; try discriminate E. cbn in E. subst cs.
    inversion D as [|? ? ? ? _ D1]; subst. inversion D1 as [|? ? ? ? [X _] _]; subst. discriminate X.
Qed.
Print Assumptions C20_accepts_refuted.

(** What is accepted without a separator, for every type whose arithmetic cannot
    overflow: a text ending in a digit, all of digits and at most one sign, which
    the format allows.  The value is that of the digits.  Missing: a sign that is
    not in front should be refused. *)
Theorem C20_accepts_partial : forall k t f l v,
  standard t -> valid_radix (radix f) -> separator f = SepNone -> Forall (holds k) l ->
  (is_signed t = true -> width t < 32)%Z ->
  parse_integer k t (units k l) f = Ok v <->
  exists a c d neg sg,
    l = a ++ [c] /\ is_digit (radix f) c d /\
    Forall (fun x => (exists d, is_digit (radix f) x d) \/ sign_char x) l /\
    signs_in l = sg /\ sign_prefix (shows_plus (sign f)) neg sg /\
    (neg = true -> is_signed t = true) /\
    v = convert t (signed_value neg (value (radix f) (digits_in (radix f) l))).
Proof.
  intros k t f l v Ht Hr Hs H Ho.
  assert (NO : ~ overflows t) by (intros [S W]; specialize (Ho S); lia).
  split.
  - intro E. pose proof (parse_outcome k t f l Ht Hr H) as P. rewrite E in P.
    destruct P as (_ & F & (a & c & d & El & D) & ng & Q & S & Ev).
    exists a, c, d, ng, (signs_in l). split; [assumption|]. split; [assumption|]. split.
    + eapply Forall_impl; [|exact F]. intros x [X|[X|X]]; auto. rewrite Hs in X. discriminate X.
    + split; [reflexivity|]. split; [|auto].
      destruct Q as [(-> & _ & ->)|(_ & _ & x & -> & P & ->)]; [constructor|].
      cbn [orb]. assumption.
  - intros (a & c & d & neg & sg & El & D & F & Sg & Pf & S & ->).
    assert (Q : signs_seen f false false (match sg with [] => false | _ => true end) neg (signs_in l)).
    { rewrite Sg. inversion Pf; subst; [left; auto|right|right].
      - split; [reflexivity|]. split; [reflexivity|]. exists 45. repeat split. constructor.
      - split; [reflexivity|]. split; [reflexivity|]. exists 43. repeat split. now constructor. }
    destruct (parse_plain k t f l a c d neg _ Ht Hr H Hs El D F Q) as [[O _]|[(-> & X & _)|(_ & E)]].
    + tauto.
    + rewrite S in X by reflexivity. discriminate.
    + exact E.
Qed.
Print Assumptions C20_accepts_partial.

(** For every type and with or without separator, what an accepted text looks
    like: it ends in a digit, holds only digits, separators and at most one
    allowed sign, and the value is that of its digits modulo the type's range. *)
Theorem C20_sound_partial : forall k t f l v,
  standard t -> valid_radix (radix f) -> Forall (holds k) l ->
  parse_integer k t (units k l) f = Ok v ->
  (exists a c d, l = a ++ [c] /\ is_digit (radix f) c d) /\
  Forall (fun c => (exists d, is_digit (radix f) c d) \/ sign_char c \/ sep_char (separator f) = Some c) l /\
  exists neg, sign_prefix (shows_plus (sign f)) neg (signs_in l) /\
    (neg = true -> is_signed t = true) /\
    v = convert t (signed_value neg (value (radix f) (digits_in (radix f) l))).
Proof.
  intros k t f l v Ht Hr H E. pose proof (parse_outcome k t f l Ht Hr H) as P. rewrite E in P.
  destruct P as (_ & F & El & ng & Q & S & Ev).
  split; [assumption|]. split; [assumption|]. exists ng. split; [|auto].
  destruct Q as [(-> & _ & ->)|(_ & _ & x & -> & P & ->)]; [constructor|]. cbn [orb]. assumption.
Qed.
Print Assumptions C20_sound_partial.

(** Every proper numeral, with its separators, that fits is accepted with its
    value (for long long: if it has no more digits than the largest power of the
    radix allows). *)
Theorem C20_numerals_partial : forall k t f neg sg cs ds,
  standard t -> valid_radix (radix f) ->
  sign_prefix (shows_plus (sign f)) neg sg -> digits_text (radix f) cs ds -> cs <> [] ->
  (neg = true -> is_signed t = true) ->
  (Z.of_N (value (radix f) ds) <= max_of t)%Z ->
  (t = I64 -> Z.of_N (radix f) ^ (Z.of_nat (length ds) - 1) <= max_of t)%Z ->
  parse_integer k t (sg ++ grouped (sep_char (separator f)) cs) f
  = Ok (signed_value neg (value (radix f) ds)).
Proof. intros. apply parse_value_fits; auto. Qed.
Print Assumptions C20_numerals_partial.

Example C20_example :
  parse_integer K8 I32 [45; 49; 44; 48; 48; 48] (IntegerFormat 10 OnlyWhenNegative SepComma) = Ok (-1000)%Z /\
  parse_integer K8 U8 [97; 48] (IntegerFormat 16 OnlyWhenNegative SepNone) = Ok 160%Z /\
  parse_integer K8 U32 [43; 55] default_integer_format = Throw (ParseFailed DigitCharacterExpected).
Proof. repeat split; vm_compute; reflexivity. Qed.

(* ------------------------------------------------------------------- C21 *)

(** A character above 255 reaches tolower in any radix from 10. *)
Theorem C21_failures_refuted :
  ~ (forall l, Forall scalar l ->
       (exists v, parse_integer K32 I32 l default_integer_format = Ok v) \/
       (exists e, parse_integer K32 I32 l default_integer_format = Throw (ParseFailed e))).
Proof.
  intro H. destruct (H [0x20AC]) as [[v E]|[e E]].
  - repeat constructor; unfold scalar; lia.
  - vm_compute in E. discriminate E.
  - vm_compute in E. discriminate E.
Qed.
Print Assumptions C21_failures_refuted.

(** Nothing but the five kinds is thrown, and the only undefined behaviours are
    the overflow of the arithmetic (types of at least 32 bits, signed) and the
    ctype call (radix at least 10 and a character above 255 in the text). *)
Theorem C21_nothing_else_partial : forall k t f l,
  standard t -> valid_radix (radix f) -> Forall (holds k) l ->
  (exists v, parse_integer k t (units k l) f = Ok v /\ in_range t v) \/
  (exists e, parse_integer k t (units k l) f = Throw (ParseFailed e) /\
     In e [EmptyInput; DigitCharacterExpected; MultipleSigns; ThousandsSeparatorMissing; NegativeUnsigned]) \/
  (parse_integer k t (units k l) f = UB SignedOverflow /\ is_signed t = true /\ (32 <= width t)%Z) \/
  (parse_integer k t (units k l) f = UB CtypeDomain /\ 10 <= radix f /\ Exists (fun c => 255 < c) l).
Proof.
  intros k t f l Ht Hr H. pose proof (parse_outcome k t f l Ht Hr H) as P.
  destruct (parse_integer k t (units k l) f) as [v|e|u| |]; try contradiction.
  - left. exists v. tauto.
  - right; left. cbn [In] in P.
    destruct P as [<-|[<-|[<-|[<-|[<-|[]]]]]]; eexists; (split; [reflexivity|cbn; tauto]).
  - right; right. destruct P as [[-> [S W]]|[-> P]]; [left|right]; auto.
Qed.
Print Assumptions C21_nothing_else_partial.

Theorem C21_empty : forall k t f, parse_integer k t [] f = Throw (ParseFailed EmptyInput).
Proof. reflexivity. Qed.
Print Assumptions C21_empty.

(** The text does not end in a digit (ctype domain excluded). *)
Theorem C21_last_character_partial : forall k t f a c,
  valid_radix (radix f) -> Forall (holds k) (a ++ [c]) ->
  (forall d, ~ is_digit (radix f) c d) -> (radix f < 10 \/ c <= 255) ->
  parse_integer k t (units k (a ++ [c])) f = Throw (ParseFailed DigitCharacterExpected).
Proof. intros. apply parse_last_bad; auto. unfold ctype_ok. tauto. Qed.
Print Assumptions C21_last_character_partial.

(** In front of a proper run of digits, where a digit is required: no digit, not
    a sign the format allows.  (An overflow of the digits read so far may come
    first, for signed types of at least 32 bits.) *)
Theorem C21_digit_expected_partial : forall k t f a c cs ds,
  standard t -> valid_radix (radix f) -> Forall (holds k) (a ++ [c]) ->
  digits_text (radix f) cs ds -> cs <> [] ->
  (separator f = SepNone \/ (length cs mod 3 <> 0)%nat) ->
  (forall d, ~ is_digit (radix f) c d) -> (forall neg, ~ sign_prefix (shows_plus (sign f)) neg [c]) ->
  (radix f < 10 \/ c <= 255) ->
  let r := parse_integer k t (units k (a ++ [c] ++ grouped (sep_char (separator f)) cs)) f in
  r = Throw (ParseFailed DigitCharacterExpected) \/
  (r = UB SignedOverflow /\ is_signed t = true /\ (32 <= width t)%Z).
Proof.
  intros k t f a c cs ds Ht Hr H D Hne Hb Hd Hs Hc r.
  destruct (parse_bad_char k t f a c cs ds Ht Hr D Hne H) as [[[S W] E]|E]; auto.
  - destruct Hb as [->|Hb]; [now left|now right].
  - unfold ctype_ok. tauto.
Qed.
Print Assumptions C21_digit_expected_partial.

(** A second sign anywhere to the left of a signed run of digits. *)
Theorem C21_multiple_signs_partial : forall k t f a c c0 neg cs ds,
  standard t -> valid_radix (radix f) -> Forall (holds k) a ->
  digits_text (radix f) cs ds -> cs <> [] ->
  sign_prefix (shows_plus (sign f)) neg [c0] -> sign_char c ->
  let r := parse_integer k t (units k (a ++ [c] ++ [c0] ++ grouped (sep_char (separator f)) cs)) f in
  r = Throw (ParseFailed MultipleSigns) \/
  (r = UB SignedOverflow /\ is_signed t = true /\ (32 <= width t)%Z).
Proof.
  intros k t f a c c0 neg cs ds Ht Hr H D Hne Hs Hc r.
  destruct (parse_second_sign k t f a c c0 neg cs ds Ht Hr D Hne H Hs Hc) as [[[S W] E]|E]; auto.
Qed.
Print Assumptions C21_multiple_signs_partial.

(** After three digits, a character that is neither the separator nor an allowed
    sign. *)
Theorem C21_separator_missing_partial : forall k t f a c cs ds,
  standard t -> valid_radix (radix f) -> Forall (holds k) (a ++ [c]) ->
  digits_text (radix f) cs ds -> cs <> [] ->
  separator f <> SepNone -> (length cs mod 3 = 0)%nat ->
  sep_char (separator f) <> Some c -> (forall neg, ~ sign_prefix (shows_plus (sign f)) neg [c]) ->
  let r := parse_integer k t (units k (a ++ [c] ++ grouped (sep_char (separator f)) cs)) f in
  r = Throw (ParseFailed ThousandsSeparatorMissing) \/
  (r = UB SignedOverflow /\ is_signed t = true /\ (32 <= width t)%Z).
Proof.
  intros k t f a c cs ds Ht Hr H D Hne Hb Hl Hd Hs r.
  destruct (parse_missing_separator k t f a c cs ds Ht Hr D Hne H) as [[[S W] E]|E]; auto.
  destruct (separator f); cbn; congruence.
Qed.
Print Assumptions C21_separator_missing_partial.

Theorem C21_negative_unsigned : forall k t f cs ds,
  standard t -> valid_radix (radix f) -> is_signed t = false ->
  digits_text (radix f) cs ds -> cs <> [] ->
  parse_integer k t (45 :: grouped (sep_char (separator f)) cs) f = Throw (ParseFailed NegativeUnsigned).
Proof.
  intros k t f cs ds Ht Hr S D Hne.
  destruct (parse_value_cases k t f [45] true cs ds Ht Hr D Hne (Minus _)) as [[[X _] _]|[(_ & _ & E)|(X & _)]].
  - congruence.
  - exact E.
  - rewrite X in S by reflexivity. discriminate.
Qed.
Print Assumptions C21_negative_unsigned.

Example C21_example :
  let comma := IntegerFormat 10 OnlyWhenNegative SepComma in
  parse_integer K8 I32 [49; 120; 50] default_integer_format = Throw (ParseFailed DigitCharacterExpected) /\
  parse_integer K8 I32 [45; 45; 50] default_integer_format = Throw (ParseFailed MultipleSigns) /\
  parse_integer K8 I32 [49; 48; 48; 48] comma = Throw (ParseFailed ThousandsSeparatorMissing) /\
  parse_integer K8 U16 [45; 49; 44; 48; 48; 48] comma = Throw (ParseFailed NegativeUnsigned).
Proof. repeat split; vm_compute; reflexivity. Qed.

(* ------------------------------------------------------------------- C22 *)

(** A number that does not fit is returned wrapped round; a long numeral with
    leading zeros and the minimum are undefined behaviour although they fit. *)
Theorem C22_no_silent_wrong_value_refuted :
  parse_integer K8 I32 [49; 48; 48; 48; 48; 48; 48; 48; 48; 48; 48] default_integer_format
    = Ok 1410065408%Z /\
  parse_integer K8 U8 [50; 53; 54] default_integer_format = Ok 0%Z /\
  parse_integer K8 I64 (repeat 48 19 ++ [49]) default_integer_format = UB SignedOverflow /\
  parse_integer K8 I32 [45; 50; 49; 52; 55; 52; 56; 51; 54; 52; 56] default_integer_format
    = UB SignedOverflow.
Proof. repeat split; vm_compute; reflexivity. Qed.
Print Assumptions C22_no_silent_wrong_value_refuted.

(** Fits (in absolute value): that value.  Missing: the minimum of a signed type,
    and for long long texts with leading zeros beyond the largest power. *)
Theorem C22_fits_partial : forall k t f neg sg cs ds,
  standard t -> valid_radix (radix f) ->
  sign_prefix (shows_plus (sign f)) neg sg -> digits_text (radix f) cs ds -> cs <> [] ->
  in_range t (signed_value neg (value (radix f) ds)) ->
  (neg = true -> is_signed t = true /\ signed_value neg (value (radix f) ds) <> min_of t) ->
  (t = I64 -> Z.of_N (radix f) ^ (Z.of_nat (length ds) - 1) <= max_of t)%Z ->
  parse_integer k t (sg ++ grouped (sep_char (separator f)) cs) f
  = Ok (signed_value neg (value (radix f) ds)).
Proof.
  intros k t f neg sg cs ds Ht Hr Hs D Hne R Hm Hp. apply parse_value_fits; auto.
  - intro N. now apply Hm.
  - unfold signed_value in *. destruct neg; [|apply R].
    destruct (Hm eq_refl) as [S M]. clear - Ht R S M.
    std_cases t Ht; try discriminate S; bounds; lia.
Qed.
Print Assumptions C22_fits_partial.

(** Does not fit: a wrong value is never returned by long long (the result is
    exactly as stated, undefined behaviour included)... *)
Theorem C22_long_long_exact : forall k f neg sg cs ds,
  valid_radix (radix f) -> sign_prefix (shows_plus (sign f)) neg sg ->
  digits_text (radix f) cs ds -> cs <> [] ->
  parse_integer k I64 (sg ++ grouped (sep_char (separator f)) cs) f
  = if ((Z.of_N (radix f) ^ (Z.of_nat (length ds) - 1) <=? max_of I64) &&
        (Z.of_N (value (radix f) ds) <=? max_of I64))%Z
    then Ok (signed_value neg (value (radix f) ds))
    else UB SignedOverflow.
Proof. intros. now apply parse_value_i64. Qed.
Print Assumptions C22_long_long_exact.

(** ... by the unsigned and narrow types always: the value modulo 2^width. *)
Theorem C22_wraps_partial : forall k t f neg sg cs ds,
  standard t -> (is_signed t = true -> width t < 32)%Z ->
  valid_radix (radix f) -> sign_prefix (shows_plus (sign f)) neg sg ->
  (neg = true -> is_signed t = true) ->
  digits_text (radix f) cs ds -> cs <> [] ->
  exists v, parse_integer k t (sg ++ grouped (sep_char (separator f)) cs) f = Ok v /\
    in_range t v /\ (v mod 2 ^ width t = signed_value neg (value (radix f) ds) mod 2 ^ width t)%Z.
Proof.
  intros k t f neg sg cs ds Ht Hw Hr Hs Hn D Hne.
  destruct (parse_value_cases k t f sg neg cs ds Ht Hr D Hne Hs) as [[[S W] _]|[(-> & X & _)|(_ & E)]].
  - specialize (Hw S). lia.
  - rewrite Hn in X by reflexivity. discriminate.
  - eexists. split; [exact E|]. split; [now apply convert_range|]. now apply cong_convert.
Qed.
Print Assumptions C22_wraps_partial.

(** The minimum of int and long long, written in any valid format, is undefined
    behaviour. *)
Theorem C22_minimum_refuted : forall k t f cs ds,
  t = I32 \/ t = I64 -> valid_radix (radix f) -> digits_text (radix f) cs ds -> cs <> [] ->
  Z.of_N (value (radix f) ds) = (- min_of t)%Z ->
  parse_integer k t (45 :: grouped (sep_char (separator f)) cs) f = UB SignedOverflow.
Proof.
  intros k t f cs ds Ht Hr D Hne Hv. eapply parse_min; eauto; destruct Ht as [->| ->];
    vm_compute; tauto || (split; congruence || discriminate).
Qed.
Print Assumptions C22_minimum_refuted.

Example C22_example :
  parse_integer K8 I32 [45; 50; 49; 52; 55; 52; 56; 51; 54; 52; 55] default_integer_format
    = Ok (-2147483647)%Z /\
  parse_integer K8 I16 [45; 51; 50; 55; 54; 56] default_integer_format = Ok (-32768)%Z /\
  parse_integer K8 U64 (repeat 48 40 ++ [55]) default_integer_format = Ok 7%Z.
Proof. repeat split; vm_compute; reflexivity. Qed.

(* ------------------------------------------------------------------- C23 *)

(** The setter takes any radix; formatting any non-zero value then divides by
    zero (radix 0) or does not return (radix 1). *)
Theorem C23_radix_refuted :
  (forall f r, radix (set_radix f r) = r) /\
  (forall fuel k cs t x f, (0 < fuel)%nat -> standard t -> in_range t x -> x <> 0%Z ->
     (is_signed t = true -> x <> min_of t) ->
     format_integer_with fuel k cs t x (set_radix f 0) = UB DivByZero) /\
  (forall fuel k cs t x f, standard t -> in_range t x -> x <> 0%Z ->
     (is_signed t = true -> x <> min_of t) ->
     format_integer_with fuel k cs t x (set_radix f 1) = Diverge).
Proof.
  split; [reflexivity|]. split; intros.
  - now apply format_radix_0.
  - now apply format_radix_1.
Qed.
Print Assumptions C23_radix_refuted.

(** The constructor and the other setters keep the radix valid.  Missing: set_radix. *)
Theorem C23_radix_partial : forall r s t,
  (valid_radix r -> new_integer_format r s t = Ok (IntegerFormat r s t)) /\
  (~ valid_radix r -> new_integer_format r s t = Throw InvalidRadix) /\
  valid_radix (radix default_integer_format) /\
  (forall f s', radix (set_sign_status f s') = radix f) /\
  (forall f t', radix (set_thousands_separator f t') = radix f).
Proof.
  intros r s t. unfold new_integer_format, valid_radix.
  split; [|split; [|split; [vm_compute; split; discriminate|split; reflexivity]]]; intro H.
  - replace ((r <? 2) || (36 <? r)) with false by lia. reflexivity.
  - replace ((r <? 2) || (36 <? r)) with true by lia. reflexivity.
Qed.
Print Assumptions C23_radix_partial.

Example C23_example :
  new_integer_format 37 AlwaysShow SepNone = Throw InvalidRadix /\
  new_integer_format 36 AlwaysShow SepNone = Ok (IntegerFormat 36 AlwaysShow SepNone) /\
  format_integer K8 true I32 5 (set_radix default_integer_format 0) = UB DivByZero.
Proof. repeat split. Qed.

(* ------------------------------------------------------------------- C24 *)

(** A supplementary character in the true string, through a u16string. *)
Theorem C24_bool_refuted :
  ~ (forall k l m, Forall scalar l -> Forall scalar m -> l <> [] -> m <> [] -> l <> m ->
       let f := BoolFormat (encode UTF8 l) (encode UTF8 m) in
       bind (format_bool k true f) (fun s => parse_bool k s f) = Ok true).
Proof.
  intro H. specialize (H K16 [0x1F600] [48]
    ltac:(repeat constructor; unfold scalar; lia) ltac:(repeat constructor; unfold scalar; lia)
    ltac:(discriminate) ltac:(discriminate) ltac:(discriminate)).
  vm_compute in H. discriminate H.
Qed.
Print Assumptions C24_bool_refuted.

Lemma utf8_injective : forall l m, Forall scalar l -> Forall scalar m ->
  encode UTF8 l = encode UTF8 m -> l = m.
Proof.
  intros l m Hl Hm E.
  assert (C : forall l, Forall scalar l -> convert_string K32 K8 (encode UTF8 l) = Ok (encode UTF32 l)).
  { intros x Hx. apply (convert_ok K32 K8 x).
    - exact Hx.
    - apply Forall_forall. intros; exact I.
    - apply Forall_forall. intros c Hc. rewrite Forall_forall in Hx. split; [now apply Hx|discriminate]. }
  pose proof (C l Hl) as A. rewrite E, (C m Hm) in A.
  assert (I : forall x, encode UTF32 x = x) by (induction x as [|c x IH]; [reflexivity|];
    change (encode UTF32 (c :: x)) with (c :: encode UTF32 x); now rewrite IH).
  rewrite !I in A. congruence.
Qed.

(** Both strings are of characters the string type can hold; not supplementary
    ones through UTF-16, nor those C01 refuses.  Missing: exactly those. *)
Theorem C24_bool_partial : forall k l m b,
  Forall scalar l -> Forall scalar m -> l <> [] -> m <> [] -> l <> m ->
  Forall (holds k) (l ++ m) -> Forall (single_unit k) (l ++ m) ->
  Forall (fun c => ~ (0xD800 <= c mod 0x10000 <= 0xDFFF)) (l ++ m) ->
  let f := BoolFormat (encode UTF8 l) (encode UTF8 m) in
  bind (format_bool k b f) (fun s => parse_bool k s f) = Ok b.
Proof.
  intros k l m b Hl Hm Nl Nm Hne Hh Hs Hv f.
  apply Forall_app in Hh as [Hhl Hhm], Hs as [Hsl Hsm], Hv as [Hvl Hvm].
  assert (I : forall k' x, Forall (holds k') x ->
              Forall (fun c => ~ (0xD800 <= c mod 0x10000 <= 0xDFFF)) x -> Forall (insertable k') x).
  { intros k' x H1 H2. apply Forall_forall. intros c Hc. rewrite Forall_forall in H1, H2. split; auto. }
  assert (One : forall x : list N, Forall (single_unit K8) x) by (intro x; apply Forall_forall; intros; exact Logic.I).
  set (x := if b then l else m).
  assert (Hx : Forall scalar x /\ Forall (holds k) x /\ Forall (single_unit k) x /\
               Forall (fun c => ~ (0xD800 <= c mod 0x10000 <= 0xDFFF)) x /\ x <> []) by (destruct b; tauto).
  destruct Hx as (X1 & X2 & X3 & X4 & X5).
  assert (F : format_bool k b f = Ok (units k x)).
  { unfold format_bool, f. cbn [true_string false_string].
    replace (if b then encode UTF8 l else encode UTF8 m) with (units K8 x) by (destruct b; reflexivity).
    apply convert_ok; auto. }
  rewrite F. cbn [bind]. unfold parse_bool.
  assert (Len : (length (units k x) =? 0)%nat = false).
  { destruct x as [|c x]; [congruence|]. change (units k (c :: x)) with (encode1 (encoding_of k) c ++ units k x).
    rewrite app_length. pose proof (encode1_nonempty (encoding_of k) c).
    destruct (encode1 (encoding_of k) c); [congruence|]. reflexivity. }
  rewrite Len.
  assert (B : match k with K8 => Ok (units k x) | _ => convert_string K8 k (units k x) end = Ok (units K8 x)).
  { assert (G : convert_string K8 k (units k x) = Ok (units K8 x)) by (apply convert_ok; auto).
    destruct k; auto. }
  rewrite B. cbn [bind]. unfold f, str_eqb. cbn [true_string false_string].
  change (units K8 x) with (encode UTF8 x).
  destruct b; cbn in x; subst x.
  - destruct (list_eq_dec N.eq_dec (encode UTF8 l) (encode UTF8 l)); congruence.
  - destruct (list_eq_dec N.eq_dec (encode UTF8 m) (encode UTF8 l)) as [E|_].
    + apply utf8_injective in E; auto. congruence.
    + destruct (list_eq_dec N.eq_dec (encode UTF8 m) (encode UTF8 m)); congruence.
Qed.
Print Assumptions C24_bool_partial.

(** No other text is accepted. *)
Theorem C24_nothing_else_partial : forall k l m x b,
  Forall scalar l -> Forall scalar m -> Forall scalar x ->
  Forall (holds k) x -> Forall (single_unit k) x ->
  Forall (fun c => ~ (0xD800 <= c mod 0x10000 <= 0xDFFF)) x ->
  parse_bool k (units k x) (BoolFormat (encode UTF8 l) (encode UTF8 m)) = Ok b ->
  x = if b then l else m.
Proof.
  intros k l m x b Hl Hm Hx Hh Hs Hv. unfold parse_bool.
  destruct (length (units k x) =? 0)%nat; [discriminate|].
  assert (B : match k with K8 => Ok (units k x) | _ => convert_string K8 k (units k x) end = Ok (units K8 x)).
  { assert (G : convert_string K8 k (units k x) = Ok (units K8 x)).
    { apply convert_ok; auto. apply Forall_forall. intros c Hc.
      rewrite Forall_forall in Hx, Hv. split; [now apply Hx|intros; now apply Hv]. }
    destruct k; auto. }
  rewrite B. cbn [bind]. unfold str_eqb. cbn [true_string false_string].
  change (units K8 x) with (encode UTF8 x).
  destruct (list_eq_dec N.eq_dec (encode UTF8 x) (encode UTF8 l)) as [E|_].
  - intros [= <-]. now apply utf8_injective.
  - destruct (list_eq_dec N.eq_dec (encode UTF8 x) (encode UTF8 m)) as [E|_]; [|discriminate].
    intros [= <-]. now apply utf8_injective.
Qed.
Print Assumptions C24_nothing_else_partial.

(** For a u8string, without any condition. *)
Theorem C24_u8string : forall s tr fa b, s <> [] -> tr <> fa ->
  parse_bool K8 s (BoolFormat tr fa) = Ok b <-> s = if b then tr else fa.
Proof.
  intros s tr fa b Hs Hne. unfold parse_bool.
  replace (length s =? 0)%nat with false by (destruct s; [congruence|reflexivity]). cbn [bind].
  unfold str_eqb. cbn [true_string false_string].
  destruct (list_eq_dec N.eq_dec s tr) as [E|E]; [|destruct (list_eq_dec N.eq_dec s fa) as [E'|E']];
    destruct b; split; intro H; try congruence.
Qed.
Print Assumptions C24_u8string.

Example C24_example :
  let f := BoolFormat (encode UTF8 [0x44; 0x61; 0x20AC]) (encode UTF8 [0x4E]) in
  format_bool K16 true f = Ok [0x44; 0x61; 0x20AC] /\
  parse_bool K16 [0x44; 0x61; 0x20AC] f = Ok true /\
  parse_bool K16 [0x44; 0x61] f = Throw (ParseFailed NeitherBoolean).
Proof. repeat split; vm_compute; reflexivity. Qed.
