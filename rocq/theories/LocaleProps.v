(** C159: reading numbers in other locales. *)
From Coq Require Import NArith ZArith List Bool Lia ZifyBool ZifyNat ZifyN.
From Verif Require Import Base Integers UnicodeModel NumberModel NumberText FloatModel LocaleSpec LocaleModel LocaleLemmas.
Import ListNotations.
Open Scope N_scope.

(** The theorems on reading numbers are about the "C" locale, in which every program starts. *)
Theorem C159_classic : forall k t s f u g,
  parse_integer_in classic k t s f = parse_integer k t s f /\ parse_floating_point_in classic k u s g = parse_floating_point k u s g.
Proof. intros. split; [apply classic_integer|apply classic_float]. Qed.
Print Assumptions C159_classic.

(** In a Turkish locale the digit I of a number in radix 36 is refused, and the letter 0xDD, which
    is no digit, is undefined behaviour instead of an exception. *)
Theorem C159_turkish_refuted :
  let f := IntegerFormat 36 OnlyWhenNegative SepNone in
  parse_integer_in classic K32 I32 [73] f = Ok 18%Z /\
  parse_integer_in turkish K32 I32 [73] f = Throw (ParseFailed DigitCharacterExpected) /\
  parse_integer_in classic K32 I32 [0xDD] f = Throw (ParseFailed DigitCharacterExpected) /\
  parse_integer_in turkish K32 I32 [0xDD] f = UB NoReturn.
Proof. repeat split; reflexivity. Qed.
Print Assumptions C159_turkish_refuted.

(** Numbers are read the same in two locales exactly if these make digits of the same
    characters. *)
Theorem C159_exact_partial : forall a b r, valid_radix r ->
  (same_digits r a b <-> forall k t s f, radix f = r -> parse_integer_in a k t s f = parse_integer_in b k t s f).
Proof.
  intros a b r R. split.
  - intros S k t s f F. apply (integer_same a b r); [|exact F]. intro c. now apply digit_same.
  - intros H c Hc Dc. unfold valid_radix in R.
    destruct (N.ltb_spec r 10) as [L|L]; [unfold letter_digit; lia|].
    specialize (H K32 I32 [c] (IntegerFormat r OnlyWhenNegative SepNone) eq_refl).
    assert (P : forall lc, parse_integer_in lc K32 I32 [c] (IntegerFormat r OnlyWhenNegative SepNone) =
      bind (next_digit_in lc c r) (fun d => Ok (convert I32 (Z.of_N d)))) by reflexivity.
    rewrite !P in H. unfold next_digit_in, digit_in, is_radix_digit_in, tolower_in in H.
    destruct (N.ltb_spec r 10); [lia|]. destruct (N.leb_spec c 255); [|lia]. cbn [bind] in H.
    replace ((48 <=? c) && (c <=? 57)) with false in H by lia. cbn [orb] in H. rewrite <- !letters by lia.
    destruct ((97 <=? a c) && (a c <? to_char32 (97 + r - 10))), ((97 <=? b c) && (b c <? to_char32 (97 + r - 10))); cbn [negb bind] in H;
      try tauto; exfalso; revert H; destruct ((97 <=? c) && (c <=? 122)), ((65 <=? c) && (c <=? 90)); cbn [bind]; discriminate.
Qed.
Print Assumptions C159_exact_partial.

(** The same for floating-point numbers, in one direction. *)
Theorem C159_floats_partial : forall a b r, valid_radix r -> same_digits r a b ->
  forall k t s f, radix (base f) = r -> parse_floating_point_in a k t s f = parse_floating_point_in b k t s f.
Proof. intros a b r R S k t s f F. apply (float_same a b r); [|exact F]. intro c. now apply digit_same. Qed.
Print Assumptions C159_floats_partial.

(** Up to radix 10 the locale does not matter at all, whatever it is. *)
Theorem C159_decimal_partial : forall a b k t s f u g, 2 <= radix f <= 10 -> 2 <= radix (base g) <= 10 ->
  parse_integer_in a k t s f = parse_integer_in b k t s f /\ parse_floating_point_in a k u s g = parse_floating_point_in b k u s g.
Proof.
  intros a b k t s f u g F G.
  assert (S : forall r, r <= 10 -> same_digits r a b) by (intros r Hr c _ _; unfold letter_digit; lia).
  split; [apply (C159_exact_partial a b (radix f))|apply (C159_floats_partial a b (radix (base g)))]; auto; try (apply S; lia); unfold valid_radix; lia.
Qed.
Print Assumptions C159_decimal_partial.

(** In ordinary locales all numbers are read as in the "C" locale; and in the Turkish one up to
    radix 18. *)
Theorem C159_ordinary_partial : forall a k t s f u g, ordinary a -> valid_radix (radix f) -> valid_radix (radix (base g)) ->
  parse_integer_in a k t s f = parse_integer k t s f /\ parse_floating_point_in a k u s g = parse_floating_point k u s g.
Proof.
  intros a k t s f u g O F G.
  assert (S : forall r, valid_radix r -> same_digits r a classic).
  { intros r Hr c Hc _. unfold valid_radix in Hr. destruct (O c Hc) as (O1 & O2 & O3). unfold letter_digit, classic.
    destruct (N.leb_spec 65 c), (N.leb_spec c 90); cbn [andb]; lia. }
  rewrite <- classic_integer, <- classic_float.
  split; [apply (C159_exact_partial a classic (radix f))|apply (C159_floats_partial a classic (radix (base g)))]; auto.
Qed.
Print Assumptions C159_ordinary_partial.

Example C159_cases :
  ordinary classic /\ ordinary german /\ german 0xC4 = 0xE4 /\ ~ ordinary turkish /\
  (forall r, r <= 18 -> same_digits r turkish classic) /\ ~ same_digits 19 turkish classic /\
  parse_integer_in german K32 I32 [0x66; 0x46] (IntegerFormat 16 OnlyWhenNegative SepNone) = Ok 255%Z /\
  parse_integer_in turkish K32 I32 [0x66; 0x46] (IntegerFormat 16 OnlyWhenNegative SepNone) = Ok 255%Z.
Proof.
  assert (O : forall a, a = classic \/ a = german -> ordinary a).
  { intros a A c Hc. unfold german, classic in A.
    destruct A as [->| ->]; cbv beta; destruct (N.leb_spec 0xC0 c), (N.leb_spec c 0xDE), (N.eqb_spec c 0xD7), (N.leb_spec 65 c), (N.leb_spec c 90); cbn [andb negb]; lia. }
  split; [apply O; now left|]. split; [apply O; now right|]. split; [reflexivity|]. split.
  { intro X. destruct (X 73 ltac:(lia)) as [Y _]. specialize (Y ltac:(lia)). discriminate Y. }
  split.
  { intros r Hr c Hc _. unfold letter_digit, turkish, classic.
    destruct (N.eqb_spec c 73), (N.eqb_spec c 0xDD), (N.leb_spec 65 c), (N.leb_spec c 90); cbn [andb]; lia. }
  split; [|split; reflexivity].
  intro X. destruct (X 73 ltac:(lia) ltac:(lia)) as [_ Y]. unfold letter_digit in Y. change (classic 73) with 105 in Y. change (turkish 73) with 253 in Y. lia.
Qed.
