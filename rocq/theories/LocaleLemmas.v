From Coq Require Import NArith ZArith List Bool Lia ZifyBool ZifyNat ZifyN.
From Verif Require Import Base Integers UnicodeModel NumberModel NumberText FloatModel LocaleSpec LocaleModel.
Import ListNotations.
Open Scope N_scope.

Lemma letters : forall r x, 10 <= r <= 36 -> (97 <=? x) && (x <? to_char32 (97 + r - 10)) = true <-> letter_digit r x.
Proof. intros r x H. unfold letter_digit, to_char32. rewrite N.mod_small by lia. lia. Qed.

Lemma digit_same : forall a b r c, valid_radix r -> same_digits r a b -> is_radix_digit_in a c r = is_radix_digit_in b c r.
Proof.
  intros a b r c [R1 R2] S. unfold is_radix_digit_in. destruct (N.ltb_spec r 10); [reflexivity|]. unfold tolower_in.
  destruct (N.leb_spec c 255) as [Hc|Hc]; [|reflexivity]. cbn [bind]. f_equal.
  destruct ((48 <=? c) && (c <=? 57)) eqn:D; [reflexivity|]. cbn [orb]. specialize (S c Hc ltac:(lia)).
  rewrite <- !letters in S by lia.
  destruct ((97 <=? a c) && (a c <? to_char32 (97 + r - 10))), ((97 <=? b c) && (b c <? to_char32 (97 + r - 10))); intuition congruence.
Qed.

Section Same.
  Variables a b : locale.
  Variable r : N.
  Hypothesis E : forall c, is_radix_digit_in a c r = is_radix_digit_in b c r.

  Lemma digit_in_same : forall c, digit_in a c r = digit_in b c r.
  Proof. intro c. unfold digit_in. now rewrite E. Qed.

  Lemma step_same : forall t f c st, radix f = r -> parse_step_in a t f c st = parse_step_in b t f c st.
  Proof. intros t f c st R. unfold parse_step_in, next_digit_in. now rewrite R, E, digit_in_same. Qed.

  Lemma loop_same : forall t f fuel k s i st, radix f = r -> parse_loop_in a fuel k s i t f st = parse_loop_in b fuel k s i t f st.
  Proof.
    intros t f. induction fuel as [|fuel IH]; intros k s i st R; cbn [parse_loop_in]; [reflexivity|]. destruct (Nat.eqb i 0); [reflexivity|].
    destruct (rderef k s i); cbn [bind]; try reflexivity. rewrite step_same by exact R. destruct (parse_step_in b t f a0 st); cbn [bind]; try reflexivity.
    destruct (retreat k s i) as [i' [[]| | | |]]; try reflexivity. now apply IH.
  Qed.

  Lemma integer_same : forall k t s f, radix f = r -> parse_integer_in a k t s f = parse_integer_in b k t s f.
  Proof.
    intros k t s f R. unfold parse_integer_in, next_digit_in. destruct (Nat.eqb (length s) 0); [reflexivity|]. cbv zeta.
    destruct (rderef k s (length s)); cbn [bind]; try reflexivity. rewrite R, digit_in_same. destruct (digit_in b a0 r) as [[]| | | |]; cbn [bind]; try reflexivity.
    destruct (retreat k s (length s)) as [i [[]| | | |]]; try reflexivity. destruct (Nat.eqb i 0); [reflexivity|]. now rewrite loop_same.
  Qed.

  Lemma fraction_same : forall t s root out, fraction_digits_in a t r s root out = fraction_digits_in b t r s root out.
  Proof.
    intros t. induction s as [|c s IH]; intros root out; cbn [fraction_digits_in]; [reflexivity|]. rewrite digit_in_same.
    destruct (digit_in b c r) as [[]| | | |]; cbn [bind]; try reflexivity. destruct (append_digit t r n root out). apply IH.
  Qed.

  Lemma float_same : forall k t s f, radix (base f) = r -> parse_floating_point_in a k t s f = parse_floating_point_in b k t s f.
  Proof.
    intros k t s f R. unfold parse_floating_point_in. destruct (convert_string K32 k s); cbn [bind]; try reflexivity.
    unfold equivalent_format, new_integer_format. destruct ((radix (base f) <? 2) || (36 <? radix (base f))); [reflexivity|]. cbn [bind].
    set (ef := IntegerFormat _ _ _). assert (Re : radix ef = r) by exact R.
    destruct (split_at (point_char (point f)) a0) as [[whole fraction]|]; rewrite integer_same by exact Re; [|reflexivity].
    destruct (parse_integer_in b K32 I64 whole ef); cbn [bind]; try reflexivity. cbv zeta. rewrite R, fraction_same. reflexivity.
  Qed.
End Same.

(** The model of NumberModel.v and FloatModel.v is that of the "C" locale. *)
Lemma classic_digit : forall c r, is_radix_digit_in classic c r = is_radix_digit c r.
Proof. intros c r. unfold is_radix_digit_in, is_radix_digit, tolower_in, tolower, classic. reflexivity. Qed.

Lemma classic_get : forall c r, digit_in classic c r = digit_character_to_integer c r.
Proof. intros c r. unfold digit_in, digit_character_to_integer. now rewrite classic_digit. Qed.

Lemma classic_step : forall t f c st, parse_step_in classic t f c st = parse_step t f c st.
Proof. intros. unfold parse_step_in, parse_step, next_digit_in, get_next_digit. now rewrite classic_digit, classic_get. Qed.

Lemma classic_loop : forall t f fuel k s i st, parse_loop_in classic fuel k s i t f st = parse_loop fuel k s i t f st.
Proof.
  intros t f. induction fuel as [|fuel IH]; intros k s i st; cbn [parse_loop_in parse_loop]; [reflexivity|]. destruct (Nat.eqb i 0); [reflexivity|].
  destruct (rderef k s i); cbn [bind]; try reflexivity. rewrite classic_step. destruct (parse_step t f a st); cbn [bind]; try reflexivity.
  destruct (retreat k s i) as [i' [[]| | | |]]; try reflexivity. apply IH.
Qed.

Lemma classic_integer : forall k t s f, parse_integer_in classic k t s f = parse_integer k t s f.
Proof.
  intros k t s f. unfold parse_integer_in, parse_integer, next_digit_in, get_next_digit. destruct (Nat.eqb (length s) 0); [reflexivity|]. cbv zeta.
  destruct (rderef k s (length s)); cbn [bind]; try reflexivity. rewrite classic_get. destruct (digit_character_to_integer a (radix f)) as [[]| | | |]; cbn [bind]; try reflexivity.
  destruct (retreat k s (length s)) as [i [[]| | | |]]; try reflexivity. destruct (Nat.eqb i 0); [reflexivity|]. now rewrite classic_loop.
Qed.

Lemma classic_fraction : forall t r s root out, fraction_digits_in classic t r s root out = fraction_digits t r s root out.
Proof.
  intros t r. induction s as [|c s IH]; intros root out; cbn [fraction_digits_in fraction_digits]; [reflexivity|]. rewrite classic_get.
  destruct (digit_character_to_integer c r) as [[]| | | |]; cbn [bind]; try reflexivity. destruct (append_digit t r n root out). apply IH.
Qed.

Lemma classic_float : forall k t s f, parse_floating_point_in classic k t s f = parse_floating_point k t s f.
Proof.
  intros k t s f. unfold parse_floating_point_in, parse_floating_point. destruct (convert_string K32 k s); cbn [bind]; try reflexivity.
  destruct (equivalent_format f); cbn [bind]; try reflexivity.
  destruct (split_at (point_char (point f)) a) as [[whole fraction]|]; rewrite classic_integer; [|reflexivity].
  destruct (parse_integer K32 I64 whole a0); cbn [bind]; try reflexivity. cbv zeta. rewrite classic_fraction. reflexivity.
Qed.
