(** C153: numbers are shown as they were typed. *)
From Coq Require Import NArith ZArith List Bool Lia ZifyBool ZifyNat ZifyN.
From Verif Require Import Base Integers NumeralSpec UnicodeSpec FloatSpec FloatSpec2 UnicodeModel NumberModel NumberText
  NumberLemmas NumberLemmas2 NumberLemmas4 NumberProps FloatModel FloatText FloatLemmas FloatLemmas2 FloatLemmas3 FloatLemmas4
  FloatLemmas5 FloatLemmas6 FloatLemmas7 FloatLemmas8 FloatLemmas9 FloatProps FloatProps2 TypedLemmas.
Import ListNotations.
Open Scope Z_scope.

(** A text is read as a number, which is shown in the same format. *)
Definition integer_again (k k' : ukind) (cs : bool) (t : int_type) (text : list N) (f : integer_format) : outcome (list N) :=
  bind (parse_integer k t text f) (fun x => format_integer k' cs t x f).
Definition float_again (k k' : ukind) (cs : bool) (t : float_type) (text : list N) (f : float_format) : outcome (list N) :=
  bind (parse_floating_point k t text f) (fun x => format_floating_point k' cs t x f).

(* ------------------------------------------------------------------ integers *)

(** -128 can be read as a signed char, but not be shown. *)
Theorem C153_minimum_refuted : forall k k' cs,
  parse_integer k I8 [45; 49; 50; 56]%N default_integer_format = Ok (-128) /\
  integer_again k k' cs I8 [45; 49; 50; 56]%N default_integer_format = Diverge.
Proof.
  intros k k' cs. assert (E : parse_integer k I8 [45; 49; 50; 56]%N default_integer_format = Ok (-128)) by (destruct k as [[]| | | | |]; vm_compute; reflexivity).
  split; [exact E|]. unfold integer_again. rewrite E. cbn [bind]. unfold format_integer.
  generalize format_fuel. intro fuel. exact (proj2 (proj2 C19_every_value_refuted) fuel k' cs OnlyWhenNegative SepNone).
Qed.
Print Assumptions C153_minimum_refuted.

(** Every other number of every type, in every format and from every string type to every
    other: as it was typed, if it was typed as numbers are written: without needless
    zeros, and with capital letters. *)
Theorem C153_integers_partial : forall k k' cs t x f text,
  standard t -> in_range t x -> valid_radix (radix f) -> (is_signed t = true -> x <> min_of t) ->
  numeral (radix f) (shows_plus (sign f)) (sep_char (separator f)) x text ->
  integer_again k k' cs t text f = Ok text.
Proof.
  intros k k' cs t x f text Ht Rx Hr Hm Hn. unfold integer_again.
  rewrite (parse_numeral_back k t f x text) by assumption. cbn [bind].
  destruct (format_integer_ok k' cs t x f Ht Rx Hr Hm) as (s & E & Hs). rewrite E. f_equal.
  eapply numeral_unique; [|exact Hs|exact Hn]. unfold valid_radix in Hr. lia.
Qed.
Print Assumptions C153_integers_partial.

(** Typed in another way, with needless zeros or small letters or without the plus sign:
    as the same number is written. *)
Theorem C153_written_partial : forall k k' cs t f neg sg chars ds,
  standard t -> valid_radix (radix f) ->
  sign_prefix (shows_plus (sign f)) neg sg -> digits_text (radix f) chars ds -> chars <> [] ->
  in_range t (signed_value neg (value (radix f) ds)) ->
  (neg = true -> is_signed t = true) ->
  (is_signed t = true -> signed_value neg (value (radix f) ds) <> min_of t) ->
  (t = I64 -> Z.of_N (radix f) ^ (Z.of_nat (length ds) - 1) <= max_of t)%Z ->
  exists text, integer_again k k' cs t (sg ++ grouped (sep_char (separator f)) chars) f = Ok text /\
    numeral (radix f) (shows_plus (sign f)) (sep_char (separator f)) (signed_value neg (value (radix f) ds)) text.
Proof.
  intros k k' cs t f neg sg chars ds Ht Hr Hs D Hne R Hn Hm Hp. unfold integer_again.
  rewrite (C22_fits_partial k t f neg sg chars ds) by (auto; intros X; split; auto). cbn [bind].
  now apply format_integer_ok.
Qed.
Print Assumptions C153_written_partial.

Example C153_integers_example :
  integer_again K8 K16 true I32 [43; 49; 44; 50; 51; 52]%N (IntegerFormat 10 AlwaysShow SepComma) = Ok [43; 49; 44; 50; 51; 52]%N /\
  integer_again K16 K8 true U8 [48; 48; 97]%N (IntegerFormat 16 OnlyWhenNegative SepNone) = Ok [65]%N /\
  numeral 10 true (Some 44%N) 1234 [43; 49; 44; 50; 51; 52]%N.
Proof.
  split; [vm_compute; reflexivity|]. split; [vm_compute; reflexivity|].
  exists [1; 2; 3; 4]%N. split; [|split; reflexivity]. split; [discriminate|]. split; [repeat constructor|discriminate].
Qed.

(* ------------------------------------------------------------- floating point *)

(** 1.2 as a float is shown as 1.2000000476837158203125. *)
Theorem C153_decimal_refuted :
  float_again K8 K8 true F32 [49; 46; 50]%N default_float_format
  = Ok [49; 46; 50; 48; 48; 48; 48; 48; 48; 52; 55; 54; 56; 51; 55; 49; 53; 56; 50; 48; 51; 49; 50; 53]%N.
Proof. vm_compute; reflexivity. Qed.
Print Assumptions C153_decimal_refuted.

(** The largest long long can be read as a double, but not be shown. *)
Theorem C153_large_refuted :
  parse_floating_point K8 F64 [57; 50; 50; 51; 51; 55; 50; 48; 51; 54; 56; 53; 52; 55; 55; 53; 56; 48; 55]%N default_float_format
    = Ok (Fin (2 ^ 63 * one F64)) /\
  float_again K8 K8 true F64 [57; 50; 50; 51; 51; 55; 50; 48; 51; 54; 56; 53; 52; 55; 55; 53; 56; 48; 55]%N default_float_format
    = UB FloatCast.
Proof. split; vm_compute; reflexivity. Qed.
Print Assumptions C153_large_refuted.

(** Whole numbers of either sign that are values of the type: as they were typed, in every
    format. *)
Theorem C153_whole_partial : forall k k' cs t f i text, ieee t -> valid_radix (radix (base f)) ->
  - 2 ^ 63 < i < 2 ^ 63 -> has_value t (i * one t) ->
  numeral (radix (base f)) (shows_plus (sign (base f))) (sep_char (separator (base f))) i text ->
  sep_char (separator (base f)) <> Some (point_char (point f)) ->
  float_again k k' cs t text f = Ok text.
Proof.
  intros k k' cs t f i text Ht Hr Hi Hv Hn Hs. pose proof (ieee_fine t Ht) as F. pose proof (fine_good t F) as G.
  pose proof (one_pos t G) as P1. pose proof (has_value_in t _ Hv) as Hin. unfold float_again.
  rewrite (parse_float_whole k t f text i); auto.
  2:{ change (min_of I64) with (- 2 ^ 63). change (max_of I64) with (2 ^ 63 - 1). lia. }
  rewrite from_long_long_in; [|exact F|apply Hin|lia]. cbn [bind].
  assert (W : whole t (i * one t) = i) by (unfold whole; apply Z.div_mul; lia).
  assert (X : Z.abs (i * one t) mod one t = 0) by (rewrite Z.abs_mul, (Z.abs_eq (one t)) by lia; apply Z.mod_mul; lia).
  destruct (format_float_ok (fraction_fuel t f) k' cs t f (i * one t) G (proj1 Hin) Hr) as (itext & _ & Hn' & E).
  { rewrite W. change (min_of I64) with (- 2 ^ 63). change (max_of I64) with (2 ^ 63 - 1). lia. }
  { intros _. rewrite X. clear. induction (Z.to_nat (scale t)); cbn; auto. }
  { apply le_n. }
  unfold format_floating_point. rewrite E, X, Z.eqb_refl, app_nil_r. f_equal. rewrite W in Hn'.
  eapply numeral_unique; [|exact Hn'|exact Hn]. unfold valid_radix in Hr. lia.
Qed.
Print Assumptions C153_whole_partial.

(** Fractions in radix 2, 4, 8, 16 or 32 that are values of the type and do not end in a
    zero: as they were typed.  Missing: the radixes in which digits are rounded
    (C153_decimal_refuted), negative numbers (C59_negative_refuted). *)
Theorem C153_fractions_partial : forall k k' cs t f b i itext ds n, ieee t -> has_value t n ->
  Z.of_N (radix (base f)) = 2 ^ b -> 1 <= b <= 5 -> separator (base f) = SepNone -> limit f = NoLimit ->
  0 <= i < 2 ^ 63 ->
  numeral (radix (base f)) (shows_plus (sign (base f))) None i itext ->
  Forall (fun d => (d < radix (base f))%N) ds -> last ds 0%N <> 0%N ->
  Z.of_N (radix (base f)) ^ Z.of_nat (length ds) < 2 ^ emax t ->
  let text := itext ++ point_char (point f) :: map digit_char ds in
  denotes (radix (base f)) (point_char (point f)) text n (one t) ->
  float_again k k' cs t text f = Ok text.
Proof.
  intros k k' cs t f b i itext ds n Ht Hv Hb Hb1 Hsep Hlim Hi Hn Hd Hl Hmax text D.
  pose proof (ieee_fine t Ht) as F. pose proof (fine_good t F) as G. pose proof (one_pos t G) as P1.
  assert (Hne : ds <> []) by (intros ->; now apply Hl).
  assert (Hr : (2 <= radix (base f) <= 36)%N).
  { assert (2 ^ 1 <= 2 ^ b) by (apply Z.pow_le_mono_r; lia). assert (2 ^ b <= 2 ^ 5) by (apply Z.pow_le_mono_r; lia).
    change (2 ^ 1) with 2 in *. change (2 ^ 5) with 32 in *. lia. }
  assert (Hs : sep_char (separator (base f)) <> Some (point_char (point f))) by (rewrite Hsep; discriminate).
  assert (Hn' : numeral (radix (base f)) (shows_plus (sign (base f))) (sep_char (separator (base f))) i itext) by (rewrite Hsep; exact Hn).
  pose proof (C59_parse_partial k t f b i itext ds n Ht Hv Hb Hb1 Hi Hn' Hs Hd Hne Hmax D) as PE. cbv zeta in PE. fold text in PE.
  unfold float_again. rewrite PE. cbn [bind].
  destruct (fraction_text_reads _ _ _ _ _ _ _ Hr Hn' Hs Hd) as (P & _ & Q). cbv zeta in P, Q. fold text in P, Q.
  unfold denotes in D. rewrite P, Q in D. replace (i <? 0) with false in D by lia. rewrite (Z.abs_eq i) in D by lia.
  set (r := radix (base f)) in *. pose proof (value_lt_pow r ds ltac:(lia) Hd) as VL. pose proof (value_ends r ds ltac:(lia) Hne Hl) as V0.
  set (R := Z.of_N r ^ Z.of_nat (length ds)) in *. set (V := Z.of_N (value r ds)) in *.
  assert (HR : 0 < R) by (apply Z.pow_pos_nonneg; lia).
  assert (DR : (n - i * one t) * R = V * one t) by lia.
  assert (RG : 0 < n - i * one t < one t).
  { clear - DR VL V0 HR P1. set (x := n - i * one t) in *. assert (V * one t < R * one t) by (apply Z.mul_lt_mono_pos_r; lia).
    assert (0 < V * one t) by (apply Z.mul_pos_pos; lia). split; nia. }
  assert (N0 : 0 <= n) by nia.
  assert (W : whole t n = i) by (unfold whole; symmetry; apply (Z.div_unique n (one t) i (n - i * one t)); lia).
  assert (X : n mod one t = n - i * one t) by (symmetry; apply (Z.mod_unique n (one t) i (n - i * one t)); lia).
  assert (Hfit : integral_part_fits t n) by (unfold integral_part_fits; nia).
  destruct (format_text (fraction_fuel t f) k' cs t f n F (has_value_in t n Hv) Hfit Hr) as (itext' & _ & Hi' & E).
  { right. fold r. replace (N.even r) with (Z.even (Z.of_N r)) by (destruct r; reflexivity). rewrite Hb.
    rewrite Z.even_pow by lia. reflexivity. }
  { apply le_n. }
  unfold format_floating_point. rewrite E, (Z.abs_eq n), X by assumption. replace (n - i * one t =? 0) with false by lia. cbv zeta.
  assert (Hlm : limited f = false) by (unfold limited; now rewrite Hlim).
  assert (EB : expand t r (shown t f) (n - i * one t) = ds).
  { apply (expand_back t r b); auto; try lia.
    - rewrite <- X. apply mod_frac; [exact G|]. pose proof (proj1 (has_value_in t n Hv)) as Y. rewrite Z.abs_eq in Y by assumption. exact Y.
    - unfold shown. rewrite Hlm. unfold R in Hmax. fold r in Hmax. rewrite (pow_2_pow r b) in Hmax by lia.
      apply Z.pow_lt_mono_r_iff in Hmax; [|lia|destruct F; lia]. unfold scale. destruct F. nia. }
  fold r. rewrite EB. rewrite W in Hi'.
  rewrite (numeral_unique r _ _ i itext' itext ltac:(lia) Hi' Hn').
  unfold padding. rewrite Hlim. cbn [repeat]. rewrite app_nil_r, Hsep. cbn [sep_char]. now rewrite fraction_text_none.
Qed.
Print Assumptions C153_fractions_partial.

(** Every text of a number v >= 0 below 2^62, in every even radix: a number v' is shown that
    is at most (2p + 33) 2^-p (v + 1) away, where p is the precision of the type. *)
Theorem C153_near_partial : forall k k' cs t f i itext ds text, ieee t -> valid_radix (radix (base f)) ->
  N.even (radix (base f)) = true -> limit f = NoLimit -> 0 <= i < 2 ^ 62 ->
  numeral (radix (base f)) (shows_plus (sign (base f))) (sep_char (separator (base f))) i itext ->
  sep_char (separator (base f)) <> Some (point_char (point f)) ->
  Forall (fun d => (d < radix (base f))%N) ds ->
  text = itext \/ (ds <> [] /\ text = itext ++ point_char (point f) :: map digit_char ds) ->
  exists shown, float_again k k' cs t text f = Ok shown /\
    let r := radix (base f) in
    let p := point_char (point f) in
    let R := Z.of_N r ^ Z.of_nat (places_in r p text) in
    let R' := Z.of_N r ^ Z.of_nat (places_in r p shown) in
    Z.abs (numerator r p shown * R - numerator r p text * R') * 2 ^ prec t
    <= (2 * prec t + 33) * (numerator r p text + R) * R'.
Proof.
  intros k k' cs t f i itext ds text Ht Hr Ev Hlim Hi Hn Hs Hd Htx.
  pose proof (ieee_fine t Ht) as F. pose proof (fine_good t F) as G. pose proof (one_pos t G) as P1.
  destruct (C59_near_partial k t f i itext ds text Ht Hr ltac:(lia) Hn Hs Hd Htx) as (n & E & Hv & D).
  unfold float_again. rewrite E. cbn [bind].
  set (r := radix (base f)) in *. set (p := point_char (point f)) in *.
  assert (NR : 0 <= numerator r p text /\ numerator r p text < 2 ^ 62 * Z.of_N r ^ Z.of_nat (places_in r p text)).
  { destruct Htx as [->|[Hne ->]].
    - destruct (whole_text_reads _ _ _ _ _ _ Hr Hn Hs) as [A B]. fold r p in A, B. rewrite A, B. cbn [Z.of_nat]. lia.
    - destruct (fraction_text_reads _ _ _ _ _ _ _ Hr Hn Hs Hd) as (A & _ & B). cbv zeta in A, B. fold r p in A, B. rewrite A, B.
      replace (i <? 0) with false by lia. rewrite (Z.abs_eq i) by lia. pose proof (value_lt_pow r ds ltac:(destruct Hr; unfold r; lia) Hd).
      assert (0 < Z.of_N r ^ Z.of_nat (length ds)) by (apply Z.pow_pos_nonneg; destruct Hr; unfold r; lia). nia. }
  unfold denotes_within in D. cbv zeta in D.
  assert (HR : 0 < Z.of_N r ^ Z.of_nat (places_in r p text)) by (apply Z.pow_pos_nonneg; destruct Hr; unfold r; lia).
  set (v := numerator r p text) in *. set (R := Z.of_N r ^ Z.of_nat (places_in r p text)) in *.
  rewrite (Z.abs_eq v) in D by lia.
  assert (PB : 24 <= prec t <= 113) by (destruct Ht as [->|[->|[->| ->]]]; vm_compute; split; discriminate).
  set (P := 2 ^ prec t) in *. assert (HP : (2 * prec t + 33) * 8 <= P).
  { unfold P. destruct Ht as [->|[->|[->| ->]]]; vm_compute; discriminate. }
  assert (Bd : Z.abs (v * one t - n * R) * 8 <= (v + R) * one t).
  { assert (Z.abs (v * one t - n * R) * ((2 * prec t + 33) * 8) <= Z.abs (v * one t - n * R) * P) by (apply Z.mul_le_mono_nonneg_l; lia).
    assert (0 <= (v + R) * one t) by (apply Z.mul_nonneg_nonneg; lia).
    set (A := Z.abs (v * one t - n * R)) in *. set (B := (v + R) * one t) in *.
    assert ((2 * prec t + 31) * (v + R) * one t = (2 * prec t + 31) * B) by (unfold B; ring). clear - H H0 H1 D PB. nia. }
  (* only a value that is not negative is near such a number: the sum of positive terms *)
  assert (N0 : 0 <= n).
  { destruct Htx as [->|[Hne ->]].
    - rewrite (parse_float_whole k t f itext i) in E; auto.
      2:{ change (min_of I64) with (- 2 ^ 63). change (max_of I64) with (2 ^ 63 - 1). lia. }
      injection E as E. unfold from_long_long, fround, pack in E.
      assert (0 <= round_units (prec t) (i * one t)) by (apply round_nonneg; nia).
      destruct (_ <? _) in E; [injection E as <-; assumption|]. destruct (_ <? _) in E; discriminate.
    - exact (parse_not_negative k t f i itext ds n F Hr ltac:(lia) Hn Hs Hd Hne E). }
  assert (Hfit : integral_part_fits t n).
  { unfold integral_part_fits. split; [nia|]. destruct NR as [NR1 NR2].
    assert (n * R * 8 <= (9 * v + R) * one t) by lia.
    assert (v * one t < 2 ^ 62 * R * one t) by (apply Z.mul_lt_mono_pos_r; lia).
    assert (n * R * 8 < 2 ^ 66 * R * one t) by nia.
    assert (n * 8 < 2 ^ 66 * one t) by (apply (Z.mul_lt_mono_pos_r R); nia). change (2 ^ 66) with (2 ^ 63 * 8) in *. lia. }
  destruct (C25_near_partial k' cs t n f Ht Hv N0 Hfit Hr Ev Hs Hlim) as (shown & E' & D').
  exists shown. split; [exact E'|]. cbv zeta. fold r p in D'. unfold denotes_near in D'.
  assert (HR' : 0 < Z.of_N r ^ Z.of_nat (places_in r p shown)) by (apply Z.pow_pos_nonneg; destruct Hr; unfold r; lia).
  set (v' := numerator r p shown) in *. set (R' := Z.of_N r ^ Z.of_nat (places_in r p shown)) in *.
  assert (HP1 : P = 2 ^ (prec t - 1) * 2) by (unfold P; rewrite <- (Z.pow_1_r 2) at 3; rewrite <- Z.pow_add_r by lia; f_equal; lia).
  assert (D2 : Z.abs (v' * one t - n * R') * P <= 2 * (one t * R')) by (rewrite HP1; nia).
  (* put together, everything multiplied by one t *)
  assert (K : Z.abs (v' * R - v * R') * one t * P <= ((2 * prec t + 33) * (v + R) * R') * one t).
  { assert (T : Z.abs (v' * R - v * R') * one t <= Z.abs (v' * one t - n * R') * R + Z.abs (v * one t - n * R) * R').
    { rewrite <- (Z.abs_eq (one t)) at 1 by lia. rewrite <- Z.abs_mul.
      replace (Z.abs (v' * one t - n * R') * R) with (Z.abs ((v' * one t - n * R') * R)) by (rewrite Z.abs_mul, (Z.abs_eq R); lia).
      replace (Z.abs (v * one t - n * R) * R') with (Z.abs ((v * one t - n * R) * R')) by (rewrite Z.abs_mul, (Z.abs_eq R'); lia).
      replace ((v' * R - v * R') * one t) with ((v' * one t - n * R') * R - (v * one t - n * R) * R') by ring. lia. }
    assert (HP0 : 0 < P) by lia.
    assert (T2 : Z.abs (v' * R - v * R') * one t * P <= Z.abs (v' * one t - n * R') * P * R + Z.abs (v * one t - n * R) * P * R').
    { etransitivity; [apply Z.mul_le_mono_nonneg_r; [lia|exact T]|]. lia. }
    etransitivity; [exact T2|].
    assert (U1 : Z.abs (v' * one t - n * R') * P * R <= 2 * (one t * R') * R) by (apply Z.mul_le_mono_nonneg_r; lia).
    assert (U2 : Z.abs (v * one t - n * R) * P * R' <= (2 * prec t + 31) * (v + R) * one t * R') by (apply Z.mul_le_mono_nonneg_r; lia).
    assert (U3 : 2 * (one t * R') * R <= 2 * (v + R) * one t * R').
    { replace (2 * (one t * R') * R) with (2 * R * (one t * R')) by ring. replace (2 * (v + R) * one t * R') with (2 * (v + R) * (one t * R')) by ring.
      apply Z.mul_le_mono_nonneg_r; [apply Z.mul_nonneg_nonneg; lia|lia]. }
    replace ((2 * prec t + 33) * (v + R) * R' * one t) with (2 * (v + R) * one t * R' + (2 * prec t + 31) * (v + R) * one t * R') by ring. lia. }
  apply (Z.mul_le_mono_pos_r _ _ (one t)); [exact P1|]. lia.
Qed.
Print Assumptions C153_near_partial.

(** 1F.8 and 0.00C in radix 16; 12.25 in radix 10, where 0.25 is exact, too. *)
Example C153_fractions_example :
  let f := FloatFormat (IntegerFormat 16 OnlyWhenNegative SepNone) RadixPeriod NoLimit 0 in
  float_again K8 K16 true F32 [49; 70; 46; 56]%N f = Ok [49; 70; 46; 56]%N /\
  float_again K8 K8 true F32 [48; 46; 48; 48; 67]%N f = Ok [48; 46; 48; 48; 67]%N /\
  denotes 16 46 [49; 70; 46; 56]%N (63 * 2 ^ (scale F32 - 1)) (one F32) /\ has_value F32 (63 * 2 ^ (scale F32 - 1)) /\
  float_again K8 K8 true F32 [49; 50; 46; 50; 53]%N default_float_format = Ok [49; 50; 46; 50; 53]%N /\
  float_again K8 K8 true F32 [45; 49; 50]%N default_float_format = Ok [45; 49; 50]%N.
Proof.
  cbv zeta. split; [vm_compute; reflexivity|]. split; [vm_compute; reflexivity|]. split; [vm_compute; reflexivity|].
  split; [exists 63, (scale F32 - 1); vm_compute; repeat split; congruence|]. split; vm_compute; reflexivity.
Qed.
