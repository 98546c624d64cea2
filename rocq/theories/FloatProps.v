(** C25-C28, C59, C60: formatting and parsing floating-point numbers.

    A value is an integer number [n] of units 2^-scale of its type: the number
    n / one. *)
From Coq Require Import NArith ZArith List Bool Lia ZifyBool ZifyNat ZifyN.
From Verif Require Import Base Integers NumeralSpec FloatSpec UnicodeSpec UnicodeModel UnicodeText
  NumberModel NumberText NumberLemmas NumberLemmas2 NumberLemmas4 NumberLemmas6 FloatModel FloatText FloatLemmas FloatLemmas2 FloatLemmas3
  FloatLemmas4 FloatLemmas5 FloatLemmas6.
Import ListNotations.
Open Scope Z_scope.

(** a / 2^b in units of the type. *)
Definition dyadic (t : float_type) (a b : Z) : Z := a * 2 ^ (scale t - b).

Lemma dyadic_value : forall t a b, ieee t -> 0 <= b <= 60 -> Z.abs a < 2 ^ 24 -> has_value t (dyadic t a b).
Proof.
  intros t a b Ht Hb Ha. exists (Z.abs a), (scale t - b). unfold dyadic.
  assert (B : 24 <= prec t /\ 24 <= emax t /\ 60 <= scale t)
    by (destruct Ht as [->|[->|[->| ->]]]; repeat split; vm_compute; congruence).
  assert (P : 0 < 2 ^ (scale t - b)) by (apply pow2_pos; lia).
  rewrite Z.abs_mul, (Z.abs_eq (2 ^ _)) by lia.
  assert (2 ^ 24 <= 2 ^ prec t) by (apply Z.pow_le_mono_r; lia).
  split; [reflexivity|]. split; [lia|]. split; [lia|].
  assert (Z.abs a * 2 ^ (scale t - b) < 2 ^ 24 * 2 ^ (scale t - b)) by (apply Z.mul_lt_mono_pos_r; lia).
  rewrite <- Z.pow_add_r in H0 by lia.
  assert (2 ^ (24 + (scale t - b)) <= 2 ^ (emax t + scale t)) by (apply Z.pow_le_mono_r; lia). lia.
Qed.

(* ------------------------------------------------------------------- C25 *)

(** -1.5 is printed as "-2.5". *)
Theorem C25_denotes_refuted :
  ~ (forall k cs t n f text, ieee t -> has_value t n -> integral_part_fits t n ->
       valid_radix (radix (base f)) -> sep_char (separator (base f)) <> Some (point_char (point f)) ->
       limit f = NoLimit ->
       format_floating_point k cs t (Fin n) f = Ok text ->
       denotes (radix (base f)) (point_char (point f)) text n (one t)).
Proof.
  intro H. specialize (H K8 true F32 (dyadic F32 (-3) 1) default_float_format [45; 50; 46; 53]%N).
  assert (V : has_value F32 (dyadic F32 (-3) 1)) by (apply dyadic_value; [left; reflexivity|lia|cbn; lia]).
  specialize (H ltac:(left; reflexivity) V ltac:(split; vm_compute; congruence)
                ltac:(split; vm_compute; congruence) ltac:(discriminate) eq_refl ltac:(vm_compute; reflexivity)).
  revert H. vm_compute. discriminate.
Qed.
Print Assumptions C25_denotes_refuted.

(** Values that are not negative: in an even radix the text denotes the value up
    to 2^-(prec-1).  Missing: odd radixes, where the digits need not end (C26; with a limit see C141). *)
Theorem C25_near_partial : forall k cs t n f, ieee t -> has_value t n -> 0 <= n -> integral_part_fits t n ->
  valid_radix (radix (base f)) -> N.even (radix (base f)) = true ->
  sep_char (separator (base f)) <> Some (point_char (point f)) -> limit f = NoLimit ->
  exists text, format_floating_point k cs t (Fin n) f = Ok text /\
    denotes_near (radix (base f)) (point_char (point f)) text n (one t) (prec t - 1).
Proof.
  intros k cs t n f Ht Hv H0 Hfit Hr Ev Hs Hl.
  destruct (format_denotes k cs t f n (ieee_fine t Ht) (has_value_in t n Hv) Hfit Hr Hs Hl Ev) as (text & E & D & _).
  exists text. split; [assumption|]. unfold shown_value in D. replace (n <? 0) with false in D by lia. exact D.
Qed.
Print Assumptions C25_near_partial.

(** Exactly, in radix 2, 4, 8, 16 and 32, and in every even radix for values with
    few fractional bits: multiples of 2^-s with r * 2^s <= 2^prec. *)
Theorem C25_exact_partial : forall k cs t n f, ieee t -> has_value t n -> 0 <= n -> integral_part_fits t n ->
  valid_radix (radix (base f)) -> N.even (radix (base f)) = true ->
  sep_char (separator (base f)) <> Some (point_char (point f)) -> limit f = NoLimit ->
  (exists b, 0 <= b /\ Z.of_N (radix (base f)) = 2 ^ b) \/
  (exists s, 0 <= s <= scale t /\ Z.of_N (radix (base f)) * 2 ^ s <= 2 ^ prec t /\ (2 ^ (scale t - s) | n)) ->
  exists text, format_floating_point k cs t (Fin n) f = Ok text /\
    denotes (radix (base f)) (point_char (point f)) text n (one t).
Proof.
  intros k cs t n f Ht Hv H0 Hfit Hr Ev Hs Hl Hx.
  destruct (format_denotes k cs t f n (ieee_fine t Ht) (has_value_in t n Hv) Hfit Hr Hs Hl Ev) as (text & E & _ & D).
  exists text. split; [assumption|]. specialize (D Hx). unfold shown_value in D.
  replace (n <? 0) with false in D by lia. exact D.
Qed.
Print Assumptions C25_exact_partial.

(** A negative value that is not integral always comes out one too low: the text
    denotes x - 1. *)
Theorem C25_negative_partial : forall k cs t n f, ieee t -> has_value t n -> n < 0 -> ~ (one t | n) ->
  integral_part_fits t n ->
  valid_radix (radix (base f)) -> N.even (radix (base f)) = true ->
  sep_char (separator (base f)) <> Some (point_char (point f)) -> limit f = NoLimit ->
  exists text, format_floating_point k cs t (Fin n) f = Ok text /\
    denotes_near (radix (base f)) (point_char (point f)) text (n - one t) (one t) (prec t - 1).
Proof.
  intros k cs t n f Ht Hv H0 Hd Hfit Hr Ev Hs Hl.
  destruct (format_denotes k cs t f n (ieee_fine t Ht) (has_value_in t n Hv) Hfit Hr Hs Hl Ev) as (text & E & D & _).
  exists text. split; [assumption|]. unfold shown_value in D. replace (n <? 0) with true in D by lia.
  pose proof (one_pos t (fine_good t (ieee_fine t Ht))).
  replace (Z.abs n mod one t =? 0) with false in D; [exact D|].
  symmetry. apply Z.eqb_neq. intro X. apply Z.mod_divide in X; [|lia]. apply Hd. exact (proj1 (Z.divide_abs_r _ _) X).
Qed.
Print Assumptions C25_negative_partial.

(** The text itself, for values of either sign: the canonical numeral of the
    integral part, then, if there is a fraction, the radix character and digits of
    the radix in groups of three. *)
Theorem C25_shape : forall k cs t n f, ieee t -> has_value t n -> integral_part_fits t n ->
  valid_radix (radix (base f)) -> N.even (radix (base f)) = true -> limit f = NoLimit ->
  exists integral fraction,
    format_floating_point k cs t (Fin n) f = Ok (integral ++ fraction) /\
    numeral (radix (base f)) (shows_plus (sign (base f))) (sep_char (separator (base f))) (n / one t) integral /\
    (if (n mod one t =? 0) then fraction = []
     else exists ds, ds <> [] /\ Forall (fun d => (d < radix (base f))%N) ds /\
            fraction = point_char (point f) :: fraction_text (sep_char (separator (base f))) 0 ds).
Proof.
  intros k cs t n f Ht Hv Hfit Hr Ev Hl. pose proof (ieee_fine t Ht) as F. pose proof (fine_good t F) as G.
  pose proof (one_pos t G) as P1.
  destruct (format_text (fraction_fuel t f) k cs t f n F (has_value_in t n Hv) Hfit Hr (or_intror Ev) (le_n _))
    as (itext & _ & Hn & E).
  exists itext. eexists. split; [exact E|]. split; [exact Hn|]. clear E.
  assert (EqZ : (Z.abs n mod one t =? 0) = (n mod one t =? 0)).
  { apply eq_true_iff_eq. rewrite !Z.eqb_eq, !Z.mod_divide by lia. apply Z.divide_abs_r. }
  rewrite EqZ. destruct (n mod one t =? 0) eqn:X; [reflexivity|].
  cbv zeta. set (ds := expand t (radix (base f)) (shown t f) (Z.abs n mod one t)).
  exists ds.
  assert (Pad : padding f ds = O) by (unfold padding; now rewrite Hl). rewrite Pad. cbn [repeat].
  assert (Hlim : limited f = false) by (unfold limited; now rewrite Hl).
  split; [|split; [|now rewrite app_nil_r]].
  - unfold ds, shown. rewrite Hlim. unfold good in G. destruct (Z.to_nat (scale t)) eqn:Es; [lia|].
    cbn [expand]. rewrite EqZ. discriminate.
  - destruct Hr. apply expand_digits; auto. apply mod_frac; auto. apply (has_value_in t n Hv).
Qed.
Print Assumptions C25_shape.

Example C25_example :
  format_floating_point K8 true F64 (Fin (dyadic F64 9 3)) default_float_format
    = Ok [49; 46; 49; 50; 53]%N (* 1.125 *) /\
  format_floating_point K16 true F32 (Fin (dyadic F32 5001 2))
    (FloatFormat (IntegerFormat 16 AlwaysShow SepNone) RadixComma NoLimit 0)
    = Ok [43; 52; 69; 50; 44; 52]%N (* +4E2,4 *) /\
  has_value F64 (dyadic F64 9 3) /\ integral_part_fits F64 (dyadic F64 9 3) /\
  (exists s, 0 <= s <= scale F64 /\ Z.of_N 10 * 2 ^ s <= 2 ^ prec F64 /\ (2 ^ (scale F64 - s) | dyadic F64 9 3)) /\
  format_floating_point K8 true F64 (Fin (dyadic F64 (-5) 2)) default_float_format
    = Ok [45; 50; 46; 50; 53]%N (* -1.25 printed as -2.25 *).
Proof.
  split; [vm_compute; reflexivity|]. split; [vm_compute; reflexivity|].
  split; [apply dyadic_value; [right; left; reflexivity|lia|cbn; lia]|].
  split; [split; vm_compute; congruence|]. split.
  - exists 3. split; [cbn; lia|]. split; [vm_compute; congruence|]. exists 9. reflexivity.
  - vm_compute; reflexivity.
Qed.

(* ------------------------------------------------------------------- C26 *)

(** One half, in any odd radix, without a place limit: no number of iterations is
    enough. *)
Theorem C26_terminates_refuted : forall k cs t f fuel, ieee t ->
  valid_radix (radix (base f)) -> N.odd (radix (base f)) = true -> limit f = NoLimit ->
  has_value t (dyadic t 1 1) /\
  format_floating_point_with fuel k cs t (Fin (dyadic t 1 1)) f = Diverge.
Proof.
  intros k cs t f fuel Ht Hr Odd Hl.
  assert (V : has_value t (dyadic t 1 1)) by (apply dyadic_value; [assumption|lia|cbn; lia]).
  split; [exact V|].
  pose proof (ieee_fine t Ht) as F. pose proof (fine_good t F) as G. pose proof (one_pos t G) as P1.
  assert (E1 : one t = 2 * 2 ^ (scale t - 1)).
  { unfold one. unfold good in G. rewrite (pow2_split 1 (scale t)) by lia. reflexivity. }
  assert (P : 0 < 2 ^ (scale t - 1)) by (apply pow2_pos; unfold good in G; lia).
  assert (H2 : dyadic t 1 1 = one t / 2) by (unfold dyadic; rewrite E1, (Z.mul_comm 2), Z.div_mul; lia).
  destruct (half_returns t (radix (base f)) G Hr (proj1 F) Odd) as (Hret & Hnz & Hf).
  rewrite H2 in *. set (h := one t / 2) in *.
  assert (Hh : 0 < h < one t) by (rewrite <- H2; unfold dyadic; lia).
  unfold format_floating_point_with, equivalent_format, new_integer_format.
  destruct Hr as [Hr2 Hr36].
  replace ((radix (base f) <? 2) || (36 <? radix (base f)))%N with false by lia. cbn [bind].
  assert (W : whole t h = 0) by (unfold whole; apply Z.div_small; lia).
  unfold to_long_long. rewrite W. cbn [bind].
  change ((min_of I64 <=? 0) && (0 <=? max_of I64)) with true. cbn [bind].
  replace (IntegerFormat (radix (base f)) (sign (base f)) (separator (base f))) with (base f) by (now destruct (base f)).
  destruct (format_integer_ok k cs I64 0 (base f) ltac:(vm_compute; tauto) ltac:(vm_compute; intuition congruence)
              (conj Hr2 Hr36) ltac:(intros; vm_compute; congruence)) as (itext & -> & _).
  cbn [bind]. replace (h <? 0) with false by lia. rewrite W, Z.mul_0_l, Z.sub_0_r.
  rewrite rep_round by (unfold good in G; lia || apply Hf). replace (h =? 0) with false by lia.
  pose proof (fraction_loop_diverges (fun x => x = h) k cs t f G (conj Hr2 Hr36) Hl) as D.
  change 0%N with (N.of_nat (0 mod 3)) at 1. rewrite D; [reflexivity| |reflexivity].
  intros x ->. auto.
Qed.
Print Assumptions C26_terminates_refuted.

(** Values whose integral part is no long long, and the non-finite values, are
    undefined behaviour in every format. *)
Theorem C26_range_refuted : forall fuel k cs t f, ieee t -> valid_radix (radix (base f)) ->
  (forall n, n < - 2 ^ 63 * one t \/ 2 ^ 63 * one t <= n ->
     format_floating_point_with fuel k cs t (Fin n) f = UB FloatCast) /\
  (forall n, - 2 ^ 63 * one t <= n < - (2 ^ 63 - 1) * one t ->
     format_floating_point_with fuel k cs t (Fin n) f = UB SignedOverflow) /\
  (forall b, format_floating_point_with fuel k cs t (Inf b) f = UB FloatCast) /\
  format_floating_point_with fuel k cs t NaN f = UB FloatCast.
Proof.
  intros fuel k cs t f Ht [Hr2 Hr36]. pose proof (one_pos t (fine_good t (ieee_fine t Ht))) as P1.
  unfold format_floating_point_with, equivalent_format, new_integer_format.
  replace ((radix (base f) <? 2) || (36 <? radix (base f)))%N with false by lia. cbn [bind].
  replace (IntegerFormat (radix (base f)) (sign (base f)) (separator (base f))) with (base f) by (now destruct (base f)).
  split; [|split; [|split; reflexivity]].
  - intros n Hn. unfold to_long_long, whole.
    change (min_of I64) with (- 2 ^ 63). change (max_of I64) with (2 ^ 63 - 1).
    assert (n / one t < - 2 ^ 63 \/ 2 ^ 63 <= n / one t).
    { destruct Hn; [left; apply Z.div_lt_upper_bound; lia|right; apply Z.div_le_lower_bound; lia]. }
    replace ((- 2 ^ 63 <=? n / one t) && (n / one t <=? 2 ^ 63 - 1)) with false by lia. reflexivity.
  - intros n Hn. unfold to_long_long, whole.
    assert (E : n / one t = min_of I64).
    { change (min_of I64) with (- 2 ^ 63).
      assert (- 2 ^ 63 <= n / one t) by (apply Z.div_le_lower_bound; lia).
      assert (n / one t < - 2 ^ 63 + 1) by (apply Z.div_lt_upper_bound; lia). lia. }
    rewrite E. change ((min_of I64 <=? min_of I64) && (min_of I64 <=? max_of I64)) with true. cbn [bind].
    unfold format_integer. rewrite format_min_overflow; [reflexivity|vm_compute; tauto|split; vm_compute; congruence].
Qed.
Print Assumptions C26_range_refuted.

(** Otherwise it returns: always in an even radix, and always with a place limit.
    Missing: odd radixes without a limit (refuted above). *)
Theorem C26_terminates_partial : forall k cs t n f, ieee t -> has_value t n -> integral_part_fits t n ->
  valid_radix (radix (base f)) ->
  N.even (radix (base f)) = true \/ limit f <> NoLimit ->
  exists text, format_floating_point k cs t (Fin n) f = Ok text.
Proof.
  intros k cs t n f Ht Hv Hfit Hr H.
  assert (H' : limited f = true \/ N.even (radix (base f)) = true).
  { destruct H as [H|H]; [auto|left]. unfold limited. destruct (limit f); congruence. }
  destruct (format_text (fraction_fuel t f) k cs t f n (ieee_fine t Ht) (has_value_in t n Hv) Hfit Hr H' (le_n _))
    as (itext & _ & _ & E). eexists. exact E.
Qed.
Print Assumptions C26_terminates_partial.

Example C26_example :
  format_floating_point K8 true F32 (Fin (dyadic F32 1 1))
    (FloatFormat (IntegerFormat 3 OnlyWhenNegative SepNone) RadixPeriod UpTo 4)
    = Ok [48; 46; 49; 49; 49; 49]%N /\
  has_value F32 (dyadic F32 1 1) /\ integral_part_fits F32 (dyadic F32 1 1) /\
  format_floating_point_with 500 K8 true F32 (Fin (dyadic F32 1 1))
    (FloatFormat (IntegerFormat 3 OnlyWhenNegative SepNone) RadixPeriod NoLimit 0) = Diverge.
Proof.
  split; [vm_compute; reflexivity|]. split; [apply dyadic_value; [left; reflexivity|lia|cbn; lia]|].
  split; [split; vm_compute; congruence|].
  refine (proj2 (C26_terminates_refuted K8 true F32
    (FloatFormat (IntegerFormat 3 OnlyWhenNegative SepNone) RadixPeriod NoLimit 0) 500 _ _ _ _));
    [left; reflexivity|split; vm_compute; congruence|reflexivity|reflexivity].
Qed.

(* ------------------------------------------------------------------- C27 *)

(** The double 0.875, in the default format, comes back as another number;
    so does -1.25. *)
Theorem C27_round_trip_refuted :
  ~ (forall k cs t n f, ieee t -> has_value t n -> 0 <= n -> integral_part_fits t n ->
       valid_radix (radix (base f)) -> N.even (radix (base f)) = true -> limit f = NoLimit ->
       bind (format_floating_point k cs t (Fin n) f) (fun s => parse_floating_point k t s f) = Ok (Fin n)).
Proof.
  intro H. specialize (H K8 true F64 (dyadic F64 7 3) default_float_format).
  assert (V : has_value F64 (dyadic F64 7 3)) by (apply dyadic_value; [right; left; reflexivity|lia|cbn; lia]).
  specialize (H ltac:(right; left; reflexivity) V ltac:(vm_compute; congruence) ltac:(split; vm_compute; congruence)
                ltac:(split; vm_compute; congruence) eq_refl eq_refl).
  revert H. vm_compute. discriminate.
Qed.
Print Assumptions C27_round_trip_refuted.

Theorem C27_negative_refuted :
  ~ (forall k cs t n f, ieee t -> has_value t n -> n < 0 -> integral_part_fits t n ->
       valid_radix (radix (base f)) -> N.even (radix (base f)) = true -> limit f = NoLimit ->
       bind (format_floating_point k cs t (Fin n) f) (fun s => parse_floating_point k t s f) = Ok (Fin n)).
Proof.
  intro H. specialize (H K8 true F32 (dyadic F32 (-5) 2) default_float_format).
  assert (V : has_value F32 (dyadic F32 (-5) 2)) by (apply dyadic_value; [left; reflexivity|lia|cbn; lia]).
  specialize (H ltac:(left; reflexivity) V ltac:(vm_compute; congruence) ltac:(split; vm_compute; congruence)
                ltac:(split; vm_compute; congruence) eq_refl eq_refl).
  revert H. vm_compute. discriminate.
Qed.
Print Assumptions C27_negative_refuted.

(** A separator in the fraction is never accepted back: whenever three digits are
    printed after the radix character, parsing the text fails. *)
Theorem C27_separator_refuted : forall k k' cs t n f c text, ieee t -> has_value t n -> integral_part_fits t n ->
  valid_radix (radix (base f)) ->
  N.even (radix (base f)) = true \/ limit f <> NoLimit ->
  sep_char (separator (base f)) = Some c -> c <> point_char (point f) ->
  limit f <> ExactlyEqual ->
  format_floating_point k cs t (Fin n) f = Ok text ->
  (3 <= places_in (radix (base f)) (point_char (point f)) text)%nat ->
  parse_floating_point k' t text f = Throw (ParseFailed WrongPlaceLimit).
Proof.
  intros k k' cs t n f c text Ht Hv Hfit Hr H Hs Hc Hne E H3.
  assert (H' : limited f = true \/ N.even (radix (base f)) = true).
  { destruct H as [H|H]; [auto|left]. unfold limited. destruct (limit f); congruence. }
  pose proof (ieee_fine t Ht) as F. pose proof (fine_good t F) as G.
  destruct (format_text (fraction_fuel t f) k cs t f n F (has_value_in t n Hv) Hfit Hr H' (le_n _))
    as (itext & _ & Hn & E').
  pose proof (round_trip_separator k k' cs t f n c F (has_value_in t n Hv) Hfit Hr Hs Hc H') as X.
  rewrite E in X. cbn [bind] in X. apply X. clear X.
  unfold format_floating_point in E. rewrite E in E'. injection E' as ->.
  assert (Hs' : sep_char (separator (base f)) <> Some (point_char (point f))) by congruence.
  destruct (Z.eqb_spec (Z.abs n mod one t) 0) as [Z0|Z0].
  - rewrite app_nil_r in H3. destruct (reading_whole _ _ _ _ _ (point f) Hr Hn Hs') as [_ P]. lia.
  - cbv zeta in H3. set (ds := expand _ _ _ _) in *.
    assert (Hd : Forall (fun d => (d < radix (base f))%N) ds).
    { destruct Hr. apply expand_digits; auto. apply mod_frac; auto. apply (has_value_in t n Hv). }
    destruct (reading_fraction _ _ _ _ _ (point f) ds (padding f ds) Hr Hn Hs' Hd) as (P & _ & _).
    rewrite P in H3. unfold padding in H3. destruct (limit f); try congruence; lia.
Qed.
Print Assumptions C27_separator_refuted.

(** Integral values of either sign, in every format (also with limits), through
    any two string kinds, if the separator is not the radix character. *)
Theorem C27_integral_partial : forall k k' cs t n f, ieee t -> has_value t n -> (one t | n) ->
  integral_part_fits t n -> valid_radix (radix (base f)) ->
  sep_char (separator (base f)) <> Some (point_char (point f)) ->
  bind (format_floating_point k cs t (Fin n) f) (fun s => parse_floating_point k' t s f) = Ok (Fin n).
Proof.
  intros k k' cs t n f Ht Hv Hd Hfit Hr Hs.
  apply round_trip_whole; auto using ieee_fine, has_value_in.
  unfold limited. destruct (limit f); auto.
Qed.
Print Assumptions C27_integral_partial.

(** Values that are not negative, in radix 2, 4, 8, 16 or 32 without separator:
    all multiples of 2^-(emax-5); for a double, of 2^-1019.  Missing: the other
    radixes, where a digit sum is rounded (refuted above), and smaller
    denormal numbers. *)
Theorem C27_power_of_two_partial : forall k k' cs t n f b, ieee t -> has_value t n -> 0 <= n ->
  (2 ^ (scale t - (emax t - 5)) | n) -> integral_part_fits t n ->
  Z.of_N (radix (base f)) = 2 ^ b -> 1 <= b <= 5 ->
  separator (base f) = SepNone -> limit f = NoLimit ->
  bind (format_floating_point k cs t (Fin n) f) (fun s => parse_floating_point k' t s f) = Ok (Fin n).
Proof.
  intros k k' cs t n f b Ht Hv H0 Hd Hfit Hb Hb1 Hs Hl.
  apply (round_trip_power_of_two k k' cs t f b n); auto using ieee_fine, has_value_in.
  replace (scale t - (emax t - 5)) with (prec t + 2) in Hd by (unfold scale; lia). exact Hd.
Qed.
Print Assumptions C27_power_of_two_partial.

Example C27_example :
  let f := FloatFormat (IntegerFormat 16 OnlyWhenNegative SepNone) RadixPeriod NoLimit 0 in
  let n := dyadic F64 7 3 in
  format_floating_point K8 true F64 (Fin n) f = Ok [48; 46; 69]%N (* 0.E *) /\
  parse_floating_point K16 F64 [48; 46; 69]%N f = Ok (Fin n) /\
  (2 ^ (scale F64 - (emax F64 - 5)) | n) /\ integral_part_fits F64 n /\
  format_floating_point K8 true F64 (Fin n) default_float_format = Ok [48; 46; 56; 55; 53]%N /\
  parse_floating_point K8 F64 [48; 46; 56; 55; 53]%N default_float_format
    = Ok (Fin (n + 2 ^ (scale F64 - 53))) /\
  (let g := FloatFormat (IntegerFormat 10 OnlyWhenNegative SepComma) RadixPeriod NoLimit 0 in
   format_floating_point K8 true F64 (Fin n) g = Ok [48; 46; 56; 55; 53; 44]%N (* 0.875, *) /\
   parse_floating_point K8 F64 [48; 46; 56; 55; 53; 44]%N g = Throw (ParseFailed WrongPlaceLimit)).
Proof.
  cbv zeta. repeat match goal with |- _ /\ _ => split end; try (vm_compute; reflexivity); try (vm_compute; congruence).
  - exists (7 * 2 ^ (scale F64 - 3 - (scale F64 - (emax F64 - 5)))). vm_compute. reflexivity.
  - split; vm_compute; congruence.
Qed.

(* ------------------------------------------------------------------- C28 *)

(** With "exactly three places", 1 is printed "1". *)
Theorem C28_exactly_refuted :
  ~ (forall k cs t n f text, ieee t -> has_value t n -> integral_part_fits t n ->
       valid_radix (radix (base f)) -> sep_char (separator (base f)) <> Some (point_char (point f)) ->
       limit f = ExactlyEqual -> format_floating_point k cs t (Fin n) f = Ok text ->
       places_in (radix (base f)) (point_char (point f)) text = N.to_nat (places f)).
Proof.
  intro H. specialize (H K8 true F32 (dyadic F32 1 0)
    (FloatFormat default_integer_format RadixPeriod ExactlyEqual 3) [49]%N).
  assert (V : has_value F32 (dyadic F32 1 0)) by (apply dyadic_value; [left; reflexivity|lia|cbn; lia]).
  specialize (H ltac:(left; reflexivity) V ltac:(split; vm_compute; congruence)
                ltac:(split; vm_compute; congruence) ltac:(discriminate) eq_refl ltac:(vm_compute; reflexivity)).
  revert H. vm_compute. discriminate.
Qed.
Print Assumptions C28_exactly_refuted.

(** The parser does not check the number of places. *)
Theorem C28_parse_refuted :
  let exactly3 := FloatFormat default_integer_format RadixPeriod ExactlyEqual 3 in
  let upto2 := FloatFormat default_integer_format RadixPeriod UpTo 2 in
  parse_floating_point K8 F32 [49; 46; 53]%N exactly3 = Ok (Fin (dyadic F32 3 1)) /\
  exists x, parse_floating_point K8 F32 [49; 46; 50; 51; 52; 53]%N upto2 = Ok x.
Proof. cbv zeta. split; [vm_compute; reflexivity|]. eexists. vm_compute. reflexivity. Qed.
Print Assumptions C28_parse_refuted.

(** Formatting: at most n places with either limit; exactly n with "exactly n" if
    the value is not integral, and none at all if it is. *)
Theorem C28_format_partial : forall k cs t n f, ieee t -> has_value t n -> integral_part_fits t n ->
  valid_radix (radix (base f)) -> sep_char (separator (base f)) <> Some (point_char (point f)) ->
  limit f <> NoLimit ->
  exists text, format_floating_point k cs t (Fin n) f = Ok text /\
    let c := places_in (radix (base f)) (point_char (point f)) text in
    (c <= N.to_nat (places f))%nat /\
    (~ (one t | n) -> limit f = ExactlyEqual -> c = N.to_nat (places f)) /\
    ((one t | n) -> c = O).
Proof.
  intros k cs t n f Ht Hv Hfit Hr Hs Hl.
  assert (Hl' : limited f = true) by (unfold limited; destruct (limit f); congruence).
  pose proof (one_pos t (fine_good t (ieee_fine t Ht))) as P1.
  destruct (format_places k cs t f n (ieee_fine t Ht) (has_value_in t n Hv) Hfit Hr Hs Hl') as (text & E & A & B & C).
  exists text. split; [assumption|]. cbv zeta.
  assert (Q : (one t | n) <-> Z.abs n mod one t = 0).
  { rewrite Z.mod_divide by lia. symmetry. apply Z.divide_abs_r. }
  split; [assumption|]. split; [|intro; apply C; tauto]. intros; apply B; tauto.
Qed.
Print Assumptions C28_format_partial.

(** Parsing: the one situation in which a limit is enforced, a text that ends
    with the radix character. *)
Theorem C28_parse_partial : forall k t f i text, valid_radix (radix (base f)) ->
  - (2 ^ 63 - 1) <= i < 2 ^ 63 ->
  numeral (radix (base f)) (shows_plus (sign (base f))) (sep_char (separator (base f))) i text ->
  sep_char (separator (base f)) <> Some (point_char (point f)) ->
  parse_floating_point k t (text ++ [point_char (point f)]) f
  = match limit f with
    | NoLimit => Ok (from_long_long t i)
    | _ => if (0 <? places f)%N then Throw (ParseFailed WrongPlaceLimit) else Ok (from_long_long t i)
    end.
Proof.
  intros k t f i text [Hr2 Hr36] Hi Hn Hs. unfold parse_floating_point.
  rewrite convert_ascii.
  2:{ apply Forall_app. split; [eapply numeral_ascii; [|exact Hn]; lia|].
      constructor; [apply point_ascii|constructor]. }
  cbn [bind]. unfold equivalent_format, new_integer_format.
  replace ((radix (base f) <? 2) || (36 <? radix (base f)))%N with false by lia. cbn [bind].
  replace (IntegerFormat (radix (base f)) (sign (base f)) (separator (base f))) with (base f) by (now destruct (base f)).
  rewrite split_at_some by (eapply numeral_no_point; [|exact Hn|assumption]; lia).
  assert (Hp : parse_integer K32 I64 text (base f) = Ok i).
  { apply parse_numeral_back; auto.
    - vm_compute; tauto.
    - unfold in_range. change (min_of I64) with (- 2 ^ 63). change (max_of I64) with (2 ^ 63 - 1). lia.
    - intros _. change (min_of I64) with (- 2 ^ 63). lia. }
  rewrite Hp. cbn [bind]. destruct (limit f); reflexivity.
Qed.
Print Assumptions C28_parse_partial.

Example C28_example :
  let f := FloatFormat default_integer_format RadixPeriod ExactlyEqual 5 in
  format_floating_point K8 true F64 (Fin (dyadic F64 9 3)) f = Ok [49; 46; 49; 50; 53; 48; 48]%N /\
  has_value F64 (dyadic F64 9 3) /\ ~ (one F64 | dyadic F64 9 3) /\
  parse_floating_point K8 F64 [49; 46]%N f = Throw (ParseFailed WrongPlaceLimit).
Proof.
  cbv zeta. split; [vm_compute; reflexivity|].
  split; [apply dyadic_value; [right; left; reflexivity|lia|cbn; lia]|].
  split; [|vm_compute; reflexivity].
  intro D. apply Z.mod_divide in D; [|vm_compute; congruence]. revert D. vm_compute. discriminate.
Qed.

(* ------------------------------------------------------------------- C59 *)

(** "-1.5" is read as -0.5: the fraction is added to a negative integral part. *)
Theorem C59_parse_refuted :
  ~ (forall k t f text n, ieee t -> has_value t n ->
       valid_radix (radix (base f)) -> separator (base f) = SepNone ->
       (exists i ds, numeral (radix (base f)) (shows_plus (sign (base f))) None i text \/
          (ds <> [] /\ Forall (fun d => (d < radix (base f))%N) ds /\
           exists itext, numeral (radix (base f)) (shows_plus (sign (base f))) None i itext /\
           text = itext ++ point_char (point f) :: map digit_char ds)) ->
       denotes (radix (base f)) (point_char (point f)) text n (one t) ->
       parse_floating_point k t text f = Ok (Fin n)).
Proof.
  intro H. specialize (H K8 F32 default_float_format [45; 49; 46; 53]%N (dyadic F32 (-3) 1)).
  assert (V : has_value F32 (dyadic F32 (-3) 1)) by (apply dyadic_value; [left; reflexivity|lia|cbn; lia]).
  specialize (H ltac:(left; reflexivity) V ltac:(split; vm_compute; congruence) eq_refl).
  assert (T : parse_floating_point K8 F32 [45; 49; 46; 53]%N default_float_format = Ok (Fin (dyadic F32 (-3) 1))).
  { apply H.
    - exists (-1), [5%N]. right. split; [discriminate|]. split; [repeat constructor|].
      exists [45; 49]%N. split; [|reflexivity]. exists [1%N]. split; [|split; reflexivity].
      split; [discriminate|]. split; [repeat constructor|]. discriminate.
    - vm_compute. reflexivity. }
  revert T. vm_compute. discriminate.
Qed.
Print Assumptions C59_parse_refuted.

(** Non-negative texts in radix 2, 4, 8, 16 or 32 that denote a value of the type:
    exactly that value.  Missing: radixes in which the digit sums are rounded, and
    texts with so many digits that r^digits overflows the type. *)
Theorem C59_parse_partial : forall k t f b i itext ds n, ieee t -> has_value t n ->
  Z.of_N (radix (base f)) = 2 ^ b -> 1 <= b <= 5 ->
  0 <= i < 2 ^ 63 ->
  numeral (radix (base f)) (shows_plus (sign (base f))) (sep_char (separator (base f))) i itext ->
  sep_char (separator (base f)) <> Some (point_char (point f)) ->
  Forall (fun d => (d < radix (base f))%N) ds -> ds <> [] ->
  Z.of_N (radix (base f)) ^ Z.of_nat (length ds) < 2 ^ emax t ->
  let text := itext ++ point_char (point f) :: map digit_char ds in
  denotes (radix (base f)) (point_char (point f)) text n (one t) ->
  parse_floating_point k t text f = Ok (Fin n).
Proof.
  intros k t f b i itext ds n Ht Hv Hb Hb1 Hi Hn Hs Hd Hne Hl text D.
  pose proof (ieee_fine t Ht) as F.
  set (r := radix (base f)) in *.
  assert (Hr : (2 <= r <= 36)%N).
  { assert (2 ^ 1 <= 2 ^ b) by (apply Z.pow_le_mono_r; lia). assert (2 ^ b <= 2 ^ 5) by (apply Z.pow_le_mono_r; lia).
    change (2 ^ 1) with 2 in *. change (2 ^ 5) with 32 in *. lia. }
  pose proof (reading_fraction r (shows_plus (sign (base f))) SepNone i) as Rd.
  assert (P : places_in r (point_char (point f)) text = length ds /\
              numerator r (point_char (point f)) text
              = Z.abs i * Z.of_N r ^ Z.of_nat (length ds) + Z.of_N (value r ds)).
  { pose proof (numeral_no_point r _ _ i itext (point f) ltac:(lia) Hn Hs) as Np.
    destruct (before_some _ _ (map digit_char ds) Np) as [B A]. fold text in A, B.
    assert (Dg : digits_in r (map digit_char ds) = ds).
    { rewrite <- (fraction_text_none ds 0). change (@None N) with (sep_char SepNone). apply digits_in_fraction; [lia|assumption]. }
    unfold places_in, numerator. rewrite A, B, Dg. split; [reflexivity|].
    destruct (numeral_reading r _ _ i itext Hr Hn) as [V S]. unfold text. rewrite S.
    replace (i <? 0) with false by lia. now rewrite value_app_Z, V. }
  destruct P as [P1 P2]. unfold denotes in D. rewrite P1, P2 in D.
  apply (parse_float_exact k t f b itext i ds n); auto; try lia.
  - change (max_of I64) with (2 ^ 63 - 1). lia.
  - fold r in Hl. rewrite (pow_2_pow r b) in Hl by lia. apply Z.pow_lt_mono_r_iff in Hl; [assumption|lia|destruct F; lia].
  - now apply has_value_in.
  - fold r. rewrite Z.abs_eq in D by lia. lia.
Qed.
Print Assumptions C59_parse_partial.

Example C59_example :
  let f := FloatFormat (IntegerFormat 2 AlwaysShow SepNone) RadixComma NoLimit 0 in
  (* +101,011 *)
  parse_floating_point K32 F32 [43; 49; 48; 49; 44; 48; 49; 49]%N f = Ok (Fin (dyadic F32 43 3)) /\
  has_value F32 (dyadic F32 43 3) /\
  denotes 2 44 [43; 49; 48; 49; 44; 48; 49; 49]%N (dyadic F32 43 3) (one F32) /\
  parse_floating_point K8 F32 [45; 49; 46; 53]%N default_float_format = Ok (Fin (dyadic F32 (-1) 1)).
Proof.
  cbv zeta. split; [vm_compute; reflexivity|].
  split; [apply dyadic_value; [left; reflexivity|lia|cbn; lia]|]. split; vm_compute; reflexivity.
Qed.

(* ------------------------------------------------------------------- C60 *)

(** A floating-point format with an invalid radix is never used: the constructor
    throws, and after the setter both directions throw invalid_radix, whatever
    the value or text. *)
Theorem C60_invalid_radix : forall r s sp p l n, ~ valid_radix r ->
  new_float_format r s sp p l n = Throw InvalidRadix /\
  (forall f k cs t x fuel,
     format_floating_point_with fuel k cs t x (set_float_radix f r) = Throw InvalidRadix) /\
  (forall f k t l', Forall (holds k) l' -> Forall (single_unit k) l' ->
     parse_floating_point k t (units k l') (set_float_radix f r) = Throw InvalidRadix).
Proof.
  intros r s sp p l n H. unfold valid_radix in H.
  assert (B : ((r <? 2) || (36 <? r))%N = true) by lia.
  unfold new_float_format. rewrite B. split; [reflexivity|].
  assert (E : forall f, equivalent_format (set_float_radix f r) = Throw InvalidRadix).
  { intro f. unfold equivalent_format, new_integer_format, set_float_radix, set_radix. cbn. now rewrite B. }
  split.
  - intros. unfold format_floating_point_with. rewrite E. reflexivity.
  - intros f k t l' Hh Hs. unfold parse_floating_point.
    rewrite (UnicodeLemmas2.convert_ok K32 k l' Hh Hs).
    + cbn [bind]. rewrite E. reflexivity.
    + eapply Forall_impl; [|exact Hh]. intros c Hc. split; [|discriminate].
      destruct k as [[]| | | | |]; cbn in *; unfold scalar in *; try assumption; lia.
Qed.
Print Assumptions C60_invalid_radix.

(** Valid ones are used as given. *)
Theorem C60_valid_radix : forall r s sp p l n, valid_radix r ->
  exists f, new_float_format r s sp p l n = Ok f /\ radix (base f) = r /\ sign (base f) = s /\
    separator (base f) = sp /\ point f = p /\ limit f = l /\ places f = n.
Proof.
  intros r s sp p l n [H1 H2]. unfold new_float_format.
  replace ((r <? 2) || (36 <? r))%N with false by lia. eexists. repeat split.
Qed.
Print Assumptions C60_valid_radix.

Example C60_example :
  new_float_format 1 AlwaysShow SepNone RadixPeriod NoLimit 0 = Throw InvalidRadix /\
  format_floating_point K8 true F32 NaN (set_float_radix default_float_format 37) = Throw InvalidRadix /\
  parse_floating_point K8 F32 [49]%N (set_float_radix default_float_format 0) = Throw InvalidRadix.
Proof. repeat split. Qed.
