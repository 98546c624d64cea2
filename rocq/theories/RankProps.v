(** C154, C155: the order of numbers and of their texts. *)
From Coq Require Import NArith ZArith List Bool Lia ZifyBool ZifyNat ZifyN.
From Verif Require Import Base Integers NumeralSpec UnicodeSpec FloatSpec FloatSpec2 CutSpec RankSpec UnicodeModel UnicodeLemmas2 NumberModel NumberText
  NumberLemmas NumberLemmas2 NumberLemmas4 NumberProps FloatModel FloatText FloatLemmas FloatLemmas2 FloatLemmas3 FloatLemmas4
  FloatLemmas5 FloatLemmas6 FloatLemmas7 FloatLemmas8 FloatLemmas9 FloatProps FloatProps2 TypedLemmas RankLemmas.
Import ListNotations.
Open Scope Z_scope.

(* ---------------------------------------------------------------------- C154 *)

(** A smaller number is not read as a larger one: false, 0.099999999 is read as a larger
    float than 0.1. *)
Theorem C154_read_refuted : exists n m,
  parse_floating_point K8 F32 [48; 46; 48; 57; 57; 57; 57; 57; 57; 57; 57]%N default_float_format = Ok (Fin n) /\
  parse_floating_point K8 F32 [48; 46; 49]%N default_float_format = Ok (Fin m) /\
  below 10 46 [48; 46; 48; 57; 57; 57; 57; 57; 57; 57; 57]%N [48; 46; 49]%N /\ m < n.
Proof.
  exists 71362391015592373820510488410748646164791296, 71362385698680390680846996795520405043412992.
  split; [vm_compute; reflexivity|]. split; [vm_compute; reflexivity|]. split; vm_compute; reflexivity.
Qed.
Print Assumptions C154_read_refuted.

(** Nor is a smaller value shown as a larger number: false, -2 is shown as -2 and -1.5 as
    -2.5 (C25). *)
Theorem C154_shown_refuted :
  format_floating_point K8 true F32 (Fin (dyadic F32 (-4) 1)) default_float_format = Ok [45; 50]%N /\
  format_floating_point K8 true F32 (Fin (dyadic F32 (-3) 1)) default_float_format = Ok [45; 50; 46; 53]%N /\
  dyadic F32 (-4) 1 < dyadic F32 (-3) 1 /\ below 10 46 [45; 50; 46; 53]%N [45; 50]%N.
Proof. split; [vm_compute; reflexivity|]. split; [vm_compute; reflexivity|]. split; vm_compute; reflexivity. Qed.
Print Assumptions C154_shown_refuted.

(** Values that are not negative, in every even radix, and with a limit of places in every
    radix, from any strings: a smaller value is never shown as a larger number.  Missing:
    negative values (C154_shown_refuted). *)
Theorem C154_shown_partial : forall k k' cs cs' t f n m, ieee t -> has_value t n -> has_value t m -> 0 <= n <= m ->
  integral_part_fits t n -> integral_part_fits t m ->
  valid_radix (radix (base f)) -> limit f <> NoLimit \/ N.even (radix (base f)) = true ->
  sep_char (separator (base f)) <> Some (point_char (point f)) ->
  exists a b, format_floating_point k cs t (Fin n) f = Ok a /\ format_floating_point k' cs' t (Fin m) f = Ok b /\
    at_most (radix (base f)) (point_char (point f)) a b.
Proof.
  intros k k' cs cs' t f n m Ht Vn Vm H Fn Fm Hr Hl Hs.
  apply format_mono; auto using ieee_fine, has_value_in.
  destruct Hl as [Hl|Hl]; [left|now right]. unfold limited. destruct (limit f); congruence.
Qed.
Print Assumptions C154_shown_partial.

Example C154_shown_example :
  has_value F32 ((7 * 2 ^ 21 + 1) * 2 ^ (scale F32 - 24)) /\ integral_part_fits F32 (dyadic F32 1 0) /\
  format_floating_point K8 true F32 (Fin (dyadic F32 7 3)) default_float_format = Ok [48; 46; 56; 55; 53]%N /\
  format_floating_point K8 true F32 (Fin (dyadic F32 15 4)) default_float_format = Ok [48; 46; 57; 51; 55; 53]%N /\
  at_most 10 46 [48; 46; 56; 55; 53]%N [48; 46; 57; 51; 55; 53]%N.
Proof.
  split; [exists (7 * 2 ^ 21 + 1), (scale F32 - 24); vm_compute; repeat split; congruence|].
  split; [vm_compute; split; congruence|]. split; [vm_compute; reflexivity|]. split; [vm_compute; reflexivity|]. vm_compute. discriminate.
Qed.

(** Reading whole numbers of either sign keeps their order, in every format. *)
Theorem C154_read_whole : forall k k' t f i j a b, ieee t -> valid_radix (radix (base f)) ->
  - 2 ^ 63 < i -> i <= j -> j < 2 ^ 63 ->
  numeral (radix (base f)) (shows_plus (sign (base f))) (sep_char (separator (base f))) i a ->
  numeral (radix (base f)) (shows_plus (sign (base f))) (sep_char (separator (base f))) j b ->
  sep_char (separator (base f)) <> Some (point_char (point f)) ->
  exists n m, parse_floating_point k t a f = Ok (Fin n) /\ parse_floating_point k' t b f = Ok (Fin m) /\ n <= m.
Proof.
  intros k k' t f i j a b Ht Hr Hi Hij Hj Ha Hb Hs. pose proof (ieee_ample t Ht) as A. pose proof (ieee_fine t Ht) as F.
  pose proof (fine_good t F) as G. pose proof (one_pos t G) as P1.
  rewrite (parse_float_whole k t f a i), (parse_float_whole k' t f b j); auto;
    try (change (min_of I64) with (- 2 ^ 63); change (max_of I64) with (2 ^ 63 - 1); lia).
  destruct (long_long_rounded t i A ltac:(lia)) as (n & En & _). destruct (long_long_rounded t j A ltac:(lia)) as (m & Em & _).
  rewrite En, Em. exists n, m. split; [reflexivity|]. split; [reflexivity|].
  assert (X : forall x y, from_long_long t x = Fin y -> y = round_units (prec t) (x * one t)).
  { intros x y E. unfold from_long_long, fround, pack in E. destruct (_ <? _); congruence. }
  rewrite (X i n En), (X j m Em). apply round_mono; [unfold good in G; lia|]. nia.
Qed.
Print Assumptions C154_read_whole.

(** A text with more digits is not read as a smaller number. *)
Theorem C154_read_longer : forall k k' t f i itext ds es, ieee t -> valid_radix (radix (base f)) -> - 2 ^ 63 < i < 2 ^ 63 ->
  numeral (radix (base f)) (shows_plus (sign (base f))) (sep_char (separator (base f))) i itext ->
  sep_char (separator (base f)) <> Some (point_char (point f)) ->
  Forall (fun d => (d < radix (base f))%N) (ds ++ es) -> ds <> [] ->
  exists n m, parse_floating_point k t (itext ++ point_char (point f) :: map digit_char ds) f = Ok (Fin n) /\
    parse_floating_point k' t (itext ++ point_char (point f) :: map digit_char (ds ++ es)) f = Ok (Fin m) /\ n <= m.
Proof.
  intros k k' t f i itext ds es Ht Hr Hi Hn Hs Hd Hne. pose proof (ieee_fine t Ht) as F. pose proof (fine_good t F) as G.
  pose proof (one_pos t G) as P1.
  pose proof (proj1 (proj1 (Forall_app _ _ _) Hd)) as Hd1.
  assert (Hne2 : ds ++ es <> []) by (destruct ds; [congruence|discriminate]).
  destruct (parse_near k t f i itext ds Ht Hr Hi Hn Hs Hd1 Hne) as (n & En & Vn & _).
  destruct (parse_near k' t f i itext (ds ++ es) Ht Hr Hi Hn Hs Hd Hne2) as (m & Em & _ & _).
  exists n, m. split; [exact En|]. split; [exact Em|].
  assert (Ri : min_of I64 < i <= max_of I64) by (change (min_of I64) with (- 2 ^ 63); change (max_of I64) with (2 ^ 63 - 1); lia).
  rewrite (parse_float_split k t f itext i) in En; auto.
  2:{ apply digits_ascii with (radix (base f)); [destruct Hr; lia|assumption]. } 2:{ destruct ds; [congruence|discriminate]. }
  rewrite (parse_float_split k' t f itext i) in Em; auto.
  2:{ apply digits_ascii with (radix (base f)); [destruct Hr; lia|assumption]. } 2:{ destruct ds; [congruence|discriminate]. }
  rewrite map_app, fraction_app, En in Em.
  eapply fraction_grows; [exact G| |apply has_value_in; exact Vn|exact Em]. apply roots_not_negative. cbn. lia.
Qed.
Print Assumptions C154_read_longer.

Example C154_read_longer_example :
  bind (parse_floating_point K8 F32 [48; 46; 49]%N default_float_format) (fun x =>
  bind (parse_floating_point K8 F32 [48; 46; 49; 48; 49]%N default_float_format) (fun y =>
  Ok (match x, y with Fin n, Fin m => n <? m | _, _ => false end))) = Ok true /\
  numeral 10 false None 0 [48]%N.
Proof.
  split; [vm_compute; reflexivity|]. exists [0%N]. split; [|split; reflexivity].
  split; [discriminate|]. split; [repeat constructor|reflexivity].
Qed.

(** A text as the parser takes it, of a number that is not negative. *)
Definition fractional (f : float_format) (text : list N) : Prop :=
  exists i itext ds, 0 <= i < 2 ^ 63 /\
    numeral (radix (base f)) (shows_plus (sign (base f))) (sep_char (separator (base f))) i itext /\
    Forall (fun d => (d < radix (base f))%N) ds /\
    (text = itext \/ (ds <> [] /\ text = itext ++ point_char (point f) :: map digit_char ds)).

(** Numbers that are apart by more than (2p + 31) 2^-p (v + 1) for both numbers v keep their
    order when they are read, in every radix and in texts of every length.  Missing: closer
    numbers (C154_read_refuted), negative numbers (C59_negative_refuted). *)
Theorem C154_read_partial : forall k k' t f a b, ieee t -> valid_radix (radix (base f)) ->
  sep_char (separator (base f)) <> Some (point_char (point f)) -> fractional f a -> fractional f b ->
  well_below (radix (base f)) (point_char (point f)) a b (2 * prec t + 31) (prec t) ->
  exists n m, parse_floating_point k t a f = Ok (Fin n) /\ parse_floating_point k' t b f = Ok (Fin m) /\ n < m.
Proof.
  intros k k' t f a b Ht Hr Hs (i & ia & da & Hi & Ni & Di & Ea) (j & jb & db & Hj & Nj & Dj & Eb) Hw.
  pose proof (ieee_fine t Ht) as F. pose proof (fine_good t F) as G. pose proof (one_pos t G) as P1.
  destruct (C59_near_partial k t f i ia da a Ht Hr Hi Ni Hs Di Ea) as (n & En & _ & Dn).
  destruct (C59_near_partial k' t f j jb db b Ht Hr Hj Nj Hs Dj Eb) as (m & Em & _ & Dm).
  exists n, m. split; [exact En|]. split; [exact Em|].
  assert (P : forall i it d x, 0 <= i < 2 ^ 63 -> numeral (radix (base f)) (shows_plus (sign (base f))) (sep_char (separator (base f))) i it ->
            Forall (fun d => (d < radix (base f))%N) d -> (x = it \/ (d <> [] /\ x = it ++ point_char (point f) :: map digit_char d)) ->
            0 <= numerator (radix (base f)) (point_char (point f)) x).
  { intros i0 it d x H1 H2 H3 [->|[_ ->]].
    - destruct (whole_text_reads _ _ _ _ _ _ Hr H2 Hs) as [_ B]. rewrite B. lia.
    - destruct (fraction_text_reads _ _ _ _ _ _ _ Hr H2 Hs H3) as (_ & _ & B). rewrite B. replace (i0 <? 0) with false by lia.
      assert (0 < Z.of_N (radix (base f)) ^ Z.of_nat (length d)) by (apply Z.pow_pos_nonneg; destruct Hr; lia). nia. }
  pose proof (P _ _ _ _ Hi Ni Di Ea) as Pa. pose proof (P _ _ _ _ Hj Nj Dj Eb) as Pb. clear P.
  unfold well_below in Hw. unfold denotes_within in Dn, Dm. cbv zeta in Dn, Dm. fold (weight (radix (base f)) (point_char (point f)) a) in Dn.
  fold (weight (radix (base f)) (point_char (point f)) b) in Dm.
  assert (Wa : 0 < weight (radix (base f)) (point_char (point f)) a) by (apply Z.pow_pos_nonneg; destruct Hr; lia).
  assert (Wb : 0 < weight (radix (base f)) (point_char (point f)) b) by (apply Z.pow_pos_nonneg; destruct Hr; lia).
  set (u := weight (radix (base f)) (point_char (point f)) a) in *. set (w := weight (radix (base f)) (point_char (point f)) b) in *.
  set (v := numerator (radix (base f)) (point_char (point f)) a) in *. set (x := numerator (radix (base f)) (point_char (point f)) b) in *.
  set (c := 2 * prec t + 31) in *. set (M := 2 ^ prec t) in *. set (T := one t) in *.
  assert (HM : 0 < M) by (apply pow2_pos; unfold good in G; lia).
  rewrite (Z.abs_eq v) in Dn by lia. rewrite (Z.abs_eq x) in Dm by lia.
  assert (A1 : (n * u - v * T) * M <= c * (v + u) * T).
  { etransitivity; [|exact Dn]. apply Z.mul_le_mono_nonneg_r; lia. }
  assert (A2 : (x * T - m * w) * M <= c * (x + w) * T).
  { etransitivity; [|exact Dm]. apply Z.mul_le_mono_nonneg_r; lia. }
  assert (B1 : (n * u - v * T) * M * w <= c * (v + u) * T * w) by (apply Z.mul_le_mono_nonneg_r; lia).
  assert (B2 : (x * T - m * w) * M * u <= c * (x + w) * T * u) by (apply Z.mul_le_mono_nonneg_r; lia).
  assert (B3 : c * ((v + u) * w + (x + w) * u) * T < (x * u - v * w) * M * T) by (apply Z.mul_lt_mono_pos_r; lia).
  assert (B4 : (n - m) * (u * w * M) < 0) by lia.
  assert (0 < u * w * M) by (repeat apply Z.mul_pos_pos; assumption).
  destruct (Z.lt_ge_cases n m) as [L|L]; [exact L|]. assert (0 <= (n - m) * (u * w * M)) by (apply Z.mul_nonneg_nonneg; lia). lia.
Qed.
Print Assumptions C154_read_partial.

(** In particular, numbers with the same number q of places are apart enough if they are
    not too large: (2p + 31) (v + w + 2) r^q < 2^p for the two numbers v and w.  Two places of
    a decimal double, say, up to 300 thousand million. *)
Theorem C154_read_places_partial : forall k k' t f a b q, ieee t -> valid_radix (radix (base f)) ->
  sep_char (separator (base f)) <> Some (point_char (point f)) -> fractional f a -> fractional f b ->
  let r := radix (base f) in
  let p := point_char (point f) in
  places_in r p a = q -> places_in r p b = q -> numerator r p a < numerator r p b ->
  (2 * prec t + 31) * (numerator r p a + numerator r p b + 2 * Z.of_N r ^ Z.of_nat q) < 2 ^ prec t ->
  exists n m, parse_floating_point k t a f = Ok (Fin n) /\ parse_floating_point k' t b f = Ok (Fin m) /\ n < m.
Proof.
  intros k k' t f a b q Ht Hr Hs Fa Fb r p Qa Qb Hlt Hc. apply C154_read_partial; auto.
  unfold well_below, weight. fold r p. rewrite Qa, Qb. set (R := Z.of_N r ^ Z.of_nat q) in *.
  assert (HR : 0 < R) by (apply Z.pow_pos_nonneg; unfold r; destruct Hr; lia).
  assert (HM : 0 < 2 ^ prec t) by (apply pow2_pos; pose proof (fine_good t (ieee_fine t Ht)) as G; unfold good in G; lia).
  set (c := 2 * prec t + 31) in *. set (v := numerator r p a) in *. set (x := numerator r p b) in *. set (M := 2 ^ prec t) in *.
  assert (X : c * (v + x + 2 * R) * R < M * R) by (apply Z.mul_lt_mono_pos_r; lia).
  assert (Y : M * R <= (x - v) * R * M).
  { replace (M * R) with (1 * (R * M)) by ring. replace ((x - v) * R * M) with ((x - v) * (R * M)) by ring.
    apply Z.mul_le_mono_nonneg_r; [apply Z.mul_nonneg_nonneg; lia|lia]. }
  lia.
Qed.
Print Assumptions C154_read_places_partial.

(** 299999999999.98 and 299999999999.99 as doubles. *)
Example C154_read_places_example :
  let a := [50; 57; 57; 57; 57; 57; 57; 57; 57; 57; 57; 57; 46; 57; 56]%N in
  let b := [50; 57; 57; 57; 57; 57; 57; 57; 57; 57; 57; 57; 46; 57; 57]%N in
  fractional default_float_format a /\ fractional default_float_format b /\ places_in 10 46 a = 2%nat /\ places_in 10 46 b = 2%nat /\
  numerator 10 46 a < numerator 10 46 b /\ 137 * (numerator 10 46 a + numerator 10 46 b + 200) < 2 ^ 53.
Proof.
  cbv zeta.
  assert (N : numeral 10 false None 299999999999 [50; 57; 57; 57; 57; 57; 57; 57; 57; 57; 57; 57]%N).
  { exists [2; 9; 9; 9; 9; 9; 9; 9; 9; 9; 9; 9]%N. split; [|split; reflexivity]. split; [discriminate|]. split; [repeat constructor|discriminate]. }
  split; [exists 299999999999, [50; 57; 57; 57; 57; 57; 57; 57; 57; 57; 57; 57]%N, [9; 8]%N; split; [lia|]; split; [exact N|];
          split; [repeat constructor|right; split; [discriminate|reflexivity]]|].
  split; [exists 299999999999, [50; 57; 57; 57; 57; 57; 57; 57; 57; 57; 57; 57]%N, [9; 9]%N; split; [lia|]; split; [exact N|];
          split; [repeat constructor|right; split; [discriminate|reflexivity]]|].
  split; [reflexivity|]. split; [reflexivity|]. split; vm_compute; reflexivity.
Qed.

(* ---------------------------------------------------------------------- C155 *)

(** Different values are shown as different texts: false, these two floats are both shown
    as 0.875000095367431640625. *)
Theorem C155_different_refuted :
  let n := (7 * 2 ^ 21 + 1) * 2 ^ (scale F32 - 24) in
  let m := (7 * 2 ^ 21 + 2) * 2 ^ (scale F32 - 24) in
  has_value F32 n /\ has_value F32 m /\ n <> m /\
  format_floating_point K8 true F32 (Fin n) default_float_format = format_floating_point K8 true F32 (Fin m) default_float_format /\
  format_floating_point K8 true F32 (Fin n) default_float_format
  = Ok [48; 46; 56; 55; 53; 48; 48; 48; 48; 57; 53; 51; 54; 55; 52; 51; 49; 54; 52; 48; 54; 50; 53]%N.
Proof.
  cbv zeta. split; [exists (7 * 2 ^ 21 + 1), (scale F32 - 24); vm_compute; repeat split; congruence|].
  split; [exists (7 * 2 ^ 21 + 2), (scale F32 - 24); vm_compute; repeat split; congruence|].
  split; [vm_compute; discriminate|]. split; vm_compute; reflexivity.
Qed.
Print Assumptions C155_different_refuted.

(** Different integers of one type are.  Partial: the minimum of a signed type is not shown
    at all (C19). *)
Theorem C155_integers_partial : forall k cs t x y f, standard t -> in_range t x -> in_range t y -> valid_radix (radix f) ->
  (is_signed t = true -> x <> min_of t /\ y <> min_of t) -> x <> y ->
  exists a b, format_integer k cs t x f = Ok a /\ format_integer k cs t y f = Ok b /\ a <> b.
Proof.
  intros k cs t x y f Ht Rx Ry Hr Hm Ne.
  destruct (C17_round_trip_partial k cs t x f Ht Rx Hr ltac:(intros S; apply (Hm S))) as (a & Ea & Pa).
  destruct (C17_round_trip_partial k cs t y f Ht Ry Hr ltac:(intros S; apply (Hm S))) as (b & Eb & Pb).
  exists a, b. split; [exact Ea|]. split; [exact Eb|]. intros ->. congruence.
Qed.
Print Assumptions C155_integers_partial.

(** Different values are, in radix 2, 4, 8, 16 and 32, and in every even radix if they have
    few fractional bits: multiples of 2^-s with r * 2^s <= 2^prec.  Partial: values that
    are not negative. *)
Theorem C155_exact_partial : forall k cs t n m f, ieee t -> has_value t n -> has_value t m -> 0 <= n -> 0 <= m ->
  integral_part_fits t n -> integral_part_fits t m ->
  valid_radix (radix (base f)) -> N.even (radix (base f)) = true ->
  sep_char (separator (base f)) <> Some (point_char (point f)) -> limit f = NoLimit ->
  (exists b, 0 <= b /\ Z.of_N (radix (base f)) = 2 ^ b) \/
  (exists s, 0 <= s <= scale t /\ Z.of_N (radix (base f)) * 2 ^ s <= 2 ^ prec t /\ (2 ^ (scale t - s) | n) /\ (2 ^ (scale t - s) | m)) ->
  n <> m ->
  exists a b, format_floating_point k cs t (Fin n) f = Ok a /\ format_floating_point k cs t (Fin m) f = Ok b /\ a <> b.
Proof.
  intros k cs t n m f Ht Vn Vm Hn Hm Fn Fm Hr Ev Hs Hl Hx Ne. pose proof (one_pos t (fine_good t (ieee_fine t Ht))) as P1.
  destruct (C25_exact_partial k cs t n f Ht Vn Hn Fn Hr Ev Hs Hl) as (a & Ea & Da).
  { destruct Hx as [X|(s & X1 & X2 & X3 & X4)]; [now left|right; eauto]. }
  destruct (C25_exact_partial k cs t m f Ht Vm Hm Fm Hr Ev Hs Hl) as (b & Eb & Db).
  { destruct Hx as [X|(s & X1 & X2 & X3 & X4)]; [now left|right; eauto]. }
  exists a, b. split; [exact Ea|]. split; [exact Eb|]. intros ->. apply Ne. unfold denotes in Da, Db. rewrite Da in Db.
  apply Z.mul_cancel_r in Db; [exact Db|]. pose proof (Z.pow_pos_nonneg (Z.of_N (radix (base f))) (Z.of_nat (places_in (radix (base f)) (point_char (point f)) b)) ltac:(destruct Hr; lia) ltac:(lia)). lia.
Qed.
Print Assumptions C155_exact_partial.

(** In every even radix they are if they are apart by more than 2^-(p-2), where p is the
    precision of the type. *)
Theorem C155_apart_partial : forall k cs t n m f, ieee t -> has_value t n -> has_value t m -> 0 <= n -> 0 <= m ->
  integral_part_fits t n -> integral_part_fits t m ->
  valid_radix (radix (base f)) -> N.even (radix (base f)) = true ->
  sep_char (separator (base f)) <> Some (point_char (point f)) -> limit f = NoLimit ->
  one t < Z.abs (n - m) * 2 ^ (prec t - 2) ->
  exists a b, format_floating_point k cs t (Fin n) f = Ok a /\ format_floating_point k cs t (Fin m) f = Ok b /\ a <> b.
Proof.
  intros k cs t n m f Ht Vn Vm Hn Hm Fn Fm Hr Ev Hs Hl Hx. pose proof (one_pos t (fine_good t (ieee_fine t Ht))) as P1.
  destruct (C25_near_partial k cs t n f Ht Vn Hn Fn Hr Ev Hs Hl) as (a & Ea & Da).
  destruct (C25_near_partial k cs t m f Ht Vm Hm Fm Hr Ev Hs Hl) as (b & Eb & Db).
  exists a, b. split; [exact Ea|]. split; [exact Eb|]. intros ->. unfold denotes_near in Da, Db.
  assert (HR : 0 < Z.of_N (radix (base f)) ^ Z.of_nat (places_in (radix (base f)) (point_char (point f)) b)) by (apply Z.pow_pos_nonneg; destruct Hr; lia).
  set (R := Z.of_N (radix (base f)) ^ Z.of_nat (places_in (radix (base f)) (point_char (point f)) b)) in *.
  set (v := numerator (radix (base f)) (point_char (point f)) b) in *.
  assert (PB : 2 <= prec t) by (destruct Ht as [->|[->|[->| ->]]]; vm_compute; discriminate).
  assert (E2 : 2 ^ (prec t - 1) = 2 ^ (prec t - 2) * 2) by (replace (prec t - 1) with (prec t - 2 + 1) by lia; rewrite Z.pow_add_r by lia; reflexivity).
  rewrite E2 in Da, Db. pose proof (pow2_pos (prec t - 2) ltac:(lia)) as HM. set (M := 2 ^ (prec t - 2)) in *.
  assert (A1 : Z.abs (n - m) * R <= Z.abs (v * one t - n * R) + Z.abs (v * one t - m * R)).
  { rewrite <- (Z.abs_eq R) at 1 by lia. rewrite <- Z.abs_mul. replace ((n - m) * R) with (n * R - m * R) by ring. lia. }
  assert (A2 : Z.abs (n - m) * R * M <= (Z.abs (v * one t - n * R) + Z.abs (v * one t - m * R)) * M) by (apply Z.mul_le_mono_nonneg_r; lia).
  assert (A3 : one t * R < Z.abs (n - m) * M * R) by (apply Z.mul_lt_mono_pos_r; lia). lia.
Qed.
Print Assumptions C155_apart_partial.

Example C155_example :
  (exists b, 0 <= b /\ Z.of_N 16 = 2 ^ b) /\ one F32 < Z.abs (dyadic F32 7 3 - dyadic F32 15 4) * 2 ^ (prec F32 - 2) /\
  format_floating_point K8 true F32 (Fin ((7 * 2 ^ 21 + 1) * 2 ^ (scale F32 - 24))) (FloatFormat (IntegerFormat 16 OnlyWhenNegative SepNone) RadixPeriod NoLimit 0)
    = Ok [48; 46; 69; 48; 48; 48; 48; 49]%N /\
  format_floating_point K8 true F32 (Fin ((7 * 2 ^ 21 + 2) * 2 ^ (scale F32 - 24))) (FloatFormat (IntegerFormat 16 OnlyWhenNegative SepNone) RadixPeriod NoLimit 0)
    = Ok [48; 46; 69; 48; 48; 48; 48; 50]%N.
Proof.
  split; [exists 4; split; [lia|reflexivity]|]. split; [vm_compute; reflexivity|]. split; vm_compute; reflexivity.
Qed.
