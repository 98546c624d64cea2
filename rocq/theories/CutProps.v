(** C141: formatting a floating-point number with a place limit. *)
From Coq Require Import NArith ZArith List Bool Lia ZifyBool ZifyNat ZifyN.
From Verif Require Import Base Integers NumeralSpec FloatSpec UnicodeModel NumberModel NumberText
  FloatModel FloatText FloatLemmas FloatLemmas2 FloatLemmas3 FloatLemmas4 FloatLemmas5 FloatLemmas6 FloatProps CutSpec CutLemmas.
Import ListNotations.
Open Scope Z_scope.

Definition one_place : float_format := FloatFormat default_integer_format RadixPeriod UpTo 1.

(** 0.875 with up to one place is "0.8", but 0.9 is closer. *)
Theorem C141_rounded_refuted :
  format_floating_point K8 true F64 (Fin (dyadic F64 7 3)) one_place = Ok [48; 46; 56]%N /\
  ~ rounded 10 46 [48; 46; 56]%N (dyadic F64 7 3) (one F64) 1 /\ rounded 10 46 [48; 46; 57]%N (dyadic F64 7 3) (one F64) 1.
Proof. split; [vm_compute; reflexivity|]. split; [intro H; revert H; vm_compute; intro H; now apply H|vm_compute; discriminate]. Qed.
Print Assumptions C141_rounded_refuted.

(** A value that is not negative loses its places from the (n+1)-th on, up to 2^-(prec-1), in
    every radix, odd ones included, and with both limits.  Missing: that the last place is
    rounded. *)
Theorem C141_cut_partial : forall k cs t n f, ieee t -> has_value t n -> 0 <= n -> integral_part_fits t n ->
  valid_radix (radix (base f)) -> sep_char (separator (base f)) <> Some (point_char (point f)) -> limit f <> NoLimit ->
  exists text, format_floating_point k cs t (Fin n) f = Ok text /\
    0 <= numerator (radix (base f)) (point_char (point f)) text /\
    cut_near (radix (base f)) (point_char (point f)) text n (one t) (places f) (prec t - 1).
Proof.
  intros k cs t n f Ht Hv H0 Hfit Hr Hs Hl.
  destruct (format_cut k cs t f n (ieee_fine t Ht) (has_value_in t n Hv) Hfit Hr Hs ltac:(unfold limited; destruct (limit f); congruence)) as (text & E & S & C & _).
  exists text. split; [exact E|]. split; [lia|]. unfold shown_value in C. replace (n <? 0) with false in C by lia. exact C.
Qed.
Print Assumptions C141_cut_partial.

(** Exactly so in radix 2, 4, 8, 16 and 32, and in every radix for values with few fractional
    bits: multiples of 2^-s with r * 2^s <= 2^prec.  A value that has at most n places is
    then shown as it is. *)
Theorem C141_exactly_cut_partial : forall k cs t n f, ieee t -> has_value t n -> 0 <= n -> integral_part_fits t n ->
  valid_radix (radix (base f)) -> sep_char (separator (base f)) <> Some (point_char (point f)) -> limit f <> NoLimit ->
  (exists b, 0 <= b /\ Z.of_N (radix (base f)) = 2 ^ b) \/
  (exists s, 0 <= s <= scale t /\ Z.of_N (radix (base f)) * 2 ^ s <= 2 ^ prec t /\ (2 ^ (scale t - s) | n)) ->
  exists text, format_floating_point k cs t (Fin n) f = Ok text /\
    0 <= numerator (radix (base f)) (point_char (point f)) text /\
    cut (radix (base f)) (point_char (point f)) text n (one t) (places f) /\
    (forall m, n * Z.of_N (radix (base f)) ^ Z.of_N (places f) = m * one t ->
       denotes (radix (base f)) (point_char (point f)) text n (one t)).
Proof.
  intros k cs t n f Ht Hv H0 Hfit Hr Hs Hl Hx. pose proof (one_pos t (fine_good t (ieee_fine t Ht))) as P1.
  assert (Hl' : limited f = true) by (unfold limited; destruct (limit f); congruence).
  destruct (format_cut k cs t f n (ieee_fine t Ht) (has_value_in t n Hv) Hfit Hr Hs Hl') as (text & E & S & _ & C).
  specialize (C Hx). unfold shown_value in C. replace (n <? 0) with false in C by lia. cbn [andb] in C.
  exists text. split; [exact E|]. split; [lia|]. split; [exact C|]. intros m Hm.
  destruct (format_places k cs t f n (ieee_fine t Ht) (has_value_in t n Hv) Hfit Hr Hs Hl') as (text' & E' & L & _).
  rewrite E in E'. injection E' as <-. cbv zeta in L.
  unfold cut, weight in C. cbv zeta in C. unfold denotes.
  set (r := Z.of_N (radix (base f))) in *. set (c := places_in (radix (base f)) (point_char (point f)) text) in *.
  set (v := numerator (radix (base f)) (point_char (point f)) text) in *.
  assert (Er : r ^ Z.of_N (places f) = r ^ Z.of_nat c * r ^ (Z.of_N (places f) - Z.of_nat c)) by (rewrite <- Z.pow_add_r by lia; f_equal; lia).
  assert (R2 : 2 <= r) by (unfold r; destruct Hr; lia).
  assert (A1 : 0 < r ^ Z.of_nat c) by (apply Z.pow_pos_nonneg; lia). assert (A2 : 0 < r ^ (Z.of_N (places f) - Z.of_nat c)) by (apply Z.pow_pos_nonneg; lia).
  rewrite Er in *. set (R := r ^ Z.of_nat c) in *. set (W := r ^ (Z.of_N (places f) - Z.of_nat c)) in *. rewrite !Z.abs_eq in C by lia. destruct C as [C1 C2].
  (* the missing part is a whole number of units of the last place *)
  assert (U : (n * R - v * one t) * W = (m - v * W) * one t) by (rewrite Z.mul_sub_distr_r, <- Z.mul_assoc, Hm; ring).
  assert (U2 : (n * R - v * one t) * (R * W) = (m - v * W) * one t * R) by (rewrite <- U; ring).
  rewrite U2 in C2. replace ((m - v * W) * one t * R) with ((m - v * W) * (one t * R)) in C2 by ring.
  assert (P : 0 < one t * R) by (apply Z.mul_pos_pos; lia).
  assert (Y : m - v * W < 1) by (apply (Z.mul_lt_mono_pos_r (one t * R)); lia).
  assert (Z0 : 0 <= (m - v * W) * one t) by (rewrite <- U; apply Z.mul_nonneg_nonneg; lia).
  assert (Z1 : 0 <= m - v * W) by (destruct (Z.le_gt_cases 0 (m - v * W)) as [Q|Q]; [exact Q|]; assert ((m - v * W) * one t < 0) by (apply Z.mul_neg_pos; lia); lia).
  assert (Z2 : m - v * W = 0) by lia. rewrite Z2, Z.mul_0_l in U. apply Z.mul_eq_0 in U. lia.
Qed.
Print Assumptions C141_exactly_cut_partial.

(** A negative value that is not integral is made one less before it is cut (C25). *)
Theorem C141_negative_partial : forall k cs t n f, ieee t -> has_value t n -> n < 0 -> ~ (one t | n) -> integral_part_fits t n ->
  valid_radix (radix (base f)) -> sep_char (separator (base f)) <> Some (point_char (point f)) -> limit f <> NoLimit ->
  exists text, format_floating_point k cs t (Fin n) f = Ok text /\
    numerator (radix (base f)) (point_char (point f)) text < 0 /\
    cut_near (radix (base f)) (point_char (point f)) text (n - one t) (one t) (places f) (prec t - 1).
Proof.
  intros k cs t n f Ht Hv H0 Hd Hfit Hr Hs Hl. pose proof (one_pos t (fine_good t (ieee_fine t Ht))) as P1.
  destruct (format_cut k cs t f n (ieee_fine t Ht) (has_value_in t n Hv) Hfit Hr Hs ltac:(unfold limited; destruct (limit f); congruence)) as (text & E & S & C & _).
  exists text. split; [exact E|]. split; [lia|]. unfold shown_value in C. replace (n <? 0) with true in C by lia.
  replace (Z.abs n mod one t =? 0) with false in C; [exact C|].
  symmetry. apply Z.eqb_neq. intro X. apply Z.mod_divide in X; [|lia]. apply Hd. exact (proj1 (Z.divide_abs_r _ _) X).
Qed.
Print Assumptions C141_negative_partial.

(** 2.5 in radix 3 with four places, 0.875 with exactly two and exactly four places, and -1.25 with
    up to one place. *)
Example C141_example :
  format_floating_point K8 true F32 (Fin (dyadic F32 5 1)) (FloatFormat (IntegerFormat 3 OnlyWhenNegative SepNone) RadixPeriod UpTo 4) = Ok [50; 46; 49; 49; 49; 49]%N /\
  cut 3 46 [50; 46; 49; 49; 49; 49]%N (dyadic F32 5 1) (one F32) 4 /\
  format_floating_point K16 true F32 (Fin (dyadic F32 7 3)) (FloatFormat default_integer_format RadixPeriod ExactlyEqual 2) = Ok [48; 46; 56; 55]%N /\
  format_floating_point K16 true F32 (Fin (dyadic F32 7 3)) (FloatFormat default_integer_format RadixPeriod ExactlyEqual 4) = Ok [48; 46; 56; 55; 53; 48]%N /\
  format_floating_point K32 true F32 (Fin (dyadic F32 (-5) 2)) one_place = Ok [45; 50; 46; 50]%N /\
  has_value F32 (dyadic F32 7 3) /\ integral_part_fits F32 (dyadic F32 7 3) /\ limit one_place <> NoLimit /\
  (exists s, 0 <= s <= scale F32 /\ Z.of_N 10 * 2 ^ s <= 2 ^ prec F32 /\ (2 ^ (scale F32 - s) | dyadic F32 7 3)) /\
  has_value F32 (dyadic F32 (-5) 2) /\ integral_part_fits F32 (dyadic F32 (-5) 2) /\ ~ (one F32 | dyadic F32 (-5) 2).
Proof.
  split; [vm_compute; reflexivity|]. split; [split; vm_compute; congruence|]. split; [vm_compute; reflexivity|]. split; [vm_compute; reflexivity|]. split; [vm_compute; reflexivity|].
  split; [apply dyadic_value; [left; reflexivity|lia|cbn; lia]|]. split; [split; vm_compute; congruence|]. split; [discriminate|].
  split. { exists 3. split; [cbn; lia|]. split; [vm_compute; congruence|]. exists 7. reflexivity. }
  split; [apply dyadic_value; [left; reflexivity|lia|cbn; lia]|]. split; [split; vm_compute; congruence|].
  intro D. apply Z.mod_divide in D; [|vm_compute; congruence]. revert D. vm_compute. discriminate.
Qed.
