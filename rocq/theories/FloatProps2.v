(** C27, C59: fractions in all radixes, which are rounded digit by digit. *)
From Coq Require Import NArith ZArith List Bool Lia.
From Coq Require Import ZifyBool ZifyNat ZifyN.
From Verif Require Import Base Integers UnicodeSpec NumeralSpec FloatSpec FloatSpec2 UnicodeModel UnicodeLemmas2
  NumberModel NumberText NumberLemmas NumberLemmas2 NumberLemmas4 NumberLemmas6 FloatModel FloatText FloatLemmas FloatLemmas2 FloatLemmas3
  FloatLemmas4 FloatLemmas5 FloatLemmas6 FloatLemmas7 FloatLemmas8 FloatLemmas9.
Import ListNotations.
Open Scope Z_scope.

Lemma in_has_value : forall t n, 0 < prec t -> rep (prec t) (Z.abs n) -> Z.abs n < limit_of t -> has_value t n.
Proof.
  intros t n Hp (m & e & E & Hm & He) L. unfold limit_of in L.
  destruct (Z.eq_dec m (2 ^ prec t)) as [->|Ne].
  - exists (2 ^ (prec t - 1)), (e + 1). rewrite E. pose proof (pow2_pos (prec t - 1) ltac:(lia)).
    replace (prec t) with (prec t - 1 + 1) at 1 by lia. rewrite !Z.pow_add_r, Z.pow_1_r by lia.
    assert (2 ^ prec t = 2 ^ (prec t - 1) * 2) by (rewrite <- (Z.pow_1_r 2) at 3; rewrite <- Z.pow_add_r by lia; f_equal; lia).
    split; [ring|]. split; [lia|]. split; [lia|]. rewrite <- E. exact L.
  - exists m, e. split; [exact E|]. split; [lia|]. split; [lia|exact L].
Qed.

Lemma whole_text_reads : forall r s p plus i itext, (2 <= r <= 36)%N -> numeral r plus (sep_char s) i itext ->
  sep_char s <> Some (point_char p) -> places_in r (point_char p) itext = 0%nat /\ numerator r (point_char p) itext = i.
Proof. intros r s p plus i itext Hr Hn Hs. destruct (reading_whole _ _ _ _ _ p Hr Hn Hs) as [A B]. auto. Qed.

Lemma fraction_text_reads : forall r s p plus i itext ds, (2 <= r <= 36)%N -> numeral r plus (sep_char s) i itext ->
  sep_char s <> Some (point_char p) -> Forall (fun d => (d < r)%N) ds ->
  let text := itext ++ point_char p :: map digit_char ds in
  places_in r (point_char p) text = length ds /\ digits_in r (after (point_char p) text) = ds /\
  numerator r (point_char p) text
  = (if i <? 0 then -1 else 1) * (Z.abs i * Z.of_N r ^ Z.of_nat (length ds) + Z.of_N (value r ds)).
Proof.
  intros r s p plus i itext ds Hr Hn Hs Hd text.
  pose proof (numeral_no_point r _ _ i itext p ltac:(lia) Hn Hs) as Np.
  destruct (before_some _ _ (map digit_char ds) Np) as [B A]. fold text in A, B.
  assert (Dg : digits_in r (map digit_char ds) = ds).
  { rewrite <- (fraction_text_none ds 0). change (@None N) with (sep_char SepNone). apply digits_in_fraction; [lia|assumption]. }
  unfold places_in, numerator. rewrite A, B, Dg. split; [reflexivity|]. split; [reflexivity|].
  destruct (numeral_reading r _ _ i itext Hr Hn) as [V S]. unfold text. rewrite S.
  rewrite value_app_Z, V. destruct (i <? 0); lia.
Qed.

Lemma parse_near : forall k t f i itext ds, ieee t -> (2 <= radix (base f) <= 36)%N -> - 2 ^ 63 < i < 2 ^ 63 ->
  numeral (radix (base f)) (shows_plus (sign (base f))) (sep_char (separator (base f))) i itext ->
  sep_char (separator (base f)) <> Some (point_char (point f)) ->
  Forall (fun d => (d < radix (base f))%N) ds -> ds <> [] ->
  let R := Z.of_N (radix (base f)) ^ Z.of_nat (length ds) in
  exists n, parse_floating_point k t (itext ++ point_char (point f) :: map digit_char ds) f = Ok (Fin n) /\ has_value t n /\
    Z.abs (n * R - (i * R + Z.of_N (value (radix (base f)) ds)) * one t) * 2 ^ prec t
    <= (2 * prec t + 31) * ((Z.abs i + 1) * R * one t).
Proof.
  intros k t f i itext ds Ht Hr Hi Hn Hs Hd Hne R. pose proof (ieee_ample t Ht) as A.
  rewrite (parse_float_split k t f itext i); auto.
  - destruct (fraction_near t (radix (base f)) i ds A Hr Hd ltac:(lia)) as (n & E & Rn & Ln & Dn).
    exists n. split; [exact E|]. split; [apply in_has_value; [destruct A; lia|exact Rn|exact Ln]|exact Dn].
  - change (min_of I64) with (- 2 ^ 63). change (max_of I64) with (2 ^ 63 - 1). lia.
  - apply digits_ascii with (radix (base f)); [lia|assumption].
  - destruct ds; [congruence|discriminate].
Qed.

(* ------------------------------------------------------------------- C59 *)

(** Every text of a non-negative number, in every radix and of every length, with a
    fraction or without: the text is read, as a finite value of the type near the
    number v it denotes, at most (2p + 31) 2^-p (v + 1) away, where p is the
    precision of the type in bits.  Missing: that the value is the closest one,
    which is refuted by "0.875" (C27_round_trip_refuted). *)
Theorem C59_near_partial : forall k t f i itext ds text, ieee t -> valid_radix (radix (base f)) ->
  0 <= i < 2 ^ 63 ->
  numeral (radix (base f)) (shows_plus (sign (base f))) (sep_char (separator (base f))) i itext ->
  sep_char (separator (base f)) <> Some (point_char (point f)) ->
  Forall (fun d => (d < radix (base f))%N) ds ->
  text = itext \/ (ds <> [] /\ text = itext ++ point_char (point f) :: map digit_char ds) ->
  exists n, parse_floating_point k t text f = Ok (Fin n) /\ has_value t n /\
    denotes_within (radix (base f)) (point_char (point f)) text n (one t) (2 * prec t + 31) (prec t).
Proof.
  intros k t f i itext ds text Ht Hr Hi Hn Hs Hd [->|[Hne ->]].
  - pose proof (ieee_ample t Ht) as A. pose proof (one_positive t A) as PT.
    rewrite (parse_float_whole k t f itext i); auto.
    2:{ change (min_of I64) with (- 2 ^ 63). change (max_of I64) with (2 ^ 63 - 1). lia. }
    destruct (long_long_rounded t i A ltac:(lia)) as (n & E & Rn & Dn).
    assert (Hp : 0 < prec t) by (destruct A; lia).
    assert (Ln : Z.abs n < limit_of t).
    { unfold from_long_long, fround, pack in E. fold (limit_of t) in E. destruct (Z.ltb_spec (Z.abs (round_units (prec t) (i * one t))) (limit_of t)) as [L|L].
      - injection E as <-. exact L.
      - discriminate. }
    exists n. split; [now rewrite E|]. split; [now apply in_has_value|].
    unfold denotes_within. destruct (whole_text_reads _ _ _ _ _ _ Hr Hn Hs) as [-> ->]. cbv zeta. cbn [Z.of_nat].
    rewrite Z.pow_0_r, Z.mul_1_r. rewrite <- Z.abs_opp. replace (- (i * one t - n)) with (n - i * one t) by ring.
    etransitivity; [exact Dn|]. rewrite !Z.abs_eq by nia. assert (0 <= i * one t) by nia.
    assert ((i + 1) * one t <= (2 * prec t + 31) * ((i + 1) * one t)) by (apply mul_ge; [lia|nia]). lia.
  - destruct (parse_near k t f i itext ds Ht Hr ltac:(lia) Hn Hs Hd Hne) as (n & E & V & D).
    exists n. split; [exact E|]. split; [exact V|].
    unfold denotes_within. destruct (fraction_text_reads _ _ _ _ _ _ _ Hr Hn Hs Hd) as (-> & _ & ->). cbv zeta.
    replace (i <? 0) with false by lia. rewrite (Z.abs_eq i) in * by lia.
    set (R := Z.of_N (radix (base f)) ^ Z.of_nat (length ds)) in *. set (W := Z.of_N (value (radix (base f)) ds)) in *.
    assert (HR : 0 < R) by (apply Z.pow_pos_nonneg; destruct Hr; lia).
    assert (HW : 0 <= W) by (unfold W; lia).
    replace (1 * (i * R + W)) with (i * R + W) by ring.
    rewrite <- Z.abs_opp. replace (- ((i * R + W) * one t - n * R)) with (n * R - (i * R + W) * one t) by ring.
    etransitivity; [exact D|]. pose proof (ieee_ample t Ht) as A. pose proof (one_positive t A) as PT.
    assert (0 <= i * R) by (apply Z.mul_nonneg_nonneg; lia).
    rewrite (Z.abs_eq (i * R + W)) by lia.
    replace ((2 * prec t + 31) * ((i + 1) * R * one t)) with ((2 * prec t + 31) * (i * R + R) * one t) by ring.
    apply Z.mul_le_mono_nonneg_r; [lia|]. apply Z.mul_le_mono_nonneg_l; [destruct A; lia|lia].
Qed.
Print Assumptions C59_near_partial.

(** 1.1 as a float, where the bound is 79 * 2^-24 * 2.1. *)
Example C59_near_example :
  let text := [49; 46; 49]%N in
  parse_floating_point K8 F32 text default_float_format = Ok (Fin (9227469 * 2 ^ (scale F32 - 23))) /\
  has_value F32 (9227469 * 2 ^ (scale F32 - 23)) /\ 2 * prec F32 + 31 = 79 /\
  numeral 10 false None 1 [49]%N /\ text = [49]%N ++ 46%N :: map digit_char [1%N].
Proof.
  cbv zeta. split; [vm_compute; reflexivity|]. split.
  - exists 9227469, (scale F32 - 23). vm_compute. repeat split; congruence.
  - split; [reflexivity|]. split; [|reflexivity]. exists [1%N]. split; [|split; reflexivity].
    split; [discriminate|]. split; [repeat constructor|]. discriminate.
Qed.

(** Every text of a number below zero with a fraction: the fraction is added to the
    integral part rather than taken from it, so what is read is near the number
    denoted plus twice the fraction. *)
Theorem C59_negative_refuted : forall k t f i itext ds, ieee t -> valid_radix (radix (base f)) ->
  - 2 ^ 63 < i < 0 ->
  numeral (radix (base f)) (shows_plus (sign (base f))) (sep_char (separator (base f))) i itext ->
  sep_char (separator (base f)) <> Some (point_char (point f)) ->
  Forall (fun d => (d < radix (base f))%N) ds -> ds <> [] ->
  let r := radix (base f) in
  let p := point_char (point f) in
  let text := itext ++ p :: map digit_char ds in
  let R := Z.of_N r ^ Z.of_nat (places_in r p text) in
  exists n, parse_floating_point k t text f = Ok (Fin n) /\
    Z.abs (n * R - (numerator r p text + 2 * Z.of_N (value r (digits_in r (after p text)))) * one t) * 2 ^ prec t
    <= (2 * prec t + 31) * ((Z.abs (numerator r p text) + R) * one t).
Proof.
  intros k t f i itext ds Ht Hr Hi Hn Hs Hd Hne r p text R.
  destruct (parse_near k t f i itext ds Ht Hr ltac:(lia) Hn Hs Hd Hne) as (n & E & V & D).
  exists n. split; [exact E|].
  destruct (fraction_text_reads _ _ _ _ _ _ _ Hr Hn Hs Hd) as (P1 & P2 & P3).
  fold r p in P1, P2, P3. fold text in P1, P2, P3. rewrite P2, P3. unfold R. rewrite P1.
  replace (i <? 0) with true by lia. fold r in D. cbv zeta in D.
  set (R' := Z.of_N r ^ Z.of_nat (length ds)) in *. set (W := Z.of_N (value r ds)) in *.
  assert (HR : 0 < R') by (apply Z.pow_pos_nonneg; destruct Hr; unfold r; lia).
  assert (HW : 0 <= W) by (unfold W; lia). rewrite (Z.abs_neq i) in * by lia.
  replace (-1 * (- i * R' + W) + 2 * W) with (i * R' + W) by ring.
  etransitivity; [exact D|]. pose proof (ieee_ample t Ht) as A. pose proof (one_positive t A) as PT.
  assert (0 <= - i * R') by (apply Z.mul_nonneg_nonneg; lia).
  replace (Z.abs (-1 * (- i * R' + W))) with (- i * R' + W) by lia.
  apply Z.mul_le_mono_nonneg_l; [destruct A; lia|]. apply Z.mul_le_mono_nonneg_r; [lia|]. lia.
Qed.
Print Assumptions C59_negative_refuted.

Example C59_negative_example :
  let text := [45; 51; 46; 50; 53]%N (* -3.25 *) in
  parse_floating_point K8 F64 text default_float_format = Ok (Fin (-11 * 2 ^ (scale F64 - 2))) (* -2.75 *) /\
  numerator 10 46 text = -325 /\ value 10 (digits_in 10 (after 46 text)) = 25%N.
Proof. cbv zeta. split; [vm_compute; reflexivity|]. split; vm_compute; reflexivity. Qed.

(* ------------------------------------------------------------------- C27 *)

(** A value x >= 0 formatted and parsed again, in every even radix, without separator
    and without a limit on places: the value is read back to within
    (2p + 33) 2^-p (x + 1).  Missing: that it is the same value, which is refuted
    above. *)
Theorem C27_near_partial : forall k k' cs t n f, ieee t -> has_value t n -> 0 <= n -> integral_part_fits t n ->
  valid_radix (radix (base f)) -> N.even (radix (base f)) = true ->
  separator (base f) = SepNone -> limit f = NoLimit ->
  exists n', bind (format_floating_point k cs t (Fin n) f) (fun s => parse_floating_point k' t s f) = Ok (Fin n') /\
    has_value t n' /\ within n' n (one t) (2 * prec t + 33) (prec t).
Proof.
  intros k k' cs t n f Ht Hv H0 Hfit Hr Ev Hs Hl.
  pose proof (ieee_fine t Ht) as F. pose proof (fine_good t F) as G. pose proof (ieee_ample t Ht) as A.
  pose proof (one_positive t A) as PT. pose proof (has_value_in t n Hv) as Hin.
  assert (PP : 0 < 2 ^ prec t) by (apply pow2_pos; destruct A; lia).
  assert (Hs' : sep_char (separator (base f)) <> Some (point_char (point f))) by (rewrite Hs; discriminate).
  destruct (Z.eq_dec (Z.abs n mod one t) 0) as [X|X].
  - exists n. split.
    + apply round_trip_whole; auto. apply Z.mod_divide in X; [|lia]. now apply Z.divide_abs_r.
    + split; [exact Hv|]. unfold within. rewrite Z.sub_diag. change (Z.abs 0) with 0. rewrite Z.mul_0_l.
      apply Z.mul_nonneg_nonneg; [destruct A; lia|lia].
  - destruct (format_denotes k cs t f n F Hin Hfit Hr Hs' Hl Ev) as (text & E & Near & _).
    destruct (format_text (fraction_fuel t f) k cs t f n F Hin Hfit Hr (or_intror Ev) (le_n _)) as (itext & _ & Hn & E').
    unfold format_floating_point in E |- *. rewrite E in E'. rewrite E. cbn [bind]. injection E' as Et.
    replace (Z.abs n mod one t =? 0) with false in Et by lia. cbv zeta in Et.
    set (r := radix (base f)) in *. set (ds := expand t r (shown t f) (Z.abs n mod one t)) in *.
    assert (Pad : padding f ds = O) by (unfold padding; now rewrite Hl). rewrite Pad in Et. cbn [repeat] in Et. rewrite app_nil_r in Et.
    rewrite Hs in Et. cbn [sep_char] in Et. rewrite fraction_text_none in Et.
    assert (Fx : frac t (Z.abs n mod one t)) by (apply mod_frac; [assumption|]; apply Hin).
    assert (Hd : Forall (fun d => (d < r)%N) ds) by (destruct Hr; apply expand_digits; auto).
    assert (Hne : ds <> []).
    { unfold ds, shown. unfold limited. rewrite Hl. unfold good in G. destruct (Z.to_nat (scale t)) eqn:Es; [lia|].
      cbn [expand]. replace (Z.abs n mod one t =? 0) with false by lia. discriminate. }
    pose proof (fits_whole t n G Hfit) as W. change (min_of I64) with (- 2 ^ 63) in W. change (max_of I64) with (2 ^ 63 - 1) in W.
    destruct (parse_near k' t f (whole t n) itext ds Ht Hr ltac:(lia) Hn Hs' Hd Hne) as (n' & Ep & Vn & D).
    rewrite <- Et in Ep. exists n'. split; [exact Ep|]. split; [exact Vn|].
    destruct (fraction_text_reads _ _ _ _ _ _ _ Hr Hn Hs' Hd) as (P1 & _ & P3). fold r in P1, P3. rewrite <- Et in P1, P3.
    unfold denotes_near in Near. rewrite P1, P3 in Near.
    assert (Wn : 0 <= whole t n) by (unfold whole; apply Z.div_pos; lia).
    assert (Wl : whole t n * one t <= n) by (unfold whole; rewrite Z.mul_comm; apply Z.mul_div_le; lia).
    replace (whole t n <? 0) with false in Near by lia. unfold shown_value in Near.
    replace (n <? 0) with false in Near by lia. cbn [andb] in Near. fold r in D. cbv zeta in D.
    rewrite (Z.abs_eq (whole t n)) in Near, D by lia.
    set (R := Z.of_N r ^ Z.of_nat (length ds)) in *. set (V := Z.of_N (value r ds)) in *. set (i := whole t n) in *.
    assert (HR : 0 < R) by (apply Z.pow_pos_nonneg; destruct Hr; unfold r; lia).
    assert (P2 : 2 ^ prec t = 2 ^ (prec t - 1) * 2) by (rewrite <- (Z.pow_1_r 2) at 3; rewrite <- Z.pow_add_r by (destruct A; lia); f_equal; lia).
    unfold within. set (P := 2 ^ prec t) in *. set (T := one t) in *. set (c := 2 * prec t) in *.
    assert (Hc : 0 <= c) by (unfold c; destruct A; lia).
    replace (1 * (i * R + V)) with (i * R + V) in Near by ring.
    set (u := (i * R + V) * T) in *.
    assert (N2 : Z.abs (u - n * R) * P <= 2 * (T * R)) by (clear - Near P2; lia).
    assert (I : (i + 1) * R * T <= (n + T) * R).
    { assert ((i * T + T) * R <= (n + T) * R) by (apply Z.mul_le_mono_nonneg_r; lia). lia. }
    pose proof (Z.mul_le_mono_nonneg_l _ _ (c + 31) ltac:(clear - Hc; lia) I) as I2.
    assert (Tr : Z.abs (n' - n) * R * P <= Z.abs (n' * R - u) * P + Z.abs (u - n * R) * P).
    { rewrite <- Z.mul_add_distr_r. apply Z.mul_le_mono_nonneg_r; [clear - PP; lia|].
      replace (Z.abs (n' - n) * R) with (Z.abs ((n' * R - u) + (u - n * R))).
      - clear. lia.
      - replace ((n' * R - u) + (u - n * R)) with ((n' - n) * R) by ring. rewrite Z.abs_mul, (Z.abs_eq R) by (clear - HR; lia). reflexivity. }
    apply Z.mul_le_mono_pos_r with R; [exact HR|].
    assert (NR : 0 <= n * R) by (apply Z.mul_nonneg_nonneg; [exact H0|clear - HR; lia]).
    clear - Tr D N2 I2 NR. lia.
Qed.
Print Assumptions C27_near_partial.

(** 0.875 comes back as the next value above. *)
Example C27_near_example :
  let n := 7 * 2 ^ (scale F64 - 3) in
  bind (format_floating_point K8 true F64 (Fin n) default_float_format) (fun s => parse_floating_point K16 F64 s default_float_format)
    = Ok (Fin (n + 2 ^ (scale F64 - 53))) /\
  has_value F64 n /\ integral_part_fits F64 n /\ 2 * prec F64 + 33 = 139.
Proof.
  cbv zeta. split; [vm_compute; reflexivity|]. split.
  - exists 7, (scale F64 - 3). vm_compute. repeat split; congruence.
  - split; [split; vm_compute; congruence|reflexivity].
Qed.
