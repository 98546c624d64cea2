(** Lemmas about approximate comparison. *)
From Coq Require Import NArith ZArith List Bool Lia ZifyBool ZifyNat ZifyN.
From Verif Require Import Base Integers FloatModel FloatText FloatLemmas FloatLemmas4 FloatLemmas5
  CompareSpec CompareModel CompareText CompareLemmas.
Import ListNotations.
Open Scope Z_scope.
Ltac Zify.zify_post_hook ::= idtac.

Lemma floored_equal_sym : forall a b, floored_equal a b = floored_equal b a.
Proof. intros [i|s|] [j|s'|]; cbn; try reflexivity; [apply Z.eqb_sym|]. now destruct s, s'. Qed.

Lemma floored_equal_eq : forall a b, floored_equal a b = true -> a = b.
Proof.
  intros [i|s|] [j|s'|] H; cbn in H; try discriminate; f_equal; [now apply Z.eqb_eq|now apply eqb_prop].
Qed.

Lemma floored_equal_trans : forall a b c,
  floored_equal a b = true -> floored_equal b c = true -> floored_equal a c = true.
Proof. intros a b c H K. apply floored_equal_eq in H. now subst. Qed.

Lemma floored_equal_refl : forall a, a <> Undefined -> floored_equal a a = true.
Proof. intros [i|s|] H; cbn; [apply Z.eqb_refl|now destruct s|congruence]. Qed.

(** The types the products are formed in. *)
Lemma ieee_wide : forall t, ieee t ->
  let u := with_double t in
  scale t <= scale u /\ scale F64 <= scale u /\ 53 <= prec u /\ prec u < emax u /\ 0 <= scale t /\
  (t = F32 \/ u = t).
Proof. intros t [->|[->|[->| ->]]]; vm_compute; intuition (congruence || auto). Qed.

Definition as_wide (t : float_type) (n : Z) : Z := n * 2 ^ (scale (with_double t) - scale t).

Lemma as_wide_one : forall t, ieee t -> as_wide t (one t) = one (with_double t).
Proof.
  intros t T. destruct (ieee_wide t T) as (A & B & C & D & E & _). unfold as_wide, one.
  rewrite <- Z.pow_add_r by lia. f_equal. lia.
Qed.

Lemma scaled_floor_fin : forall t n m,
  scaled_floor t (Fin n) (Fin m) =
  let u := with_double t in
  ffloor u (pack u (rs (prec u) (as_wide t n * (m * 2 ^ (scale u - scale F64))) (one u))).
Proof. reflexivity. Qed.

Lemma one_split : forall t, ieee t -> one F64 * 2 ^ (scale (with_double t) - scale F64) = one (with_double t).
Proof.
  intros t T. destruct (ieee_wide t T) as (A & B & C & D & E & _). unfold one.
  assert (0 <= scale F64) by (vm_compute; discriminate).
  rewrite <- Z.pow_add_r by lia. f_equal. lia.
Qed.

(** With an exact power of ten the product before rounding is a whole number of
    units. *)
Lemma scaled_floor_power : forall t n k, ieee t -> 0 <= k ->
  scaled_floor t (Fin n) (Fin (10 ^ k * one F64)) =
  ffloor (with_double t) (pack (with_double t) (round_units (prec (with_double t)) (10 ^ k * as_wide t n))).
Proof.
  intros t n k T K. rewrite scaled_floor_fin. cbv zeta. rewrite <- Z.mul_assoc, one_split by assumption.
  rewrite <- rs_integer with (b := one (with_double t)).
  - f_equal. f_equal. f_equal. ring.
  - apply pow2_pos. destruct (ieee_wide t T) as (A & B & C & D & E & _). lia.
Qed.

(** The exact scaled value and its whole part. *)
Lemma place_div : forall t n k i, ieee t ->
  (up_to_place k n (one t) i <-> 10 ^ k * as_wide t n / one (with_double t) = i).
Proof.
  intros t n k i T. destruct (ieee_wide t T) as (A & B & C & D & E & _).
  rewrite <- (as_wide_one t T). unfold as_wide, up_to_place.
  pose proof (pow2_pos (scale (with_double t) - scale t) ltac:(lia)) as P.
  assert (O : 0 < one t) by (apply pow2_pos; lia).
  rewrite Z.mul_assoc. rewrite Z.div_mul_cancel_r by lia.
  pose proof (Z.div_mod (10 ^ k * n) (one t) ltac:(lia)). pose proof (Z.mod_pos_bound (10 ^ k * n) (one t) O).
  split.
  - intros [H1 H2]. symmetry. apply (Z.div_unique _ _ _ (10 ^ k * n - one t * i)); [left; nia|ring].
  - intros <-. split; nia.
Qed.

Lemma precision_wide : forall t, ieee t -> product_precision t = prec (with_double t).
Proof. intros t [->|[->|[->| ->]]]; reflexivity. Qed.

Lemma scaled_small_abs : forall t n k, ieee t -> 0 <= k -> scaled_small t n k ->
  Z.abs (10 ^ k * as_wide t n) < 2 ^ prec (with_double t) * 2 ^ scale (with_double t).
Proof.
  intros t n k T K H. destruct (ieee_wide t T) as (A & B & C & D & E & _).
  change (2 ^ scale (with_double t)) with (one (with_double t)). rewrite <- (as_wide_one t T).
  unfold scaled_small in H. rewrite precision_wide in H by assumption. unfold as_wide. pose proof (pow2_pos (scale (with_double t) - scale t) ltac:(lia)) as P.
  assert (0 < 10 ^ k) by (apply Z.pow_pos_nonneg; lia).
  rewrite !Z.abs_mul, (Z.abs_eq (10 ^ k)), (Z.abs_eq (2 ^ _)) by lia.
  rewrite !Z.mul_assoc. apply Z.mul_lt_mono_pos_r; assumption.
Qed.

Lemma pack_small : forall u z, prec u < emax u -> 0 <= prec u -> 0 <= scale u ->
  Z.abs z <= 2 ^ prec u * 2 ^ scale u -> pack u z = Fin z.
Proof.
  intros u z H P S B. unfold pack.
  assert (2 ^ prec u * 2 ^ scale u < 2 ^ (emax u + scale u)).
  { rewrite <- Z.pow_add_r by lia. apply Z.pow_lt_mono_r; lia. }
  replace (Z.abs z <? 2 ^ (emax u + scale u)) with true by (symmetry; apply Z.ltb_lt; lia). reflexivity.
Qed.

(** The computed whole part is the exact one or the next. *)
Lemma scaled_floor_near : forall t n k i, ieee t -> 0 <= k -> scaled_small t n k ->
  up_to_place k n (one t) i ->
  exists j, scaled_floor t (Fin n) (Fin (10 ^ k * one F64)) = Whole j /\ (j = i \/ j = i + 1) /\
  (clear_of_next (product_precision t) k n (one t) -> j = i).
Proof.
  intros t n k i T K Sm H. destruct (ieee_wide t T) as (A & B & C & D & E & _).
  rewrite scaled_floor_power by assumption. pose proof (scaled_small_abs t n k T K Sm) as S.
  pose proof (proj1 (place_div t n k i T) H) as Q.
  set (u := with_double t) in *. set (z := 10 ^ k * as_wide t n) in *.
  pose proof (round_between (prec u) (scale u) z ltac:(lia) ltac:(lia) S) as [R1 R2].
  change (2 ^ scale u) with (one u) in *. rewrite Q in R1, R2.
  assert (O : 0 < one u) by (apply pow2_pos; lia).
  pose proof (pow2_pos (prec u) ltac:(lia)) as PP.
  assert (I : - 2 ^ prec u <= i < 2 ^ prec u).
  { pose proof (Z.div_mod z (one u) ltac:(lia)). pose proof (Z.mod_pos_bound z (one u) O). rewrite Q in *. split; nia. }
  rewrite pack_small; try lia.
  2:{ change (2 ^ scale u) with (one u). apply Z.abs_le. split; nia. }
  cbn [ffloor]. exists (whole u (round_units (prec u) z)). split; [reflexivity|]. unfold whole.
  set (w := round_units (prec u) z) in *.
  assert (J : i <= w / one u <= i + 1).
  { split; [apply Z.div_le_lower_bound; lia|]. assert (w / one u < i + 2) by (apply Z.div_lt_upper_bound; lia). lia. }
  split; [lia|]. rewrite precision_wide by assumption. fold u. intros (i' & H' & G).
  assert (i' = i). { apply (place_div t n k i' T) in H'. fold u z in H'. congruence. } subst i'.
  assert (w < (i + 1) * one u).
  { pose proof (round_relative (prec u) z ltac:(lia)) as RR. fold w in RR.
    assert (G' : Z.abs z < 2 ^ prec u * ((i + 1) * one u - z)).
    { pose proof (pow2_pos (scale u - scale t) ltac:(lia)) as P2.
      assert (Ez : z = 10 ^ k * n * 2 ^ (scale u - scale t)) by (unfold z, as_wide; fold u; ring).
      assert (Eo : one u = one t * 2 ^ (scale u - scale t)) by (unfold u; rewrite <- (as_wide_one t T); reflexivity).
      rewrite Ez, Eo. set (f := 2 ^ (scale u - scale t)) in *.
      rewrite Z.abs_mul, (Z.abs_eq f) by lia.
      replace (2 ^ prec u * ((i + 1) * (one t * f) - 10 ^ k * n * f)) with (2 ^ prec u * ((i + 1) * one t - 10 ^ k * n) * f) by ring.
      apply Z.mul_lt_mono_pos_r; assumption. }
    assert (2 ^ prec u * (w - z) < 2 ^ prec u * ((i + 1) * one u - z)).
    { apply Z.le_lt_trans with (Z.abs z); [|assumption]. apply Z.le_trans with (2 ^ prec u * Z.abs (w - z)); [|assumption].
      apply Z.mul_le_mono_nonneg_l; lia. }
    apply Z.mul_lt_mono_pos_l in H0; lia. }
  assert (w / one u < i + 1) by (apply Z.div_lt_upper_bound; lia). lia.
Qed.

Lemma place_exists : forall t n k, ieee t -> exists i, up_to_place k n (one t) i.
Proof. intros t n k T. eexists. apply (place_div t n k); [assumption|reflexivity]. Qed.

Lemma place_unique : forall t n k i j, ieee t -> up_to_place k n (one t) i -> up_to_place k n (one t) j -> i = j.
Proof. intros t n k i j T H K. apply (place_div t n k) in H; apply (place_div t n k) in K; congruence. Qed.

(** Without decimal places nothing is rounded. *)
Lemma scaled_floor_zero : forall t n i, ieee t -> has_value t n -> up_to_place 0 n (one t) i ->
  scaled_floor t (Fin n) (Fin (10 ^ 0 * one F64)) = Whole i.
Proof.
  intros t n i T V H. rewrite scaled_floor_power by (assumption || lia). rewrite Z.pow_0_r, Z.mul_1_l.
  destruct (ieee_wide t T) as (A & B & C & D & E & W).
  destruct (has_value_in t n V) as [R M].
  assert (R' : rep (prec (with_double t)) (Z.abs (as_wide t n))).
  { unfold as_wide. rewrite Z.abs_mul, (Z.abs_eq (2 ^ _)) by (apply Z.lt_le_incl, pow2_pos; lia).
    apply rep_scale; [lia|]. destruct R as (m & e & E1 & E2 & E3). exists m, e. split; [assumption|].
    split; [|assumption]. split; [lia|]. transitivity (2 ^ prec t); [lia|]. apply Z.pow_le_mono_r; [lia|].
    destruct W as [->| ->]; [vm_compute; discriminate|lia]. }
  rewrite round_fix by (assumption || lia).
  assert (M' : Z.abs (as_wide t n) < 2 ^ (emax (with_double t) + scale (with_double t))).
  { unfold as_wide. rewrite Z.abs_mul, (Z.abs_eq (2 ^ _)) by (apply Z.lt_le_incl, pow2_pos; lia).
    apply Z.lt_le_trans with (2 ^ (emax t + scale t) * 2 ^ (scale (with_double t) - scale t)).
    - apply Z.mul_lt_mono_pos_r; [apply pow2_pos; lia|assumption].
    - destruct T as [->|[->|[->| ->]]]; rewrite <- Z.pow_add_r by (vm_compute; discriminate);
        apply Z.pow_le_mono_r; [lia|vm_compute; discriminate|lia|vm_compute; discriminate|lia|vm_compute; discriminate|lia|vm_compute; discriminate]. }
  unfold pack. apply Z.ltb_lt in M'. rewrite M'. cbn [ffloor]. f_equal. unfold whole.
  apply (place_div t n 0 i T) in H. now rewrite Z.pow_0_r, Z.mul_1_l in H.
Qed.

(** The result is monotone in the value. *)
Lemma pack_between : forall u a b c, 0 < one u -> a <= b <= c ->
  floored_equal (ffloor u (pack u a)) (ffloor u (pack u c)) = true ->
  floored_equal (ffloor u (pack u a)) (ffloor u (pack u b)) = true.
Proof.
  intros u a b c O H. unfold pack. set (m := 2 ^ (emax u + scale u)).
  destruct (Z.abs a <? m) eqn:A; destruct (Z.abs c <? m) eqn:C; cbn [ffloor floored_equal]; intro E; try discriminate.
  - replace (Z.abs b <? m) with true by lia. cbn [ffloor floored_equal]. unfold whole in *.
    pose proof (Z.div_le_mono a b (one u) O ltac:(lia)). pose proof (Z.div_le_mono b c (one u) O ltac:(lia)). lia.
  - apply eqb_prop in E. destruct (a <? 0) eqn:A0.
    + assert (B : Z.abs b <? m = false) by lia. rewrite B. cbn. replace (b <? 0) with true by lia. reflexivity.
    + assert (B : Z.abs b <? m = false) by lia. rewrite B. cbn. replace (b <? 0) with false by lia. reflexivity.
Qed.

Lemma scaled_floor_between : forall t x y z m, ieee t -> 0 <= m -> x <= y <= z ->
  floored_equal (scaled_floor t (Fin x) (Fin m)) (scaled_floor t (Fin z) (Fin m)) = true ->
  floored_equal (scaled_floor t (Fin x) (Fin m)) (scaled_floor t (Fin y) (Fin m)) = true.
Proof.
  intros t x y z m T M H. destruct (ieee_wide t T) as (A & B & C & D & E & _).
  rewrite !scaled_floor_fin. cbv zeta. set (u := with_double t) in *.
  assert (O : 0 < one u) by (apply pow2_pos; lia).
  apply pack_between; [assumption|].
  assert (G : forall a b, a <= b -> rs (prec u) (as_wide t a * (m * 2 ^ (scale u - scale F64))) (one u)
                          <= rs (prec u) (as_wide t b * (m * 2 ^ (scale u - scale F64))) (one u)).
  { intros a b L. apply rs_mono; [lia|assumption|]. unfold as_wide. fold u.
    pose proof (pow2_pos (scale u - scale t) ltac:(lia)). pose proof (pow2_pos (scale u - scale F64) ltac:(lia)).
    apply Z.mul_le_mono_nonneg_r; [apply Z.mul_nonneg_nonneg; lia|]. apply Z.mul_le_mono_nonneg_r; lia. }
  split; apply G; lia.
Qed.

(** Correctly rounded powers of ten are exact up to 10^22. *)
Lemma rounded_pow10_exact : forall k, (k <= 22)%N -> rounded_pow10 k = Fin (10 ^ Z.of_N k * one F64).
Proof.
  intros k K. unfold rounded_pow10. replace (400 <? k)%N with false by lia.
  apply fround_in; [cbn; lia|]. split.
  - rewrite Z.abs_eq by (apply Z.mul_nonneg_nonneg; apply Z.pow_nonneg; lia).
    apply rep_scale; [cbn; lia|]. exists (5 ^ Z.of_N k), (Z.of_N k). rewrite <- Z.pow_mul_l.
    split; [reflexivity|]. split; [|lia]. split; [apply Z.pow_nonneg; lia|].
    transitivity (5 ^ 22); [apply Z.pow_le_mono_r; lia|]. vm_compute. discriminate.
  - rewrite Z.abs_eq by (apply Z.mul_nonneg_nonneg; apply Z.pow_nonneg; lia). unfold one.
    rewrite (Z.add_comm (emax F64)), Z.pow_add_r by (vm_compute; discriminate). rewrite Z.mul_comm.
    apply Z.mul_lt_mono_pos_l; [apply pow2_pos; vm_compute; discriminate|].
    apply Z.le_lt_trans with (10 ^ 22); [apply Z.pow_le_mono_r; lia|].
    apply Z.lt_trans with (2 ^ 80); [vm_compute; reflexivity|]. apply Z.pow_lt_mono_r; [lia|vm_compute; discriminate|vm_compute; reflexivity].
Qed.
