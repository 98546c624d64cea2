(** Digit counting and approximate comparison: the properties. *)
From Coq Require Import NArith ZArith List Bool Lia ZifyBool ZifyN.
From Verif Require Import Base Integers NumeralSpec FloatModel FloatText FloatLemmas FloatLemmas5 NumberLemmas
  CompareSpec CompareModel CompareText CompareLemmas CompareLemmas2.
Import ListNotations.
Open Scope Z_scope.
Ltac Zify.zify_post_hook ::= idtac.

(* ------------------------------------------------------------------- C29 *)

(** count_digits(n, r), r >= 2, is the length of |n| written in base r. *)
Theorem C29_count_digits : forall t n r, standard t -> in_range t n -> in_range t r -> 2 <= r ->
  exists ds, canonical (Z.to_N r) ds /\ value (Z.to_N r) ds = Z.abs_N n /\
             count_digits t n r = Ok (Z.of_nat (length ds)).
Proof. exact count_digits_ok. Qed.
Print Assumptions C29_count_digits.

Example C29_example :
  standard I8 /\ in_range I8 (-128) /\ in_range I8 10 /\ count_digits I8 (-128) 10 = Ok 3 /\
  count_digits U64 (2 ^ 64 - 1) 2 = Ok 64 /\ count_digits I32 0 16 = Ok 1.
Proof. repeat split; vm_compute; (tauto || discriminate || reflexivity). Qed.

(** Radix 0 is undefined behaviour; radix 1 never ends, unless the number is 0. *)
Theorem C29_bad_radix : forall t n, standard t -> in_range t n ->
  count_digits t n 0 = UB DivByZero /\
  (n <> 0 -> forall fuel, count_digits_with fuel t n 1 = Diverge).
Proof.
  intros t n S N. split; [reflexivity|]. intros H fuel. now apply count_loop_one.
Qed.
Print Assumptions C29_bad_radix.

Example C29_bad_radix_example : standard U16 /\ in_range U16 7 /\ count_digits U16 0 1 = Ok 1.
Proof. repeat split; vm_compute; (tauto || discriminate || reflexivity). Qed.

(* ------------------------------------------------------------------- C30 *)

(** Symmetry, transitivity and the meaning of cmp_not_equal hold for all values
    (also infinities and NaN), all types and every std::pow. *)
Theorem C30_symmetric : forall pow10 t1 t2 x y k,
  cmp_equal pow10 t1 t2 x y k = cmp_equal pow10 t2 t1 y x k.
Proof. intros. apply floored_equal_sym. Qed.
Print Assumptions C30_symmetric.

Theorem C30_transitive : forall pow10 t1 t2 t3 x y z k,
  cmp_equal pow10 t1 t2 x y k = true -> cmp_equal pow10 t2 t3 y z k = true ->
  cmp_equal pow10 t1 t3 x z k = true.
Proof. intros pow10 t1 t2 t3 x y z k. apply floored_equal_trans. Qed.
Print Assumptions C30_transitive.

Theorem C30_not_equal : forall pow10 t1 t2 x y k, 0 <= k < 2 ^ 31 ->
  cmp_not_equal pow10 t1 t2 x y k = negb (cmp_equal pow10 t1 t2 x y (Z.to_N k)).
Proof.
  intros pow10 t1 t2 x y k K. unfold cmp_not_equal. rewrite convert_id; [reflexivity|vm_compute; tauto|].
  unfold in_range. change (min_of U32) with 0. change (max_of U32) with 4294967295. change (2 ^ 31) with 2147483648 in K. lia.
Qed.
Print Assumptions C30_not_equal.

(** 1.0 = 1.5 = 1.75 up to no places. *)
Example C30_equivalence_example :
  let x := Fin (one F32) in let y := Fin (3 * one F32 / 2) in let z := Fin (7 * one F32 / 4) in
  cmp_equal rounded_pow10 F32 F32 x y 0 = true /\ cmp_equal rounded_pow10 F32 F32 y z 0 = true /\
  cmp_equal rounded_pow10 F32 F32 x z 0 = true /\ cmp_not_equal rounded_pow10 F32 F32 x z 1 = true.
Proof. vm_compute. auto. Qed.

(** Reflexivity fails: for NaN, and for 0.0 with 400 places, where std::pow gives
    infinity and 0 * infinity is a NaN. *)
Theorem C30_reflexive_refuted :
  (forall pow10 t k, cmp_equal pow10 t t NaN NaN k = false) /\
  rounded_pow10 400 = Inf false /\
  forall t, ieee t -> cmp_equal rounded_pow10 t t (Fin 0) (Fin 0) 400 = false.
Proof.
  split; [reflexivity|]. assert (E : rounded_pow10 400 = Inf false) by (vm_compute; reflexivity).
  split; [exact E|]. intros t _. unfold cmp_equal. rewrite E. reflexivity.
Qed.
Print Assumptions C30_reflexive_refuted.

(** Exactly when a value compares equal to itself. *)
Theorem C30_reflexive_partial : forall pow10 t x k, ieee t ->
  (cmp_equal pow10 t t x x k = true <->
   x <> NaN /\ pow10 k <> NaN /\
   ~ (x = Fin 0 /\ exists s, pow10 k = Inf s) /\ ~ (pow10 k = Fin 0 /\ exists s, x = Inf s)).
Proof.
  intros pow10 t x k T. unfold cmp_equal. set (p := pow10 k).
  destruct (ieee_wide t T) as (A & B & C & D & E & _).
  assert (Z1 : forall n e, 0 <= e -> (n * 2 ^ e = 0 <-> n = 0)).
  { intros n e He. pose proof (pow2_pos e He). split; intro Q; [|subst; lia]. apply Z.mul_eq_0 in Q. lia. }
  transitivity (scaled_floor t x p <> Undefined).
  - split; [|apply floored_equal_refl]. intros H Q. rewrite Q in H. discriminate.
  - unfold scaled_floor. destruct x as [n|s|]; destruct p as [m|s'|]; cbn [widen fmul].
    + unfold pack. destruct (_ <? _); cbn [ffloor]; (split; [|discriminate]); intros _;
      (split; [discriminate|]; split; [discriminate|]; split; [intros (_ & s & F); discriminate|intros (_ & s & F); discriminate]).
    + destruct (_ =? 0) eqn:Q; cbn [ffloor].
      * apply Z.eqb_eq, Z1 in Q; [|lia]. split; [congruence|]. intros (_ & _ & H & _). exfalso. apply H. subst n. split; eauto.
      * split; [|discriminate]. intros _. split; [discriminate|]. split; [discriminate|]. split; [|intros (F & _); discriminate].
        intros (F & _). injection F as ->. rewrite Z.mul_0_l in Q. discriminate.
    + cbn [ffloor]. split; [congruence|]. intros (_ & H & _). congruence.
    + destruct (_ =? 0) eqn:Q; cbn [ffloor].
      * apply Z.eqb_eq, Z1 in Q; [|lia]. split; [congruence|]. intros (_ & _ & _ & H). exfalso. apply H. subst m. split; eauto.
      * split; [|discriminate]. intros _. split; [discriminate|]. split; [discriminate|]. split; [intros (F & _); discriminate|].
        intros (F & _). injection F as ->. rewrite Z.mul_0_l in Q. discriminate.
    + cbn. split; [|discriminate]. intros _. split; [discriminate|]. split; [discriminate|].
      split; intros (F & _); discriminate.
    + cbn [ffloor]. split; [congruence|]. intros (_ & H & _). congruence.
    + cbn [ffloor]. split; [congruence|]. intros (H & _). congruence.
    + cbn [ffloor]. split; [congruence|]. intros (H & _). congruence.
    + cbn [ffloor]. split; [congruence|]. intros (H & _). congruence.
Qed.
Print Assumptions C30_reflexive_partial.

Example C30_reflexive_example : ieee F64 /\ cmp_equal rounded_pow10 F64 F64 (Inf true) (Inf true) 3 = true.
Proof. split; [right; now left|]. vm_compute. reflexivity. Qed.

(** Agreement up to k places is not what is computed: the double 0.3, which lies
    below 3/10, times 10 is rounded up to 3.  So it compares unequal to 0.25, with
    which it agrees in the first place, and equal to 0.3125, with which it does
    not. *)
Definition double_0_3 : Z := 5404319552844595 * 2 ^ (scale F64 - 54).
Definition double_0_25 : Z := 2 ^ (scale F64 - 2).
Definition double_0_3125 : Z := 5 * 2 ^ (scale F64 - 4).

Lemma double_values : has_value F64 double_0_3 /\ has_value F64 double_0_25 /\ has_value F64 double_0_3125.
Proof.
  split; [exists 5404319552844595, (scale F64 - 54)|split; [exists 1, (scale F64 - 2)|exists 5, (scale F64 - 4)]];
  repeat split; vm_compute; (discriminate || reflexivity).
Qed.

Theorem C30_places_refuted : exists x y z, has_value F64 x /\ has_value F64 y /\ has_value F64 z /\
  (forall pow10, exact_power pow10 1 ->
     cmp_equal pow10 F64 F64 (Fin x) (Fin y) 1 = false /\ cmp_equal pow10 F64 F64 (Fin x) (Fin z) 1 = true) /\
  same_places 1 x (one F64) y (one F64) /\ ~ same_places 1 x (one F64) z (one F64).
Proof.
  exists double_0_3, double_0_25, double_0_3125.
  destruct double_values as (A & B & C). do 3 (split; [assumption|]).
  split; [|split].
  - intros pow10 E. unfold cmp_equal. rewrite E. split; vm_compute; reflexivity.
  - exists 2. split; split; vm_compute; (discriminate || reflexivity).
  - intros (i & H & K). assert (E : i = 3).
    { apply (place_unique F64 double_0_3125 1 i 3); [right; now left|assumption|].
      split; vm_compute; (discriminate || reflexivity). }
    subst i. destruct H as [H _]. revert H. vm_compute. intro H. now apply H.
Qed.
Print Assumptions C30_places_refuted.

(** It is what is computed when the scaled values are below 2^precision and not
    within rounding distance of the next integer. *)
Theorem C30_places_partial : forall pow10 t1 t2 x y k, ieee t1 -> ieee t2 -> exact_power pow10 k ->
  scaled_small t1 x (Z.of_N k) -> scaled_small t2 y (Z.of_N k) ->
  clear_of_next (product_precision t1) (Z.of_N k) x (one t1) ->
  clear_of_next (product_precision t2) (Z.of_N k) y (one t2) ->
  (cmp_equal pow10 t1 t2 (Fin x) (Fin y) k = true <->
   same_places (Z.of_N k) x (one t1) y (one t2)).
Proof.
  intros pow10 t1 t2 x y k T1 T2 E S1 S2 C1 C2. unfold cmp_equal. rewrite E.
  destruct (place_exists t1 x (Z.of_N k) T1) as [i Hi]. destruct (place_exists t2 y (Z.of_N k) T2) as [j Hj].
  destruct (scaled_floor_near t1 x (Z.of_N k) i T1 ltac:(lia) S1 Hi) as (i' & Ei & _ & Ci).
  destruct (scaled_floor_near t2 y (Z.of_N k) j T2 ltac:(lia) S2 Hj) as (j' & Ej & _ & Cj).
  rewrite Ei, Ej, (Ci C1), (Cj C2). cbn [floored_equal]. rewrite Z.eqb_eq. split.
  - intros ->. exists j. auto.
  - intros (m & M1 & M2). rewrite (place_unique t1 x _ i m T1 Hi M1). symmetry.
    now apply (place_unique t2 y (Z.of_N k)).
Qed.
Print Assumptions C30_places_partial.

(** 1.5 (float) and 1.53125 (double) up to one place. *)
Example C30_places_example :
  exact_power rounded_pow10 1 /\
  scaled_small F32 (3 * one F32 / 2) 1 /\ scaled_small F64 (49 * one F64 / 32) 1 /\
  clear_of_next (product_precision F32) 1 (3 * one F32 / 2) (one F32) /\
  clear_of_next (product_precision F64) 1 (49 * one F64 / 32) (one F64).
Proof.
  split; [now apply rounded_pow10_exact|]. split; [vm_compute; reflexivity|]. split; [vm_compute; reflexivity|].
  split; exists 15; repeat split; vm_compute; (discriminate || reflexivity).
Qed.

(** Without decimal places the comparison is that of the whole parts, exactly. *)
Theorem C30_whole_partial : forall pow10 t1 t2 x y, ieee t1 -> ieee t2 -> exact_power pow10 0 ->
  has_value t1 x -> has_value t2 y ->
  (cmp_equal pow10 t1 t2 (Fin x) (Fin y) 0 = true <-> same_places 0 x (one t1) y (one t2)).
Proof.
  intros pow10 t1 t2 x y T1 T2 E V1 V2. unfold cmp_equal. rewrite E. change (Z.of_N 0) with 0.
  destruct (place_exists t1 x 0 T1) as [i Hi]. destruct (place_exists t2 y 0 T2) as [j Hj].
  rewrite (scaled_floor_zero t1 x i), (scaled_floor_zero t2 y j) by assumption.
  cbn [floored_equal]. rewrite Z.eqb_eq. split.
  - intros ->. exists j. auto.
  - intros (m & M1 & M2). rewrite (place_unique t1 x _ i m T1 Hi M1). symmetry.
    now apply (place_unique t2 y 0).
Qed.
Print Assumptions C30_whole_partial.

Example C30_whole_example : exact_power rounded_pow10 0 /\ has_value F32 (one F32) /\
  has_value F64 (3 * one F64 / 2).
Proof.
  split; [now apply rounded_pow10_exact|]. split; [exists 1, (scale F32)|exists 3, (scale F64 - 1)];
  repeat split; vm_compute; (discriminate || reflexivity).
Qed.

(** Close values need not compare equal: 1 - 2^-24 and 1. *)
Theorem C30_close_refuted : exists x y, has_value F32 x /\ has_value F32 y /\
  closer_than 1 0 x (one F32) y (one F32) /\
  forall pow10, exact_power pow10 0 -> cmp_equal pow10 F32 F32 (Fin x) (Fin y) 0 = false.
Proof.
  exists ((2 ^ 24 - 1) * 2 ^ (scale F32 - 24)), (one F32).
  split; [exists (2 ^ 24 - 1), (scale F32 - 24); repeat split; vm_compute; (discriminate || reflexivity)|].
  split; [exists 1, (scale F32); repeat split; vm_compute; (discriminate || reflexivity)|].
  split; [vm_compute; reflexivity|]. intros pow10 E. unfold cmp_equal. rewrite E. vm_compute. reflexivity.
Qed.
Print Assumptions C30_close_refuted.

(** Values that compare equal are closer than 2 * 10^-k. *)
Theorem C30_close_partial : forall pow10 t1 t2 x y k, ieee t1 -> ieee t2 -> exact_power pow10 k ->
  scaled_small t1 x (Z.of_N k) -> scaled_small t2 y (Z.of_N k) ->
  cmp_equal pow10 t1 t2 (Fin x) (Fin y) k = true ->
  closer_than 2 (Z.of_N k) x (one t1) y (one t2).
Proof.
  intros pow10 t1 t2 x y k T1 T2 E S1 S2. unfold cmp_equal. rewrite E.
  destruct (place_exists t1 x (Z.of_N k) T1) as [i Hi]. destruct (place_exists t2 y (Z.of_N k) T2) as [j Hj].
  destruct (scaled_floor_near t1 x (Z.of_N k) i T1 ltac:(lia) S1 Hi) as (i' & Ei & Ni & _).
  destruct (scaled_floor_near t2 y (Z.of_N k) j T2 ltac:(lia) S2 Hj) as (j' & Ej & Nj & _).
  rewrite Ei, Ej. cbn [floored_equal]. rewrite Z.eqb_eq. intros ->.
  unfold closer_than, up_to_place in *. set (p := 10 ^ Z.of_N k) in *.
  assert (P : 0 < p) by (apply Z.pow_pos_nonneg; lia).
  assert (O1 : 0 < one t1) by (apply pow2_pos; destruct (ieee_wide t1 T1) as (A & B & C & D & F & _); lia).
  assert (O2 : 0 < one t2) by (apply pow2_pos; destruct (ieee_wide t2 T2) as (A & B & C & D & F & _); lia).
  set (a := one t1) in *. set (b := one t2) in *.
  assert (Q : forall u, p * Z.abs u = Z.abs (p * u)) by (intro u; rewrite Z.abs_mul, (Z.abs_eq p); lia).
  rewrite Q. apply Z.abs_lt.
  assert (X1 : p * x * b < (i + 1) * a * b) by (apply Z.mul_lt_mono_pos_r; lia).
  assert (X2 : i * a * b <= p * x * b) by (apply Z.mul_le_mono_nonneg_r; lia).
  assert (Y1 : p * y * a < (j + 1) * b * a) by (apply Z.mul_lt_mono_pos_r; lia).
  assert (Y2 : j * b * a <= p * y * a) by (apply Z.mul_le_mono_nonneg_r; lia).
  assert (L : - (1) <= i - j <= 1) by lia. assert (AB : 0 < a * b) by nia.
  assert (M1 : (i - j) * (a * b) <= 1 * (a * b)) by (apply Z.mul_le_mono_nonneg_r; lia).
  assert (M2 : -1 * (a * b) <= (i - j) * (a * b)) by (apply Z.mul_le_mono_nonneg_r; lia).
  split; nia.
Qed.
Print Assumptions C30_close_partial.

Example C30_close_example :
  scaled_small F32 (3 * one F32 / 2) 1 /\
  cmp_equal rounded_pow10 F32 F64 (Fin (3 * one F32 / 2)) (Fin (49 * one F64 / 32)) 1 = true.
Proof. split; vm_compute; reflexivity. Qed.

(** Every value between two that compare equal compares equal to them. *)
Theorem C30_between : forall pow10 t x y z k m, ieee t -> pow10 k = Fin m -> 0 <= m ->
  x <= y <= z -> cmp_equal pow10 t t (Fin x) (Fin z) k = true ->
  cmp_equal pow10 t t (Fin x) (Fin y) k = true.
Proof.
  intros pow10 t x y z k m T E M H. unfold cmp_equal. rewrite E. now apply scaled_floor_between.
Qed.
Print Assumptions C30_between.

Example C30_between_example : exists m, rounded_pow10 3 = Fin m /\ 0 <= m /\
  cmp_equal rounded_pow10 F32 F32 (Fin (one F32)) (Fin (one F32 + 2 ^ (scale F32 - 10))) 3 = true.
Proof. eexists. split; [now apply rounded_pow10_exact|]. split; vm_compute; (discriminate || reflexivity). Qed.
