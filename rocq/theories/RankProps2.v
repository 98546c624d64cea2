(** C154, C155 for values of either sign. *)
From Coq Require Import NArith ZArith List Bool Lia ZifyBool ZifyNat ZifyN.
From Verif Require Import Base Integers NumeralSpec FloatSpec CutSpec RankSpec UnicodeModel NumberModel NumberText
  FloatModel FloatText FloatLemmas FloatLemmas2 FloatLemmas3 FloatLemmas4 FloatLemmas5 FloatLemmas6 FloatLemmas7 FloatProps FloatProps2 RankProps TypedLemmas RankLemmas RankLemmas2.
Import ListNotations.
Open Scope Z_scope.

(** Exactly which values are shown out of order, in every even radix, and with a limit of
    places in every radix, from any strings: a whole number -i below zero, and a value right
    above it, less than one away.  Those are shown the wrong way round, all other pairs of
    values are shown in their order.  Missing: those pairs (C154_shown_refuted). *)
Theorem C154_shown_signs_partial : forall k k' cs cs' t f n m, ieee t -> has_value t n -> has_value t m -> n <= m ->
  integral_part_fits t n -> integral_part_fits t m ->
  valid_radix (radix (base f)) -> limit f <> NoLimit \/ N.even (radix (base f)) = true ->
  sep_char (separator (base f)) <> Some (point_char (point f)) ->
  exists a b, format_floating_point k cs t (Fin n) f = Ok a /\ format_floating_point k' cs' t (Fin m) f = Ok b /\
    ((exists i, 0 < i /\ n = - i * one t /\ n < m < n + one t) -> at_most (radix (base f)) (point_char (point f)) b a) /\
    (~ (exists i, 0 < i /\ n = - i * one t /\ n < m < n + one t) -> at_most (radix (base f)) (point_char (point f)) a b).
Proof.
  intros k k' cs cs' t f n m Ht Vn Vm H Fn Fm Hr Hl Hs.
  assert (Hl' : limited f = true \/ N.even (radix (base f)) = true).
  { destruct Hl as [Hl|Hl]; [left|now right]. unfold limited. destruct (limit f); congruence. }
  pose proof (ieee_fine t Ht) as F. pose proof (one_pos t (fine_good t F)) as P1.
  destruct (format_signs k k' cs cs' t f n m F (has_value_in t n Vn) (has_value_in t m Vm) H Fn Fm Hr Hl' Hs) as (a & b & Ea & Eb & G & L).
  assert (X : (exists i, 0 < i /\ n = - i * one t /\ n < m < n + one t) <-> turned (one t) n m).
  { clear - P1 H. set (o := one t) in *. clearbody o. unfold turned. split.
    - intros (i & I & -> & M).
      assert (Q : (- i * o) / o = - i) by (apply Z.div_mul; lia). assert (R : (- i * o) mod o = 0) by (apply Z.mod_mul; lia).
      assert (Q' : - i = m / o) by (apply Z.div_unique_pos with (r := m + i * o); lia).
      assert (R' := Z.div_mod m o ltac:(lia)). rewrite <- Q' in R'.
      split; [nia|]. split; [exact R|]. split; [|lia]. intros Z0. lia.
    - intros (M & R & R' & E). pose proof (Z.div_mod n o ltac:(lia)) as En. pose proof (Z.div_mod m o ltac:(lia)) as Em.
      pose proof (Z.mod_pos_bound m o P1) as B. exists (- (n / o)). assert (m / o < 0) by (apply Z.div_lt_upper_bound; lia).
      split; [lia|]. split; [lia|]. rewrite E in En. lia. }
  exists a, b. split; [exact Ea|]. split; [exact Eb|]. split; intros Y; [apply L|apply G]; now rewrite <- X.
Qed.
Print Assumptions C154_shown_signs_partial.

(** -2.25 and -1.5 are shown as -3.25 and -2.5, in order; -2 and -1.5 are not. *)
Example C154_shown_signs_example :
  has_value F32 (dyadic F32 (-9) 2) /\ integral_part_fits F32 (dyadic F32 (-9) 2) /\ dyadic F32 (-9) 2 <= dyadic F32 (-3) 1 /\
  format_floating_point K8 true F32 (Fin (dyadic F32 (-9) 2)) default_float_format = Ok [45; 51; 46; 50; 53]%N /\
  format_floating_point K8 true F32 (Fin (dyadic F32 (-3) 1)) default_float_format = Ok [45; 50; 46; 53]%N /\
  at_most 10 46 [45; 51; 46; 50; 53]%N [45; 50; 46; 53]%N /\
  (exists i, 0 < i /\ dyadic F32 (-2) 0 = - i * one F32 /\ dyadic F32 (-2) 0 < dyadic F32 (-3) 1 < dyadic F32 (-2) 0 + one F32).
Proof.
  split; [exists 9, (scale F32 - 2); vm_compute; repeat split; congruence|]. split; [vm_compute; split; congruence|].
  split; [vm_compute; discriminate|]. split; [vm_compute; reflexivity|]. split; [vm_compute; reflexivity|].
  split; [vm_compute; discriminate|]. exists 2. vm_compute. repeat split.
Qed.

(** Numbers below zero with the same whole part are read the wrong way round, whatever they
    are, if they are apart by more than 2 (2p + 31) 2^-p (v + 1): the one further below zero is
    read as the larger value, because the fraction is added (C59). *)
Theorem C154_read_negative_refuted : forall k k' t f i itext ds es, ieee t -> valid_radix (radix (base f)) ->
  - 2 ^ 63 < i < 0 ->
  numeral (radix (base f)) (shows_plus (sign (base f))) (sep_char (separator (base f))) i itext ->
  sep_char (separator (base f)) <> Some (point_char (point f)) ->
  Forall (fun d => (d < radix (base f))%N) ds -> Forall (fun d => (d < radix (base f))%N) es -> length ds = length es ->
  2 * (2 * prec t + 31) * (Z.abs i + 1) * Z.of_N (radix (base f)) ^ Z.of_nat (length ds)
    < (Z.of_N (value (radix (base f)) es) - Z.of_N (value (radix (base f)) ds)) * 2 ^ prec t ->
  let a := itext ++ point_char (point f) :: map digit_char es in
  let b := itext ++ point_char (point f) :: map digit_char ds in
  below (radix (base f)) (point_char (point f)) a b /\
  exists n m, parse_floating_point k t a f = Ok (Fin n) /\ parse_floating_point k' t b f = Ok (Fin m) /\ m < n.
Proof.
  intros k k' t f i itext ds es Ht Hr Hi Hn Hs Hd He Hq Hx a b. pose proof (one_pos t (fine_good t (ieee_fine t Ht))) as P1.
  assert (HR : 0 < Z.of_N (radix (base f)) ^ Z.of_nat (length ds)) by (apply Z.pow_pos_nonneg; destruct Hr; lia).
  assert (HP : 0 < 2 ^ prec t) by (apply Z.pow_pos_nonneg; destruct Ht as [->|[->|[->| ->]]]; vm_compute; congruence).
  assert (Hp : 0 <= prec t) by (destruct Ht as [->|[->|[->| ->]]]; vm_compute; discriminate).
  assert (Lt : Z.of_N (value (radix (base f)) ds) < Z.of_N (value (radix (base f)) es)).
  { set (c := 2 * (2 * prec t + 31) * (Z.abs i + 1)) in *.
    assert (0 <= c * Z.of_N (radix (base f)) ^ Z.of_nat (length ds)) by (apply Z.mul_nonneg_nonneg; [unfold c; apply Z.mul_nonneg_nonneg|]; lia).
    clear - H Hx HP. nia. }
  assert (Nd : ds <> []) by (intros ->; destruct es; [lia|discriminate]).
  assert (Ne : es <> []) by (intros ->; destruct ds; [lia|discriminate]).
  split.
  - unfold below, a, b, weight.
    destruct (fraction_text_reads _ _ (point f) _ i itext ds Hr Hn Hs Hd) as (Pd & _ & Ud).
    destruct (fraction_text_reads _ _ (point f) _ i itext es Hr Hn Hs He) as (Pe & _ & Ue).
    rewrite Pd, Pe, Ud, Ue, <- Hq. replace (i <? 0) with true by lia. apply Z.mul_lt_mono_pos_r; lia.
  - destruct (parse_near k t f i itext es Ht Hr ltac:(lia) Hn Hs He Ne) as (n & En & _ & Dn).
    destruct (parse_near k' t f i itext ds Ht Hr ltac:(lia) Hn Hs Hd Nd) as (m & Em & _ & Dm).
    exists n, m. split; [exact En|]. split; [exact Em|]. rewrite <- Hq in Dn.
    set (R := Z.of_N (radix (base f)) ^ Z.of_nat (length ds)) in *. set (P := 2 ^ prec t) in *.
    set (C := (2 * prec t + 31) * (Z.abs i + 1)) in *. set (o := one t) in *.
    set (x := Z.of_N (value (radix (base f)) ds)) in *. set (y := Z.of_N (value (radix (base f)) es)) in *.
    replace ((2 * prec t + 31) * ((Z.abs i + 1) * R * o)) with (C * R * o) in Dn, Dm by (unfold C; ring).
    replace (2 * (2 * prec t + 31) * (Z.abs i + 1) * R) with (2 * (C * R)) in Hx by (unfold C; ring).
    clearbody R P C o x y. clear - Dn Dm Hx HR HP P1.
    assert (A1 : (i * R + y) * o * P - C * R * o <= n * R * P) by nia.
    assert (A2 : m * R * P <= (i * R + x) * o * P + C * R * o) by nia.
    assert (A3 : 2 * (C * R) * o < (y - x) * P * o) by (apply Z.mul_lt_mono_pos_r; lia).
    assert (A4 : m * (R * P) < n * (R * P)) by lia. assert (0 < R * P) by (apply Z.mul_pos_pos; lia).
    apply Z.mul_lt_mono_pos_r in A4; lia.
Qed.
Print Assumptions C154_read_negative_refuted.

(** -1.75 and -1.25, which are read as -0.25 and -0.75. *)
Example C154_read_negative_example :
  numeral 10 false None (-1) [45; 49]%N /\
  2 * (2 * prec F32 + 31) * (Z.abs (-1) + 1) * 10 ^ 2 < (Z.of_N (value 10 [7; 5]%N) - Z.of_N (value 10 [2; 5]%N)) * 2 ^ prec F32 /\
  parse_floating_point K8 F32 [45; 49; 46; 55; 53]%N default_float_format = Ok (Fin (dyadic F32 (-1) 2)) /\
  parse_floating_point K8 F32 [45; 49; 46; 50; 53]%N default_float_format = Ok (Fin (dyadic F32 (-3) 2)).
Proof.
  split; [exists [1%N]; split; [|split; reflexivity]; split; [discriminate|]; split; [repeat constructor|discriminate]|].
  split; [vm_compute; reflexivity|]. split; vm_compute; reflexivity.
Qed.

(* ---------------------------------------------------------------------- C155 *)

(** A whole number and one that is not whole are never shown the same: only the latter has a
    point.  In every even radix, for values of either sign. *)
Theorem C155_whole : forall k cs t n m f, ieee t -> has_value t n -> has_value t m -> (one t | n) -> ~ (one t | m) ->
  integral_part_fits t n -> integral_part_fits t m ->
  valid_radix (radix (base f)) -> N.even (radix (base f)) = true ->
  sep_char (separator (base f)) <> Some (point_char (point f)) -> limit f = NoLimit ->
  exists a b, format_floating_point k cs t (Fin n) f = Ok a /\ format_floating_point k cs t (Fin m) f = Ok b /\
    ~ In (point_char (point f)) a /\ In (point_char (point f)) b.
Proof.
  intros k cs t n m f Ht Vn Vm Dn Dm Fn Fm Hr Ev Hs Hl. pose proof (one_pos t (fine_good t (ieee_fine t Ht))) as P1.
  destruct (C25_shape k cs t n f Ht Vn Fn Hr Ev Hl) as (ia & fa & Ea & Na & Xa).
  destruct (C25_shape k cs t m f Ht Vm Fm Hr Ev Hl) as (ib & fb & Eb & Nb & Xb).
  exists (ia ++ fa), (ib ++ fb). split; [exact Ea|]. split; [exact Eb|].
  destruct (Z.eqb_spec (n mod one t) 0) as [Zn|Zn]; [|exfalso; apply Zn, Z.mod_divide; [lia|exact Dn]].
  destruct (Z.eqb_spec (m mod one t) 0) as [Zm|Zm]; [exfalso; apply Dm, Z.mod_divide; [lia|exact Zm]|].
  subst fa. destruct Xb as (ds & _ & _ & ->). split.
  - rewrite app_nil_r. exact (numeral_no_point _ _ _ _ _ (point f) (proj2 Hr) Na Hs).
  - apply in_or_app. right. now left.
Qed.
Print Assumptions C155_whole.

(** What the formatter shows of different values is different. *)
Lemma shown_value_apart : forall t n m, 0 < one t -> (one t | n) /\ (one t | m) \/ ~ (one t | n) /\ ~ (one t | m) ->
  Z.abs (n - m) <= Z.abs (shown_value t n - shown_value t m).
Proof.
  intros t n m P H. unfold shown_value.
  assert (X : forall x, (Z.abs x mod one t =? 0) = true <-> (one t | x)).
  { intros x. rewrite Z.eqb_eq, Z.mod_divide by lia. apply Z.divide_abs_r. }
  pose proof (X n) as Xn. pose proof (X m) as Xm.
  destruct (Z.abs n mod one t =? 0), (Z.abs m mod one t =? 0), (Z.ltb_spec n 0), (Z.ltb_spec m 0); cbn [andb negb]; try lia;
    exfalso; destruct H as [[A B]|[A B]]; try (apply A, Xn; reflexivity); try (apply B, Xm; reflexivity); try (apply Xn in A; discriminate); apply Xm in B; discriminate.
Qed.

(** Different values of either sign are shown as different texts, in radix 2, 4, 8, 16 and 32,
    and in every even radix if they have few fractional bits, although negative fractions are
    shown wrong (C25): they are all shown one too low.  Missing: more fractional bits
    (C155_different_refuted). *)
Theorem C155_exact_signs_partial : forall k cs t n m f, ieee t -> has_value t n -> has_value t m ->
  integral_part_fits t n -> integral_part_fits t m ->
  valid_radix (radix (base f)) -> N.even (radix (base f)) = true ->
  sep_char (separator (base f)) <> Some (point_char (point f)) -> limit f = NoLimit ->
  (exists b, 0 <= b /\ Z.of_N (radix (base f)) = 2 ^ b) \/
  (exists s, 0 <= s <= scale t /\ Z.of_N (radix (base f)) * 2 ^ s <= 2 ^ prec t /\ (2 ^ (scale t - s) | n) /\ (2 ^ (scale t - s) | m)) ->
  n <> m ->
  exists a b, format_floating_point k cs t (Fin n) f = Ok a /\ format_floating_point k cs t (Fin m) f = Ok b /\ a <> b.
Proof.
  intros k cs t n m f Ht Vn Vm Fn Fm Hr Ev Hs Hl Hx Ne. pose proof (one_pos t (fine_good t (ieee_fine t Ht))) as P1.
  destruct (Znumtheory.Zdivide_dec (one t) n) as [Dn|Dn], (Znumtheory.Zdivide_dec (one t) m) as [Dm|Dm].
  2: { destruct (C155_whole k cs t n m f) as (a & b & Ea & Eb & A & B); auto. exists a, b. split; [exact Ea|]. split; [exact Eb|]. now intros ->. }
  2: { destruct (C155_whole k cs t m n f) as (a & b & Ea & Eb & A & B); auto. exists b, a. split; [exact Eb|]. split; [exact Ea|]. now intros ->. }
  all: destruct (format_denotes k cs t f n (ieee_fine t Ht) (has_value_in t n Vn) Fn Hr Hs Hl Ev) as (a & Ea & _ & Da);
    destruct (format_denotes k cs t f m (ieee_fine t Ht) (has_value_in t m Vm) Fm Hr Hs Hl Ev) as (b & Eb & _ & Db);
    specialize (Da ltac:(destruct Hx as [X|(s & X1 & X2 & X3 & X4)]; [now left|right; eauto]));
    specialize (Db ltac:(destruct Hx as [X|(s & X1 & X2 & X3 & X4)]; [now left|right; eauto]));
    exists a, b; (split; [exact Ea|]); (split; [exact Eb|]); intros ->;
    unfold denotes in Da, Db; rewrite Da in Db;
    (apply Z.mul_cancel_r in Db; [|pose proof (Z.pow_pos_nonneg (Z.of_N (radix (base f))) (Z.of_nat (places_in (radix (base f)) (point_char (point f)) b)) ltac:(destruct Hr; lia) ltac:(lia)); lia]);
    pose proof (shown_value_apart t n m P1 ltac:(tauto)); lia.
Qed.
Print Assumptions C155_exact_signs_partial.

(** In every even radix they are if they are apart by more than 2^-(p-2). *)
Theorem C155_apart_signs_partial : forall k cs t n m f, ieee t -> has_value t n -> has_value t m ->
  integral_part_fits t n -> integral_part_fits t m ->
  valid_radix (radix (base f)) -> N.even (radix (base f)) = true ->
  sep_char (separator (base f)) <> Some (point_char (point f)) -> limit f = NoLimit ->
  one t < Z.abs (n - m) * 2 ^ (prec t - 2) ->
  exists a b, format_floating_point k cs t (Fin n) f = Ok a /\ format_floating_point k cs t (Fin m) f = Ok b /\ a <> b.
Proof.
  intros k cs t n m f Ht Vn Vm Fn Fm Hr Ev Hs Hl Hx. pose proof (one_pos t (fine_good t (ieee_fine t Ht))) as P1.
  assert (PB : 2 <= prec t) by (destruct Ht as [->|[->|[->| ->]]]; vm_compute; discriminate).
  destruct (Znumtheory.Zdivide_dec (one t) n) as [Dn|Dn], (Znumtheory.Zdivide_dec (one t) m) as [Dm|Dm].
  2: { destruct (C155_whole k cs t n m f) as (a & b & Ea & Eb & A & B); auto. exists a, b. split; [exact Ea|]. split; [exact Eb|]. now intros ->. }
  2: { destruct (C155_whole k cs t m n f) as (a & b & Ea & Eb & A & B); auto. exists b, a. split; [exact Eb|]. split; [exact Ea|]. now intros ->. }
  all: destruct (format_denotes k cs t f n (ieee_fine t Ht) (has_value_in t n Vn) Fn Hr Hs Hl Ev) as (a & Ea & Da & _);
    destruct (format_denotes k cs t f m (ieee_fine t Ht) (has_value_in t m Vm) Fm Hr Hs Hl Ev) as (b & Eb & Db & _);
    pose proof (shown_value_apart t n m P1 ltac:(tauto)) as Y;
    exists a, b; (split; [exact Ea|]); (split; [exact Eb|]); intros ->; unfold denotes_near in Da, Db;
    assert (HR : 0 < Z.of_N (radix (base f)) ^ Z.of_nat (places_in (radix (base f)) (point_char (point f)) b)) by (apply Z.pow_pos_nonneg; destruct Hr; lia);
    set (R := Z.of_N (radix (base f)) ^ Z.of_nat (places_in (radix (base f)) (point_char (point f)) b)) in *;
    set (v := numerator (radix (base f)) (point_char (point f)) b) in *; clearbody R v;
    assert (E2 : 2 ^ (prec t - 1) = 2 ^ (prec t - 2) * 2) by (replace (prec t - 1) with (prec t - 2 + 1) by lia; rewrite Z.pow_add_r by lia; reflexivity);
    rewrite E2 in Da, Db; pose proof (pow2_pos (prec t - 2) ltac:(lia)) as HM; set (M := 2 ^ (prec t - 2)) in *; clearbody M;
    set (x := shown_value t n) in *; set (y := shown_value t m) in *; clearbody x y; set (o := one t) in *; clearbody o;
    clear - Da Db HR HM Hx Y P1;
    assert (A1 : Z.abs (x - y) * R <= Z.abs (v * o - x * R) + Z.abs (v * o - y * R))
      by (rewrite <- (Z.abs_eq R) at 1 by lia; rewrite <- Z.abs_mul; replace ((x - y) * R) with (x * R - y * R) by ring; lia);
    assert (A2 : Z.abs (x - y) * R * M <= (Z.abs (v * o - x * R) + Z.abs (v * o - y * R)) * M) by (apply Z.mul_le_mono_nonneg_r; lia);
    assert (A4 : Z.abs (n - m) * M <= Z.abs (x - y) * M) by (apply Z.mul_le_mono_nonneg_r; lia);
    assert (A3 : o * R < Z.abs (x - y) * M * R) by (apply Z.mul_lt_mono_pos_r; lia); lia.
Qed.
Print Assumptions C155_apart_signs_partial.

(** -1.5 is shown as -2.5, 1.5 as 1.5 and -2 as -2. *)
Example C155_signs_example :
  has_value F32 (dyadic F32 (-3) 1) /\ (one F32 | dyadic F32 (-2) 0) /\ ~ (one F32 | dyadic F32 (-3) 1) /\
  one F32 < Z.abs (dyadic F32 (-3) 1 - dyadic F32 3 1) * 2 ^ (prec F32 - 2) /\
  (exists s, 0 <= s <= scale F32 /\ 10 * 2 ^ s <= 2 ^ prec F32 /\ (2 ^ (scale F32 - s) | dyadic F32 (-3) 1) /\ (2 ^ (scale F32 - s) | dyadic F32 3 1)) /\
  format_floating_point K8 true F32 (Fin (dyadic F32 3 1)) default_float_format = Ok [49; 46; 53]%N /\
  format_floating_point K8 true F32 (Fin (dyadic F32 (-3) 1)) default_float_format = Ok [45; 50; 46; 53]%N /\
  format_floating_point K8 true F32 (Fin (dyadic F32 (-2) 0)) default_float_format = Ok [45; 50]%N.
Proof.
  split; [exists 3, (scale F32 - 1); vm_compute; repeat split; congruence|].
  split; [exists (-2); vm_compute; reflexivity|]. split; [intros D; apply Z.mod_divide in D; [revert D|]; vm_compute; discriminate|].
  split; [vm_compute; reflexivity|].
  split; [exists 1; split; [vm_compute; split; discriminate|]; split; [vm_compute; discriminate|]; split; [exists (-3)|exists 3]; vm_compute; reflexivity|].
  split; [vm_compute; reflexivity|]. split; vm_compute; reflexivity.
Qed.
