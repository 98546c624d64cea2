(** Lemmas about digit counting and approximate comparison. *)
From Coq Require Import NArith ZArith List Bool Lia ZifyBool ZifyNat ZifyN.
From Verif Require Import Base Integers NumeralSpec NumberLemmas FloatModel FloatText FloatLemmas
  CompareSpec CompareModel.
Import ListNotations.
Open Scope Z_scope.
Ltac Zify.zify_post_hook ::= idtac.

(* ----------------------------------------------------------- count_digits *)

Lemma value_snoc : forall r ds d, value r (ds ++ [d]) = (value r ds * r + d)%N.
Proof. intros. unfold value. now rewrite fold_left_app. Qed.

Lemma value_pos : forall r ds, canonical r ds -> (2 <= r)%N -> (length ds = 1)%nat \/ (0 < value r ds)%N.
Proof.
  intros r ds (NE & F & H) R. destruct ds as [|d ds]; [congruence|]. destruct ds as [|e ds]; [now left|right].
  cbn [hd_error] in H. destruct (N.eq_dec d 0) as [->|D]; [discriminate (H eq_refl)|].
  unfold value. cbn [fold_left].
  assert (G : forall l a, (0 < a)%N -> (0 < fold_left (fun a d => a * r + d) l a)%N).
  { induction l as [|x l IH]; intros a A; cbn [fold_left]; [assumption|]. apply IH. nia. }
  apply G. nia.
Qed.

Lemma canonical_step : forall r ds d, (2 <= r)%N -> (d < r)%N -> canonical r ds -> (0 < value r ds)%N ->
  canonical r (ds ++ [d]).
Proof.
  intros r ds d R D (NE & F & H) V. split; [now destruct ds|]. split.
  - apply Forall_app. auto.
  - destruct ds as [|x ds]; [congruence|]. cbn [app hd_error] in *. intro E. specialize (H E).
    injection H as -> ->. cbn in V. lia.
Qed.

Lemma canonical_one : forall r d, (d < r)%N -> canonical r [d].
Proof.
  intros r d D. split; [discriminate|]. split; [now constructor|]. cbn. congruence.
Qed.

Lemma promote_range : forall t x, standard t -> in_range t x -> in_range (promote t) x.
Proof. exact range_p. Qed.

Lemma quot_range : forall t n r, standard t -> in_range t n -> in_range t r -> 2 <= r ->
  in_range t (Z.quot n r).
Proof.
  intros t n r S N R H. unfold in_range in *.
  assert (min_of t <= 0 <= max_of t) by (std_cases t S; bounds; lia).
  destruct (Z.le_gt_cases 0 n) as [P|P].
  - assert (0 <= Z.quot n r <= n) by (rewrite Z.quot_div_nonneg by lia; split; [apply Z.div_pos; lia|]; apply Z.div_le_upper_bound; nia).
    lia.
  - assert (E : Z.quot n r = - ((-n) / r)).
    { replace n with (- (- n)) at 1 by lia. rewrite Z.quot_opp_l by lia. now rewrite Z.quot_div_nonneg by lia. }
    assert (0 <= (-n) / r <= - n) by (split; [apply Z.div_pos; lia|]; apply Z.div_le_upper_bound; nia).
    lia.
Qed.

Lemma divide_assign_ok : forall t n r, standard t -> in_range t n -> in_range t r -> 2 <= r ->
  divide_assign t n r = Ok (Z.quot n r).
Proof.
  intros t n r S N R H. unfold divide_assign, divide. replace (r =? 0) with false by lia.
  pose proof (quot_range t n r S N R H) as Q.
  rewrite arith_ok; [|now apply standard_p|now apply range_p]. cbn [bind]. now rewrite convert_id.
Qed.

Lemma abs_quot : forall n r, 2 <= r -> Z.abs (Z.quot n r) = Z.abs n / r.
Proof.
  intros n r H.
  destruct (Z.le_gt_cases 0 n) as [P|P].
  - rewrite Z.quot_div_nonneg by lia. rewrite !Z.abs_eq; try lia. apply Z.div_pos; lia.
  - replace n with (- (- n)) at 1 by lia. rewrite Z.quot_opp_l by lia. rewrite Z.quot_div_nonneg by lia.
    rewrite Z.abs_opp. rewrite (Z.abs_neq n) by lia. rewrite Z.abs_eq; [reflexivity|]. apply Z.div_pos; lia.
Qed.

Lemma count_loop_ok : forall fuel t n r c, standard t -> in_range t n -> in_range t r -> 2 <= r ->
  Z.abs n < 2 ^ Z.of_nat fuel -> 0 <= c -> c + Z.of_nat fuel <= 100 -> (0 < fuel)%nat ->
  exists ds, canonical (Z.to_N r) ds /\ value (Z.to_N r) ds = Z.abs_N n /\
             count_loop fuel t n r c = Ok (c + Z.of_nat (length ds)).
Proof.
  induction fuel as [|fuel IH]; intros t n r c S N R H B C CF F; [lia|].
  cbn [count_loop]. rewrite divide_assign_ok by assumption. cbn [bind].
  assert (E : convert U32 (c + 1) = c + 1) by (apply convert_id; [vm_compute; tauto|unfold in_range; cbn; lia]).
  rewrite E. pose proof (abs_quot n r H) as A.
  destruct (Z.quot n r =? 0) eqn:Q.
  - exists [Z.abs_N n]. assert (Z.abs n / r = 0) by lia.
    assert (Z.abs n < r) by (apply Z.div_small_iff in H0; lia).
    split; [apply canonical_one; lia|]. split; [cbn; lia|]. cbn. f_equal.
  - rewrite Nat2Z.inj_succ, Z.pow_succ_r in B by lia.
    assert (L : Z.abs n / r < 2 ^ Z.of_nat fuel).
    { apply Z.div_lt_upper_bound; [lia|]. assert (0 < 2 ^ Z.of_nat fuel) by (apply Z.pow_pos_nonneg; lia). nia. }
    destruct fuel as [|fuel]; [cbn in L; assert (0 <= Z.abs n / r) by (apply Z.div_pos; lia); lia|].
    destruct (IH t (Z.quot n r) r (c + 1)) as (ds & D1 & D2 & D3); try assumption; try lia.
    { now apply quot_range. }
    assert (V : Z.of_N (value (Z.to_N r) ds) = Z.abs n / r) by lia.
    exists (ds ++ [Z.to_N (Z.abs n mod r)]).
    pose proof (Z.mod_pos_bound (Z.abs n) r ltac:(lia)). pose proof (Z.div_mod (Z.abs n) r ltac:(lia)).
    split; [|split].
    + clear IH L B D3 E A. apply canonical_step; try assumption; lia.
    + rewrite value_snoc. apply N2Z.inj. rewrite N2Z.inj_add, N2Z.inj_mul, V, !Z2N.id, N2Z.inj_abs_N by lia. lia.
    + rewrite D3, app_length. cbn [length]. f_equal. lia.
Qed.

Lemma in_range_64 : forall t n, standard t -> in_range t n -> Z.abs n < 2 ^ 64.
Proof. intros t n S R. std_cases t S; bounds; lia. Qed.

Lemma count_digits_ok : forall t n r, standard t -> in_range t n -> in_range t r -> 2 <= r ->
  exists ds, canonical (Z.to_N r) ds /\ value (Z.to_N r) ds = Z.abs_N n /\
             count_digits t n r = Ok (Z.of_nat (length ds)).
Proof.
  intros t n r S N R H. unfold count_digits, count_digits_with.
  destruct (count_loop_ok 65 t n r 0) as (ds & A & B & C); try assumption; try lia.
  { pose proof (in_range_64 t n S N). change (Z.of_nat 65) with 65. lia. }
  exists ds. auto.
Qed.

Lemma count_loop_one : forall fuel t n c, standard t -> in_range t n -> n <> 0 ->
  count_loop fuel t n 1 c = Diverge.
Proof.
  induction fuel as [|fuel IH]; intros t n c S N H; [reflexivity|]. cbn [count_loop].
  unfold divide_assign, divide. change (1 =? 0) with false. cbv iota. rewrite Z.quot_1_r.
  rewrite arith_ok; [|now apply standard_p|now apply range_p]. cbn [bind]. rewrite convert_id by assumption.
  replace (n =? 0) with false by lia. now apply IH.
Qed.

(* ------------------------------------------------------ monotone rounding *)

Lemma nearest_ge : forall a b q, 0 <= a -> 0 < b -> q * b <= a -> q <= nearest a b.
Proof.
  intros a b q Ha Hb H. pose proof (nearest_error a b Ha Hb) as E.
  destruct (Z.le_gt_cases q (nearest a b)) as [|G]; [assumption|exfalso].
  assert (2 * (a - nearest a b * b) <= b) by lia.
  assert ((nearest a b + 1) * b <= q * b) by (apply Z.mul_le_mono_nonneg_r; lia). nia.
Qed.

Lemma nearest_mono : forall a c b, 0 <= a -> a <= c -> 0 < b -> nearest a b <= nearest c b.
Proof.
  intros a c b Ha H Hb. pose proof (nearest_ge c b). pose proof (nearest_le a b).
  pose proof (Z.div_mod a b ltac:(lia)) as Ea. pose proof (Z.mod_pos_bound a b Hb) as Ma.
  pose proof (Z.div_mod c b ltac:(lia)) as Ec. pose proof (Z.mod_pos_bound c b Hb) as Mc.
  pose proof (Z.div_le_mono a c b Hb H) as D.
  destruct (Z.eq_dec (a / b) (c / b)) as [E|E].
  - unfold nearest. rewrite <- E in *. set (q := a / b) in *.
    assert (a mod b <= c mod b) by lia.
    destruct (2 * (a mod b) <? b) eqn:A1; destruct (2 * (c mod b) <? b) eqn:C1;
    destruct (b <? 2 * (a mod b)) eqn:A2; destruct (b <? 2 * (c mod b)) eqn:C2; destruct (Z.even q); lia.
  - transitivity (a / b + 1).
    + apply H1; try lia.
    + transitivity (c / b); [lia|]. apply H0; lia.
Qed.

Lemma rr_zero : forall p b, 0 < b -> round_ratio p 0 b = 0.
Proof.
  intros p b H. unfold round_ratio. rewrite Z.div_0_l by lia. unfold nearest.
  assert (0 < 2 ^ Z.max 0 (Z.log2 0 + 1 - p)) by (apply Z.pow_pos_nonneg; lia).
  set (e := 2 ^ Z.max 0 (Z.log2 0 + 1 - p)) in *.
  rewrite Z.div_0_l, Z.mod_0_l by nia. replace (2 * 0 <? b * e) with true by nia. reflexivity.
Qed.

Lemma rr_nonneg : forall p a b, 0 <= a -> 0 < b -> 0 <= round_ratio p a b.
Proof.
  intros p a b A B. unfold round_ratio.
  assert (E : 0 < 2 ^ Z.max 0 (Z.log2 (a / b) + 1 - p)) by (apply Z.pow_pos_nonneg; lia).
  set (e := 2 ^ _) in *. apply Z.mul_nonneg_nonneg; [|lia]. apply nearest_nonneg; nia.
Qed.

Lemma rr_upper : forall p k a b, 0 < p -> 0 <= k -> 0 <= a -> 0 < b -> a / b < 2 ^ k ->
  round_ratio p a b <= 2 ^ k.
Proof.
  intros p k a b P K A B H. unfold round_ratio. set (e := Z.max 0 (Z.log2 (a / b) + 1 - p)).
  assert (Q : 0 <= a / b) by (apply Z.div_pos; lia).
  assert (L : e <= k).
  { destruct (Z.eq_dec (a / b) 0) as [Z0|Z0].
    - unfold e. rewrite Z0. change (Z.log2 0) with 0. lia.
    - assert (Z.log2 (a / b) < k) by (apply Z.log2_lt_pow2; lia). unfold e. lia. }
  assert (E0 : 0 <= e) by (unfold e; lia). pose proof (pow2_pos e E0).
  rewrite (pow2_split e k) by lia. rewrite Z.mul_comm. apply Z.mul_le_mono_nonneg_l; [lia|].
  apply nearest_le; [lia|nia|].
  replace (2 ^ (k - e) * (b * 2 ^ e)) with (b * (2 ^ e * 2 ^ (k - e))) by ring.
  rewrite <- pow2_split by lia. pose proof (Z.div_mod a b ltac:(lia)). pose proof (Z.mod_pos_bound a b B). nia.
Qed.

Lemma rr_lower : forall p a b, 0 < p -> 0 < b -> 0 < a / b ->
  2 ^ Z.log2 (a / b) <= round_ratio p a b.
Proof.
  intros p a b P B H. unfold round_ratio. set (e := Z.max 0 (Z.log2 (a / b) + 1 - p)).
  set (k := Z.log2 (a / b)). assert (K : 0 <= k) by apply Z.log2_nonneg.
  assert (L : 0 <= e <= k) by (unfold e; fold k; lia). pose proof (pow2_pos e ltac:(lia)).
  pose proof (Z.log2_spec (a / b) H) as [S1 _]. fold k in S1.
  pose proof (Z.div_mod a b ltac:(lia)). pose proof (Z.mod_pos_bound a b B).
  rewrite (pow2_split e k) by lia. rewrite Z.mul_comm. apply Z.mul_le_mono_nonneg_r; [lia|].
  apply nearest_ge; [nia|nia|].
  replace (2 ^ (k - e) * (b * 2 ^ e)) with (b * (2 ^ e * 2 ^ (k - e))) by ring.
  rewrite <- pow2_split by lia. nia.
Qed.

Lemma rr_mono : forall p a c b, 0 < p -> 0 <= a -> a <= c -> 0 < b ->
  round_ratio p a b <= round_ratio p c b.
Proof.
  intros p a c b P A H B. pose proof (Z.div_le_mono a c b B H) as D.
  assert (Q : 0 <= a / b) by (apply Z.div_pos; lia).
  assert (LL : Z.log2 (a / b) <= Z.log2 (c / b)) by (apply Z.log2_le_mono; lia).
  destruct (Z.eq_dec (Z.log2 (a / b)) (Z.log2 (c / b))) as [E|E].
  - unfold round_ratio. rewrite E. set (e := 2 ^ _).
    assert (0 < e) by (apply Z.pow_pos_nonneg; lia).
    apply Z.mul_le_mono_nonneg_r; [lia|]. apply nearest_mono; nia.
  - assert (C : 0 < c / b).
    { destruct (Z.eq_dec (c / b) 0) as [Z0|]; [|lia]. rewrite Z0 in *. replace (a / b) with 0 in E by lia. congruence. }
    transitivity (2 ^ Z.log2 (c / b)); [|now apply rr_lower].
    apply rr_upper; try assumption; [apply Z.log2_nonneg|].
    destruct (Z.eq_dec (a / b) 0) as [Z0|Z0]; [rewrite Z0; apply pow2_pos, Z.log2_nonneg|].
    apply Z.log2_lt_pow2; lia.
Qed.

Lemma nearest_scale : forall a b k, 0 <= a -> 0 < b -> 0 < k -> nearest (a * k) (b * k) = nearest a b.
Proof.
  intros a b k A B K. unfold nearest. rewrite Z.div_mul_cancel_r by lia.
  rewrite Zmult_mod_distr_r. set (r := a mod b).
  destruct (2 * r <? b) eqn:E1.
  - replace (2 * (r * k) <? b * k) with true by (symmetry; apply Z.ltb_lt; apply Z.ltb_lt in E1; nia). reflexivity.
  - replace (2 * (r * k) <? b * k) with false by (symmetry; apply Z.ltb_ge; apply Z.ltb_ge in E1; nia).
    destruct (b <? 2 * r) eqn:E2.
    + replace (b * k <? 2 * (r * k)) with true by (symmetry; apply Z.ltb_lt; apply Z.ltb_lt in E2; nia). reflexivity.
    + replace (b * k <? 2 * (r * k)) with false by (symmetry; apply Z.ltb_ge; apply Z.ltb_ge in E2; nia). reflexivity.
Qed.

Lemma rr_cancel : forall p a b, 0 <= a -> 0 < b -> round_ratio p (a * b) b = round_ratio p a 1.
Proof.
  intros p a b A B. unfold round_ratio. rewrite Z.div_mul, Z.div_1_r by lia.
  set (e := 2 ^ _). assert (0 < e) by (apply Z.pow_pos_nonneg; lia).
  rewrite (Z.mul_comm b e), Z.mul_1_l. now rewrite nearest_scale.
Qed.

(** Rounding of a signed ratio, as in [fmul]. *)
Definition rs (p z b : Z) : Z := Z.sgn z * round_ratio p (Z.abs z) b.

Lemma rs_mono : forall p a c b, 0 < p -> 0 < b -> a <= c -> rs p a b <= rs p c b.
Proof.
  intros p a c b P B H. unfold rs.
  pose proof (rr_nonneg p (Z.abs a) b ltac:(lia) B). pose proof (rr_nonneg p (Z.abs c) b ltac:(lia) B).
  destruct (Z.le_gt_cases 0 a) as [A|A].
  - pose proof (rr_mono p a c b P A H B). rewrite !Z.abs_eq by lia.
    destruct (Z.eq_dec a 0) as [->|]; [rewrite Z.mul_0_l; apply Z.mul_nonneg_nonneg; [lia|rewrite Z.abs_eq in H1 by lia; lia]|].
    rewrite !Z.sgn_pos by lia. lia.
  - rewrite (Z.sgn_neg a) by lia. destruct (Z.le_gt_cases 0 c) as [C|C].
    + assert (0 <= Z.sgn c * round_ratio p (Z.abs c) b) by (apply Z.mul_nonneg_nonneg; lia). lia.
    + rewrite (Z.sgn_neg c) by lia. pose proof (rr_mono p (Z.abs c) (Z.abs a) b P ltac:(lia) ltac:(lia) B). lia.
Qed.

Lemma rs_integer : forall p z b, 0 < b -> rs p (z * b) b = round_units p z.
Proof.
  intros p z b B. unfold rs, round_units. rewrite Z.sgn_mul, (Z.sgn_pos b) by lia. rewrite Z.mul_1_r.
  rewrite Z.abs_mul, (Z.abs_eq b) by lia. now rewrite rr_cancel by lia.
Qed.

Lemma round_mono : forall p a c, 0 < p -> a <= c -> round_units p a <= round_units p c.
Proof. intros. apply (rs_mono p a c 1); lia. Qed.

Lemma round_opp : forall p z, round_units p (- z) = - round_units p z.
Proof. intros. unfold round_units. rewrite Z.abs_opp, Z.sgn_opp. ring. Qed.

Lemma round_fix : forall p z, 0 < p -> rep p (Z.abs z) -> round_units p z = z.
Proof.
  intros p z P R. destruct (Z.le_gt_cases 0 z) as [A|A].
  - rewrite Z.abs_eq in R by lia. now apply rep_round.
  - rewrite <- (Z.opp_involutive z), round_opp. f_equal. apply rep_round; [assumption|]. now rewrite Z.abs_neq in R by lia.
Qed.

(** Rounding never crosses a whole number of at most p bits. *)
Lemma round_between : forall p s z, 0 < p -> 0 <= s -> Z.abs z < 2 ^ p * 2 ^ s ->
  z / 2 ^ s * 2 ^ s <= round_units p z <= (z / 2 ^ s + 1) * 2 ^ s.
Proof.
  intros p s z P S H. pose proof (pow2_pos s S) as B. pose proof (pow2_pos p ltac:(lia)) as BP.
  pose proof (Z.div_mod z (2 ^ s) ltac:(lia)) as E. pose proof (Z.mod_pos_bound z (2 ^ s) B) as M.
  set (i := z / 2 ^ s) in *.
  assert (I : - 2 ^ p <= i < 2 ^ p) by (split; nia).
  assert (R : forall j, - 2 ^ p <= j <= 2 ^ p -> round_units p (j * 2 ^ s) = j * 2 ^ s).
  { intros j J. apply round_fix; [assumption|]. rewrite Z.abs_mul, (Z.abs_eq (2 ^ s)) by lia.
    apply rep_scale; [assumption|]. apply rep_small. lia. }
  split.
  - rewrite <- R by lia. apply round_mono; nia.
  - rewrite <- R by lia. apply round_mono; nia.
Qed.

(** The relative error. *)
Lemma round_relative : forall p z, 0 < p -> 2 ^ p * Z.abs (round_units p z - z) <= Z.abs z.
Proof.
  assert (Pos : forall p z, 0 < p -> 0 < z -> 2 ^ p * Z.abs (round_units p z - z) <= z).
  { intros p z P Z0. pose proof (round_error p z ltac:(lia)) as E. unfold grid in E.
    pose proof (Z.log2_spec z Z0) as [L1 L2]. pose proof (Z.log2_nonneg z).
    destruct (Z.le_gt_cases (Z.log2 z + 1) p) as [G|G].
    - rewrite rep_round; [rewrite Z.sub_diag, Z.abs_0; lia|assumption|]. apply rep_small.
      assert (2 ^ Z.succ (Z.log2 z) <= 2 ^ p) by (apply Z.pow_le_mono_r; lia). lia.
    - rewrite Z.max_r in E by lia. pose proof (pow2_pos p ltac:(lia)).
      assert (2 ^ p * 2 ^ (Z.log2 z + 1 - p) = 2 * 2 ^ Z.log2 z).
      { rewrite <- Z.pow_add_r by lia. replace (p + (Z.log2 z + 1 - p)) with (Z.succ (Z.log2 z)) by lia.
        now rewrite Z.pow_succ_r. }
      assert (2 ^ p * (2 * Z.abs (round_units p z - z)) <= 2 ^ p * 2 ^ (Z.log2 z + 1 - p)) by (apply Z.mul_le_mono_nonneg_l; lia).
      lia. }
  intros p z P. destruct (Z.lt_trichotomy z 0) as [A|[->|A]].
  - specialize (Pos p (- z) P ltac:(lia)). rewrite round_opp in Pos.
    replace (- round_units p z - - z) with (- (round_units p z - z)) in Pos by lia. rewrite Z.abs_opp in Pos. lia.
  - rewrite round_fix; [cbn; lia|assumption|]. apply rep_small. pose proof (pow2_pos p ltac:(lia)). cbn; lia.
  - specialize (Pos p z P A). lia.
Qed.
