(** Rounding: facts about the arithmetic of FloatModel. *)
From Coq Require Import NArith ZArith List Bool Lia ZifyBool ZifyNat ZifyN.
From Verif Require Import Base Integers NumeralSpec UnicodeSpec UnicodeModel UnicodeText
  NumberModel NumberText NumberLemmas FloatModel.
Import ListNotations.
Open Scope Z_scope.

(** At most p significant bits. *)
Definition rep (p n : Z) : Prop := exists m e, n = m * 2 ^ e /\ 0 <= m <= 2 ^ p /\ 0 <= e.

Lemma pow2_pos : forall e, 0 <= e -> 0 < 2 ^ e.
Proof. intros. now apply Z.pow_pos_nonneg. Qed.

Lemma pow2_split : forall a b, 0 <= a <= b -> 2 ^ b = 2 ^ a * 2 ^ (b - a).
Proof. intros. rewrite <- Z.pow_add_r by lia. f_equal. lia. Qed.

Lemma pow2_div : forall a b, 0 <= a <= b -> (2 ^ a | 2 ^ b).
Proof. intros a b H. exists (2 ^ (b - a)). rewrite (pow2_split a b) by lia. ring. Qed.

Lemma nearest_exact : forall q b, 0 < b -> nearest (q * b) b = q.
Proof.
  intros q b H. unfold nearest. rewrite Z.div_mul by lia. rewrite Z.mod_mul by lia.
  replace (2 * 0 <? b) with true by lia. reflexivity.
Qed.

Lemma nearest_error : forall a b, 0 <= a -> 0 < b -> 2 * Z.abs (nearest a b * b - a) <= b.
Proof.
  intros a b Ha Hb. unfold nearest.
  pose proof (Z.div_mod a b ltac:(lia)) as E. pose proof (Z.mod_pos_bound a b Hb) as M.
  set (q := a / b) in *. set (r := a mod b) in *.
  destruct (Z.ltb_spec (2 * r) b); [nia|].
  destruct (Z.ltb_spec b (2 * r)); [nia|].
  destruct (Z.even q); nia.
Qed.

Lemma nearest_nonneg : forall a b, 0 <= a -> 0 < b -> 0 <= nearest a b.
Proof.
  intros a b Ha Hb. unfold nearest. pose proof (Z.div_pos a b Ha Hb).
  destruct (_ <? _); [lia|]. destruct (_ <? _); [lia|]. destruct (Z.even _); lia.
Qed.

Lemma nearest_le : forall a b q, 0 <= a -> 0 < b -> a <= q * b -> nearest a b <= q.
Proof.
  intros a b q Ha Hb H. pose proof (nearest_error a b Ha Hb) as E.
  destruct (Z.le_gt_cases (nearest a b) q) as [|G]; [assumption|exfalso].
  assert (2 * (nearest a b * b - a) <= b) by lia.
  assert (nearest a b * b >= q * b + b) by nia. nia.
Qed.

(** Rounding to the integer grid: p bits. *)
Definition grid (p n : Z) : Z := Z.max 0 (Z.log2 n + 1 - p).

Lemma round_ratio_1 : forall p n, round_ratio p n 1 = nearest n (2 ^ grid p n) * 2 ^ grid p n.
Proof. intros. unfold round_ratio, grid. now rewrite Z.div_1_r, Z.mul_1_l. Qed.

Lemma round_units_nonneg : forall p n, 0 <= n -> round_units p n = nearest n (2 ^ grid p n) * 2 ^ grid p n.
Proof.
  intros p n H. unfold round_units. rewrite Z.abs_eq by lia. rewrite round_ratio_1.
  destruct (Z.eq_dec n 0) as [->|E].
  - cbn [Z.sgn]. rewrite Z.mul_0_l. change 0 with (0 * 2 ^ grid p 0) at 2.
    rewrite nearest_exact by (apply pow2_pos; unfold grid; lia). reflexivity.
  - rewrite Z.sgn_pos by lia. lia.
Qed.

Lemma grid_nonneg : forall p n, 0 <= grid p n.
Proof. unfold grid; lia. Qed.

Lemma grid_le : forall p n k, 0 <= n < 2 ^ k -> 0 < p <= k -> grid p n <= k - p.
Proof.
  intros p n k H Hp. unfold grid. destruct (Z.eq_dec n 0) as [->|E].
  - change (Z.log2 0) with 0. lia.
  - assert (Z.log2 n < k) by (apply Z.log2_lt_pow2; lia). lia.
Qed.

Lemma grid_bits : forall p n, 0 < p -> 0 < n -> n < 2 ^ (p + grid p n).
Proof.
  intros p n Hp Hn. unfold grid. apply Z.log2_lt_pow2; lia.
Qed.

(** A multiple of the grid is unchanged. *)
Lemma round_multiple : forall p n e, 0 <= n -> 0 <= e -> grid p n <= e -> (2 ^ e | n) ->
  round_units p n = n.
Proof.
  intros p n e Hn He Hg [m ->]. rewrite round_units_nonneg by assumption.
  pose proof (grid_nonneg p (m * 2 ^ e)) as G. set (g := grid p (m * 2 ^ e)) in *.
  rewrite (pow2_split g e) by lia.
  replace (m * (2 ^ g * 2 ^ (e - g))) with (m * 2 ^ (e - g) * 2 ^ g) by ring.
  rewrite nearest_exact by (apply pow2_pos; lia). reflexivity.
Qed.

Lemma rep_round : forall p n, 0 < p -> rep p n -> round_units p n = n.
Proof.
  intros p n Hp (m & e & -> & Hm & He).
  pose proof (pow2_pos e He). pose proof (pow2_pos p ltac:(lia)).
  destruct (Z.eq_dec m (2 ^ p)) as [->|Hne].
  - rewrite <- Z.pow_add_r by lia. apply (round_multiple p _ (p + e)); try lia.
    + unfold grid. rewrite Z.log2_pow2 by lia. lia.
    + apply Z.divide_refl.
  - apply (round_multiple p _ e); try lia; [|exists m; ring].
    assert (m * 2 ^ e < 2 ^ (p + e)) by (rewrite Z.pow_add_r by lia; nia).
    pose proof (grid_le p (m * 2 ^ e) (p + e) ltac:(nia) ltac:(lia)). lia.
Qed.

Lemma round_rep : forall p n, 0 < p -> 0 <= n -> rep p (round_units p n).
Proof.
  intros p n Hp Hn. rewrite round_units_nonneg by assumption.
  exists (nearest n (2 ^ grid p n)), (grid p n). split; [reflexivity|]. split; [|apply grid_nonneg].
  pose proof (pow2_pos _ (grid_nonneg p n)) as G. split; [now apply nearest_nonneg|].
  apply nearest_le; auto. destruct (Z.eq_dec n 0) as [->|E].
  - pose proof (pow2_pos p ltac:(lia)). nia.
  - rewrite <- Z.pow_add_r by (try apply grid_nonneg; lia). pose proof (grid_bits p n Hp ltac:(lia)). lia.
Qed.

Lemma round_nonneg : forall p n, 0 <= n -> 0 <= round_units p n.
Proof.
  intros p n Hn. rewrite round_units_nonneg by assumption.
  pose proof (pow2_pos _ (grid_nonneg p n)). pose proof (nearest_nonneg n (2 ^ grid p n) Hn H). nia.
Qed.

Lemma round_error : forall p n, 0 <= n -> 2 * Z.abs (round_units p n - n) <= 2 ^ grid p n.
Proof.
  intros p n Hn. rewrite round_units_nonneg by assumption.
  apply nearest_error; [assumption|]. apply pow2_pos, grid_nonneg.
Qed.

(** If the error is not zero, it is below half a bit of a coarser grid. *)
Lemma round_div : forall p n v, 0 <= n -> 0 <= v -> (2 ^ v | n) -> (2 ^ v | round_units p n).
Proof.
  intros p n v Hn Hv H.
  destruct (Z.le_gt_cases (grid p n) v) as [G|G].
  - rewrite (round_multiple p n v); auto.
  - rewrite round_units_nonneg by assumption. apply Z.divide_mul_r, pow2_div. lia.
Qed.

(** Remainders and quotients by a power of two keep representability. *)
Lemma rep_mod : forall p n s, 0 <= s -> rep p n -> rep p (n mod 2 ^ s).
Proof.
  intros p n s Hs (m & e & -> & Hm & He).
  destruct (Z.le_gt_cases s e) as [G|G].
  - exists 0, 0. split; [|split; [lia|lia]]. rewrite (pow2_split s e) by lia.
    replace (m * (2 ^ s * 2 ^ (e - s))) with (m * 2 ^ (e - s) * 2 ^ s) by ring.
    rewrite Z.mod_mul; [reflexivity|]. pose proof (pow2_pos s Hs). lia.
  - exists (m mod 2 ^ (s - e)), e. pose proof (pow2_pos (s - e) ltac:(lia)) as P.
    pose proof (pow2_pos e He). split; [|split; [|assumption]].
    + rewrite (pow2_split e s) by lia. rewrite (Z.mul_comm (2 ^ e)).
      now rewrite Z.mul_mod_distr_r by lia.
    + pose proof (Z.mod_pos_bound m _ P). pose proof (Z.mod_le m (2 ^ (s - e)) ltac:(lia) P). lia.
Qed.

Lemma rep_trunc : forall p n s, 0 <= s -> rep p n -> rep p (n - n mod 2 ^ s).
Proof.
  intros p n s Hs (m & e & -> & Hm & He). pose proof (pow2_pos s Hs). pose proof (pow2_pos e He).
  destruct (Z.le_gt_cases s e) as [G|G].
  - exists m, e. split; [|auto]. rewrite (pow2_split s e) by lia.
    replace (m * (2 ^ s * 2 ^ (e - s))) with (m * 2 ^ (e - s) * 2 ^ s) by ring.
    rewrite Z.mod_mul by lia. lia.
  - pose proof (pow2_pos (s - e) ltac:(lia)) as P.
    exists (m - m mod 2 ^ (s - e)), e. split; [|split; [|assumption]].
    + rewrite (pow2_split e s) by lia. rewrite (Z.mul_comm (2 ^ e)).
      rewrite Z.mul_mod_distr_r by lia. ring.
    + pose proof (Z.mod_pos_bound m _ P). pose proof (Z.mod_le m (2 ^ (s - e)) ltac:(lia) P). lia.
Qed.

Lemma rep_scale : forall p n k, 0 <= k -> rep p n -> rep p (n * 2 ^ k).
Proof.
  intros p n k Hk (m & e & -> & Hm & He). exists m, (e + k). rewrite Z.pow_add_r by lia.
  split; [ring|lia].
Qed.

Lemma rep_small : forall p n, 0 <= n <= 2 ^ p -> rep p n.
Proof. intros p n H. exists n, 0. rewrite Z.pow_0_r. lia. Qed.

(** A representable number below 2^s stays clear of it. *)
Lemma rep_gap : forall p n s, 0 < p <= s -> rep p n -> n < 2 ^ s -> n <= 2 ^ s - 2 ^ (s - p).
Proof.
  intros p n s Hp (m & e & -> & Hm & He) H.
  destruct (Z.le_gt_cases (s - p) e) as [G|G].
  - rewrite (pow2_split (s - p) e) in * by lia. rewrite (pow2_split (s - p) s) in * by lia.
    pose proof (pow2_pos (s - p) ltac:(lia)). replace (s - (s - p)) with p in * by lia.
    pose proof (pow2_pos (e - (s - p)) ltac:(lia)).
    assert (m * 2 ^ (e - (s - p)) < 2 ^ p) by nia. nia.
  - assert (2 ^ p * 2 ^ e <= 2 ^ (s - 1)).
    { rewrite <- Z.pow_add_r by lia. apply Z.pow_le_mono_r; lia. }
    assert (2 ^ (s - p) <= 2 ^ (s - 1)) by (apply Z.pow_le_mono_r; lia).
    assert (2 ^ s = 2 * 2 ^ (s - 1)) by (rewrite (pow2_split 1 s) by lia; reflexivity).
    pose proof (pow2_pos e He). nia.
Qed.

(** The product with the radix stays below the radix. *)
Lemma product_below : forall p n s r, 0 < p <= s -> 2 <= r -> rep p n -> 0 <= n < 2 ^ s ->
  round_units p (n * r) < r * 2 ^ s.
Proof.
  intros p n s r Hp Hr Hn H. pose proof (rep_gap p n s Hp Hn ltac:(lia)) as Gap.
  destruct (Z.eq_dec n 0) as [->|N0].
  { rewrite Z.mul_0_l. unfold round_units. cbn [Z.sgn]. pose proof (pow2_pos s ltac:(lia)). lia. }
  pose proof (round_error p (n * r) ltac:(nia)) as E.
  assert (K : 0 <= Z.log2 r) by apply Z.log2_nonneg.
  pose proof (Z.log2_spec r ltac:(lia)) as [L1 L2]. rewrite Z.pow_succ_r in L2 by assumption.
  set (k := Z.log2 r) in *.
  assert (Pk : 0 < 2 ^ k) by now apply pow2_pos.
  assert (Ps : 0 < 2 ^ s) by (apply pow2_pos; lia).
  assert (Psp : 0 < 2 ^ (s - p)) by (apply pow2_pos; lia).
  destruct (Z.eq_dec r (2 ^ k)) as [R|R].
  - assert (B : n * r < 2 ^ (s + k)) by (rewrite Z.pow_add_r, <- R by lia; nia).
    pose proof (grid_le p (n * r) (s + k) ltac:(nia) ltac:(lia)) as G.
    assert (2 ^ grid p (n * r) <= 2 ^ (s - p) * 2 ^ k).
    { rewrite <- Z.pow_add_r by lia. apply Z.pow_le_mono_r; lia. }
    rewrite <- R in *. nia.
  - assert (B : n * r < 2 ^ (s + (k + 1))) by (rewrite !Z.pow_add_r by lia; change (2 ^ 1) with 2; nia).
    pose proof (grid_le p (n * r) (s + (k + 1)) ltac:(nia) ltac:(lia)) as G.
    assert (2 ^ grid p (n * r) <= 2 ^ (s - p) * (2 ^ k * 2)).
    { replace (2 ^ (s - p) * (2 ^ k * 2)) with (2 ^ (s - p) * (2 ^ k * 2 ^ 1)) by (change (2 ^ 1) with 2; ring).
      rewrite <- !Z.pow_add_r by lia. apply Z.pow_le_mono_r; lia. }
    nia.
Qed.

(** How far the rounded product is from the exact one. *)
Lemma product_error : forall p n s r, 0 < p <= s -> 2 <= r -> 0 <= n < 2 ^ s ->
  Z.abs (round_units p (n * r) - n * r) <= 2 ^ (s - p) * 2 ^ Z.log2 r.
Proof.
  intros p n s r Hp Hr H.
  pose proof (round_error p (n * r) ltac:(nia)) as E.
  assert (K : 0 <= Z.log2 r) by apply Z.log2_nonneg.
  pose proof (Z.log2_spec r ltac:(lia)) as [L1 L2]. rewrite Z.pow_succ_r in L2 by assumption.
  set (k := Z.log2 r) in *.
  assert (Pk : 0 < 2 ^ k) by now apply pow2_pos.
  assert (Ps : 0 < 2 ^ s) by (apply pow2_pos; lia).
  assert (B : n * r < 2 ^ (s + (k + 1))) by (rewrite !Z.pow_add_r by lia; change (2 ^ 1) with 2; nia).
  pose proof (grid_le p (n * r) (s + (k + 1)) ltac:(nia) ltac:(lia)) as G.
  assert (2 ^ grid p (n * r) <= 2 ^ (s - p) * (2 ^ k * 2)).
  { replace (2 ^ (s - p) * (2 ^ k * 2)) with (2 ^ (s - p) * (2 ^ k * 2 ^ 1)) by (change (2 ^ 1) with 2; ring).
      rewrite <- !Z.pow_add_r by lia. apply Z.pow_le_mono_r; lia. }
  lia.
Qed.
