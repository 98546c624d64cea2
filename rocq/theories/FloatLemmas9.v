(** Error of reading fractions: the bound for a whole text. *)
From Coq Require Import NArith ZArith List Bool Lia.
From Coq Require Import ZifyBool ZifyNat ZifyN.
From Verif Require Import Base Integers UnicodeSpec UnicodeModel NumberModel NumeralSpec FloatModel FloatSpec FloatText.
From Verif Require Import NumberText NumberLemmas NumberLemmas2 NumberLemmas4 NumberLemmas6 FloatLemmas3 FloatLemmas FloatLemmas2 FloatLemmas4 FloatLemmas5 FloatLemmas7 FloatLemmas8.
Import ListNotations.
Open Scope Z_scope.

Lemma long_long_rounded : forall t i, ample t -> Z.abs i <= 2 ^ 63 ->
  exists n, from_long_long t i = Fin n /\ rep (prec t) (Z.abs n) /\ Z.abs (n - i * one t) * 2 ^ prec t <= Z.abs (i * one t).
Proof.
  intros t i A Hi. pose proof (one_positive t A) as PT. pose proof A as (Hp & He & _).
  exists (round_units (prec t) (i * one t)).
  pose proof (round_relative (prec t) (i * one t) ltac:(lia)) as E.
  split; [|split; [apply round_rep_abs; lia|exact E]].
  unfold from_long_long, fround. apply pack_small. rewrite limit_split by exact A.
  assert (PP : 0 < 2 ^ prec t) by (apply pow2_pos; lia).
  assert (E1 : Z.abs (round_units (prec t) (i * one t) - i * one t) <= Z.abs (i * one t)) by (clear - E PP; nia).
  assert (L : 2 ^ 70 * one t <= 2 ^ emax t * one t) by (apply Z.mul_le_mono_nonneg_r; [lia|apply Z.pow_le_mono_r; lia]).
  assert (M : Z.abs (i * one t) <= 2 ^ 63 * one t).
  { rewrite Z.abs_mul, (Z.abs_eq (one t)) by lia. apply Z.mul_le_mono_nonneg_r; lia. }
  change (2 ^ 70) with 1180591620717411303424 in L. change (2 ^ 63) with 9223372036854775808 in M.
  clear - E1 L M PT. lia.
Qed.

(** What the first digits leave, in one factor. *)
Lemma head_sum : forall P T X R h p, 0 < P -> 0 < T -> 1 <= X -> 1 <= R -> 0 <= h <= p -> p * P <= T ->
  T * X * R * (1 + 2 * h) + T * (20 * R - 10 * (h + 2)) + h * R * P <= (2 * p + 22) * (X * R * T).
Proof.
  intros P T X R h p HP HT HX HR Hh HT2.
  assert (A1 : h * P <= p * P) by (apply Z.mul_le_mono_nonneg_r; lia).
  assert (A2 : h * P * R <= T * R) by (apply Z.mul_le_mono_nonneg_r; lia).
  assert (TR : 0 < T * R) by (apply Z.mul_pos_pos; lia).
  assert (A3 : T * R <= X * (T * R)) by (apply mul_ge; lia).
  assert (A4 : (1 + 2 * h) * (X * (T * R)) <= (1 + 2 * p) * (X * (T * R))) by (apply Z.mul_le_mono_nonneg_r; lia).
  assert (A5 : 0 <= T * (10 * (h + 2))) by (apply Z.mul_nonneg_nonneg; lia).
  clear - A2 A3 A4 A5. lia.
Qed.

Lemma out_bound : forall P T X R D out c, 0 < P -> 0 < T -> 1 <= X -> 1 <= R -> 0 <= c <= P ->
  Z.abs D <= (X - 1) * R + R - 1 -> Z.abs (out * R - D * T) * P <= c * (X * R * T) -> Z.abs out <= 2 * X * T.
Proof.
  intros P T X R D out c HP HT HX HR Hc HD H.
  assert (Y : c * (X * R * T) <= P * (X * R * T)) by (apply Z.mul_le_mono_nonneg_r; [repeat apply Z.mul_nonneg_nonneg; lia|lia]).
  assert (E : Z.abs (out * R - D * T) <= X * R * T) by (apply Z.mul_le_mono_pos_r with P; [exact HP|lia]).
  assert (DT : Z.abs (D * T) <= X * R * T).
  { rewrite Z.abs_mul, (Z.abs_eq T) by lia. apply Z.mul_le_mono_nonneg_r; lia. }
  assert (O : Z.abs out * R <= 2 * X * T * R).
  { replace (Z.abs out * R) with (Z.abs (out * R)) by (rewrite Z.abs_mul, (Z.abs_eq R) by lia; reflexivity). clear - E DT. lia. }
  apply Z.mul_le_mono_pos_r with R; [lia|exact O].
Qed.

Lemma total_error : forall P T X R1 R2 c n out D V2, 0 < P -> 0 < T -> 1 <= X -> 1 <= R1 -> 1 <= R2 -> 0 <= V2 ->
  Z.abs (out * R1 - D * T) * P <= c * (X * R1 * T) -> Z.abs (n - out) * (R1 * R2) <= 8 * T * V2 -> V2 * P <= R1 * R2 ->
  Z.abs (n * (R1 * R2) - (D * R2 + V2) * T) * P <= (c + 9) * (X * (R1 * R2) * T).
Proof.
  intros P T X R1 R2 c n out D V2 HP HT HX HR1 HR2 HV HE HN HV2.
  assert (Tr : Z.abs (n * (R1 * R2) - (D * R2 + V2) * T)
               <= Z.abs (n - out) * (R1 * R2) + Z.abs (out * R1 - D * T) * R2 + V2 * T).
  { replace (n * (R1 * R2) - (D * R2 + V2) * T) with ((n - out) * (R1 * R2) + ((out * R1 - D * T) * R2 - V2 * T)) by ring.
    assert (Q1 : Z.abs ((n - out) * (R1 * R2)) = Z.abs (n - out) * (R1 * R2)).
    { rewrite Z.abs_mul, (Z.abs_eq (R1 * R2)); [reflexivity|]. apply Z.mul_nonneg_nonneg; lia. }
    assert (Q2 : Z.abs ((out * R1 - D * T) * R2) = Z.abs (out * R1 - D * T) * R2) by (rewrite Z.abs_mul, (Z.abs_eq R2) by lia; reflexivity).
    assert (Q3 : 0 <= V2 * T) by (apply Z.mul_nonneg_nonneg; lia).
    rewrite <- Q1, <- Q2. set (a := (n - out) * (R1 * R2)). set (b := (out * R1 - D * T) * R2). clear - Q3. lia. }
  pose proof (Z.mul_le_mono_nonneg_r _ _ P ltac:(lia) Tr) as Y.
  pose proof (Z.mul_le_mono_nonneg_r _ _ P ltac:(lia) HN) as Y1.
  pose proof (Z.mul_le_mono_nonneg_r _ _ R2 ltac:(lia) HE) as Y2.
  pose proof (Z.mul_le_mono_nonneg_r _ _ (9 * T) ltac:(lia) HV2) as Y3.
  assert (RR : 0 < R1 * R2 * T) by (repeat apply Z.mul_pos_pos; lia).
  pose proof (mul_ge X (R1 * R2 * T) HX ltac:(lia)) as Y4.
  clear - Y Y1 Y2 Y3 Y4. lia.
Qed.

(** Reading a fraction: whatever its length, the result is finite, and its error
    is at most (2p + 31)(|i| + 1) 2^-p. *)
Lemma fraction_near : forall t (r : N) i ds, ample t -> (2 <= r <= 36)%N -> Forall (fun d => (d < r)%N) ds ->
  Z.abs i <= 2 ^ 63 ->
  let R := Z.of_N r ^ Z.of_nat (length ds) in
  exists n, fraction_digits t r (map digit_char ds) (Fin (one t)) (from_long_long t i) = Ok (Fin n) /\
    rep (prec t) (Z.abs n) /\ Z.abs n < limit_of t /\
    Z.abs (n * R - (i * R + Z.of_N (value r ds)) * one t) * 2 ^ prec t
    <= (2 * prec t + 31) * ((Z.abs i + 1) * R * one t).
Proof.
  intros t r i ds A Hr F Hi R. pose proof (one_positive t A) as PT. pose proof A as (Hp & He & A4 & A36 & A10 & AT).
  assert (PP : 0 < 2 ^ prec t) by (apply pow2_pos; lia).
  destruct (long_long_rounded t i A Hi) as (out0 & -> & R0 & E0).
  set (ds1 := firstn (Z.to_nat (prec t)) ds). set (ds2 := skipn (Z.to_nat (prec t)) ds).
  assert (Ed : ds = ds1 ++ ds2) by (symmetry; apply firstn_skipn).
  assert (F1 : Forall (fun d => (d < r)%N) ds1 /\ Forall (fun d => (d < r)%N) ds2) by (apply Forall_app; now rewrite <- Ed).
  destruct F1 as [F1 F2].
  assert (L1 : Z.of_nat (length ds1) <= prec t) by (unfold ds1; rewrite firstn_length; lia).
  set (X := Z.abs i + 1).
  assert (HX : 1 <= X <= 2 ^ 64) by (unfold X; change (2 ^ 64) with (2 ^ 63 + 2 ^ 63); assert (1 <= 2 ^ 63) by (vm_compute; congruence); lia).
  destruct (head_digits t r X ds1 0 (one t) out0 i A Hr F1 ltac:(lia) ltac:(lia)) as (m & out & Cm & Ro & Hc & Ht).
  - unfold root_close. rewrite Z.pow_0_r, Z.mul_1_l, Z.sub_diag. cbn. lia.
  - exact R0.
  - exact HX.
  - rewrite Z.pow_0_r. unfold X. lia.
  - unfold head_close. rewrite Z.pow_0_r, Z.mul_1_r. rewrite Z.abs_mul, (Z.abs_eq (one t)) in E0 by lia. unfold X. lia.
  - rewrite Z.add_0_l in Cm, Hc. specialize (Ht ds2). rewrite <- Ed in Ht. rewrite Ht. clear Ht.
    set (h := Z.of_nat (length ds1)) in *. assert (Hh : 0 <= h) by (unfold h; lia).
    set (D := i * Z.of_N r ^ h + Z.of_N (value r ds1)) in *.
    assert (PR1 : 1 <= Z.of_N r ^ h) by (pose proof (Z.pow_pos_nonneg (Z.of_N r) h ltac:(lia) Hh); lia).
    assert (Hc' : Z.abs (out * Z.of_N r ^ h - D * one t) * 2 ^ prec t <= (2 * prec t + 22) * (X * Z.of_N r ^ h * one t)).
    { etransitivity; [exact Hc|]. apply head_sum; try assumption; lia. }
    assert (HD : Z.abs D <= (X - 1) * Z.of_N r ^ h + Z.of_N r ^ h - 1).
    { pose proof (value_lt_pow r ds1 ltac:(lia) F1) as V. fold h in V.
      assert (Q : Z.abs (i * Z.of_N r ^ h) = Z.abs i * Z.of_N r ^ h) by (rewrite Z.abs_mul, (Z.abs_eq (Z.of_N r ^ h)) by lia; reflexivity).
      unfold D, X. clear - Q V. lia. }
    pose proof (out_bound _ _ X _ D out (2 * prec t + 22) PP PT (proj1 HX) PR1 ltac:(lia) HD Hc') as Ob.
    assert (K4 : 4 * h <= 2 ^ prec t) by lia.
    pose proof (root_low t (Z.of_N r) h m A ltac:(lia) Hh K4 Cm) as [_ Up].
    assert (Lm : m < limit_of t).
    { rewrite limit_split by exact A.
      assert (Y : Z.of_N r ^ h <= 36 ^ prec t) by (transitivity (36 ^ h); [apply Z.pow_le_mono_l; lia|apply Z.pow_le_mono_r; lia]).
      pose proof (Z.mul_le_mono_nonneg_r _ _ (one t) ltac:(clear - PT; lia) Y) as Y1.
      pose proof (proj1 (Z.mul_lt_mono_pos_r (one t) (2 * 36 ^ prec t) (2 ^ emax t) PT) A36) as Y2.
      assert (Y3 : 0 < Z.of_N r ^ h * one t) by (apply Z.mul_pos_pos; [clear - PR1; lia|exact PT]).
      clear - Up Y1 Y2 Y3. lia. }
    assert (Lim : 2 ^ 70 * one t <= limit_of t).
    { rewrite limit_split by exact A. apply Z.mul_le_mono_nonneg_r; [clear - PT; lia|apply Z.pow_le_mono_r; clear - He; lia]. }
    change (2 ^ 70) with 1180591620717411303424 in Lim.
    assert (XT : X * one t <= 2 ^ 64 * one t) by (apply Z.mul_le_mono_nonneg_r; [clear - PT; lia|exact (proj2 HX)]).
    change (2 ^ 64) with 18446744073709551616 in XT.
    assert (LB : Z.abs out + 16 * one t < limit_of t) by (clear - Lim XT Ob PT; lia).
    destruct (tail_digits t r (Z.abs out + 16 * one t) ds2 h (Fin m) out A Hr F2 Hh) as (n & En & Rn & Bn & Dn).
    + intros _ _. exact K4.
    + split; assumption.
    + exact Ro.
    + exact LB.
    + pose proof (mul_ge (Z.of_N r ^ h) (16 * one t) PR1 ltac:(clear - PT; lia)) as Y. clear - Y. lia.
    + exists n. split; [exact En|]. split; [exact Rn|]. split; [clear - Bn LB; lia|].
      set (l := Z.of_nat (length ds2)) in *.
      assert (El : Z.of_nat (length ds) = h + l) by (unfold h, l; rewrite Ed at 1; rewrite app_length; lia).
      assert (Hl : 0 <= l) by (unfold l; lia).
      assert (ER : R = Z.of_N r ^ h * Z.of_N r ^ l) by (unfold R; rewrite El, Z.pow_add_r by assumption; reflexivity).
      rewrite Z.pow_add_r in Dn by assumption.
      assert (EV : i * R + Z.of_N (value r ds) = D * Z.of_N r ^ l + Z.of_N (value r ds2)).
      { rewrite Ed at 1. rewrite value_app_Z. fold l. rewrite ER. unfold D. ring. }
      rewrite EV, ER.
      replace (2 * prec t + 31) with (2 * prec t + 22 + 9) by ring.
      assert (PR2 : 1 <= Z.of_N r ^ l) by (pose proof (Z.pow_pos_nonneg (Z.of_N r) l ltac:(lia) Hl); lia).
      apply (total_error _ _ X _ _ _ n out D); try assumption.
      * exact (proj1 HX).
      * apply N2Z.is_nonneg.
      * destruct (Z.eq_dec l 0) as [L0|L0].
        { assert (ds2 = []) as -> by (apply length_zero_iff_nil; unfold l in L0; clear - L0; lia). cbn [value]. change (Z.of_N 0) with 0. 
          rewrite Z.mul_0_l. apply Z.mul_nonneg_nonneg; apply Z.pow_nonneg; clear; lia. }
        { assert (h = prec t) as Eh.
          { unfold h, ds1. rewrite firstn_length. unfold l, ds2 in L0. rewrite skipn_length in L0. clear - L0 Hp. lia. }
          pose proof (value_lt_pow r ds2 ltac:(lia) F2) as V. fold l in V.
          rewrite Z.mul_comm. apply Z.mul_le_mono_nonneg; [lia| |lia|lia].
          rewrite Eh. apply Z.pow_le_mono_l. lia. }
Qed.
