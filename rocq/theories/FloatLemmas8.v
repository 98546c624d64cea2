(** Error of reading fractions: all digits. *)
From Coq Require Import NArith ZArith List Bool Lia.
From Coq Require Import ZifyBool ZifyNat ZifyN.
From Verif Require Import Base Integers UnicodeSpec UnicodeModel NumberModel NumeralSpec FloatModel FloatSpec FloatText.
From Verif Require Import NumberText NumberLemmas NumberLemmas2 NumberLemmas4 NumberLemmas6 FloatLemmas3 FloatLemmas FloatLemmas2 FloatLemmas4 FloatLemmas5 FloatLemmas7.
Import ListNotations.
Open Scope Z_scope.

Lemma one_positive : forall t, ample t -> 0 < one t.
Proof. intros t (Hp & He & _). apply pow2_pos. unfold scale. lia. Qed.

Lemma fraction_digits_cons : forall t r d ds root out, (2 <= r <= 36)%N -> (d < r)%N ->
  fraction_digits t r (map digit_char (d :: ds)) root out
  = fraction_digits t r (map digit_char ds) (times_radix t root r) (fadd t out (divide_digit t d (times_radix t root r))).
Proof.
  intros t r d ds root out Hr Hd. cbn [map fraction_digits].
  rewrite (digit_lookup r (digit_char d) d) by (auto; apply digit_char_value; lia). reflexivity.
Qed.

Lemma fadd_fin : forall t x y, ample t -> rep (prec t) (Z.abs x) -> 0 <= y -> Z.abs x + 2 * y < limit_of t ->
  exists z, fadd t (Fin x) (Fin y) = Fin z /\ rep (prec t) (Z.abs z) /\ Z.abs (z - (x + y)) <= y /\
    Z.abs (z - (x + y)) * 2 ^ prec t <= Z.abs (x + y).
Proof.
  intros t x y A R Hy L. assert (Hp : 0 < prec t) by (destruct A; lia).
  exists (round_units (prec t) (x + y)). pose proof (round_nearest (prec t) (x + y) x Hp R) as N.
  split; [|split; [now apply round_rep_abs|split; [lia|now apply round_relative]]].
  cbn [fadd]. unfold fround. apply pack_small. lia.
Qed.

Lemma tail_digits : forall t (r : N) B ds k root out, ample t -> (2 <= r <= 36)%N -> Forall (fun d => (d < r)%N) ds -> 0 <= k ->
  (forall m, root = Fin m -> 4 * k <= 2 ^ prec t) -> root_state t (Z.of_N r) k root ->
  rep (prec t) (Z.abs out) -> B < limit_of t -> Z.abs out * Z.of_N r ^ k + 16 * one t <= B * Z.of_N r ^ k ->
  exists n, fraction_digits t r (map digit_char ds) root (Fin out) = Ok (Fin n) /\ rep (prec t) (Z.abs n) /\
    Z.abs n <= B /\
    Z.abs (n - out) * Z.of_N r ^ (k + Z.of_nat (length ds)) <= 8 * one t * Z.of_N (value r ds).
Proof.
  intros t r B ds. induction ds as [|d ds IH]; intros k root out A Hr F Hk Hk4 S R LB I.
  - exists out. split; [reflexivity|]. split; [exact R|].
    assert (0 < Z.of_N r ^ k) by (apply Z.pow_pos_nonneg; lia). pose proof (one_positive t A). split; [nia|].
    rewrite Z.sub_diag. change (Z.abs 0) with 0. cbn [length value]. lia.
  - pose proof (Forall_inv F) as Hd. apply Forall_inv_tail in F. cbv beta in Hd.
    rewrite fraction_digits_cons by assumption.
    destruct (root_state_step t r k root A ltac:(lia) Hk Hk4 S) as [S' K'].
    destruct (term_state t r (k + 1) _ d A Hr Hd ltac:(lia) K' S') as (term & Et & T0 & Tb). rewrite Et.
    pose proof (one_positive t A) as PT. set (T := one t) in *.
    assert (PR : 0 < Z.of_N r ^ k) by (apply Z.pow_pos_nonneg; lia).
    assert (PR' : Z.of_N r ^ (k + 1) = Z.of_N r ^ k * Z.of_N r) by (rewrite Z.pow_add_r, Z.pow_1_r by lia; reflexivity).
    set (rr := Z.of_N r) in *. set (P := rr ^ k) in *. set (dd := Z.of_N d) in *.
    assert (Dr : 0 <= dd <= rr - 1) by (unfold dd, rr; lia).
    assert (R2 : 2 <= rr) by (unfold rr; lia).
    assert (I' : (Z.abs out + 2 * term) * rr ^ (k + 1) + 16 * T <= B * rr ^ (k + 1)).
    { rewrite PR' in *. assert (2 * term * (P * rr) <= 8 * (dd * T)) by lia.
      assert ((Z.abs out * P + 16 * T) * rr <= B * P * rr) by (apply Z.mul_le_mono_nonneg_r; lia).
      assert (dd * T <= (rr - 1) * T) by (apply Z.mul_le_mono_nonneg_r; lia).
      assert (2 * T <= rr * T) by (apply Z.mul_le_mono_nonneg_r; lia). lia. }
    assert (Q : Z.abs out + 2 * term <= B).
    { assert (0 < rr ^ (k + 1)) by (apply Z.pow_pos_nonneg; lia). nia. }
    destruct (fadd_fin t out term A R T0 ltac:(lia)) as (z & Ez & Rz & Dz & _). rewrite Ez.
    assert (Dz' : Z.abs (z - out) <= 2 * term) by lia.
    destruct (IH (k + 1) _ z A Hr F ltac:(lia) K' S' Rz LB) as (n & En & Rn & Bn & Dn).
    { assert (0 < rr ^ (k + 1)) by (apply Z.pow_pos_nonneg; lia).
      assert (Z.abs z * rr ^ (k + 1) <= (Z.abs out + 2 * term) * rr ^ (k + 1)) by (apply Z.mul_le_mono_nonneg_r; lia). fold T. fold rr. lia. }
    exists n. split; [exact En|]. split; [exact Rn|]. split; [exact Bn|].
    fold rr in Dn. fold T in Dn. rewrite value_cons_Z. fold dd. fold rr. cbn [length]. rewrite Nat2Z.inj_succ.
    set (l := Z.of_nat (length ds)) in *. assert (Hl : 0 <= l) by (unfold l; lia).
    replace (k + Z.succ l) with (k + 1 + l) by lia.
    assert (Z.abs (n - out) * rr ^ (k + 1 + l) <= Z.abs (n - z) * rr ^ (k + 1 + l) + Z.abs (z - out) * rr ^ (k + 1 + l)).
    { rewrite <- Z.mul_add_distr_r. apply Z.mul_le_mono_nonneg_r; [apply Z.pow_nonneg; lia|lia]. }
    assert (Z.abs (z - out) * rr ^ (k + 1 + l) <= 8 * T * (dd * rr ^ l)).
    { rewrite (Z.pow_add_r rr (k + 1) l) by lia. assert (PL : 0 < rr ^ l) by (apply Z.pow_pos_nonneg; lia).
      rewrite Z.mul_assoc. replace (8 * T * (dd * rr ^ l)) with (8 * (dd * T) * rr ^ l) by ring.
      apply Z.mul_le_mono_nonneg_r; [lia|]. 
      assert (0 < rr ^ (k + 1)) by (apply Z.pow_pos_nonneg; lia).
      assert (Z.abs (z - out) * rr ^ (k + 1) <= 2 * term * rr ^ (k + 1)) by (apply Z.mul_le_mono_nonneg_r; lia). lia. }
    lia.
Qed.

(** The first digits: the error relative to the number D / r^k read so far. *)
Definition head_close (t : float_type) (r k X D out : Z) : Prop :=
  Z.abs (out * r ^ k - D * one t) * 2 ^ prec t
  <= one t * X * r ^ k * (1 + 2 * k) + one t * (20 * r ^ k - 10 * (k + 2)) + k * r ^ k * 2 ^ prec t.

(** The arithmetic of one step, with names for all that occurs: P = 2^prec, R = r^k,
    e the error so far, tau the error of the term, delta that of the sum. *)
Lemma mul_ge : forall a b, 1 <= a -> 0 <= b -> b <= a * b.
Proof. intros. nia. Qed.

Lemma head_k : forall r k, 2 <= r -> 0 <= k -> 10 * (k + 3) <= 10 * r * (k + 2) - (8 * k + 10) * (r - 1).
Proof. intros. nia. Qed.

Lemma head_arith : forall P T X R r k d e tau sum delta,
  0 < P -> 0 < T -> 1 <= X -> 1 <= R -> 2 <= r -> 0 <= k -> 0 <= d <= r - 1 ->
  10 * k + 42 <= P -> (k + 1) * P <= T ->
  Z.abs e * P <= T * X * R * (1 + 2 * k) + T * (20 * R - 10 * (k + 2)) + k * R * P ->
  Z.abs tau * P <= (8 * k + 10) * (d * T) + R * r * P ->
  Z.abs (sum * (R * r)) <= X * (R * r) * T + Z.abs e * r + Z.abs tau ->
  Z.abs delta * P <= Z.abs sum ->
  Z.abs sum <= 2 * X * T /\
  Z.abs (e * r + tau + delta * (R * r)) * P
  <= T * X * (R * r) * (1 + 2 * (k + 1)) + T * (20 * (R * r) - 10 * (k + 1 + 2)) + (k + 1) * (R * r) * P.
Proof.
  intros P T X R r k d e tau sum delta HP HT HX HR Hr Hk Hd HkP HkT He Ht Hs Hdl.
  pose proof (Z.mul_pos_pos R r ltac:(clear - HR; lia) ltac:(clear - Hr; lia)) as Rr.
  pose proof (mul_ge R r HR ltac:(clear - Hr; lia)) as rQ.
  assert (He' : Z.abs e * r * P <= T * X * (R * r) * (1 + 2 * k) + T * (20 * (R * r) - 10 * r * (k + 2)) + k * (R * r) * P).
  { pose proof (Z.mul_le_mono_nonneg_r _ _ r ltac:(clear - Hr; lia) He) as Y. clear - Y. lia. }
  assert (Ht' : Z.abs tau * P <= (8 * k + 10) * ((r - 1) * T) + R * r * P).
  { pose proof (Z.mul_le_mono_nonneg_r d (r - 1) T ltac:(clear - HT; lia) (proj2 Hd)) as Y.
    pose proof (Z.mul_le_mono_nonneg_l _ _ (8 * k + 10) ltac:(clear - Hk; lia) Y) as Y'. clear - Y' Ht. lia. }
  clear He Ht. set (Q := R * r) in *.
  pose proof (head_k r k Hr Hk) as K.
  pose proof (Z.mul_le_mono_nonneg_l _ _ T ltac:(clear - HT; lia) K) as K'.
  pose proof (Z.mul_pos_pos X Q ltac:(clear - HX; lia) Rr) as XQ.
  pose proof (mul_ge X Q HX ltac:(clear - Rr; lia)) as XQ1.
  pose proof (Z.mul_le_mono_nonneg_l _ _ T ltac:(clear - HT; lia) XQ1) as TXQ.
  (* the two errors together *)
  assert (Sm : (Z.abs e * r + Z.abs tau) * P <= T * X * Q * (1 + 2 * k) + T * (20 * Q - 10 * (k + 3)) + (k + 1) * Q * P) by (clear - He' Ht' K'; lia).
  pose proof (Z.mul_le_mono_nonneg_r _ _ Q ltac:(clear - Rr; lia) HkT) as KT.
  assert (Sm' : (Z.abs e * r + Z.abs tau) * P <= X * Q * T * P).
  { pose proof (Z.mul_nonneg_nonneg T (10 * (k + 3)) ltac:(clear - HT; lia) ltac:(clear - Hk; lia)) as TK.
    pose proof (Z.mul_le_mono_nonneg_l (2 * k + 22) P (T * (X * Q)) ltac:(apply Z.mul_nonneg_nonneg; [clear - HT; lia|clear - XQ; lia]) ltac:(clear - HkP Hk; lia)) as Y.
    clear - Sm KT TXQ TK Y. lia. }
  assert (Sm2 : Z.abs e * r + Z.abs tau <= X * Q * T) by (apply Z.mul_le_mono_pos_r with P; [exact HP|exact Sm']).
  assert (Sb : Z.abs sum <= 2 * X * T).
  { rewrite Z.abs_mul, (Z.abs_eq Q) in Hs by (clear - Rr; lia). apply Z.mul_le_mono_pos_r with Q; [exact Rr|]. clear - Hs Sm2. lia. }
  split; [exact Sb|].
  assert (Tr : Z.abs (e * r + tau + delta * Q) <= Z.abs e * r + Z.abs tau + Z.abs delta * Q).
  { transitivity (Z.abs (e * r) + Z.abs tau + Z.abs (delta * Q)); [clear; lia|]. rewrite !Z.abs_mul, (Z.abs_eq r), (Z.abs_eq Q) by (clear - Rr Hr; lia). clear; lia. }
  pose proof (Z.mul_le_mono_nonneg_r _ _ Q ltac:(clear - Rr; lia) (Z.le_trans _ _ _ Hdl Sb)) as Dq.
  pose proof (Z.mul_le_mono_nonneg_r _ _ P ltac:(clear - HP; lia) Tr) as Y.
  clear - Sm Dq Y. lia.
Qed.

Lemma head_digits : forall t (r : N) X ds k m out D, ample t -> (2 <= r <= 36)%N -> Forall (fun d => (d < r)%N) ds -> 0 <= k ->
  k + Z.of_nat (length ds) <= prec t -> root_close t (Z.of_N r) k m ->
  rep (prec t) (Z.abs out) -> 1 <= X <= 2 ^ 64 -> Z.abs D <= (X - 1) * Z.of_N r ^ k + Z.of_N r ^ k - 1 ->
  head_close t (Z.of_N r) k X D out ->
  exists m' out', root_close t (Z.of_N r) (k + Z.of_nat (length ds)) m' /\ rep (prec t) (Z.abs out') /\
    head_close t (Z.of_N r) (k + Z.of_nat (length ds)) X (D * Z.of_N r ^ Z.of_nat (length ds) + Z.of_N (value r ds)) out' /\
    (forall ds', fraction_digits t r (map digit_char (ds ++ ds')) (Fin m) (Fin out)
       = fraction_digits t r (map digit_char ds') (Fin m') (Fin out')).
Proof.
  intros t r X ds. induction ds as [|d ds IH]; intros k m out D A Hr F Hk Hp Cm Ro HX HD Hc.
  - exists m, out. cbn [length value Z.of_nat app]. rewrite Z.pow_0_r, Z.mul_1_r, !Z.add_0_r. auto.
  - pose proof (Forall_inv F) as Hd. apply Forall_inv_tail in F. cbv beta in Hd. cbn [length] in *. rewrite Nat2Z.inj_succ in *.
    set (l := Z.of_nat (length ds)) in *. assert (Hl : 0 <= l) by (unfold l; lia).
    pose proof (one_positive t A) as PT. pose proof A as (Ap & Ae & A4 & A36 & A10 & AT).
    assert (PP : 0 < 2 ^ prec t) by (apply pow2_pos; lia).
    assert (K1 : 4 * (k + 1) <= 2 ^ prec t) by lia.
    pose proof (root_step t (Z.of_N r) k m A ltac:(lia) Hk K1 Cm) as Cm'.
    set (m1 := round_units (prec t) (m * Z.of_N r)) in *.
    pose proof (root_low t (Z.of_N r) (k + 1) m1 A ltac:(lia) ltac:(lia) K1 Cm') as [Lo Up].
    assert (PR : 1 <= Z.of_N r ^ k) by (apply (Z.pow_le_mono_r (Z.of_N r) 0 k); lia).
    assert (PR' : Z.of_N r ^ (k + 1) = Z.of_N r ^ k * Z.of_N r) by (rewrite Z.pow_add_r, Z.pow_1_r by lia; reflexivity).
    assert (Root : times_radix t (Fin m) r = Fin m1).
    { cbn [times_radix]. unfold fround. apply pack_small. fold m1. rewrite limit_split by exact A.
      assert (Y : Z.of_N r ^ (k + 1) <= 36 ^ prec t).
      { transitivity (36 ^ (k + 1)); [apply Z.pow_le_mono_l; clear - Hr; lia|apply Z.pow_le_mono_r; clear - Hp Hl Hk; lia]. }
      assert (Y0 : 0 <= Z.of_N r ^ (k + 1)) by (apply Z.pow_nonneg; clear; lia).
      pose proof (Z.mul_le_mono_nonneg_r _ _ (one t) ltac:(clear - PT; lia) Y) as Y1.
      pose proof (proj1 (Z.mul_lt_mono_pos_r (one t) (2 * 36 ^ prec t) (2 ^ emax t) PT) A36) as Y2.
      assert (Y3 : 0 <= Z.of_N r ^ (k + 1) * one t) by (apply Z.mul_nonneg_nonneg; [exact Y0|clear - PT; lia]).
      clear - Lo Up Y1 Y2 Y3. lia. }
    pose proof (term_close t (Z.of_N r) (k + 1) m1 (Z.of_N d) A ltac:(clear - Hr; lia) ltac:(clear - Hk; lia) K1 ltac:(clear; lia) Cm') as (T0 & T4 & Tc).
    set (term := round_ratio (prec t) (Z.of_N d * one t * one t) m1) in *.
    assert (K10 : 10 * k + 42 <= 2 ^ prec t) by (clear - A10 Hp Hl Hk; lia).
    assert (KT : (k + 1) * 2 ^ prec t <= one t).
    { etransitivity; [|exact AT]. apply Z.mul_le_mono_nonneg_r; [clear - PP; lia|clear - Hp Hl Hk; lia]. }
    set (rr := Z.of_N r) in *. set (R := rr ^ k) in *. rewrite PR' in *. set (T := one t) in *. set (P := 2 ^ prec t) in *.
    set (dd := Z.of_N d) in *. assert (Dr : 0 <= dd <= rr - 1) by (clear - Hd; unfold dd, rr; lia). assert (R2 : 2 <= rr) by (clear - Hr; unfold rr; lia).
    unfold head_close in Hc. fold R T P in Hc.
    set (e := out * R - D * T) in *. set (tau := term * (R * rr) - dd * T) in *.
    set (sum := out + term). set (D' := D * rr + dd).
    assert (Es : sum * (R * rr) = D' * T + e * rr + tau) by (unfold sum, D', e, tau; ring).
    assert (HD' : Z.abs D' <= (X - 1) * (R * rr) + R * rr - 1).
    { pose proof (Z.mul_le_mono_nonneg_r _ _ rr ltac:(clear - R2; lia) HD) as Y.
      assert (Q : Z.abs (D * rr) = Z.abs D * rr) by (rewrite Z.abs_mul, (Z.abs_eq rr) by (clear - R2; lia); reflexivity).
      clear - Y Q Dr. unfold D'. lia. }
    assert (Hs : Z.abs (sum * (R * rr)) <= X * (R * rr) * T + Z.abs e * rr + Z.abs tau).
    { rewrite Es. assert (Y : Z.abs (D' * T) <= X * (R * rr) * T).
      { rewrite Z.abs_mul, (Z.abs_eq T) by (clear - PT; lia). apply Z.mul_le_mono_nonneg_r; [clear - PT; lia|clear - HD'; lia]. }
      assert (Q : Z.abs (e * rr) = Z.abs e * rr) by (rewrite Z.abs_mul, (Z.abs_eq rr) by (clear - R2; lia); reflexivity).
      clear - Y Q. lia. }
    assert (Ht : Z.abs tau * P <= (8 * k + 10) * (dd * T) + R * rr * P).
    { replace (8 * k + 10) with (8 * (k + 1) + 2) by ring. exact Tc. }
    assert (X1 : 1 <= X) by (clear - HX; lia).
    (* first only the size of the sum, to see that it is finite *)
    assert (Z0 : Z.abs 0 * P <= Z.abs sum) by (clear; lia).
    pose proof (head_arith P T X R rr k dd e tau sum 0 PP PT X1 PR R2 Hk Dr K10 KT Hc Ht Hs Z0) as [Sb _].
    assert (Lim : 2 ^ 70 * T <= limit_of t).
    { rewrite limit_split by exact A. fold T. apply Z.mul_le_mono_nonneg_r; [clear - PT; lia|]. apply Z.pow_le_mono_r; clear - Ae; lia. }
    change (2 ^ 70) with 1180591620717411303424 in Lim.
    assert (XT : X * T <= 2 ^ 64 * T) by (apply Z.mul_le_mono_nonneg_r; [clear - PT; lia|exact (proj2 HX)]).
    change (2 ^ 64) with 18446744073709551616 in XT.
    assert (Ds : Z.abs (round_units (prec t) sum - sum) * P <= Z.abs sum) by (apply round_relative; clear - Ap; lia).
    set (out1 := round_units (prec t) sum) in *.
    assert (Sum : fadd t (Fin out) (Fin term) = Fin out1).
    { cbn [fadd]. unfold fround. apply pack_small. fold sum. fold out1.
      assert (Y : Z.abs (out1 - sum) <= Z.abs sum) by (clear - Ds PP; nia). clear - Y Sb XT Lim PT. lia. }
    assert (Dig : divide_digit t d (Fin m1) = Fin term).
    { unfold divide_digit. fold dd T. apply pack_small. fold term. rewrite Z.abs_eq by exact T0.
      pose proof (mul_ge R rr PR ltac:(clear - R2; lia)) as Y1.
      assert (Y2 : term <= term * (R * rr)) by (clear - Y1 R2 T0; nia).
      assert (Y3 : dd * T <= 36 * T) by (apply Z.mul_le_mono_nonneg_r; [clear - PT; lia|clear - Hd Hr; unfold dd; lia]).
      clear - Y2 Y3 T4 Lim PT. lia. }
    pose proof (head_arith P T X R rr k dd e tau sum (out1 - sum) PP PT X1 PR R2 Hk Dr K10 KT Hc Ht Hs Ds) as [_ Hc'].
    destruct (IH (k + 1) m1 out1 D' A Hr F ltac:(clear - Hk; lia) ltac:(clear - Hp; lia) Cm') as (m' & out' & C1 & C2 & C3 & C4).
    + apply round_rep_abs. clear - Ap; lia.
    + exact HX.
    + fold rr. rewrite PR'. exact HD'.
    + unfold head_close. fold rr T P. rewrite PR'.
      replace (out1 * (R * rr) - D' * T) with (e * rr + tau + (out1 - sum) * (R * rr)).
      2:{ assert (Q : (out1 - sum) * (R * rr) = out1 * (R * rr) - sum * (R * rr)) by ring. rewrite Q, Es. ring. }
      exact Hc'.
    + exists m', out'. fold l rr in C1, C3. replace (k + Z.succ l) with (k + 1 + l) by (clear; lia). split; [exact C1|]. split; [exact C2|]. split.
      * rewrite value_cons_Z. fold dd rr l. rewrite Z.pow_succ_r by exact Hl.
        replace (D * (rr * rr ^ l) + (dd * rr ^ l + Z.of_N (value r ds))) with (D' * rr ^ l + Z.of_N (value r ds)) by (unfold D'; ring). exact C3.
      * intro ds'. rewrite <- C4. cbn [app]. rewrite fraction_digits_cons by assumption. rewrite Root, Dig, Sum. reflexivity.
Qed.
