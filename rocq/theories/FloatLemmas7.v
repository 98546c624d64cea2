(** Error of reading fractions: rounding, and one digit. *)
From Coq Require Import NArith ZArith List Bool Lia.
From Coq Require Import ZifyBool ZifyNat ZifyN.
From Verif Require Import Base Integers UnicodeModel NumberModel NumeralSpec FloatModel FloatSpec FloatText.
From Verif Require Import FloatLemmas FloatLemmas2 FloatLemmas4 FloatLemmas5.
Import ListNotations.
Open Scope Z_scope.

(** The rounding error of a quotient: relative, or half a unit. *)
Lemma ratio_error : forall p a b, 0 < p -> 0 <= a -> 0 < b ->
  Z.abs (round_ratio p a b * b - a) * 2 ^ p <= a \/ 2 * Z.abs (round_ratio p a b * b - a) <= b.
Proof.
  intros p a b Hp Ha Hb. unfold round_ratio. set (e := Z.max 0 (Z.log2 (a / b) + 1 - p)).
  assert (He : 0 <= e) by (unfold e; lia). pose proof (pow2_pos e He) as Pe.
  pose proof (nearest_error a (b * 2 ^ e) Ha ltac:(nia)) as E.
  replace (nearest a (b * 2 ^ e) * 2 ^ e * b) with (nearest a (b * 2 ^ e) * (b * 2 ^ e)) by ring.
  destruct (Z.eq_dec e 0) as [E0|E0]; [right; rewrite E0 in *; change (2 ^ 0) with 1 in *; lia|left].
  set (x := Z.abs _) in *. assert (0 < a / b).
  { destruct (Z.eq_dec (a / b) 0) as [Z0|]; [|pose proof (Z.div_pos a b Ha Hb); lia]. unfold e in E0. rewrite Z0 in E0. change (Z.log2 0) with 0 in E0. lia. }
  pose proof (Z.log2_spec (a / b) ltac:(assumption)) as [L _].
  assert (X : 2 ^ e * 2 ^ (p - 1) = 2 ^ Z.log2 (a / b)).
  { rewrite <- Z.pow_add_r by lia. f_equal. unfold e in *. lia. }
  assert (Y : b * (a / b) <= a) by (apply Z.mul_div_le; lia).
  assert (Pp : 2 ^ p = 2 * 2 ^ (p - 1)) by (rewrite <- Z.pow_succ_r by lia; f_equal; lia). rewrite Pp.
  pose proof (pow2_pos (p - 1) ltac:(lia)).
  assert (2 * x * 2 ^ (p - 1) <= b * 2 ^ e * 2 ^ (p - 1)) by (apply Z.mul_le_mono_nonneg_r; lia).
  assert (b * 2 ^ e * 2 ^ (p - 1) <= a). { rewrite <- Z.mul_assoc, X. nia. }
  lia.
Qed.

Lemma ratio_nonneg : forall p a b, 0 <= a -> 0 < b -> 0 <= round_ratio p a b.
Proof.
  intros p a b Ha Hb. unfold round_ratio. set (e := Z.max 0 _). pose proof (pow2_pos e ltac:(lia)) as Pe.
  pose proof (nearest_nonneg a (b * 2 ^ e) Ha ltac:(nia)). nia.
Qed.

(** It never is more than twice the quotient. *)
Lemma ratio_double : forall p a b, 0 < p -> 0 <= a -> 0 < b -> round_ratio p a b * b <= 2 * a.
Proof.
  intros p a b Hp Ha Hb. pose proof (ratio_nonneg p a b Ha Hb) as N.
  destruct (ratio_error p a b Hp Ha Hb) as [E|E].
  - pose proof (Z.pow_le_mono_r 2 1 p ltac:(lia) ltac:(lia)) as P. change (2 ^ 1) with 2 in P.
    set (x := round_ratio p a b * b) in *. nia.
  - destruct (Z.eq_dec (round_ratio p a b) 0) as [->|]; [lia|]. nia.
Qed.

(** Every representable number is at least as far away as the rounded one. *)
Lemma round_nearest_pos : forall p n m, 0 < p -> 0 <= n -> rep p m -> Z.abs (round_units p n - n) <= Z.abs (m - n).
Proof.
  intros p n m Hp Hn (a & e & -> & Ha & He). rewrite round_units_nonneg by assumption.
  set (g := grid p n). assert (Hg : 0 <= g) by apply grid_nonneg. pose proof (pow2_pos g Hg) as Pg.
  assert (K : forall q, Z.abs (nearest n (2 ^ g) * 2 ^ g - n) <= Z.abs (q * 2 ^ g - n)).
  { intro q. unfold nearest. pose proof (Z.div_mod n (2 ^ g) ltac:(lia)) as E. pose proof (Z.mod_pos_bound n (2 ^ g) Pg) as M.
    set (s := n / 2 ^ g) in *. set (w := n mod 2 ^ g) in *. set (b := 2 ^ g) in *.
    assert (q <= s \/ s + 1 <= q) as [L|L] by lia.
    - assert (q * b <= s * b) by nia. destruct (Z.ltb_spec (2 * w) b); [lia|]. destruct (Z.ltb_spec b (2 * w)); [lia|].
      destruct (Z.even s); lia.
    - assert ((s + 1) * b <= q * b) by nia. destruct (Z.ltb_spec (2 * w) b); [lia|]. destruct (Z.ltb_spec b (2 * w)); [lia|].
      destruct (Z.even s); lia. }
  destruct (Z.le_gt_cases g e) as [G|G].
  - rewrite (pow2_split g e) by lia. rewrite (Z.mul_comm (2 ^ g)), Z.mul_assoc. apply K.
  - assert (0 < n). { destruct (Z.eq_dec n 0) as [->|]; [|lia]. unfold g, grid in *. change (Z.log2 0) with 0 in *. lia. }
    assert (Lo : 2 ^ (p - 1) * 2 ^ g <= n).
    { rewrite <- Z.pow_add_r by lia. pose proof (Z.log2_spec n ltac:(assumption)) as [L _].
      replace (p - 1 + g) with (Z.log2 n); [assumption|]. unfold g, grid in *. lia. }
    assert (Up : a * 2 ^ e <= 2 ^ (p - 1) * 2 ^ g).
    { pose proof (pow2_pos e He). transitivity (2 ^ p * 2 ^ e); [nia|]. rewrite <- !Z.pow_add_r by lia. apply Z.pow_le_mono_r; lia. }
    specialize (K (2 ^ (p - 1))). lia.
Qed.

Lemma rep_0 : forall p, 0 < p -> rep p 0.
Proof. intros p Hp. apply rep_small. pose proof (pow2_pos p ltac:(lia)). lia. Qed.

Lemma round_nearest : forall p n m, 0 < p -> rep p (Z.abs m) -> Z.abs (round_units p n - n) <= Z.abs (m - n).
Proof.
  assert (W : forall p n m, 0 < p -> 0 <= n -> rep p (Z.abs m) -> Z.abs (round_units p n - n) <= Z.abs (m - n)).
  { intros p n m Hp Hn R. destruct (Z.le_gt_cases 0 m) as [M|M].
    - rewrite Z.abs_eq in R by lia. now apply round_nearest_pos.
    - pose proof (round_nearest_pos p n 0 Hp Hn (rep_0 p Hp)). lia. }
  intros p n m Hp R. destruct (Z.le_gt_cases 0 n) as [N|N]; [now apply W|].
  specialize (W p (- n) (- m) Hp ltac:(lia)). rewrite Z.abs_opp, round_units_opp in W. specialize (W R). lia.
Qed.

Lemma round_relative : forall p n, 0 < p -> Z.abs (round_units p n - n) * 2 ^ p <= Z.abs n.
Proof.
  assert (W : forall p n, 0 < p -> 0 <= n -> Z.abs (round_units p n - n) * 2 ^ p <= Z.abs n).
  { intros p n Hp Hn. pose proof (ratio_error p n 1 Hp Hn ltac:(lia)) as E.
    assert (X : round_units p n = round_ratio p n 1) by (rewrite round_ratio_1; now apply round_units_nonneg).
    rewrite X. rewrite Z.mul_1_r in E. destruct E as [E|E]; [lia|]. assert (Z.abs (round_ratio p n 1 - n) = 0) as -> by lia. lia. }
  intros p n Hp. destruct (Z.le_gt_cases 0 n) as [N|N]; [now apply W|].
  specialize (W p (- n) Hp ltac:(lia)). rewrite round_units_opp in W.
  replace (- round_units p n - - n) with (- (round_units p n - n)) in W by ring. rewrite !Z.abs_opp in W. exact W.
Qed.

Lemma round_rep_abs : forall p n, 0 < p -> rep p (Z.abs (round_units p n)).
Proof.
  intros p n Hp. destruct (Z.le_gt_cases 0 n) as [N|N].
  - rewrite Z.abs_eq by now apply round_nonneg. apply round_rep; lia.
  - replace n with (- (- n)) by lia. rewrite round_units_opp, Z.abs_opp, Z.abs_eq by (apply round_nonneg; lia). apply round_rep; lia.
Qed.

(** What is needed of the type: the four IEEE types have it. *)
Definition ample (t : float_type) : Prop :=
  7 <= prec t /\ 100 <= emax t /\ 4 * (emax t + 2) <= 2 ^ prec t /\ 2 * 36 ^ prec t < 2 ^ emax t /\
  10 * prec t + 100 <= 2 ^ prec t /\ prec t * 2 ^ prec t <= one t.

Lemma ieee_ample : forall t, ieee t -> ample t.
Proof. intros t [->|[->|[->| ->]]]; unfold ample; repeat split; vm_compute; congruence. Qed.

(** The root after k digits: root is close to r^k. *)
Definition root_close (t : float_type) (r : Z) (k : Z) (root : Z) : Prop :=
  Z.abs (root - r ^ k * one t) * 2 ^ prec t <= 2 * k * (r ^ k * one t).

Lemma root_step : forall t r k root, ample t -> 2 <= r -> 0 <= k -> 4 * (k + 1) <= 2 ^ prec t ->
  root_close t r k root -> root_close t r (k + 1) (round_units (prec t) (root * r)).
Proof.
  intros t r k root (Hp & _) Hr Hk Hk4 H. unfold root_close in *. set (P := 2 ^ prec t) in *. set (T := one t) in *.
  assert (PP : 0 < P) by (apply pow2_pos; lia).
  assert (PR : 0 < r ^ k) by (apply Z.pow_pos_nonneg; lia).
  assert (PT : 0 <= T) by (apply Z.pow_nonneg; lia).
  pose proof (round_relative (prec t) (root * r) ltac:(lia)) as E. fold P in E. rewrite Z.abs_mul, (Z.abs_eq r) in E by lia.
  rewrite Z.pow_add_r, Z.pow_1_r by lia. set (R := r ^ k) in *.
  set (root' := round_units _ _) in *. set (M := R * T) in *. assert (0 <= M) by (unfold M; nia).
  replace (R * r * T) with (M * r) by (unfold M; ring).
  set (e := root - M) in *. assert (Er : Z.abs root <= M + Z.abs e) by (unfold e; lia).
  assert (Eb : Z.abs e <= M). { assert (Z.abs e * P <= 2 * k * M) by lia. nia. }
  replace (root' - M * r) with ((root' - root * r) + e * r) by (unfold e; ring).
  assert (Tr : Z.abs ((root' - root * r) + e * r) <= Z.abs (root' - root * r) + Z.abs e * r).
  { transitivity (Z.abs (root' - root * r) + Z.abs (e * r)); [lia|]. rewrite Z.abs_mul, (Z.abs_eq r) by lia. lia. }
  set (a := Z.abs (root' - root * r)) in *. set (b := Z.abs e) in *. set (c := Z.abs root) in *. set (z := Z.abs (_ + _)) in *.
  assert (z * P <= (a + b * r) * P) by nia.
  assert (c * r <= 2 * M * r) by nia. assert (b * P * r <= 2 * k * M * r) by nia.
  nia.
Qed.

Lemma root_low : forall t r k root, ample t -> 2 <= r -> 0 <= k -> 4 * k <= 2 ^ prec t ->
  root_close t r k root -> r ^ k * one t <= 2 * root /\ 2 * root <= 3 * (r ^ k * one t).
Proof.
  intros t r k root (Hp & _) Hr Hk Hk4 H. unfold root_close in *. set (P := 2 ^ prec t) in *.
  assert (PP : 0 < P) by (apply pow2_pos; lia).
  assert (0 <= r ^ k * one t) by (apply Z.mul_nonneg_nonneg; apply Z.pow_nonneg; lia).
  set (M := r ^ k * one t) in *. assert (2 * Z.abs (root - M) <= M) by nia. lia.
Qed.

(** One digit. *)
Lemma term_close : forall t r k root d, ample t -> 2 <= r -> 0 <= k -> 4 * k <= 2 ^ prec t -> 0 <= d ->
  root_close t r k root ->
  let term := round_ratio (prec t) (d * one t * one t) root in
  0 <= term /\ term * r ^ k <= 4 * (d * one t) /\
  Z.abs (term * r ^ k - d * one t) * 2 ^ prec t <= (8 * k + 2) * (d * one t) + r ^ k * 2 ^ prec t.
Proof.
  intros t r k root d A Hr Hk Hk4 Hd H term. pose proof (root_low t r k root A Hr Hk Hk4 H) as [L U].
  destruct A as (Hp & He & _). unfold root_close in H. set (P := 2 ^ prec t) in *. set (T := one t) in *.
  assert (PP : 0 < P) by (apply pow2_pos; lia).
  assert (PT : 0 < T) by (apply pow2_pos; unfold scale; lia).
  assert (PR : 0 < r ^ k) by (apply Z.pow_pos_nonneg; lia). set (R := r ^ k) in *.
  assert (Rpos : 0 < root) by nia.
  pose proof (ratio_nonneg (prec t) (d * T * T) root ltac:(nia) Rpos) as N.
  pose proof (ratio_double (prec t) (d * T * T) root ltac:(lia) ltac:(nia) Rpos) as D.
  pose proof (ratio_error (prec t) (d * T * T) root ltac:(lia) ltac:(nia) Rpos) as E.
  fold term in N, D, E. fold P in E. split; [exact N|].
  assert (B : term * R <= 4 * (d * T)).
  { assert (term * (R * T) <= term * (2 * root)) by nia.
    assert (term * R * T <= 4 * (d * T) * T) by nia. apply Z.mul_le_mono_pos_r with T; lia. }
  split; [exact B|].
  set (e2 := root - R * T) in *. set (e1 := term * root - d * T * T) in *.
  assert (Eq : T * (term * R - d * T) = e1 - term * e2) by (unfold e1, e2; ring).
  assert (RPT : 0 <= R * P * T) by (apply Z.mul_nonneg_nonneg; [apply Z.mul_nonneg_nonneg|]; lia).
  assert (dTT : 0 <= d * T * T) by (apply Z.mul_nonneg_nonneg; [apply Z.mul_nonneg_nonneg|]; lia).
  assert (E1 : Z.abs e1 * P * 4 <= (4 * (d * T) + 3 * R * P) * T).
  { destruct E as [E|E].
    - lia.
    - assert (4 * Z.abs e1 * P <= 3 * (R * T) * P) by (apply Z.mul_le_mono_nonneg_r; lia). lia. }
  assert (E2 : Z.abs (term * e2) * P <= 8 * k * (d * T) * T).
  { rewrite Z.abs_mul, (Z.abs_eq term) by lia.
    assert (term * (Z.abs e2 * P) <= term * (2 * k * (R * T))) by (apply Z.mul_le_mono_nonneg_l; lia).
    assert (term * R * (2 * k * T) <= 4 * (d * T) * (2 * k * T)) by (apply Z.mul_le_mono_nonneg_r; nia).
    lia. }
  assert (X : T * Z.abs (term * R - d * T) <= Z.abs e1 + Z.abs (term * e2)).
  { rewrite <- (Z.abs_eq T) at 1 by lia. rewrite <- Z.abs_mul, Eq. lia. }
  set (x := Z.abs (term * R - d * T)) in *. apply Z.mul_le_mono_pos_r with T; [exact PT|].
  assert (Y : T * x * P <= (Z.abs e1 + Z.abs (term * e2)) * P) by (apply Z.mul_le_mono_nonneg_r; lia).
  lia.
Qed.

(** The tail: whatever the digits are, they add little. *)
Lemma append_digit_cases : forall t r d root out, ample t -> (2 <= r <= 36)%N ->
  append_digit t r d root out = (times_radix t root r, fadd t out (divide_digit t d (times_radix t root r))).
Proof. reflexivity. Qed.

Definition limit_of (t : float_type) : Z := 2 ^ (emax t + scale t).

Lemma limit_split : forall t, ample t -> limit_of t = 2 ^ emax t * one t.
Proof. intros t (Hp & He & _). unfold limit_of, one. apply Z.pow_add_r; unfold scale; lia. Qed.

Lemma pack_small : forall t n, Z.abs n < limit_of t -> pack t n = Fin n.
Proof. intros t n H. unfold pack. fold (limit_of t). now replace (Z.abs n <? limit_of t) with true by lia. Qed.

(** Either the root is finite and close, or it is infinite. *)
Definition root_state (t : float_type) (r k : Z) (root : fval) : Prop :=
  match root with Fin m => root_close t r k m /\ m < limit_of t | Inf b => b = false | NaN => False end.

Lemma root_small_k : forall t r k m, ample t -> 2 <= r -> 0 <= k -> 4 * k <= 2 ^ prec t -> root_close t r k m -> m < limit_of t ->
  k <= emax t.
Proof.
  intros t r k m A Hr Hk Hk4 C L. pose proof (root_low t r k m A Hr Hk Hk4 C) as [Lo _].
  rewrite limit_split in L by exact A. destruct A as (Hp & He & _).
  assert (PT : 0 < one t) by (apply pow2_pos; unfold scale; lia).
  destruct (Z.le_gt_cases k (emax t)) as [|G]; [assumption|exfalso].
  assert (2 ^ (emax t + 1) <= r ^ k).
  { transitivity (2 ^ k); [apply Z.pow_le_mono_r; lia|apply Z.pow_le_mono_l; lia]. }
  rewrite Z.pow_add_r, Z.pow_1_r in H by lia. nia.
Qed.

Lemma root_state_step : forall t (r : N) k root, ample t -> (2 <= r)%N -> 0 <= k ->
  (forall m, root = Fin m -> 4 * k <= 2 ^ prec t) ->
  root_state t (Z.of_N r) k root ->
  root_state t (Z.of_N r) (k + 1) (times_radix t root r) /\ (forall m, times_radix t root r = Fin m -> 4 * (k + 1) <= 2 ^ prec t).
Proof.
  intros t r k root A Hr Hk Hk4 H. destruct root as [m|b|]; cbn [root_state times_radix] in *; [|split; [exact H|discriminate]|contradiction].
  destruct H as [C L]. specialize (Hk4 m eq_refl).
  pose proof (root_small_k t (Z.of_N r) k m A ltac:(lia) Hk Hk4 C L) as Ke.
  assert (K1 : 4 * (k + 1) <= 2 ^ prec t) by (destruct A as (_ & _ & Q & _); lia).
  pose proof (root_step t (Z.of_N r) k m A ltac:(lia) Hk K1 C) as C'.
  pose proof (root_low t (Z.of_N r) (k + 1) _ A ltac:(lia) ltac:(lia) K1 C') as [Lo _].
  assert (P0 : 0 <= Z.of_N r ^ (k + 1) * one t) by (apply Z.mul_nonneg_nonneg; apply Z.pow_nonneg; lia).
  split; [|intros; exact K1]. unfold fround, pack. fold (limit_of t).
  destruct (Z.ltb_spec (Z.abs (round_units (prec t) (m * Z.of_N r))) (limit_of t)) as [Q|Q]; cbn [root_state].
  - split; [exact C'|lia].
  - lia.
Qed.

(** The term of a digit. *)
Lemma term_state : forall t (r : N) k root d, ample t -> (2 <= r <= 36)%N -> (d < r)%N -> 0 <= k ->
  (forall m, root = Fin m -> 4 * k <= 2 ^ prec t) ->
  root_state t (Z.of_N r) k root ->
  exists term, divide_digit t d root = Fin term /\ 0 <= term /\ term * Z.of_N r ^ k <= 4 * (Z.of_N d * one t).
Proof.
  intros t r k root d A Hr Hd Hk Hk4 H. destruct root as [m|b|]; cbn [root_state divide_digit] in *; [| |contradiction].
  - destruct H as [C L]. specialize (Hk4 m eq_refl).
    pose proof (term_close t (Z.of_N r) k m (Z.of_N d) A ltac:(lia) Hk Hk4 ltac:(lia) C) as (N & B & _).
    exists (round_ratio (prec t) (Z.of_N d * one t * one t) m). split; [|auto].
    apply pack_small. rewrite Z.abs_eq by exact N. rewrite limit_split by exact A. destruct A as (Hp & He & _).
    assert (PT : 0 < one t) by (apply pow2_pos; unfold scale; lia).
    assert (1 <= Z.of_N r ^ k) by (apply (Z.pow_le_mono_r (Z.of_N r) 0 k); lia).
    pose proof (Z.pow_le_mono_r 2 100 (emax t) ltac:(lia) He) as E2. 
    assert (200 < 2 ^ emax t) by (eapply Z.lt_le_trans; [|exact E2]; reflexivity).
    set (term := round_ratio _ _ _) in *. assert (term <= 4 * (Z.of_N d * one t)) by nia. nia.
  - exists 0. split; [reflexivity|]. split; [lia|]. destruct A as (Hp & He & _).
    assert (PT : 0 < one t) by (apply pow2_pos; unfold scale; lia). nia.
Qed.
