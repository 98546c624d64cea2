(** Lemmas for C141: formatting with a place limit. *)
From Coq Require Import NArith ZArith List Bool Lia ZifyBool ZifyNat ZifyN.
From Verif Require Import Base Integers NumeralSpec FloatSpec UnicodeSpec UnicodeModel UnicodeText
  UnicodeLemmas2 NumberModel NumberText NumberLemmas NumberLemmas2 NumberLemmas4 NumberLemmas5 NumberLemmas6
  FloatModel FloatText FloatLemmas FloatLemmas2 FloatLemmas3 FloatLemmas4 FloatLemmas5 FloatLemmas6 CutSpec.
Import ListNotations.
Open Scope Z_scope.

Lemma rest_frac : forall t r k f, good t -> (2 <= r)%N -> frac t f -> 0 <= rest t r k f < one t.
Proof.
  intros t r k. induction k as [|k IH]; intros f G Hr F; cbn [rest]; [apply F|].
  destruct (f =? 0); [pose proof (one_pos t G); lia|]. apply IH; auto. now apply next_frac_ok.
Qed.

Lemma value_zeros : forall r z, value r (repeat 0%N z) = 0%N.
Proof. intros r z. induction z as [|z IH]; [reflexivity|]. change (repeat 0%N (S z)) with ([0%N] ++ repeat 0%N z). now rewrite value_app, IH. Qed.

(** The numerator with zeros behind. *)
Lemma reading_padded : forall r plus s x itext p ds z, (2 <= r <= 36)%N -> numeral r plus (sep_char s) x itext -> sep_char s <> Some (point_char p) ->
  Forall (fun d => (d < r)%N) ds ->
  let text := itext ++ point_char p :: fraction_text (sep_char s) 0 ds ++ repeat 48%N z in
  weight r (point_char p) text = Z.of_N r ^ Z.of_nat (length ds) * Z.of_N r ^ Z.of_nat z /\
  numerator r (point_char p) text
    = (if x <? 0 then -1 else 1) * ((Z.abs x * Z.of_N r ^ Z.of_nat (length ds) + Z.of_N (value r ds)) * Z.of_N r ^ Z.of_nat z).
Proof.
  intros r plus s x itext p ds z Hr H Hs Hd text. destruct (reading_fraction r plus s x itext p ds z Hr H Hs Hd) as (P & D & _). fold text in P, D.
  split; [unfold weight; now rewrite P, Nat2Z.inj_add, Z.pow_add_r by lia|].
  pose proof (numeral_no_point r plus s x itext p ltac:(lia) H Hs) as Np.
  destruct (before_some _ _ (fraction_text (sep_char s) 0 ds ++ repeat 48%N z) Np) as [B A]. fold text in A, B.
  unfold numerator. rewrite D, B. destruct (numeral_reading r plus s x itext Hr H) as [V S]. unfold text. rewrite S.
  assert (Vz : value r (ds ++ repeat 0%N z) = (value r ds * r ^ N.of_nat z)%N).
  { rewrite value_app, repeat_length, value_zeros. lia. }
  rewrite value_app_Z, V, app_length, repeat_length, Vz, N2Z.inj_mul, N2Z.inj_pow, nat_N_Z, Nat2Z.inj_add, Z.pow_add_r by lia.
  destruct (x <? 0); ring.
Qed.

Lemma shown_abs : forall t n, good t -> Z.abs n mod one t <> 0 ->
  Z.abs (shown_value t n) = Z.abs (whole t n) * one t + Z.abs n mod one t.
Proof.
  intros t n G X. pose proof (one_pos t G) as P1. unfold shown_value. replace (Z.abs n mod one t =? 0) with false by lia. cbn [negb]. rewrite andb_true_r.
  pose proof (Z.div_mod (Z.abs n) (one t) ltac:(lia)) as DM. set (x := Z.abs n mod one t) in *. pose proof (Z.div_pos (Z.abs n) (one t) ltac:(lia) P1) as Q.
  destruct (Z.ltb_spec n 0) as [Neg|Pos].
  - pose proof (whole_negative n (one t) P1 Neg X) as W. unfold whole. rewrite W. set (q := Z.abs n / one t) in *.
    rewrite (Z.abs_neq (- q - 1)) by lia. rewrite Z.abs_neq by lia. lia.
  - unfold whole. rewrite (Z.abs_eq n) in * by lia. rewrite (Z.abs_eq (n / one t)) by lia. lia.
Qed.

Lemma cut_core : forall R W one rst V x m p n, 0 < one -> 1 <= R -> 0 < m -> 1 <= p -> 0 <= rst < one -> (rst <> 0 -> R = p) -> 1 <= W ->
  n = V * one + rst - x * R -> Z.abs n * m <= one * R ->
  let missing := (x * R - V * one) * W in
  - (one * (R * W)) <= missing * m /\ missing * (p * m) < one * (R * W) * (m + p) /\
  (n = 0 -> 0 <= missing /\ missing * p < one * (R * W)).
Proof.
  intros R W one rst V x m p n H1 HR Hm Hp Hr Hf HW E N. cbv zeta.
  assert (A : x * R - V * one = rst - n) by lia. rewrite A.
  assert (Rp : rst * p < one * R).
  { destruct (Z.eq_dec rst 0) as [->|Nz]; [apply Z.mul_pos_pos; lia|]. rewrite <- (Hf Nz). apply Z.mul_lt_mono_pos_r; lia. }
  assert (B : - (one * R) <= (rst - n) * m) by (assert (0 <= rst * m) by (apply Z.mul_nonneg_nonneg; lia); assert (n * m <= Z.abs n * m) by (apply Z.mul_le_mono_nonneg_r; lia); lia).
  assert (C : (rst - n) * (p * m) < one * R * (m + p)).
  { replace ((rst - n) * (p * m)) with (rst * p * m + (- n * m) * p) by ring. rewrite Z.mul_add_distr_l.
    assert (rst * p * m < one * R * m) by (apply Z.mul_lt_mono_pos_r; lia).
    assert (- n * m <= one * R) by (assert (- n * m <= Z.abs n * m) by (apply Z.mul_le_mono_nonneg_r; lia); lia).
    assert ((- n * m) * p <= one * R * p) by (apply Z.mul_le_mono_nonneg_r; lia). lia. }
  split; [|split].
  - replace (- (one * (R * W))) with (- (one * R) * W) by ring. replace ((rst - n) * W * m) with ((rst - n) * m * W) by ring. apply Z.mul_le_mono_nonneg_r; lia.
  - replace ((rst - n) * W * (p * m)) with ((rst - n) * (p * m) * W) by ring. replace (one * (R * W) * (m + p)) with (one * R * (m + p) * W) by ring. apply Z.mul_lt_mono_pos_r; lia.
  - intros ->. rewrite Z.sub_0_r. split; [apply Z.mul_nonneg_nonneg; lia|].
    replace (rst * W * p) with (rst * p * W) by ring. replace (one * (R * W)) with (one * R * W) by ring. apply Z.mul_lt_mono_pos_r; lia.
Qed.

Lemma format_cut : forall k cs t f n, fine t -> in_type t n -> integral_part_fits t n ->
  valid_radix (radix (base f)) -> sep_char (separator (base f)) <> Some (point_char (point f)) -> limited f = true ->
  exists text, format_floating_point k cs t (Fin n) f = Ok text /\
    (n < 0 <-> numerator (radix (base f)) (point_char (point f)) text < 0) /\
    cut_near (radix (base f)) (point_char (point f)) text (shown_value t n) (one t) (places f) (prec t - 1) /\
    (exact_digits t (radix (base f)) n -> cut (radix (base f)) (point_char (point f)) text (shown_value t n) (one t) (places f)).
Proof.
  intros k cs t f n F Hin Hfit Hr Hs Hl. pose proof (fine_good t F) as G. pose proof (one_pos t G) as P1.
  destruct (format_text (fraction_fuel t f) k cs t f n F Hin Hfit Hr (or_introl Hl) (le_n _)) as (itext & _ & Hn & E).
  eexists. split; [exact E|]. clear E. set (r := radix (base f)) in *. set (x := Z.abs n mod one t) in *. assert (Hr' : (2 <= r <= 36)%N) by exact Hr.
  assert (M : 0 < 2 ^ (prec t - 1)) by (apply pow2_pos; unfold good in G; lia).
  assert (Pn : 1 <= Z.of_N r ^ Z.of_N (places f)) by (pose proof (Z.pow_pos_nonneg (Z.of_N r) (Z.of_N (places f)) ltac:(lia) ltac:(lia)); lia).
  assert (Wn : n < 0 <-> whole t n < 0).
  { unfold whole. split; intro X; [apply Z.div_lt_upper_bound; lia|]. destruct (Z.le_gt_cases 0 n) as [Y|Y]; [|exact Y]. pose proof (Z.div_pos n (one t) Y P1). lia. }
  destruct (Z.eqb_spec x 0) as [X|X].
  - rewrite app_nil_r. unfold cut, cut_near, weight, shown_value. fold x. rewrite X, andb_false_r. destruct (reading_whole _ _ _ _ _ (point f) Hr' Hn Hs) as [-> ->].
    cbn [Z.of_nat]. rewrite Z.pow_0_r, !Z.mul_1_r. pose proof (abs_mod_zero n (one t) P1 X) as En. fold (whole t n) in En.
    assert (Z0 : Z.abs n - Z.abs (whole t n) * one t = 0) by (rewrite En at 1; rewrite Z.abs_mul, (Z.abs_eq (one t)) by lia; lia).
    rewrite Z0, !Z.mul_0_l. split; [exact Wn|]. split; [split; [lia|]|intros _; split; lia]. apply Z.mul_pos_pos; lia.
  - cbv zeta. set (ds := expand t r (shown t f) x). assert (Fx : frac t x) by (apply mod_frac; [assumption|]; apply Hin).
    assert (Hd : Forall (fun d => (d < r)%N) ds) by (apply expand_digits; auto; lia).
    destruct (reading_padded _ _ _ _ _ (point f) ds (padding f ds) Hr' Hn Hs Hd) as [Hw Hnum].
    unfold cut, cut_near. rewrite Hw, Hnum, (shown_abs t n G X). clear Hw Hnum. fold x.
    set (R := Z.of_N r ^ Z.of_nat (length ds)). set (W := Z.of_N r ^ Z.of_nat (padding f ds)). set (V := Z.of_N (value r ds)).
    assert (HR : 1 <= R) by (unfold R; pose proof (Z.pow_pos_nonneg (Z.of_N r) (Z.of_nat (length ds)) ltac:(lia) ltac:(lia)); lia).
    assert (HW : 1 <= W) by (unfold W; pose proof (Z.pow_pos_nonneg (Z.of_N r) (Z.of_nat (padding f ds)) ltac:(lia) ltac:(lia)); lia).
    assert (HV : 0 <= V) by (unfold V; lia).
    assert (Full : rest t r (shown t f) x <> 0 -> R = Z.of_N r ^ Z.of_N (places f)).
    { intro Nz. unfold R, ds. rewrite (expand_full t r (shown t f) x Nz). unfold shown. rewrite Hl. now rewrite N_nat_Z. }
    pose proof (expand_near t r (shown t f) x G ltac:(lia) Fx) as Near. cbv zeta in Near. fold ds in Near. fold V R in Near.
    apply near_simple in Near; try assumption; try lia.
    destruct (cut_core R W (one t) (rest t r (shown t f) x) V x (2 ^ (prec t - 1)) (Z.of_N r ^ Z.of_N (places f)) _ P1 HR M Pn (rest_frac t r _ x G ltac:(lia) Fx) Full HW eq_refl Near) as (C1 & C2 & C3).
    assert (Sum : 0 <= Z.abs (whole t n) * R + V) by (assert (0 <= Z.abs (whole t n) * R) by (apply Z.mul_nonneg_nonneg; lia); lia).
    assert (Ab : Z.abs ((if whole t n <? 0 then -1 else 1) * ((Z.abs (whole t n) * R + V) * W)) = (Z.abs (whole t n) * R + V) * W).
    { rewrite Z.abs_mul. rewrite (Z.abs_eq ((_ + _) * _)) by (apply Z.mul_nonneg_nonneg; lia). destruct (whole t n <? 0); cbn [Z.abs]; lia. }
    rewrite Ab. replace ((Z.abs (whole t n) * one t + x) * (R * W) - (Z.abs (whole t n) * R + V) * W * one t) with ((x * R - V * one t) * W) by ring.
    split; [|split; [split; assumption|]].
    + destruct (Z.ltb_spec (whole t n) 0) as [Y|Y].
      * assert (0 < Z.abs (whole t n) * R) by (apply Z.mul_pos_pos; lia). assert (0 < (Z.abs (whole t n) * R + V) * W) by (apply Z.mul_pos_pos; lia). lia.
      * assert (0 <= (Z.abs (whole t n) * R + V) * W) by (apply Z.mul_nonneg_nonneg; lia). lia.
    + intro Ex. apply C3. pose proof (expand_exact_value t r (shown t f) n G ltac:(lia) (proj1 Hin) Ex) as Hx. cbv zeta in Hx. fold x in Hx. fold ds in Hx. fold V R in Hx. lia.
Qed.
