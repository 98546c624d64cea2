(** Lemmas for C154: values of either sign. *)
From Coq Require Import NArith ZArith List Bool Lia.
From Coq Require Import ZifyBool ZifyNat ZifyN.
From Verif Require Import Base Integers NumeralSpec FloatSpec CutSpec RankSpec UnicodeModel NumberModel NumberText
  FloatModel FloatText FloatLemmas FloatLemmas2 FloatLemmas3 FloatLemmas4 FloatLemmas5 FloatLemmas6 FloatLemmas7 CutLemmas TypedLemmas RankLemmas.
Import ListNotations.
Open Scope Z_scope.

Lemma abs_mod_zero : forall n o, 0 < o -> (Z.abs n mod o = 0 <-> n mod o = 0).
Proof.
  intros n o H. rewrite !Z.mod_divide by lia. apply Z.divide_abs_r.
Qed.

(** For a negative value: what is above its whole part, and the fraction of its amount. *)
Lemma abs_mod_neg : forall n o, 0 < o -> n < 0 -> n mod o <> 0 -> Z.abs n mod o = o - n mod o.
Proof.
  intros n o H N X. rewrite Z.abs_neq by lia. apply Z.mod_opp_l_nz; lia.
Qed.

(** What a text of any value denotes: its whole part, rounded down, and the digits of its amount. *)
Lemma format_reads_any : forall k cs t f n, fine t -> in_type t n -> integral_part_fits t n ->
  valid_radix (radix (base f)) -> (limited f = true \/ N.even (radix (base f)) = true) ->
  sep_char (separator (base f)) <> Some (point_char (point f)) ->
  exists text W, format_floating_point k cs t (Fin n) f = Ok text /\ 0 < W /\
    let ds := expand t (radix (base f)) (shown t f) (Z.abs n mod one t) in
    let R := Z.of_N (radix (base f)) ^ Z.of_nat (length ds) in
    weight (radix (base f)) (point_char (point f)) text = R * W /\
    numerator (radix (base f)) (point_char (point f)) text
    = (n / one t * R + (if n <? 0 then -1 else 1) * Z.of_N (value (radix (base f)) ds)) * W.
Proof.
  intros k cs t f n F Hin Hfit Hr Hl Hs. pose proof (fine_good t F) as G. pose proof (one_pos t G) as P1.
  destruct (format_text (fraction_fuel t f) k cs t f n F Hin Hfit Hr Hl (le_n _)) as (itext & _ & Hn & E).
  set (r := radix (base f)) in *. assert (Hr' : (2 <= r <= 36)%N) by exact Hr.
  assert (W0 : (whole t n <? 0) = (n <? 0)).
  { unfold whole. destruct (n <? 0) eqn:Q.
    - assert (n / one t < 0) by (apply Z.div_lt_upper_bound; lia). lia.
    - assert (0 <= n / one t) by (apply Z.div_pos; lia). lia. }
  cbv zeta. destruct (Z.eqb_spec (Z.abs n mod one t) 0) as [X|X].
  - eexists. exists 1. split; [exact E|]. split; [lia|]. rewrite app_nil_r.
    destruct (reading_whole _ _ _ _ _ (point f) Hr' Hn Hs) as [A B]. rewrite A. unfold weight. rewrite B.
    assert (EN : expand t r (shown t f) (Z.abs n mod one t) = []) by (rewrite X; destruct (shown t f); reflexivity).
    rewrite EN. cbn [length]. change (value r []) with 0%N. unfold whole. rewrite Z.pow_0_r. lia.
  - cbv zeta in E. set (ds := expand t r (shown t f) (Z.abs n mod one t)) in *.
    eexists. exists (Z.of_N r ^ Z.of_nat (padding f ds)). split; [exact E|]. split; [apply Z.pow_pos_nonneg; lia|].
    assert (Hd : Forall (fun d => (d < r)%N) ds).
    { apply expand_digits; auto; [lia|]. apply mod_frac; auto. exact (proj1 Hin). }
    destruct (reading_padded _ _ _ _ _ (point f) ds (padding f ds) Hr' Hn Hs Hd) as [Hw Hnum]. cbv zeta in Hw, Hnum.
    rewrite Hw, Hnum. split; [reflexivity|]. rewrite W0. unfold whole in *.
    destruct (n <? 0) eqn:Q; [rewrite (Z.abs_neq (n / one t)) by lia|rewrite (Z.abs_eq (n / one t)) by lia]; ring.
Qed.

(** Whole parts and digits in their order. *)
Lemma parts_order : forall n m qn qm P va vb, n <= m -> qn <= qm -> 0 < P -> 0 <= va <= P -> 0 <= vb <= P ->
  (n < 0 -> qn <= -1) -> (0 <= m -> 0 <= qm) -> (qn = qm -> m < 0 -> vb <= va) -> (qn = qm -> 0 <= n -> va <= vb) ->
  qn * P + (if n <? 0 then -1 else 1) * va <= qm * P + (if m <? 0 then -1 else 1) * vb.
Proof.
  intros n m qn qm P va vb H Q HP A B N M C D.
  assert (K : qn <> qm -> qn * P + P <= qm * P).
  { intros Y. replace (qn * P + P) with ((qn + 1) * P) by ring. apply Z.mul_le_mono_nonneg_r; lia. }
  destruct (Z.ltb_spec n 0) as [X|X], (Z.ltb_spec m 0) as [Y|Y]; destruct (Z.eq_dec qn qm) as [E|E]; try specialize (K E);
    try (subst qm; specialize (C eq_refl) || idtac); try lia.
Qed.

(** The pairs of values that are shown the wrong way round: a whole one and one right above
    it, below zero. *)
Definition turned (o n m : Z) : Prop := m < 0 /\ n mod o = 0 /\ m mod o <> 0 /\ n / o = m / o.

Lemma format_signs : forall k k' cs cs' t f n m, fine t -> in_type t n -> in_type t m -> n <= m ->
  integral_part_fits t n -> integral_part_fits t m ->
  valid_radix (radix (base f)) -> (limited f = true \/ N.even (radix (base f)) = true) ->
  sep_char (separator (base f)) <> Some (point_char (point f)) ->
  exists a b, format_floating_point k cs t (Fin n) f = Ok a /\ format_floating_point k' cs' t (Fin m) f = Ok b /\
    (~ turned (one t) n m -> at_most (radix (base f)) (point_char (point f)) a b) /\
    (turned (one t) n m -> at_most (radix (base f)) (point_char (point f)) b a).
Proof.
  intros k k' cs cs' t f n m F In Im H Fn Fm Hr Hl Hs. pose proof (fine_good t F) as G. pose proof (one_pos t G) as P1.
  destruct (format_reads_any k cs t f n F In Fn Hr Hl Hs) as (a & Wa & Ea & Pa & A1 & A2).
  destruct (format_reads_any k' cs' t f m F Im Fm Hr Hl Hs) as (b & Wb & Eb & Pb & B1 & B2).
  exists a, b. split; [exact Ea|]. split; [exact Eb|]. unfold at_most. rewrite A1, A2, B1, B2. clear Ea Eb A1 A2 B1 B2 a b.
  set (r := radix (base f)) in *. assert (Hr2 : (2 <= r)%N) by (destruct Hr; assumption).
  assert (Xn : frac t (Z.abs n mod one t)) by (apply mod_frac; [exact G|exact (proj1 In)]).
  assert (Xm : frac t (Z.abs m mod one t)) by (apply mod_frac; [exact G|exact (proj1 Im)]).
  pose proof (value_lt_pow r _ ltac:(lia) (expand_digits t r (shown t f) _ G Hr2 Xn)) as Ln.
  pose proof (value_lt_pow r _ ltac:(lia) (expand_digits t r (shown t f) _ G Hr2 Xm)) as Lm.
  pose proof (expand_mono t r (shown t f) _ _ G Hr2 Xn Xm) as Mo.
  pose proof (expand_mono t r (shown t f) _ _ G Hr2 Xm Xn) as Mo'.
  assert (Zn : n mod one t = 0 -> expand t r (shown t f) (Z.abs n mod one t) = []).
  { intros Y. rewrite (proj2 (abs_mod_zero n _ P1) Y). destruct (shown t f); reflexivity. }
  assert (Zm : m mod one t = 0 -> expand t r (shown t f) (Z.abs m mod one t) = []).
  { intros Y. rewrite (proj2 (abs_mod_zero m _ P1) Y). destruct (shown t f); reflexivity. }
  set (A := expand t r (shown t f) (Z.abs n mod one t)) in *. set (B := expand t r (shown t f) (Z.abs m mod one t)) in *.
  assert (VA0 : n mod one t = 0 -> Z.of_N (value r A) = 0) by (intros Y; rewrite (Zn Y); reflexivity).
  assert (VB0 : m mod one t = 0 -> Z.of_N (value r B) = 0) by (intros Y; rewrite (Zm Y); reflexivity).
  clear Zn Zm Xn Xm.
  set (RA := Z.of_N r ^ Z.of_nat (length A)) in *. set (RB := Z.of_N r ^ Z.of_nat (length B)) in *.
  assert (HA : 0 < RA) by (apply Z.pow_pos_nonneg; lia). assert (HB : 0 < RB) by (apply Z.pow_pos_nonneg; lia).
  set (VA := Z.of_N (value r A)) in *. set (VB := Z.of_N (value r B)) in *.
  assert (0 <= VA) by (unfold VA; lia). assert (0 <= VB) by (unfold VB; lia).
  assert (DQ : n / one t <= m / one t) by (apply Z.div_le_mono; lia).
  assert (En : n = one t * (n / one t) + n mod one t) by (apply Z.div_mod; lia).
  assert (Em : m = one t * (m / one t) + m mod one t) by (apply Z.div_mod; lia).
  assert (Rn := Z.mod_pos_bound n (one t) P1). assert (Rm := Z.mod_pos_bound m (one t) P1).
  assert (Sn := abs_mod_neg n (one t) P1). assert (Sm := abs_mod_neg m (one t) P1).
  assert (Qn : n < 0 -> n / one t <= -1) by (intros Y; assert (n / one t < 0) by (apply Z.div_lt_upper_bound; lia); lia).
  assert (Qm : 0 <= m -> 0 <= m / one t) by (intros Y; apply Z.div_pos; lia).
  assert (Pn : 0 <= n -> Z.abs n = n) by (intros Y; lia). assert (Pm : 0 <= m -> Z.abs m = m) by (intros Y; lia).
  unfold turned. set (qn := n / one t) in *. set (qm := m / one t) in *. set (fn := n mod one t) in *. set (fm := m mod one t) in *.
  assert (K1 : VA * RB <= RA * RB) by (apply Z.mul_le_mono_nonneg_r; lia).
  assert (K2 : VB * RA <= RA * RB) by (rewrite (Z.mul_comm RA RB); apply Z.mul_le_mono_nonneg_r; lia).
  assert (K3 : 0 <= VA * RB) by (apply Z.mul_nonneg_nonneg; lia).
  assert (K4 : 0 <= VB * RA) by (apply Z.mul_nonneg_nonneg; lia).
  assert (K5 : 0 < RA * RB) by (apply Z.mul_pos_pos; lia).
  assert (Goal1 : ~ (m < 0 /\ fn = 0 /\ fm <> 0 /\ qn = qm) ->
    (qn * RA + (if n <? 0 then -1 else 1) * VA) * RB <= (qm * RB + (if m <? 0 then -1 else 1) * VB) * RA).
  { intros T. replace ((qn * RA + (if n <? 0 then -1 else 1) * VA) * RB) with (qn * (RA * RB) + (if n <? 0 then -1 else 1) * (VA * RB)) by ring.
    replace ((qm * RB + (if m <? 0 then -1 else 1) * VB) * RA) with (qm * (RA * RB) + (if m <? 0 then -1 else 1) * (VB * RA)) by ring.
    apply parts_order; auto.
    - intros E L. destruct (Z.eq_dec fm 0) as [F0|F0]; [rewrite (VB0 F0); exact K3|].
      assert (F1 : fn <> 0) by (intros F1; apply T; auto). apply Mo'.
      rewrite (Sn ltac:(clear - H L; lia) F1), (Sm L F0). clear - En Em H E. rewrite E in En. lia.
    - intros E L. apply Mo. rewrite Pn by exact L. rewrite Pm by (clear - H L; lia). fold fn fm. clear - En Em H E. rewrite E in En. lia. }
  assert (Goal2 : m < 0 /\ fn = 0 /\ fm <> 0 /\ qn = qm ->
    (qm * RB + (if m <? 0 then -1 else 1) * VB) * RA <= (qn * RA + (if n <? 0 then -1 else 1) * VA) * RB).
  { intros (T1 & T2 & T3 & T4). rewrite (VA0 T2), T4, (proj2 (Z.ltb_lt _ _) T1). clear - K4. lia. }
  clear - Goal1 Goal2 Pa Pb HA HB.
  set (X := qn * RA + (if n <? 0 then -1 else 1) * VA) in *. set (Y := qm * RB + (if m <? 0 then -1 else 1) * VB) in *.
  replace (X * Wa * (RB * Wb)) with (X * RB * (Wa * Wb)) by ring. replace (Y * Wb * (RA * Wa)) with (Y * RA * (Wa * Wb)) by ring.
  assert (0 <= Wa * Wb) by (apply Z.mul_nonneg_nonneg; lia).
  split; intros T; apply Z.mul_le_mono_nonneg_r; auto.
Qed.
