(** Lemmas for C154 and C155: rounding keeps the order, and so do digits. *)
From Coq Require Import NArith ZArith List Bool Lia.
From Coq Require Import ZifyBool ZifyNat ZifyN.
From Verif Require Import Base Integers NumeralSpec FloatSpec CutSpec RankSpec UnicodeModel NumberModel NumberText
  FloatModel FloatText FloatLemmas FloatLemmas2 FloatLemmas3 FloatLemmas4 FloatLemmas5 FloatLemmas6 FloatLemmas7 CutLemmas TypedLemmas.
Import ListNotations.
Open Scope Z_scope.

Lemma round_mono : forall p n m, 0 < p -> n <= m -> round_units p n <= round_units p m.
Proof.
  intros p n m Hp H. destruct (Z.le_gt_cases (round_units p n) (round_units p m)) as [L|L]; [exact L|].
  pose proof (round_nearest p n (round_units p m) Hp (round_rep_abs p m Hp)) as A.
  pose proof (round_nearest p m (round_units p n) Hp (round_rep_abs p n Hp)) as B.
  assert (n = m) by lia. subst. lia.
Qed.

Lemma product_mono : forall t r f g, good t -> f <= g -> product t r f <= product t r g.
Proof. intros t r f g G H. apply round_mono; [unfold good in G; lia|]. nia. Qed.

(** Digits are never greater for a smaller fraction. *)
Lemma expand_mono : forall t r k f g, good t -> (2 <= r)%N -> frac t f -> frac t g -> f <= g ->
  Z.of_N (value r (expand t r k f)) * Z.of_N r ^ Z.of_nat (length (expand t r k g))
  <= Z.of_N (value r (expand t r k g)) * Z.of_N r ^ Z.of_nat (length (expand t r k f)).
Proof.
  intros t r k. induction k as [|k IH]; intros f g G Hr Ff Fg H; [cbn; lia|].
  pose proof (one_pos t G) as P1. cbn [expand]. destruct (Z.eqb_spec f 0) as [->|F0].
  { change (value r []) with 0%N. cbn [length]. rewrite Z.pow_0_r. lia. }
  destruct (Z.eqb_spec g 0) as [->|G0]; [pose proof (proj2 Ff); lia|].
  pose proof (product_mono t r f g G H) as PM.
  pose proof (next_frac_ok t r f G Hr Ff) as Nf. pose proof (next_frac_ok t r g G Hr Fg) as Ng.
  specialize (IH (next_frac t r f) (next_frac t r g) G Hr Nf Ng).
  pose proof (expand_digits t r k _ G Hr Nf) as Df. pose proof (expand_digits t r k _ G Hr Ng) as Dg.
  pose proof (value_lt_pow r _ ltac:(lia) Df) as Lf.
  rewrite !value_cons_Z. cbn [length]. rewrite !Nat2Z.inj_succ, !Z.pow_succ_r by lia.
  set (A := expand t r k (next_frac t r f)) in *. set (B := expand t r k (next_frac t r g)) in *.
  set (RA := Z.of_N r ^ Z.of_nat (length A)) in *. set (RB := Z.of_N r ^ Z.of_nat (length B)) in *.
  assert (0 < RA) by (apply Z.pow_pos_nonneg; lia). assert (0 < RB) by (apply Z.pow_pos_nonneg; lia).
  set (VA := Z.of_N (value r A)) in *. set (VB := Z.of_N (value r B)) in *. assert (0 <= VB) by (unfold VB; lia).
  assert (DQ : product t r f / one t <= product t r g / one t) by (apply Z.div_le_mono; lia).
  assert (Ef : Z.of_N (next_digit t r f) = product t r f / one t) by (rewrite <- next_digit_whole by auto; reflexivity).
  assert (Eg : Z.of_N (next_digit t r g) = product t r g / one t) by (rewrite <- next_digit_whole by auto; reflexivity).
  set (df := Z.of_N (next_digit t r f)) in *. set (dg := Z.of_N (next_digit t r g)) in *.
  assert (K : (df * RA + VA) * RB <= (dg * RB + VB) * RA).
  { destruct (Z.eq_dec df dg) as [E|E].
    - assert (NF : next_frac t r f <= next_frac t r g).
      { unfold next_frac. rewrite !Z.mod_eq by lia. rewrite <- Ef, <- Eg, E. lia. }
      specialize (IH NF). rewrite E. lia.
    - assert (df + 1 <= dg) by lia.
      assert (VA * RB <= RA * RB) by (apply Z.mul_le_mono_nonneg_r; lia).
      assert ((df + 1) * (RA * RB) <= dg * (RA * RB)) by (apply Z.mul_le_mono_nonneg_r; [apply Z.mul_nonneg_nonneg; lia|lia]).
      assert (0 <= VB * RA) by (apply Z.mul_nonneg_nonneg; lia). lia. }
  replace ((df * RA + VA) * (Z.of_N r * RB)) with (Z.of_N r * ((df * RA + VA) * RB)) by ring.
  replace ((dg * RB + VB) * (Z.of_N r * RA)) with (Z.of_N r * ((dg * RB + VB) * RA)) by ring.
  apply Z.mul_le_mono_nonneg_l; lia.
Qed.

(** What a text of a value that is not negative denotes: its whole part and its digits. *)
Lemma format_reads : forall k cs t f n, fine t -> in_type t n -> 0 <= n -> integral_part_fits t n ->
  valid_radix (radix (base f)) -> (limited f = true \/ N.even (radix (base f)) = true) ->
  sep_char (separator (base f)) <> Some (point_char (point f)) ->
  exists text W, format_floating_point k cs t (Fin n) f = Ok text /\ 0 < W /\
    let ds := expand t (radix (base f)) (shown t f) (n mod one t) in
    let R := Z.of_N (radix (base f)) ^ Z.of_nat (length ds) in
    weight (radix (base f)) (point_char (point f)) text = R * W /\
    numerator (radix (base f)) (point_char (point f)) text = (n / one t * R + Z.of_N (value (radix (base f)) ds)) * W.
Proof.
  intros k cs t f n F Hin H0 Hfit Hr Hl Hs. pose proof (fine_good t F) as G. pose proof (one_pos t G) as P1.
  destruct (format_text (fraction_fuel t f) k cs t f n F Hin Hfit Hr Hl (le_n _)) as (itext & _ & Hn & E).
  rewrite (Z.abs_eq n) in E by assumption. set (r := radix (base f)) in *. assert (Hr' : (2 <= r <= 36)%N) by exact Hr.
  assert (W0 : 0 <= whole t n) by (apply Z.div_pos; lia). cbv zeta.
  destruct (Z.eqb_spec (n mod one t) 0) as [X|X].
  - eexists. exists 1. split; [exact E|]. split; [lia|]. rewrite app_nil_r.
    destruct (reading_whole _ _ _ _ _ (point f) Hr' Hn Hs) as [A B]. rewrite A. unfold weight. rewrite B.
    assert (EN : expand t r (shown t f) (n mod one t) = []) by (rewrite X; destruct (shown t f); reflexivity).
    rewrite EN. cbn [length]. change (value r []) with 0%N. unfold whole. rewrite Z.pow_0_r. lia.
  - cbv zeta in E. set (ds := expand t r (shown t f) (n mod one t)) in *.
    eexists. exists (Z.of_N r ^ Z.of_nat (padding f ds)). split; [exact E|]. split; [apply Z.pow_pos_nonneg; lia|].
    assert (Hd : Forall (fun d => (d < r)%N) ds).
    { apply expand_digits; auto; [lia|]. apply mod_frac; auto. pose proof (proj1 Hin) as Y. now rewrite Z.abs_eq in Y by assumption. }
    destruct (reading_padded _ _ _ _ _ (point f) ds (padding f ds) Hr' Hn Hs Hd) as [Hw Hnum]. cbv zeta in Hw, Hnum.
    rewrite Hw, Hnum. split; [reflexivity|]. replace (whole t n <? 0) with false by lia. rewrite (Z.abs_eq (whole t n)) by lia. unfold whole. ring.
Qed.

Lemma format_mono : forall k k' cs cs' t f n m, fine t -> in_type t n -> in_type t m -> 0 <= n <= m ->
  integral_part_fits t n -> integral_part_fits t m ->
  valid_radix (radix (base f)) -> (limited f = true \/ N.even (radix (base f)) = true) ->
  sep_char (separator (base f)) <> Some (point_char (point f)) ->
  exists a b, format_floating_point k cs t (Fin n) f = Ok a /\ format_floating_point k' cs' t (Fin m) f = Ok b /\
    at_most (radix (base f)) (point_char (point f)) a b.
Proof.
  intros k k' cs cs' t f n m F In Im H Fn Fm Hr Hl Hs. pose proof (fine_good t F) as G. pose proof (one_pos t G) as P1.
  destruct (format_reads k cs t f n F In ltac:(lia) Fn Hr Hl Hs) as (a & Wa & Ea & Pa & A1 & A2).
  destruct (format_reads k' cs' t f m F Im ltac:(lia) Fm Hr Hl Hs) as (b & Wb & Eb & Pb & B1 & B2).
  exists a, b. split; [exact Ea|]. split; [exact Eb|]. unfold at_most. rewrite A1, A2, B1, B2.
  set (r := radix (base f)) in *. assert (Hr2 : (2 <= r)%N) by (destruct Hr; assumption).
  assert (Xn : frac t (n mod one t)) by (apply mod_frac; auto; pose proof (proj1 In) as Y; rewrite Z.abs_eq in Y by lia; exact Y).
  assert (Xm : frac t (m mod one t)) by (apply mod_frac; auto; pose proof (proj1 Im) as Y; rewrite Z.abs_eq in Y by lia; exact Y).
  pose proof (expand_digits t r (shown t f) _ G Hr2 Xn) as Dn.
  pose proof (value_lt_pow r _ ltac:(lia) Dn) as Ln.
  pose proof (expand_mono t r (shown t f) _ _ G Hr2 Xn Xm) as Mo.
  set (A := expand t r (shown t f) (n mod one t)) in *. set (B := expand t r (shown t f) (m mod one t)) in *.
  set (RA := Z.of_N r ^ Z.of_nat (length A)) in *. set (RB := Z.of_N r ^ Z.of_nat (length B)) in *.
  assert (HA : 0 < RA) by (apply Z.pow_pos_nonneg; lia). assert (HB : 0 < RB) by (apply Z.pow_pos_nonneg; lia).
  set (VA := Z.of_N (value r A)) in *. set (VB := Z.of_N (value r B)) in *. assert (0 <= VB) by (unfold VB; lia).
  assert (K : (n / one t * RA + VA) * RB <= (m / one t * RB + VB) * RA).
  { assert (DQ : n / one t <= m / one t) by (apply Z.div_le_mono; lia).
    destruct (Z.eq_dec (n / one t) (m / one t)) as [E|E].
    - assert (NF : n mod one t <= m mod one t) by (rewrite !Z.mod_eq by lia; rewrite E; lia). specialize (Mo NF). rewrite E. lia.
    - assert (VA * RB <= RA * RB) by (apply Z.mul_le_mono_nonneg_r; lia).
      assert ((n / one t + 1) * (RA * RB) <= m / one t * (RA * RB)) by (apply Z.mul_le_mono_nonneg_r; [apply Z.mul_nonneg_nonneg; lia|lia]).
      assert (0 <= VB * RA) by (apply Z.mul_nonneg_nonneg; lia). lia. }
  replace ((n / one t * RA + VA) * Wa * (RB * Wb)) with ((n / one t * RA + VA) * RB * (Wa * Wb)) by ring.
  replace ((m / one t * RB + VB) * Wb * (RA * Wa)) with ((m / one t * RB + VB) * RA * (Wa * Wb)) by ring.
  apply Z.mul_le_mono_nonneg_r; [apply Z.mul_nonneg_nonneg; lia|exact K].
Qed.

(* ------------------------------------------------------------------- reading *)

(** Adding what is not negative does not make a finite value smaller. *)
Lemma append_digit_grows : forall t r d root output root' output' x, good t -> not_negative root -> in_type t x -> output = Fin x ->
  append_digit t r d root output = (root', output') ->
  not_negative root' /\ match output' with Fin y => x <= y /\ in_type t y | Inf neg => neg = false | NaN => False end.
Proof.
  intros t r d root output root' output' x G Hr Hx -> E. unfold append_digit in E. injection E as <- <-. pose proof (one_pos t G).
  assert (R : not_negative (times_radix t root r)).
  { destruct root as [m| |]; cbn [times_radix]; [|exact Hr|exact Hr]. apply fround_not_negative. cbn in Hr. lia. }
  split; [exact R|].
  assert (D : not_negative (divide_digit t d (times_radix t root r))).
  { destruct (times_radix t root r) as [m| |]; cbn [divide_digit]; [|cbn; lia|cbn; lia].
    apply pack_not_negative, ratio_not_negative; [nia|exact R]. }
  cbn [fadd]. destruct (divide_digit t d _) as [c| |]; cbn [not_negative] in D; [|exact D|exact D].
  assert (Hp : 0 < prec t) by (unfold good in G; lia).
  pose proof (round_mono (prec t) x (x + c) Hp ltac:(lia)) as RM.
  assert (Rx : round_units (prec t) x = x).
  { pose proof (round_nearest (prec t) x x Hp (proj1 Hx)). lia. }
  rewrite Rx in RM. unfold fround, pack. destruct (Z.ltb_spec (Z.abs (round_units (prec t) (x + c))) (2 ^ (emax t + scale t))) as [L|L].
  - split; [exact RM|]. split; [now apply round_rep_abs|exact L].
  - destruct Hx as [_ Hx]. lia.
Qed.

Lemma infinite_stays : forall t r s root x, fraction_digits t r s root (Inf false) = Ok x -> x = Inf false.
Proof.
  intros t r s. induction s as [|c s IH]; intros root x E; cbn [fraction_digits] in E; [congruence|].
  destruct (digit_character_to_integer c r) as [[d|]| | | |]; cbn [bind append_digit fadd] in E; try discriminate. exact (IH _ _ E).
Qed.

Lemma fraction_app : forall t r a b root output, fraction_digits t r (a ++ b) root output
  = match fraction_digits t r a root output with
    | Ok _ => fraction_digits t r b (fold_left (fun x (_ : N) => times_radix t x r) a root)
                (match fraction_digits t r a root output with Ok v => v | _ => NaN end)
    | e => e
    end.
Proof.
  intros t r a b. induction a as [|c a IH]; intros root output; [reflexivity|].
  cbn [app fraction_digits fold_left]. destruct (digit_character_to_integer c r) as [[d|]| | | |]; cbn [bind append_digit]; try reflexivity.
  apply IH.
Qed.

Lemma fraction_grows : forall t r s root x y, good t -> not_negative root -> in_type t x ->
  fraction_digits t r s root (Fin x) = Ok (Fin y) -> x <= y.
Proof.
  intros t r s. induction s as [|c s IH]; intros root x y G Hr Hx E; cbn [fraction_digits] in E; [injection E; lia|].
  destruct (digit_character_to_integer c r) as [[d|]| | | |]; cbn [bind] in E; try discriminate.
  destruct (append_digit t r d root (Fin x)) as [root' output'] eqn:A.
  destruct (append_digit_grows _ _ _ _ _ _ _ _ G Hr Hx eq_refl A) as [R O].
  destruct output' as [z|neg|]; [|subst neg; apply infinite_stays in E; discriminate|contradiction].
  destruct O as [O1 O2]. specialize (IH _ _ _ G R O2 E). lia.
Qed.

Lemma roots_not_negative : forall t r (a : list N) root, not_negative root -> not_negative (fold_left (fun x (_ : N) => times_radix t x r) a root).
Proof.
  intros t r a. induction a as [|c a IH]; intros root H; [exact H|]. cbn [fold_left]. apply IH.
  destruct root as [m| |]; cbn [times_radix]; [|exact H|exact H]. apply fround_not_negative. cbn in H. lia.
Qed.
