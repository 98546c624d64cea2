(** Lemmas for C153: digits that were read are shown again. *)
From Coq Require Import NArith ZArith List Bool Lia.
From Coq Require Import ZifyBool ZifyNat ZifyN.
From Verif Require Import Base Integers NumeralSpec FloatSpec UnicodeModel NumberModel NumberText
  FloatModel FloatText FloatLemmas FloatLemmas2 FloatLemmas3 FloatLemmas4 FloatLemmas5 FloatLemmas6.
Import ListNotations.
Open Scope Z_scope.

Lemma value_ends : forall r ds, (1 <= r)%N -> ds <> [] -> last ds 0%N <> 0%N -> 0 < Z.of_N (value r ds).
Proof.
  intros r ds Hr. induction ds as [|d ds IH]; intros Hne Hl; [congruence|].
  rewrite value_cons_Z. assert (0 < Z.of_N r ^ Z.of_nat (length ds)) by (apply Z.pow_pos_nonneg; lia).
  destruct ds as [|e ds]; [cbn [last] in Hl; cbn [length] in *; change (value r []) with 0%N; nia|].
  specialize (IH ltac:(discriminate) Hl). nia.
Qed.

(** The digits of a fraction in a radix in which nothing is rounded. *)
Lemma expand_back : forall t r b ds k f, good t -> (2 <= r)%N -> Z.of_N r = 2 ^ b -> 0 <= b -> frac t f ->
  Forall (fun d => (d < r)%N) ds -> ds = [] \/ last ds 0%N <> 0%N -> (length ds <= k)%nat ->
  f * Z.of_N r ^ Z.of_nat (length ds) = Z.of_N (value r ds) * one t -> expand t r k f = ds.
Proof.
  intros t r b ds. induction ds as [|d ds IH]; intros k f G Hr Hb Hb0 F Hd Hl Hk E.
  - cbn [length] in E. change (value r []) with 0%N in E. assert (f = 0) by lia. subst f. destruct k; reflexivity.
  - destruct k as [|k]; [cbn [length] in Hk; lia|]. cbn [length] in Hk. pose proof (one_pos t G) as P1.
    destruct Hl as [Hl|Hl]; [discriminate|].
    assert (V0 := value_ends r (d :: ds) ltac:(lia) ltac:(discriminate) Hl).
    assert (N0 : f <> 0) by (intro X; subst f; nia).
    cbn [expand]. replace (f =? 0) with false by lia.
    assert (EP := product_power_of_two t r b f G Hb Hb0 F).
    assert (ED : Z.of_N (next_digit t r f) * one t + next_frac t r f = f * Z.of_N r).
    { rewrite <- next_digit_whole by auto. unfold next_frac, whole. rewrite <- EP.
      pose proof (Z.div_mod (product t r f) (one t) ltac:(lia)). lia. }
    pose proof (next_frac_ok t r f G Hr F) as FN. pose proof (proj2 FN) as RN.
    rewrite value_cons_Z in E. cbn [length] in E. rewrite Nat2Z.inj_succ, Z.pow_succ_r in E by lia.
    inversion Hd as [|? ? H1 H2]; subst. pose proof (value_lt_pow r ds ltac:(lia) H2) as VL.
    set (R := Z.of_N r ^ Z.of_nat (length ds)) in *. set (V := Z.of_N (value r ds)) in *.
    assert (HR : 0 < R) by (apply Z.pow_pos_nonneg; lia). assert (HV : 0 <= V) by (unfold V; lia).
    assert (E2 : (Z.of_N (next_digit t r f) * one t + next_frac t r f) * R = (Z.of_N d * R + V) * one t) by (rewrite ED, <- E; ring).
    assert (X : (Z.of_N (next_digit t r f) - Z.of_N d) * (one t * R) = V * one t - next_frac t r f * R) by lia.
    assert (OR : 0 < one t * R) by (apply Z.mul_pos_pos; assumption).
    assert (B1 : 0 <= V * one t < one t * R) by (split; [apply Z.mul_nonneg_nonneg; lia|rewrite Z.mul_comm; apply Z.mul_lt_mono_pos_l; lia]).
    assert (B2 : 0 <= next_frac t r f * R < one t * R) by (split; [apply Z.mul_nonneg_nonneg; lia|apply Z.mul_lt_mono_pos_r; lia]).
    assert (DE : Z.of_N (next_digit t r f) - Z.of_N d = 0).
    { clear - X OR B1 B2. set (q := Z.of_N (next_digit t r f) - Z.of_N d) in *. set (M := one t * R) in *.
      destruct (Z.lt_trichotomy q 0) as [Q|[Q|Q]]; [|exact Q|]; nia. }
    assert (next_digit t r f = d) as -> by lia. f_equal.
    apply IH; auto; [|lia|rewrite DE in X; fold R V; lia].
    destruct ds as [|e ds]; [now left|right; exact Hl].
Qed.

(** What is read from a text without sign is not negative. *)
Definition not_negative (x : fval) : Prop := match x with Fin n => 0 <= n | Inf neg => neg = false | NaN => False end.

Lemma ratio_not_negative : forall p a b, 0 <= a -> 0 <= b -> 0 <= round_ratio p a b.
Proof.
  intros p a b Ha Hb. unfold round_ratio. apply Z.mul_nonneg_nonneg; [|apply Z.pow_nonneg; lia].
  set (c := b * 2 ^ Z.max 0 (Z.log2 (a / b) + 1 - p)).
  assert (0 <= c) by (apply Z.mul_nonneg_nonneg; [lia|apply Z.pow_nonneg; lia]).
  assert (0 <= a / c) by (destruct (Z.eq_dec c 0) as [-> |]; [now rewrite Zdiv_0_r|apply Z.div_pos; lia]).
  unfold nearest. destruct (_ <? _); [lia|]. destruct (_ <? _); [lia|]. destruct (Z.even _); lia.
Qed.

Lemma pack_not_negative : forall t n, 0 <= n -> not_negative (pack t n).
Proof. intros t n H. unfold pack. destruct (_ <? _); cbn [not_negative]; lia. Qed.

Lemma fround_not_negative : forall t n, 0 <= n -> not_negative (fround t n).
Proof. intros t n H. apply pack_not_negative. now apply round_nonneg. Qed.

Lemma append_digit_not_negative : forall t r d root output root' output', good t -> not_negative root -> not_negative output ->
  append_digit t r d root output = (root', output') -> not_negative root' /\ not_negative output'.
Proof.
  intros t r d root output root' output' G Hr Ho E. unfold append_digit in E. injection E as <- <-. pose proof (one_pos t G).
  assert (R : not_negative (times_radix t root r)).
  { destruct root as [m| |]; cbn [times_radix]; [|exact Hr|exact Hr]. apply fround_not_negative. cbn in Hr. lia. }
  split; [exact R|].
  assert (D : not_negative (divide_digit t d (times_radix t root r))).
  { destruct (times_radix t root r) as [m| |]; cbn [divide_digit]; [|cbn; lia|cbn; lia].
    apply pack_not_negative, ratio_not_negative; [nia|exact R]. }
  destruct output as [a| |]; cbn [fadd]; try exact Ho. destruct (divide_digit t d _) as [c| |]; try exact D.
  apply fround_not_negative. cbn in D, Ho. lia.
Qed.

Lemma fraction_not_negative : forall t r s root output x, good t -> not_negative root -> not_negative output ->
  fraction_digits t r s root output = Ok x -> not_negative x.
Proof.
  intros t r s. induction s as [|c s IH]; intros root output x G Hr Ho E; cbn [fraction_digits] in E; [injection E as <-; exact Ho|].
  destruct (digit_character_to_integer c r) as [[d|]| | | |]; cbn [bind] in E; try discriminate.
  destruct (append_digit t r d root output) as [root' output'] eqn:A.
  destruct (append_digit_not_negative _ _ _ _ _ _ _ G Hr Ho A) as [R O]. exact (IH _ _ _ G R O E).
Qed.

Lemma parse_not_negative : forall k t f i itext ds n, fine t -> (2 <= radix (base f) <= 36)%N -> 0 <= i < 2 ^ 63 ->
  numeral (radix (base f)) (shows_plus (sign (base f))) (sep_char (separator (base f))) i itext ->
  sep_char (separator (base f)) <> Some (point_char (point f)) ->
  Forall (fun d => (d < radix (base f))%N) ds -> ds <> [] ->
  parse_floating_point k t (itext ++ point_char (point f) :: map digit_char ds) f = Ok (Fin n) -> 0 <= n.
Proof.
  intros k t f i itext ds n F Hr Hi Hn Hs Hd Hne E. pose proof (fine_good t F) as G. pose proof (one_pos t G).
  rewrite (parse_float_split k t f itext i) in E; auto.
  - assert (X : not_negative (Fin n)); [|exact X]. eapply fraction_not_negative; [exact G| | |exact E]; [cbn; lia|].
    apply fround_not_negative. nia.
  - change (min_of I64) with (- 2 ^ 63). change (max_of I64) with (2 ^ 63 - 1). lia.
  - apply digits_ascii with (radix (base f)); [lia|assumption].
  - destruct ds; [congruence|discriminate].
Qed.
