(** Lemmas for C27 and C59: texts with so many places that the power of the radix overflows. *)
From Coq Require Import NArith ZArith List Bool Lia.
From Coq Require Import ZifyBool ZifyNat ZifyN.
From Verif Require Import Base Integers NumeralSpec FloatSpec UnicodeModel NumberModel NumberText NumberLemmas NumberLemmas2 NumberLemmas4
  FloatModel FloatText FloatLemmas FloatLemmas2 FloatLemmas3 FloatLemmas4 FloatLemmas5 FloatLemmas6 FloatLemmas7 RankLemmas.
Import ListNotations.
Open Scope Z_scope.

(** The power of the radix after j digits. *)
Definition root_after (t : float_type) (b j : Z) : fval := if b * j <? emax t then Fin (2 ^ (b * j) * one t) else Inf false.

Lemma root_step : forall t r b j, fine t -> Z.of_N r = 2 ^ b -> 1 <= b -> 0 <= j ->
  times_radix t (root_after t b j) r = root_after t b (j + 1).
Proof.
  intros t r b j F Hb Hb1 Hj. pose proof (fine_good t F) as G. unfold good in G.
  unfold root_after. replace (b * (j + 1)) with (b * j + b) by ring. assert (0 <= b * j) by nia.
  destruct (Z.ltb_spec (b * j) (emax t)) as [L|L]; [|replace (b * j + b <? emax t) with false by lia; reflexivity].
  cbn [times_radix]. rewrite Hb. replace (2 ^ (b * j) * one t * 2 ^ b) with (2 ^ (b * j + b) * one t) by (rewrite Z.pow_add_r by lia; ring).
  assert (E : 2 ^ (b * j + b) * one t = 2 ^ (b * j + b + scale t)) by (unfold one; now rewrite <- Z.pow_add_r by lia).
  rewrite E. pose proof (pow2_pos (b * j + b + scale t) ltac:(lia)) as P.
  assert (R : rep (prec t) (2 ^ (b * j + b + scale t))).
  { exists 1, (b * j + b + scale t). pose proof (pow2_pos (prec t) ltac:(lia)). lia. }
  unfold fround, pack. rewrite rep_round by (lia || exact R). rewrite Z.abs_eq by lia.
  destruct (Z.ltb_spec (b * j + b) (emax t)) as [M|M].
  - replace (2 ^ (b * j + b + scale t) <? 2 ^ (emax t + scale t)) with true; [reflexivity|].
    symmetry. apply Z.ltb_lt. apply Z.pow_lt_mono_r; lia.
  - replace (2 ^ (b * j + b + scale t) <? 2 ^ (emax t + scale t)) with false.
    + f_equal. apply Z.ltb_ge. lia.
    + symmetry. apply Z.ltb_ge. apply Z.pow_le_mono_r; lia.
Qed.

Lemma roots_after : forall t r b (s : list N) j, fine t -> Z.of_N r = 2 ^ b -> 1 <= b -> 0 <= j ->
  fold_left (fun x (_ : N) => times_radix t x r) s (root_after t b j) = root_after t b (j + Z.of_nat (length s)).
Proof.
  intros t r b s. induction s as [|c s IH]; intros j F Hb Hb1 Hj; [cbn; f_equal; lia|].
  cbn [fold_left length]. rewrite root_step by assumption. rewrite IH by (assumption || lia). f_equal. lia.
Qed.

(** Digits behind an infinite power add nothing. *)
Lemma late_digits : forall t r b es j x, fine t -> (2 <= r <= 36)%N -> Z.of_N r = 2 ^ b -> 1 <= b -> 0 <= j ->
  Forall (fun d => (d < r)%N) es -> emax t <= b * (j + 1) -> in_type t x ->
  fraction_digits t r (map digit_char es) (root_after t b j) (Fin x) = Ok (Fin x).
Proof.
  intros t r b es. induction es as [|d es IH]; intros j x F Hr Hb Hb1 Hj He Hl Hx; [reflexivity|].
  apply Forall_cons_iff in He as [Hd He]. cbn [map fraction_digits].
  rewrite (digit_lookup r (digit_char d) d) by (auto; apply digit_char_value; lia). cbn [bind append_digit].
  unfold append_digit. rewrite root_step by assumption.
  assert (X : root_after t b (j + 1) = Inf false) by (unfold root_after; replace (b * (j + 1) <? emax t) with false by lia; reflexivity).
  assert (Y : fadd t (Fin x) (divide_digit t d (root_after t b (j + 1))) = Fin x).
  { rewrite X. cbn [divide_digit fadd]. rewrite Z.add_0_r. apply fround_in; [destruct F; lia|exact Hx]. }
  rewrite Y. apply IH; auto; nia.
Qed.

(** What is read of digits ds ++ es is what is read of ds. *)
Lemma parse_late : forall k k' t f b itext i ds es x, fine t -> (2 <= radix (base f) <= 36)%N ->
  Z.of_N (radix (base f)) = 2 ^ b -> 1 <= b -> min_of I64 < i <= max_of I64 ->
  numeral (radix (base f)) (shows_plus (sign (base f))) (sep_char (separator (base f))) i itext ->
  sep_char (separator (base f)) <> Some (point_char (point f)) ->
  Forall (fun d => (d < radix (base f))%N) (ds ++ es) -> ds <> [] -> emax t <= b * (Z.of_nat (length ds) + 1) ->
  parse_floating_point k t (itext ++ point_char (point f) :: map digit_char ds) f = Ok (Fin x) -> in_type t x ->
  parse_floating_point k' t (itext ++ point_char (point f) :: map digit_char (ds ++ es)) f = Ok (Fin x).
Proof.
  intros k k' t f b itext i ds es x F Hr Hb Hb1 Hi Hn Hs Hd Hne Hl E Hx.
  apply Forall_app in Hd as [Hd He].
  rewrite (parse_float_split k t f itext i) in E; auto.
  2: eapply digits_ascii; [|exact Hd]; lia. 2: destruct ds; cbn; congruence.
  rewrite (parse_float_split k' t f itext i); auto.
  2: eapply digits_ascii; [|apply Forall_app; split; [exact Hd|exact He]]; lia. 2: destruct ds; cbn; congruence.
  rewrite map_app, fraction_app, E.
  pose proof (roots_after t (radix (base f)) b (map digit_char ds) 0 F Hb Hb1 ltac:(lia)) as R.
  assert (R0 : root_after t b 0 = Fin (one t)).
  { unfold root_after. rewrite Z.mul_0_r. replace (0 <? emax t) with true by (destruct F; lia). now rewrite Z.pow_0_r, Z.mul_1_l. }
  rewrite R0, map_length, Z.add_0_l in R. rewrite R.
  apply late_digits; auto; lia.
Qed.

(** The text of a value that is not negative, in a power-of-two radix: what the digits are. *)
Lemma read_back : forall k k' cs t f b n, fine t -> in_type t n -> 0 <= n ->
  integral_part_fits t n ->
  Z.of_N (radix (base f)) = 2 ^ b -> 1 <= b <= 5 -> separator (base f) = SepNone ->
  limit f = NoLimit ->
  bind (format_floating_point k cs t (Fin n) f) (fun s => parse_floating_point k' t s f)
  = Ok (Fin (n - n mod 2 ^ (scale t - b * ((emax t - 1) / b)))).
Proof.
  intros k k' cs t f b n F Hin H0 Hfit Hb Hb1 Hs Hl. pose proof (fine_good t F) as G. pose proof (one_pos t G) as P1.
  set (r := radix (base f)) in *. set (K := (emax t - 1) / b).
  assert (HK : b * K < emax t <= b * (K + 1)).
  { unfold K. pose proof (Z.div_mod (emax t - 1) b ltac:(lia)). pose proof (Z.mod_pos_bound (emax t - 1) b ltac:(lia)). lia. }
  assert (HK0 : 1 <= K) by (destruct F; nia).
  assert (Hsc : emax t <= scale t) by (destruct F; unfold scale; lia).
  assert (HbK : 0 <= b * K) by nia.
  set (u := 2 ^ (scale t - b * K)). assert (Pu : 0 < u) by (apply pow2_pos; lia).
  assert (Ou : one t = u * 2 ^ (b * K)) by (unfold one, u; rewrite <- Z.pow_add_r by lia; f_equal; lia).
  assert (PK : 0 < 2 ^ (b * K)) by (apply pow2_pos; lia).
  assert (Hr : valid_radix r).
  { assert (2 ^ 1 <= 2 ^ b) by (apply Z.pow_le_mono_r; lia). assert (2 ^ b <= 2 ^ 5) by (apply Z.pow_le_mono_r; lia).
    change (2 ^ 1) with 2 in *. change (2 ^ 5) with 32 in *. unfold valid_radix. lia. }
  assert (Ev : N.even r = true).
  { rewrite <- (N2Z.id r), Hb. replace b with (1 + (b - 1)) by lia. rewrite Z.pow_add_r by lia.
    change (2 ^ 1) with 2. apply N.even_spec. exists (Z.to_N (2 ^ (b - 1))).
    rewrite Z2N.inj_mul; [reflexivity|lia|]. apply Z.pow_nonneg. lia. }
  assert (Hs' : sep_char (separator (base f)) <> Some (point_char (point f))) by (rewrite Hs; discriminate).
  destruct (Z.eq_dec (Z.abs n mod one t) 0) as [X|X].
  { assert (D : (one t | n)) by (apply Z.mod_divide in X; [now apply Z.divide_abs_r|lia]).
    assert (Z0 : n mod u = 0).
    { apply Z.mod_divide; [lia|]. apply (Z.divide_trans _ (one t)); [rewrite Ou; apply Z.divide_factor_l|exact D]. }
    rewrite Z0, Z.sub_0_r. apply round_trip_whole; auto. }
  destruct (format_text (fraction_fuel t f) k cs t f n F Hin Hfit Hr (or_intror Ev) (le_n _)) as (itext & _ & Hn & E).
  unfold format_floating_point. rewrite E. replace (_ =? 0) with false by lia. cbv zeta. cbn [bind]. clear E.
  fold r. set (ds := expand t r (shown t f) (Z.abs n mod one t)).
  assert (Pad : padding f ds = O) by (unfold padding; now rewrite Hl). rewrite Pad. cbn [repeat]. rewrite app_nil_r.
  rewrite Hs. cbn [sep_char]. rewrite fraction_text_none.
  assert (Fx : frac t (Z.abs n mod one t)) by (apply mod_frac; [assumption|]; apply Hin).
  assert (Hlim : limited f = false) by (unfold limited; now rewrite Hl).
  pose proof Hr as [Hr2 Hr36].
  assert (Rest : rest t r (shown t f) (Z.abs n mod one t) = 0).
  { unfold shown. rewrite Hlim. apply expand_ends_even; auto. }
  assert (Ex : exact_digits t r n) by (left; exists b; split; [lia|assumption]).
  pose proof (expand_exact_value t r (shown t f) n G Hr2 (proj1 Hin) Ex) as Hx. cbv zeta in Hx.
  fold ds in Hx. rewrite Rest, Z.add_0_r in Hx.
  assert (Hd : Forall (fun d => (d < r)%N) ds) by (unfold ds; apply expand_digits; auto).
  assert (Hne : ds <> []).
  { unfold ds, shown. rewrite Hlim by lia. unfold good in G. destruct (Z.to_nat (scale t)) eqn:Es; [lia|].
    cbn [expand]. replace (Z.abs n mod one t =? 0) with false by lia. discriminate. }
  rewrite (Z.abs_eq n) in Hx, X by lia. clearbody ds. clear Rest Ex Fx Pad.
  assert (Wh : 0 <= whole t n <= max_of I64).
  { pose proof (fits_whole t n G Hfit). split; [|lia]. unfold whole. apply Z.div_pos; lia. }
  set (fr := n mod one t) in *. assert (Bf : 0 <= fr < one t) by (apply Z.mod_pos_bound; lia).
  assert (En : n = whole t n * one t + fr) by (unfold whole, fr; pose proof (Z.div_mod n (one t) ltac:(lia)); lia).
  assert (Mu : n mod u = fr mod u).
  { unfold fr. rewrite Ou. rewrite (Z.mul_comm u). apply Znumtheory.Zmod_div_mod; [lia|nia|]. apply Z.divide_factor_r. }
  rewrite Mu.
  set (L := Z.of_nat (length ds)) in *. rewrite (pow_2_pow r b L Hb) in Hx by (unfold L; lia).
  assert (HL : 0 <= L) by (unfold L; lia). assert (HbL : 0 <= b * L) by (apply Z.mul_nonneg_nonneg; lia).
  destruct (Z.le_gt_cases L K) as [LK|LK].
  - assert (LK2 : b * L <= b * K) by (apply Z.mul_le_mono_nonneg_l; lia).
    assert (Zf : fr mod u = 0).
    { apply Z.mod_divide; [lia|]. assert (PL : 0 < 2 ^ (b * L)) by (apply pow2_pos; exact HbL).
      assert (Q : u = 2 ^ (scale t - b * K)) by reflexivity.
      exists (Z.of_N (value r ds) * 2 ^ (b * K - b * L)). apply (Z.mul_cancel_r _ _ (2 ^ (b * L))); [lia|]. rewrite <- Hx.
      replace (Z.of_N (value r ds) * 2 ^ (b * K - b * L) * u * 2 ^ (b * L)) with (Z.of_N (value r ds) * (u * (2 ^ (b * K - b * L) * 2 ^ (b * L)))) by ring.
      rewrite <- Z.pow_add_r by (clear - LK2 HbL; lia). replace (b * K - b * L + b * L) with (b * K) by ring. now rewrite <- Ou. }
    rewrite Zf, Z.sub_0_r. apply (parse_float_exact k' t f b itext (whole t n) ds n); auto; try lia.
    fold r L. rewrite (pow_2_pow r b L Hb) by (unfold L; lia). rewrite Hx. f_equal. clear - En. lia.
  - assert (LK2 : 0 <= b * (L - K)) by (apply Z.mul_nonneg_nonneg; lia).
    rewrite <- (firstn_skipn (Z.to_nat K) ds). set (d1 := firstn (Z.to_nat K) ds). set (d2 := skipn (Z.to_nat K) ds).
    assert (L1 : Z.of_nat (length d1) = K) by (unfold d1; rewrite firstn_length; unfold L in LK; lia).
    assert (L2 : Z.of_nat (length d2) = L - K) by (unfold d2; rewrite skipn_length; unfold L in *; lia).
    assert (Ed : ds = d1 ++ d2) by (symmetry; apply firstn_skipn).
    assert (V : Z.of_N (value r ds) = Z.of_N (value r d1) * 2 ^ (b * (L - K)) + Z.of_N (value r d2)).
    { rewrite Ed at 1. rewrite value_app_Z, L2. now rewrite (pow_2_pow r b (L - K) Hb) by lia. }
    rewrite Ed in Hd. apply Forall_app in Hd as [H1 H2].
    assert (B2 : Z.of_N (value r d2) < 2 ^ (b * (L - K))).
    { rewrite <- (pow_2_pow r b (L - K) Hb), <- L2 by lia. apply value_lt_pow; [lia|assumption]. }
    set (V1 := Z.of_N (value r d1)) in *. set (V2 := Z.of_N (value r d2)) in *. set (V0 := Z.of_N (value r ds)) in *.
    assert (N1 : 0 <= V1) by (unfold V1; lia). assert (N2 : 0 <= V2) by (unfold V2; lia).
    assert (PL : 2 ^ (b * L) = 2 ^ (b * K) * 2 ^ (b * (L - K))) by (rewrite <- Z.pow_add_r by assumption; f_equal; ring).
    assert (PLK : 0 < 2 ^ (b * (L - K))) by (apply pow2_pos; exact LK2).
    assert (W : 0 <= fr - V1 * u < u).
    { set (A := 2 ^ (b * K)) in *. set (B := 2 ^ (b * (L - K))) in *. rewrite PL, Ou, V in Hx.
      assert (Q : (fr - V1 * u) * B = V2 * u).
      { apply (Z.mul_cancel_r _ _ A); [lia|]. replace ((fr - V1 * u) * B * A) with (fr * (A * B) - V1 * u * B * A) by ring. rewrite <- Hx. ring. }
      assert (Q2 : V2 * u < B * u) by (apply Z.mul_lt_mono_pos_r; lia).
      assert (Q3 : 0 <= V2 * u) by (apply Z.mul_nonneg_nonneg; lia). clear - Q Q2 Q3 PLK Pu. clearbody B. nia. }
    assert (Fu : fr mod u = fr - V1 * u).
    { symmetry. apply (Z.mod_unique _ _ V1); [left; exact W|ring]. }
    set (x := n - fr mod u).
    assert (Ix : in_type t x).
    { assert (Nx : 0 <= x).
      { unfold x. pose proof (Z.mod_le fr u (proj1 Bf) Pu). assert (0 <= whole t n * one t) by (apply Z.mul_nonneg_nonneg; [apply Wh|clear - P1; lia]). clear - H H3 En. lia. }
      destruct Hin as [Rn Bn]. rewrite (Z.abs_eq n) in Rn, Bn by lia. split; rewrite Z.abs_eq by lia.
      - unfold x. rewrite <- Mu. unfold u. apply rep_trunc; [lia|exact Rn].
      - unfold x. pose proof (Z.mod_pos_bound fr u Pu). lia. }
    assert (Nd : d1 <> []) by (intros Q; rewrite Q in L1; cbn in L1; lia).
    apply (parse_late k' k' t f b itext (whole t n)); auto; try lia.
    + assert (min_of I64 < 0) by reflexivity. lia.
    + apply Forall_app. auto.
    + apply (parse_float_exact k' t f b itext (whole t n) d1 x); auto; try lia.
      fold r. rewrite L1, (pow_2_pow r b K Hb) by lia. fold V1. unfold x. rewrite Fu, Ou.
      replace (n - (fr - V1 * u) - whole t n * (u * 2 ^ (b * K))) with (V1 * u + (n - whole t n * one t - fr)) by (rewrite Ou; ring).
      replace (n - whole t n * one t - fr) with 0 by lia. ring.
Qed.
