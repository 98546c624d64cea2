(** Formatting: the number denoted, place counts, round trips. *)
From Coq Require Import NArith ZArith List Bool Lia ZifyBool ZifyNat ZifyN.
From Verif Require Import Base Integers NumeralSpec FloatSpec UnicodeSpec UnicodeModel UnicodeText
  UnicodeLemmas2 NumberModel NumberText NumberLemmas NumberLemmas2 NumberLemmas4 NumberLemmas5 NumberLemmas6
  FloatModel FloatText FloatLemmas FloatLemmas2 FloatLemmas3 FloatLemmas4 FloatLemmas5.
Import ListNotations.
Open Scope Z_scope.

(** What the text denotes: the number itself, or one less if it is negative and
    not integral. *)
Definition shown_value (t : float_type) (n : Z) : Z :=
  if (n <? 0) && negb (Z.abs n mod one t =? 0) then n - one t else n.

Lemma abs_mod_zero : forall n b, 0 < b -> Z.abs n mod b = 0 -> n = n / b * b.
Proof.
  intros n b Hb H. apply Z.mod_divide in H; [|lia]. apply Z.divide_abs_r in H as [q ->].
  rewrite Z.div_mul by lia. reflexivity.
Qed.

Lemma whole_negative : forall n b, 0 < b -> n < 0 -> Z.abs n mod b <> 0 ->
  n / b = - (Z.abs n / b) - 1.
Proof.
  intros n b Hb Hn H. replace n with (- Z.abs n) at 1 by lia. rewrite Z.div_opp_l_nz by lia. lia.
Qed.

(** When the products are exact. *)
Definition exact_digits (t : float_type) (r : N) (n : Z) : Prop :=
  (exists b, 0 <= b /\ Z.of_N r = 2 ^ b) \/
  (exists s, 0 <= s <= scale t /\ Z.of_N r * 2 ^ s <= 2 ^ prec t /\ (2 ^ (scale t - s) | n)).

Lemma expand_exact_value : forall t r k n, good t -> (2 <= r)%N -> rep (prec t) (Z.abs n) -> exact_digits t r n ->
  let f := Z.abs n mod one t in
  Z.of_N (value r (expand t r k f)) * one t + rest t r k f
  = f * Z.of_N r ^ Z.of_nat (length (expand t r k f)).
Proof.
  intros t r k n G Hr R E f. assert (F : frac t f) by now apply mod_frac.
  destruct E as [(b & Hb0 & Hb)|(s & Hs & Hp & D)].
  - apply (expand_exact t r (fun _ => True)); auto. intros g _ Fg. split; [|exact I].
    eapply product_power_of_two; eauto.
  - apply (expand_exact t r (fun g => (2 ^ (scale t - s) | g))); auto.
    + intros g Dg Fg. now apply product_short.
    + unfold f. apply Z.divide_abs_r in D. destruct D as [q ->].
      unfold one. rewrite (pow2_split (scale t - s) (scale t)) by lia.
      rewrite (Z.mul_comm (2 ^ (scale t - s))). rewrite Z.mul_mod_distr_r.
      * eexists. reflexivity.
      * pose proof (pow2_pos (scale t - (scale t - s)) ltac:(lia)). lia.
      * pose proof (pow2_pos (scale t - s) ltac:(lia)). lia.
Qed.

Lemma format_text : forall fuel k cs t f n, fine t -> in_type t n -> integral_part_fits t n ->
  valid_radix (radix (base f)) -> (limited f = true \/ N.even (radix (base f)) = true) ->
  (fraction_fuel t f <= fuel)%nat ->
  exists itext,
    format_integer k cs I64 (whole t n) (base f) = Ok itext /\
    numeral (radix (base f)) (shows_plus (sign (base f))) (sep_char (separator (base f))) (whole t n) itext /\
    format_floating_point_with fuel k cs t (Fin n) f
    = Ok (itext ++
        if Z.abs n mod one t =? 0 then []
        else let ds := expand t (radix (base f)) (shown t f) (Z.abs n mod one t) in
             point_char (point f) :: fraction_text (sep_char (separator (base f))) 0 ds
               ++ repeat 48%N (padding f ds)).
Proof.
  intros fuel k cs t f n F [R _] Hfit Hr Hl Hf. pose proof (fine_good t F) as G.
  apply format_float_ok; auto.
  - now apply fits_whole.
  - intro L. destruct Hl as [Hl|Hl]; [congruence|]. destruct Hr.
    apply expand_ends_even; auto. now apply mod_frac.
Qed.

Lemma format_denotes : forall k cs t f n, fine t -> in_type t n -> integral_part_fits t n ->
  valid_radix (radix (base f)) -> sep_char (separator (base f)) <> Some (point_char (point f)) ->
  limit f = NoLimit -> N.even (radix (base f)) = true ->
  exists text, format_floating_point k cs t (Fin n) f = Ok text /\
    denotes_near (radix (base f)) (point_char (point f)) text (shown_value t n) (one t) (prec t - 1) /\
    (exact_digits t (radix (base f)) n ->
     denotes (radix (base f)) (point_char (point f)) text (shown_value t n) (one t)).
Proof.
  intros k cs t f n F Hin Hfit Hr Hs Hl Ev. pose proof (fine_good t F) as G.
  pose proof (one_pos t G) as P1.
  assert (Hlim : limited f = false) by (unfold limited; now rewrite Hl).
  destruct (format_text (fraction_fuel t f) k cs t f n F Hin Hfit Hr (or_intror Ev) (le_n _)) as (itext & _ & Hn & E).
  eexists. split; [exact E|]. clear E.
  set (r := radix (base f)) in *. set (x := Z.abs n mod one t) in *.
  assert (Hr' : (2 <= r <= 36)%N) by exact Hr.
  unfold shown_value. fold x.
  destruct (Z.eqb_spec x 0) as [X|X].
  - rewrite app_nil_r, andb_false_r. unfold denotes, denotes_near.
    destruct (reading_whole _ _ _ _ _ (point f) Hr' Hn Hs) as [-> ->]. cbn [Z.of_nat]. rewrite Z.pow_0_r.
    pose proof (abs_mod_zero n (one t) P1 X) as En. unfold whole.
    split; [|intros _; lia].
    replace (n / one t * one t - n * 1) with 0 by lia. cbn [Z.abs]. lia.
  - cbv zeta. set (ds := expand t r (shown t f) x).
    assert (Fx : frac t x) by (apply mod_frac; [assumption|]; apply Hin).
    assert (Hd : Forall (fun d => (d < r)%N) ds) by (apply expand_digits; auto; lia).
    assert (Pad : padding f ds = O) by (unfold padding; now rewrite Hl).
    rewrite Pad.
    destruct (reading_fraction _ _ _ _ _ (point f) ds 0 Hr' Hn Hs Hd) as (Hp & _ & Hnum).
    specialize (Hnum eq_refl). unfold denotes, denotes_near. rewrite Hp, Hnum, Nat.add_0_r. clear Hp Hnum.
    assert (Rest : rest t r (shown t f) x = 0).
    { unfold shown. rewrite Hlim. apply expand_ends_even; auto. lia. }
    pose proof (expand_near t r (shown t f) x G ltac:(lia) Fx) as Near. cbv zeta in Near. fold ds in Near.
    rewrite Rest, Z.add_0_r in Near.
    set (R := Z.of_N r ^ Z.of_nat (length ds)) in *.
    assert (HR : 1 <= R) by (unfold R; pose proof (Z.pow_pos_nonneg (Z.of_N r) (Z.of_nat (length ds)) ltac:(lia) ltac:(lia)); lia).
    set (V := Z.of_N (value r ds)) in *.
    apply near_simple in Near; try assumption; try lia.
    (* the difference is that of the fractions *)
    assert (D : exists sg, (sg = 1 \/ sg = -1) /\
      (if whole t n <? 0 then -1 else 1) * (Z.abs (whole t n) * R + V) * one t
        - (if (n <? 0) && negb false then n - one t else n) * R = sg * (V * one t - x * R)).
    { cbn [negb]. rewrite andb_true_r. pose proof (Z.div_mod (Z.abs n) (one t) ltac:(lia)) as DM. fold x in DM.
      destruct (Z.ltb_spec n 0) as [Neg|Pos].
      - exists (-1). split; [auto|].
        pose proof (whole_negative n (one t) P1 Neg X) as W. unfold whole.
        pose proof (Z.div_pos (Z.abs n) (one t) ltac:(lia) P1) as Q.
        replace (n / one t <? 0) with true by lia. rewrite Z.abs_neq by lia. rewrite W.
        set (q := Z.abs n / one t) in *. replace n with (- (one t * q + x)) by lia. ring.
      - exists 1. split; [auto|]. rewrite (Z.abs_eq n) in * by lia. unfold whole.
        pose proof (Z.div_pos n (one t) ltac:(lia) P1) as Q.
        replace (n / one t <? 0) with false by lia. rewrite Z.abs_eq by lia.
        set (q := n / one t) in *. replace n with (one t * q + x) by lia. ring. }
    destruct D as (sg & Hsg & D). split.
    + rewrite D. replace (Z.abs (sg * (V * one t - x * R))) with (Z.abs (V * one t - x * R)) by (destruct Hsg; subst sg; lia).
      exact Near.
    + intro Ex. pose proof (expand_exact_value t r (shown t f) n G ltac:(lia) (proj1 Hin) Ex) as Hx. cbv zeta in Hx.
      fold x in Hx. fold ds in Hx. rewrite Rest, Z.add_0_r in Hx. fold V in Hx. fold R in Hx.
      rewrite Hx, Z.sub_diag, Z.mul_0_r in D. lia.
Qed.

(** Places. *)
Lemma format_places : forall k cs t f n, fine t -> in_type t n -> integral_part_fits t n ->
  valid_radix (radix (base f)) -> sep_char (separator (base f)) <> Some (point_char (point f)) ->
  limited f = true ->
  exists text, format_floating_point k cs t (Fin n) f = Ok text /\
    let c := places_in (radix (base f)) (point_char (point f)) text in
    (c <= N.to_nat (places f))%nat /\
    (Z.abs n mod one t <> 0 -> limit f = ExactlyEqual -> c = N.to_nat (places f)) /\
    (Z.abs n mod one t = 0 -> c = O).
Proof.
  intros k cs t f n F Hin Hfit Hr Hs Hl. pose proof (fine_good t F) as G.
  destruct (format_text (fraction_fuel t f) k cs t f n F Hin Hfit Hr (or_introl Hl) (le_n _)) as (itext & _ & Hn & E).
  eexists. split; [exact E|]. clear E.
  set (r := radix (base f)) in *. set (x := Z.abs n mod one t) in *.
  assert (Hr' : (2 <= r <= 36)%N) by exact Hr.
  destruct (Z.eqb_spec x 0) as [X|X].
  - rewrite app_nil_r. destruct (reading_whole _ _ _ _ _ (point f) Hr' Hn Hs) as [_ ->].
    split; [lia|]. split; [congruence|reflexivity].
  - cbv zeta. set (ds := expand t r (shown t f) x).
    assert (Fx : frac t x) by (apply mod_frac; [assumption|]; apply Hin).
    assert (Hd : Forall (fun d => (d < r)%N) ds) by (apply expand_digits; auto; lia).
    destruct (reading_fraction _ _ _ _ _ (point f) ds (padding f ds) Hr' Hn Hs Hd) as (-> & _ & _).
    assert (Hlen : (length ds <= N.to_nat (places f))%nat).
    { unfold ds, shown. rewrite Hl. apply expand_length. }
    unfold padding. split; [|split; [|congruence]].
    + destruct (limit f); lia.
    + intros _ ->. lia.
Qed.

(** Round trips. *)
Lemma round_trip_whole : forall k k' cs t f n, fine t -> in_type t n -> integral_part_fits t n ->
  valid_radix (radix (base f)) -> sep_char (separator (base f)) <> Some (point_char (point f)) ->
  limit f = NoLimit \/ limited f = true -> (one t | n) ->
  bind (format_floating_point k cs t (Fin n) f) (fun s => parse_floating_point k' t s f) = Ok (Fin n).
Proof.
  intros k k' cs t f n F Hin Hfit Hr Hs Hl D. pose proof (fine_good t F) as G. pose proof (one_pos t G) as P1.
  assert (X : Z.abs n mod one t = 0) by (apply Z.mod_divide; [lia|]; now apply Z.divide_abs_r).
  pose proof (fits_whole t n G Hfit) as W.
  assert (En : n = whole t n * one t) by (unfold whole; now apply abs_mod_zero).
  destruct (format_float_ok (fraction_fuel t f) k cs t f n G (proj1 Hin) Hr W) as (itext & _ & Hn & E).
  { intros _. rewrite X. clear. induction (Z.to_nat (scale t)); cbn; auto. }
  { apply le_n. }
  unfold format_floating_point. rewrite E, X, Z.eqb_refl, app_nil_r. cbn [bind].
  rewrite (parse_float_whole k' t f itext (whole t n)); auto. f_equal.
  rewrite from_long_long_in; auto; [now rewrite <- En|rewrite <- En; apply Hin|].
  change (min_of I64) with (- 2 ^ 63) in W. change (max_of I64) with (2 ^ 63 - 1) in W. lia.
Qed.

Lemma round_trip_power_of_two : forall k k' cs t f b n, fine t -> in_type t n -> 0 <= n ->
  integral_part_fits t n ->
  Z.of_N (radix (base f)) = 2 ^ b -> 1 <= b <= 5 -> separator (base f) = SepNone ->
  limit f = NoLimit -> (2 ^ (prec t + 2) | n) ->
  bind (format_floating_point k cs t (Fin n) f) (fun s => parse_floating_point k' t s f) = Ok (Fin n).
Proof.
  intros k k' cs t f b n F Hin H0 Hfit Hb Hb1 Hs Hl D. pose proof (fine_good t F) as G. pose proof (one_pos t G) as P1.
  set (r := radix (base f)) in *.
  assert (Hr : valid_radix r).
  { assert (2 ^ 1 <= 2 ^ b) by (apply Z.pow_le_mono_r; lia). assert (2 ^ b <= 2 ^ 5) by (apply Z.pow_le_mono_r; lia).
    change (2 ^ 1) with 2 in *. change (2 ^ 5) with 32 in *. unfold valid_radix. lia. }
  assert (Ev : N.even r = true).
  { rewrite <- (N2Z.id r), Hb. replace b with (1 + (b - 1)) by lia. rewrite Z.pow_add_r by lia.
    change (2 ^ 1) with 2. apply N.even_spec. exists (Z.to_N (2 ^ (b - 1))).
    rewrite Z2N.inj_mul; [reflexivity|lia|]. apply Z.pow_nonneg. lia. }
  assert (Hs' : sep_char (separator (base f)) <> Some (point_char (point f))) by (rewrite Hs; discriminate).
  destruct (Z.eq_dec (Z.abs n mod one t) 0) as [X|X].
  { apply round_trip_whole; auto. apply Z.mod_divide in X; [|lia]. now apply Z.divide_abs_r. }
  destruct (format_text (fraction_fuel t f) k cs t f n F Hin Hfit Hr (or_intror Ev) (le_n _)) as (itext & _ & Hn & E).
  unfold format_floating_point. rewrite E. replace (_ =? 0) with false by lia. cbv zeta. cbn [bind].
  fold r. set (ds := expand t r (shown t f) (Z.abs n mod one t)).
  assert (Pad : padding f ds = O) by (unfold padding; now rewrite Hl). rewrite Pad. cbn [repeat]. rewrite app_nil_r.
  rewrite Hs. cbn [sep_char]. rewrite fraction_text_none.
  assert (Fx : frac t (Z.abs n mod one t)) by (apply mod_frac; [assumption|]; apply Hin).
  assert (Hlim : limited f = false) by (unfold limited; now rewrite Hl).
  destruct Hr as [Hr2 Hr36].
  assert (Rest : rest t r (shown t f) (Z.abs n mod one t) = 0).
  { unfold shown. rewrite Hlim. apply expand_ends_even; auto. }
  assert (Ex : exact_digits t r n) by (left; exists b; split; [lia|assumption]).
  pose proof (expand_exact_value t r (shown t f) n G Hr2 (proj1 Hin) Ex) as Hx. cbv zeta in Hx.
  fold ds in Hx. rewrite Rest, Z.add_0_r in Hx.
  rewrite (Z.abs_eq n) in * by lia.
  assert (Hlen : b * Z.of_nat (length ds) < emax t).
  { set (m := Z.to_nat ((emax t - 5 + b - 1) / b)).
    assert (Hm : emax t - 5 <= b * Z.of_nat m < emax t).
    { unfold m. destruct F. rewrite Z2Nat.id by (apply Z.div_pos; lia).
      pose proof (Z.div_mod (emax t - 5 + b - 1) b ltac:(lia)). pose proof (Z.mod_pos_bound (emax t - 5 + b - 1) b ltac:(lia)). lia. }
    assert (Rm : rest t r m (n mod one t) = 0).
    { apply (expand_ends_pow t r b); auto; try lia.
      - destruct F. unfold scale. lia.
      - unfold one. assert (Dn : (2 ^ (scale t - b * Z.of_nat m) | n)).
        { apply (Z.divide_trans _ (2 ^ (prec t + 2))); [|assumption]. apply pow2_div. destruct F. unfold scale. lia. }
        assert (Do : (2 ^ (scale t - b * Z.of_nat m) | 2 ^ scale t)).
        { apply pow2_div. destruct F. unfold scale. lia. }
        rewrite Zmod_eq_full by (pose proof (pow2_pos (scale t) ltac:(unfold good in G; lia)); lia).
        apply Z.divide_sub_r; [assumption|]. now apply Z.divide_mul_r. }
    assert (Em : ds = expand t r m (n mod one t)).
    { unfold ds. rewrite (Z.abs_eq n) by lia. unfold shown. rewrite Hlim. apply expand_stop; [assumption|].
      assert (Z.of_nat m <= b * Z.of_nat m) by nia. destruct F. unfold scale. lia. }
    rewrite Em. pose proof (expand_length t r m (n mod one t)). nia. }
  assert (Hne : ds <> []).
  { unfold ds, shown. rewrite (Z.abs_eq n), Hlim by lia. unfold good in G. destruct (Z.to_nat (scale t)) eqn:Es; [lia|].
    cbn [expand]. replace (n mod one t =? 0) with false by lia. discriminate. }
  apply (parse_float_exact k' t f b itext (whole t n) ds n); auto; try lia.
  - pose proof (fits_whole t n G Hfit). split; [|lia]. unfold whole. apply Z.div_pos; lia.
  - unfold ds. rewrite (Z.abs_eq n) by lia. apply expand_digits; auto.
  - fold r. rewrite Hx. rewrite sub_whole. reflexivity.
Qed.

(** Separators in the fraction are not accepted back. *)
Lemma round_trip_separator : forall k k' cs t f n c, fine t -> in_type t n -> integral_part_fits t n ->
  valid_radix (radix (base f)) -> sep_char (separator (base f)) = Some c -> c <> point_char (point f) ->
  (limited f = true \/ N.even (radix (base f)) = true) ->
  (3 <= length (expand t (radix (base f)) (shown t f) (Z.abs n mod one t)))%nat ->
  bind (format_floating_point k cs t (Fin n) f) (fun s => parse_floating_point k' t s f)
  = Throw (ParseFailed WrongPlaceLimit).
Proof.
  intros k k' cs t f n c F Hin Hfit Hr Hs Hc Hl Hlen. pose proof (fine_good t F) as G.
  destruct (format_text (fraction_fuel t f) k cs t f n F Hin Hfit Hr Hl (le_n _)) as (itext & _ & Hn & E).
  unfold format_floating_point. rewrite E. cbn [bind]. clear E.
  set (r := radix (base f)) in *. set (x := Z.abs n mod one t) in *.
  assert (Fx : frac t x) by (apply mod_frac; [assumption|]; apply Hin).
  destruct (Z.eqb_spec x 0) as [X|X].
  { rewrite X in Hlen. exfalso. destruct (shown t f); cbn in Hlen; lia. }
  cbv zeta. set (ds := expand t r (shown t f) x) in *.
  assert (Hd : Forall (fun d => (d < r)%N) ds) by (destruct Hr; apply expand_digits; auto).
  destruct ds as [|d1 [|d2 [|d3 ds']]] eqn:Eds; cbn [length] in Hlen; try lia.
  rewrite (parse_float_split k' t f itext (whole t n)); auto.
  - rewrite !fraction_text_cons. fold r. unfold sep_at. rewrite Hs. cbn [Nat.eqb Nat.modulo Nat.divmod fst snd Nat.sub app].
    change (digit_char d1 :: digit_char d2 :: digit_char d3 :: c :: ?s)
      with (map digit_char [d1; d2; d3] ++ c :: s).
    apply fraction_digits_stop; auto.
    + inversion_clear Hd as [|? ? A B]. inversion_clear B as [|? ? A' B']. inversion_clear B' as [|? ? A'' _]. repeat constructor; auto.
    + destruct Hr as [Hr2 Hr36].
      assert (Cs : (c = 44 \/ c = 46)%N) by (destruct (separator (base f)); cbn in Hs; try discriminate; injection Hs as <-; auto).
      unfold digit_character_to_integer, is_radix_digit, tolower, to_char32.
      destruct Cs as [->| ->]; destruct (r <? 10)%N; reflexivity.
  - now apply fits_whole.
  - rewrite Hs. congruence.
  - apply Forall_app. split; [apply (fraction_text_ascii r); [apply Hr|assumption]|].
    apply Forall_forall. intros y Hy. apply repeat_spec in Hy. lia.
  - rewrite fraction_text_cons. discriminate.
Qed.
