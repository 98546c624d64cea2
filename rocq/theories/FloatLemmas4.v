(** Parsing floating-point numbers. *)
From Coq Require Import NArith ZArith List Bool Lia ZifyBool ZifyNat ZifyN.
From Verif Require Import Base Integers NumeralSpec FloatSpec UnicodeSpec UnicodeModel UnicodeText
  UnicodeLemmas2 NumberModel NumberText NumberLemmas NumberLemmas2 NumberLemmas4 NumberLemmas6
  FloatModel FloatLemmas FloatLemmas2 FloatLemmas3.
Import ListNotations.
Open Scope Z_scope.

(* ------------------------------------------------------------------ texts *)

Lemma split_at_none : forall c s, ~ In c s -> split_at c s = None.
Proof.
  induction s as [|x s IH]; intro H; [reflexivity|]. cbn in *.
  destruct (N.eqb_spec x c); [tauto|]. rewrite IH; tauto.
Qed.

Lemma split_at_some : forall c a b, ~ In c a -> split_at c (a ++ c :: b) = Some (a, b).
Proof.
  induction a as [|x a IH]; intros b H; cbn in *.
  - now rewrite N.eqb_refl.
  - destruct (N.eqb_spec x c); [tauto|]. rewrite IH; tauto.
Qed.

Lemma convert_ascii : forall k s, Forall (fun c => (c < 128)%N) s -> convert_string K32 k s = Ok s.
Proof.
  intros k s H. rewrite <- (ascii_units k s H) at 1. rewrite convert_ok.
  - now rewrite ascii_units.
  - eapply Forall_impl; [|exact H]. intros c Hc. now apply ascii_insertable.
  - eapply Forall_impl; [|exact H]. intros c Hc. unfold single_unit, bmp. destruct k; cbn in *; lia || exact I.
  - eapply Forall_impl; [|exact H]. intros c Hc. now apply ascii_insertable.
Qed.

Lemma digit_char_range : forall d, (d < 36)%N ->
  (48 <= digit_char d <= 57 \/ 65 <= digit_char d <= 90)%N.
Proof. intros d H. unfold digit_char. destruct (N.ltb_spec d 10); lia. Qed.

Lemma grouped_in : forall sep cs n c, In c (grouped_before sep cs n) -> In c cs \/ sep = Some c.
Proof.
  induction cs as [|x cs IH]; intros n c H; [destruct H|]. cbn in *. destruct H as [->|H]; [auto|].
  apply in_app_or in H as [H|H].
  - unfold separator_after in H. destruct sep as [s|]; [|destruct H].
    destruct (_ && _); [|destruct H]. destruct H as [->|[]]. auto.
  - apply IH in H. tauto.
Qed.

Lemma numeral_chars : forall r plus sep x text c, (r <= 36)%N -> numeral r plus sep x text ->
  In c text -> (c = 43 \/ c = 45 \/ 48 <= c <= 57 \/ 65 <= c <= 90)%N \/ sep = Some c.
Proof.
  intros r plus sep x text c Hr (ds & (_ & Hd & _) & _ & ->) H.
  apply in_app_or in H as [H|H].
  - left. unfold sign_text in H. destruct (x <? 0); [|destruct (_ && _)]; cbn in H; lia.
  - apply grouped_in in H as [H|H]; [|auto]. left. apply in_map_iff in H as (d & <- & Hin).
    rewrite Forall_forall in Hd. specialize (Hd d Hin). pose proof (digit_char_range d ltac:(lia)). lia.
Qed.

Lemma numeral_ascii : forall r plus s x text, (r <= 36)%N -> numeral r plus (sep_char s) x text ->
  Forall (fun c => (c < 128)%N) text.
Proof.
  intros r plus s x text Hr H. apply Forall_forall. intros c Hc.
  destruct (numeral_chars _ _ _ _ _ c Hr H Hc) as [D|D]; [lia|]. destruct s; cbn in D; congruence || (injection D as <-; lia).
Qed.

Lemma numeral_no_point : forall r plus s x text p, (r <= 36)%N -> numeral r plus (sep_char s) x text ->
  sep_char s <> Some (point_char p) -> ~ In (point_char p) text.
Proof.
  intros r plus s x text p Hr H Hs Hin.
  destruct (numeral_chars _ _ _ _ _ _ Hr H Hin) as [D|D]; [destruct p; cbn in D; lia|congruence].
Qed.

Lemma fraction_text_none : forall ds n, fraction_text None n ds = map digit_char ds.
Proof. induction ds as [|d ds IH]; intro n; [reflexivity|]. cbn [fraction_text map app]. now rewrite IH. Qed.

Lemma digits_ascii : forall r ds, (r <= 36)%N -> Forall (fun d => (d < r)%N) ds ->
  Forall (fun c => (c < 128)%N) (map digit_char ds).
Proof.
  intros r ds Hr H. induction H; constructor; auto. apply digit_char_ascii. lia.
Qed.

Lemma fraction_text_ascii : forall r s ds n, (r <= 36)%N -> Forall (fun d => (d < r)%N) ds ->
  Forall (fun c => (c < 128)%N) (fraction_text (sep_char s) n ds).
Proof.
  intros r s ds n Hr H. revert n. induction H as [|d ds Hd _ IH]; intro n; [constructor|].
  rewrite fraction_text_cons. constructor; [apply digit_char_ascii; lia|].
  apply Forall_app. split; [|apply IH].
  unfold sep_at. destruct s; cbn [sep_char]; try destruct (Nat.eqb _ _); repeat constructor; lia.
Qed.

Lemma digit_lookup : forall r c d, (2 <= r <= 36)%N -> is_digit r c d ->
  digit_character_to_integer c r = Ok (Some d).
Proof.
  intros r c d Hr D. destruct (radix_digit_ok r c d Hr D) as (_ & G & _).
  unfold get_next_digit, report_non_digit_character in G. destruct (digit_character_to_integer c r) as [[e|]| | | |]; cbn [bind] in G; congruence.
Qed.

(* -------------------------------------------------------------- arithmetic *)

Lemma nearest_scale : forall q b c, 0 < b -> 0 < c -> nearest (q * b) (b * c) = nearest q c.
Proof.
  intros q b c Hb Hc. unfold nearest.
  rewrite (Z.mul_comm b c). rewrite Z.div_mul_cancel_r by lia. rewrite Z.mul_mod_distr_r by lia.
  replace (2 * (q mod c * b) <? c * b) with (2 * (q mod c) <? c) by nia.
  replace (c * b <? 2 * (q mod c * b)) with (c <? 2 * (q mod c)) by nia. reflexivity.
Qed.

Lemma round_ratio_mul : forall p q b, 0 <= q -> 0 < b -> round_ratio p (q * b) b = round_units p q.
Proof.
  intros p q b Hq Hb. unfold round_ratio. rewrite Z.div_mul by lia.
  change (Z.max 0 (Z.log2 q + 1 - p)) with (grid p q).
  rewrite nearest_scale by (auto; apply pow2_pos, grid_nonneg). now rewrite round_units_nonneg.
Qed.

Lemma round_units_opp : forall p n, round_units p (- n) = - round_units p n.
Proof. intros. unfold round_units. rewrite Z.sgn_opp, Z.abs_opp. lia. Qed.

(** Values the type has. *)
Definition in_type (t : float_type) (n : Z) : Prop :=
  rep (prec t) (Z.abs n) /\ Z.abs n < 2 ^ (emax t + scale t).

Lemma fround_in : forall t n, 0 < prec t -> in_type t n -> fround t n = Fin n.
Proof.
  intros t n Hp [R B]. unfold fround.
  assert (E : round_units (prec t) n = n).
  { destruct (Z.abs_eq_or_opp n) as [A|A]; rewrite A in R.
    - now apply rep_round.
    - apply rep_round in R; auto. rewrite round_units_opp in R. lia. }
  rewrite E. unfold pack. replace (Z.abs n <? 2 ^ (emax t + scale t)) with true by lia. reflexivity.
Qed.

(** The types of the standard are like this. *)
Definition fine (t : float_type) : Prop := 7 <= prec t /\ 64 <= emax t.

Lemma fine_good : forall t, fine t -> good t.
Proof. intros t [A B]. unfold good, scale. lia. Qed.

Lemma from_long_long_in : forall t i, fine t -> rep (prec t) (Z.abs (i * one t)) ->
  Z.abs i <= 2 ^ 63 -> from_long_long t i = Fin (i * one t).
Proof.
  intros t i F R B. pose proof (fine_good t F) as G. pose proof (one_pos t G).
  unfold from_long_long. apply fround_in; [unfold good in G; lia|]. split; [assumption|].
  destruct F as [Fp Fe]. unfold good in G.
  rewrite Z.pow_add_r by (unfold scale; lia). unfold one in *. rewrite Z.abs_mul, (Z.abs_eq (2 ^ _)) by lia.
  assert (2 ^ 64 <= 2 ^ emax t) by (apply Z.pow_le_mono_r; lia). change (2 ^ 64) with (2 * 2 ^ 63) in *.
  assert (0 < 2 ^ 63) by lia. nia.
Qed.

(* ---------------------------------------------- power-of-two radixes: exact *)

Lemma value_lt_pow : forall r ds, (1 <= r)%N -> Forall (fun d => (d < r)%N) ds ->
  Z.of_N (value r ds) < Z.of_N r ^ Z.of_nat (length ds).
Proof.
  intros r ds Hr H. induction H as [|d ds Hd _ IH]; [cbn; lia|].
  rewrite value_cons_Z. cbn [length]. rewrite Nat2Z.inj_succ, Z.pow_succ_r by lia. nia.
Qed.

Lemma pow_2_pow : forall r b l, Z.of_N r = 2 ^ b -> 0 <= b -> 0 <= l -> Z.of_N r ^ l = 2 ^ (b * l).
Proof. intros r b l -> Hb Hl. now rewrite <- Z.pow_mul_r. Qed.

(** Reading the digits [ds] after [j] digits have been read.  [w] is the weight
    of the last digit. *)
Lemma fraction_digits_exact : forall t r b n ds j, fine t -> (2 <= r <= 36)%N ->
  Z.of_N r = 2 ^ b -> 1 <= b -> 0 <= j ->
  b * (j + Z.of_nat (length ds)) < emax t -> in_type t n -> 0 <= n ->
  Forall (fun d => (d < r)%N) ds ->
  let w := 2 ^ (scale t - b * (j + Z.of_nat (length ds))) in
  Z.of_N (value r ds) * w = n mod 2 ^ (scale t - b * j) ->
  fraction_digits t r (map digit_char ds) (Fin (2 ^ (scale t + b * j))) (Fin (n - Z.of_N (value r ds) * w))
  = Ok (Fin n).
Proof.
  intros t r b n ds. induction ds as [|d ds IH]; intros j F Hr Hb Hb1 Hj Hl Ht Hn Hd w Hv.
  - cbn. f_equal. f_equal. lia.
  - inversion_clear Hd as [|? ? Hd1 Hd2]. pose proof (fine_good t F) as G. unfold good in G.
    assert (Hsc : emax t <= scale t) by (destruct F; unfold scale; lia).
    cbn [map fraction_digits]. cbn [length] in *. rewrite Nat2Z.inj_succ in *.
    set (L := Z.of_nat (length ds)) in *.
    assert (HL : 0 <= L) by (unfold L; lia).
    assert (HbL : 0 <= b * j /\ 0 <= b * L /\ b * (j + Z.succ L) = b * j + b * L + b).
    { clear - Hj HL Hb1. split; [apply Z.mul_nonneg_nonneg; lia|]. split; [apply Z.mul_nonneg_nonneg; lia|ring]. }
    assert (Hj1 : b * (j + 1) = b * j + b) by ring.
    assert (Hs0 : 0 <= scale t) by (clear - F; destruct F; unfold scale; lia).
    assert (He1 : 0 <= scale t + b * (j + 1)) by (clear - HbL Hj1 Hs0 Hb1; lia).
    pose proof (pow2_pos _ He1) as Pe1.
    rewrite (digit_lookup r (digit_char d) d) by (auto; apply digit_char_value; lia). cbn [bind].
    unfold append_digit. cbn [times_radix].
    assert (Root : fround t (2 ^ (scale t + b * j) * Z.of_N r) = Fin (2 ^ (scale t + b * (j + 1)))).
    { rewrite Hb, <- Z.pow_add_r by (clear - HbL Hs0 Hb1; lia). replace (scale t + b * j + b) with (scale t + b * (j + 1)) by ring.
      apply fround_in; [lia|]. split; (rewrite Z.abs_eq by (clear - Pe1; lia)).
      - exists 1, (scale t + b * (j + 1)). split; [clear; lia|]. split; [|clear - He1; lia].
        pose proof (pow2_pos (prec t) ltac:(clear - F; destruct F; lia)) as X. clear - X. lia.
      - apply Z.pow_lt_mono_r; clear - F HbL Hl Hj1 Hs0 Hsc HL Hb1; destruct F; lia. }
    rewrite Root.
    assert (Hw : w * Z.of_N r ^ L = 2 ^ (scale t - b * (j + 1))).
    { unfold w. rewrite (pow_2_pow r b L Hb) by lia. rewrite <- Z.pow_add_r by lia. f_equal. lia. }
    assert (Hw0 : 0 < w) by (apply pow2_pos; lia).
    assert (Hs1 : 0 <= scale t - b * (j + 1)) by lia.
    pose proof (pow2_pos _ Hs1) as Ps1.
    assert (r36 : (r <= 32)%N).
    { assert (b <= 5).
      { destruct (Z.le_gt_cases b 5) as [|X]; [assumption|].
        assert (2 ^ 6 <= 2 ^ b) by (apply Z.pow_le_mono_r; lia). change (2 ^ 6) with 64 in *. lia. }
      assert (2 ^ b <= 2 ^ 5) by (apply Z.pow_le_mono_r; lia). change (2 ^ 5) with 32 in *. lia. }
    assert (P7 : 2 ^ 7 <= 2 ^ prec t) by (destruct F; apply Z.pow_le_mono_r; lia). change (2 ^ 7) with 128 in P7.
    assert (Div : divide_digit t d (Fin (2 ^ (scale t + b * (j + 1))))
                  = Fin (Z.of_N d * 2 ^ (scale t - b * (j + 1)))).
    { unfold divide_digit.
      replace (Z.of_N d * one t * one t)
        with (Z.of_N d * 2 ^ (scale t - b * (j + 1)) * 2 ^ (scale t + b * (j + 1))).
      2:{ unfold one. rewrite <- !Z.mul_assoc, <- !Z.pow_add_r by lia. do 2 f_equal. lia. }
      rewrite round_ratio_mul; [|clear - Ps1; apply Z.mul_nonneg_nonneg; lia|exact Pe1].
      assert (R : rep (prec t) (Z.of_N d * 2 ^ (scale t - b * (j + 1)))).
      { apply rep_scale; [assumption|]. apply rep_small. lia. }
      rewrite rep_round by (auto; lia). unfold pack.
      rewrite Z.abs_eq by (clear - Ps1; apply Z.mul_nonneg_nonneg; lia).
      assert (Z.of_N d * 2 ^ (scale t - b * (j + 1)) < 2 ^ (emax t + scale t)).
      { assert (Z.of_N d * 2 ^ (scale t - b * (j + 1)) < 2 ^ 5 * 2 ^ (scale t - b * (j + 1))).
        { change (2 ^ 5) with 32. apply Z.mul_lt_mono_pos_r; lia. }
        rewrite <- Z.pow_add_r in H by lia.
        assert (2 ^ (5 + (scale t - b * (j + 1))) <= 2 ^ (emax t + scale t)) by (apply Z.pow_le_mono_r; destruct F; lia).
        lia. }
      replace (_ <? _) with true by lia. reflexivity. }
    rewrite Div.
    rewrite value_cons_Z in Hv |- *. fold L in Hv |- *.
    set (V := Z.of_N (value r ds)) in *.
    assert (HVlt : V < Z.of_N r ^ L) by (apply value_lt_pow; [lia|assumption]).
    assert (HV0 : 0 <= V) by (unfold V; lia).
    (* what is left is n modulo the next weight *)
    assert (Hn' : V * w = n mod 2 ^ (scale t - b * (j + 1))).
    { assert (Hlt : V * w < 2 ^ (scale t - b * (j + 1))) by (rewrite <- Hw, (Z.mul_comm w); apply Z.mul_lt_mono_pos_r; lia).
      apply (Z.mod_unique _ _ ((n - V * w) / 2 ^ (scale t - b * (j + 1)))); [left; split; [apply Z.mul_nonneg_nonneg; lia|assumption]|].
      assert (Dv : (2 ^ (scale t - b * (j + 1)) | n - V * w)).
      { assert (E : n - V * w = (n - n mod 2 ^ (scale t - b * j)) + Z.of_N d * 2 ^ (scale t - b * (j + 1))).
        { rewrite <- Hv, <- Hw. ring. }
        rewrite E. apply Z.divide_add_r.
        - apply (Z.divide_trans _ (2 ^ (scale t - b * j))).
          + apply pow2_div. lia.
          + exists (n / 2 ^ (scale t - b * j)).
            pose proof (Z.div_mod n (2 ^ (scale t - b * j)) ltac:(pose proof (pow2_pos (scale t - b * j) ltac:(lia)); lia)). lia.
        - apply Z.divide_factor_r. }
      destruct Dv as [q Eq]. rewrite Eq. rewrite Z.div_mul by lia. lia. }
    assert (Sum : fadd t (Fin (n - (Z.of_N d * Z.of_N r ^ L + V) * w)) (Fin (Z.of_N d * 2 ^ (scale t - b * (j + 1))))
                  = Fin (n - V * w)).
    { cbn [fadd].
      replace (n - (Z.of_N d * Z.of_N r ^ L + V) * w + Z.of_N d * 2 ^ (scale t - b * (j + 1)))
        with (n - V * w) by (rewrite <- Hw; ring).
      destruct Ht as [Hrep Hmax]. rewrite (Z.abs_eq n) in * by lia.
      pose proof (Z.mod_le n (2 ^ (scale t - b * (j + 1))) Hn Ps1). pose proof (Z.mod_pos_bound n _ Ps1).
      apply fround_in; [lia|]. split.
      - rewrite Z.abs_eq by lia. rewrite Hn'. apply rep_trunc; assumption.
      - rewrite Z.abs_eq by lia. lia. }
    rewrite Sum.
    specialize (IH (j + 1) F Hr Hb Hb1 ltac:(lia)).
    assert (EL : j + 1 + Z.of_nat (length ds) = j + Z.succ L) by (unfold L; ring).
    assert (Ew : w = 2 ^ (scale t - b * (j + Z.succ L))) by (unfold w, L; rewrite Nat2Z.inj_succ; reflexivity).
    fold L in EL. rewrite EL in IH. fold V in IH. rewrite <- Ew in IH. exact (IH Hl Ht Hn Hd2 Hn').
Qed.

(* -------------------------------------------------------------- whole texts *)

(** A text with a radix character, up to the loop over the fraction. *)
Lemma parse_float_split : forall k t f itext i ftext, (2 <= radix (base f) <= 36)%N ->
  min_of I64 < i <= max_of I64 ->
  numeral (radix (base f)) (shows_plus (sign (base f))) (sep_char (separator (base f))) i itext ->
  sep_char (separator (base f)) <> Some (point_char (point f)) ->
  Forall (fun c => (c < 128)%N) ftext -> ftext <> [] ->
  parse_floating_point k t (itext ++ point_char (point f) :: ftext) f
  = fraction_digits t (radix (base f)) ftext (Fin (one t)) (from_long_long t i).
Proof.
  intros k t f itext i ftext Hr Hi Hn Hs Ha Hne. unfold parse_floating_point.
  rewrite convert_ascii.
  2:{ apply Forall_app. split; [eapply numeral_ascii; [|exact Hn]; lia|].
      constructor; [apply point_ascii|assumption]. }
  cbn [bind]. unfold equivalent_format, new_integer_format.
  replace ((radix (base f) <? 2) || (36 <? radix (base f)))%N with false by lia. cbn [bind].
  replace (IntegerFormat (radix (base f)) (sign (base f)) (separator (base f))) with (base f) by (now destruct (base f)).
  rewrite split_at_some by (eapply numeral_no_point; [|exact Hn|assumption]; lia).
  rewrite (parse_numeral_back K32 I64 (base f) i itext); auto.
  - cbn [bind]. destruct ftext; [congruence|]. reflexivity.
  - vm_compute; tauto.
  - unfold in_range. lia.
  - intros _. lia.
Qed.

(** Without one. *)
Lemma parse_float_whole : forall k t f itext i, (2 <= radix (base f) <= 36)%N ->
  min_of I64 < i <= max_of I64 ->
  numeral (radix (base f)) (shows_plus (sign (base f))) (sep_char (separator (base f))) i itext ->
  sep_char (separator (base f)) <> Some (point_char (point f)) ->
  parse_floating_point k t itext f = Ok (from_long_long t i).
Proof.
  intros k t f itext i Hr Hi Hn Hs. unfold parse_floating_point.
  rewrite convert_ascii by (eapply numeral_ascii; [|exact Hn]; lia).
  cbn [bind]. unfold equivalent_format, new_integer_format.
  replace ((radix (base f) <? 2) || (36 <? radix (base f)))%N with false by lia. cbn [bind].
  replace (IntegerFormat (radix (base f)) (sign (base f)) (separator (base f))) with (base f) by (now destruct (base f)).
  rewrite split_at_none by (eapply numeral_no_point; [|exact Hn|assumption]; lia).
  rewrite (parse_numeral_back K32 I64 (base f) i itext); auto.
  - vm_compute; tauto.
  - unfold in_range. lia.
  - intros _. lia.
Qed.

(** Texts that are exactly representable, in a power-of-two radix. *)
Lemma parse_float_exact : forall k t f b itext i ds n, fine t -> (2 <= radix (base f) <= 36)%N ->
  Z.of_N (radix (base f)) = 2 ^ b -> 1 <= b ->
  0 <= i <= max_of I64 ->
  numeral (radix (base f)) (shows_plus (sign (base f))) (sep_char (separator (base f))) i itext ->
  sep_char (separator (base f)) <> Some (point_char (point f)) ->
  Forall (fun d => (d < radix (base f))%N) ds -> ds <> [] ->
  b * Z.of_nat (length ds) < emax t ->
  in_type t n ->
  (n - i * one t) * Z.of_N (radix (base f)) ^ Z.of_nat (length ds)
    = Z.of_N (value (radix (base f)) ds) * one t ->
  parse_floating_point k t (itext ++ point_char (point f) :: map digit_char ds) f = Ok (Fin n).
Proof.
  intros k t f b itext i ds n F Hr Hb Hb1 Hi Hn Hs Hd Hne Hl Ht Hv.
  pose proof (fine_good t F) as G. pose proof (one_pos t G) as P1. unfold good in G.
  assert (Hmin : min_of I64 < 0) by reflexivity.
  rewrite (parse_float_split k t f itext i); auto; try lia.
  2: eapply digits_ascii; [|exact Hd]; lia.
  2: destruct ds; cbn; congruence.
  set (r := radix (base f)) in *. set (L := Z.of_nat (length ds)) in *.
  assert (HL : 0 <= L) by (unfold L; lia).
  assert (Hsc : emax t <= scale t) by (destruct F; unfold scale; lia).
  rewrite (pow_2_pow r b L Hb) in Hv by lia.
  assert (Hw : one t = 2 ^ (scale t - b * L) * 2 ^ (b * L)).
  { unfold one. rewrite <- Z.pow_add_r by nia. f_equal. lia. }
  assert (Pb : 0 < 2 ^ (b * L)) by (apply pow2_pos; nia).
  assert (Ev : Z.of_N (value r ds) * 2 ^ (scale t - b * L) = n - i * one t).
  { rewrite Hw in Hv |- *. apply (Z.mul_cancel_r _ _ (2 ^ (b * L))); [lia|]. rewrite Hv. ring. }
  assert (Hlt : Z.of_N (value r ds) < 2 ^ (b * L)).
  { rewrite <- (pow_2_pow r b L Hb) by lia. apply value_lt_pow; [lia|assumption]. }
  assert (Pw : 0 < 2 ^ (scale t - b * L)) by (apply pow2_pos; lia).
  assert (Hn0 : 0 <= n) by nia.
  assert (Hmod : Z.of_N (value r ds) * 2 ^ (scale t - b * L) = n mod one t).
  { apply (Z.mod_unique _ _ i); [left; rewrite Hw; nia|]. lia. }
  pose proof (fraction_digits_exact t r b n ds 0 F Hr Hb Hb1 ltac:(lia)) as X.
  replace (0 + Z.of_nat (length ds)) with L in X by (fold L; lia).
  rewrite Z.mul_0_r, Z.add_0_r, Z.sub_0_r in X. specialize (X Hl Ht Hn0 Hd Hmod).
  assert (Ei : from_long_long t i = Fin (n - Z.of_N (value r ds) * 2 ^ (scale t - b * L))).
  { rewrite Ev. replace (n - (n - i * one t)) with (i * one t) by ring.
    apply from_long_long_in; auto.
    - replace (i * one t) with (n - n mod one t) by lia.
      destruct Ht as [Hrep _]. rewrite (Z.abs_eq n) in Hrep by lia.
      pose proof (Z.mod_le n (one t) Hn0 P1). rewrite Z.abs_eq by lia.
      apply rep_trunc; [lia|assumption].
    - change (max_of I64) with (2 ^ 63 - 1) in Hi. lia. }
  rewrite Ei. exact X.
Qed.

(** A separator in the fraction is refused. *)
Lemma fraction_digits_stop : forall t r c ds s root out, (2 <= r <= 36)%N ->
  Forall (fun d => (d < r)%N) ds -> digit_character_to_integer c r = Ok None ->
  fraction_digits t r (map digit_char ds ++ c :: s) root out = Throw (ParseFailed WrongPlaceLimit).
Proof.
  intros t r c ds s root out Hr H Hc. revert root out. induction H as [|d ds Hd _ IH]; intros root out.
  - cbn. now rewrite Hc.
  - cbn [map app fraction_digits]. rewrite (digit_lookup r (digit_char d) d) by (auto; apply digit_char_value; lia).
    cbn [bind]. destruct (append_digit t r d root out). apply IH.
Qed.
