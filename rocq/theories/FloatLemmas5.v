(** What formatted texts denote. *)
From Coq Require Import NArith ZArith List Bool Lia ZifyBool ZifyNat ZifyN.
From Verif Require Import Base Integers NumeralSpec FloatSpec UnicodeSpec UnicodeModel UnicodeText
  UnicodeLemmas2 NumberModel NumberText NumberLemmas NumberLemmas2 NumberLemmas4 NumberLemmas5 NumberLemmas6
  FloatModel FloatText FloatLemmas FloatLemmas2 FloatLemmas3 FloatLemmas4.
Import ListNotations.
Open Scope Z_scope.

Lemma ieee_fine : forall t, ieee t -> fine t.
Proof. intros t [->|[->|[->| ->]]]; split; cbn; lia. Qed.

Lemma has_value_in : forall t n, has_value t n -> in_type t n.
Proof.
  intros t n (m & e & E & Hm & He & B). split; [|assumption].
  exists m, e. split; [assumption|]. lia.
Qed.

Lemma fits_whole : forall t n, good t -> integral_part_fits t n -> min_of I64 < whole t n <= max_of I64.
Proof.
  intros t n G [A B]. pose proof (one_pos t G). unfold whole.
  change (min_of I64) with (- 2 ^ 63). change (max_of I64) with (2 ^ 63 - 1).
  assert (- (2 ^ 63 - 1) <= n / one t) by (apply Z.div_le_lower_bound; lia).
  assert (n / one t < 2 ^ 63) by (apply Z.div_lt_upper_bound; lia). lia.
Qed.

(* ----------------------------------------------------------------- reading *)

Lemma before_none : forall c s, ~ In c s -> before c s = s /\ after c s = [].
Proof.
  induction s as [|x s IH]; intro H; [split; reflexivity|]. cbn in *.
  destruct (N.eqb_spec x c); [tauto|]. destruct IH as [-> ->]; tauto.
Qed.

Lemma before_some : forall c a b, ~ In c a -> before c (a ++ c :: b) = a /\ after c (a ++ c :: b) = b.
Proof.
  induction a as [|x a IH]; intros b H; cbn in *.
  - rewrite N.eqb_refl. auto.
  - destruct (N.eqb_spec x c); [tauto|]. destruct (IH b) as [-> ->]; tauto.
Qed.

Lemma separator_not_digit : forall r s c d, sep_char s = Some c -> ~ is_digit r c d.
Proof. intros r [] c d E [V _]; cbn in E; try discriminate; injection E as <-; discriminate V. Qed.

Lemma digits_in_grouped : forall r s ds n, (r <= 36)%N -> Forall (fun d => (d < r)%N) ds ->
  digits_in r (grouped_before (sep_char s) (map digit_char ds) n) = ds.
Proof.
  intros r s ds n Hr H. induction H as [|d ds Hd _ IH]; [reflexivity|].
  cbn [map grouped_before]. rewrite (digits_in_digit r _ d) by now apply digit_char_value.
  f_equal. rewrite digits_in_app, IH. unfold separator_after.
  destruct (sep_char s) as [c|] eqn:E; [|reflexivity].
  destruct (_ && _); [|reflexivity].
  rewrite digits_in_other; [reflexivity|]. intro. eapply separator_not_digit. exact E.
Qed.

Lemma digits_in_fraction : forall r s ds n, (r <= 36)%N -> Forall (fun d => (d < r)%N) ds ->
  digits_in r (fraction_text (sep_char s) n ds) = ds.
Proof.
  intros r s ds n Hr H. revert n. induction H as [|d ds Hd _ IH]; intro n; [reflexivity|].
  rewrite fraction_text_cons. rewrite (digits_in_digit r _ d) by now apply digit_char_value.
  f_equal. rewrite digits_in_app, IH. unfold sep_at.
  destruct (sep_char s) as [c|] eqn:E; [|reflexivity].
  destruct (Nat.eqb _ _); [|reflexivity].
  rewrite digits_in_other; [reflexivity|]. intro. eapply separator_not_digit. exact E.
Qed.

Lemma digits_in_zeros : forall r n, (1 <= r)%N -> digits_in r (repeat 48%N n) = repeat 0%N n.
Proof.
  induction n as [|n IH]; intro H; [reflexivity|]. cbn [repeat].
  rewrite (digits_in_digit r 48%N 0%N). 2: split; [reflexivity|lia]. now rewrite IH.
Qed.

Lemma numeral_reading : forall r plus s x text, (2 <= r <= 36)%N -> numeral r plus (sep_char s) x text ->
  Z.of_N (value r (digits_in r text)) = Z.abs x /\
  (forall rest (f g : Z), match text ++ rest with 45%N :: _ => f | _ => g end = if x <? 0 then f else g).
Proof.
  intros r plus s x text Hr (ds & (Hne & Hd & _) & Hv & ->). split.
  - rewrite digits_in_app.
    assert (E : digits_in r (sign_text plus x) = []).
    { unfold sign_text. destruct (x <? 0); [|destruct (_ && _)]; reflexivity. }
    rewrite E. cbn [app]. unfold grouped. rewrite digits_in_grouped by (auto; lia). rewrite Hv. lia.
  - intros rest f g. unfold sign_text. destruct (x <? 0); [reflexivity|].
    destruct (_ && _); [reflexivity|].
    destruct ds as [|d ds]; [congruence|]. inversion_clear Hd.
    cbn [app map grouped grouped_before].
    pose proof (digit_char_range d ltac:(lia)) as D. unfold grouped. cbn [grouped_before app].
    destruct (digit_char d) as [|p]; [lia|].
    do 6 (try (destruct p as [p|p|]; try reflexivity)); lia.
Qed.

Lemma reading_whole : forall r plus s x text p, (2 <= r <= 36)%N -> numeral r plus (sep_char s) x text ->
  sep_char s <> Some (point_char p) ->
  numerator r (point_char p) text = x /\ places_in r (point_char p) text = O.
Proof.
  intros r plus s x text p Hr H Hs.
  pose proof (numeral_no_point r plus s x text p ltac:(lia) H Hs) as Np.
  destruct (before_none _ _ Np) as [B A]. unfold numerator, places_in. rewrite B, A. split; [|reflexivity].
  cbn [digits_in flat_map]. rewrite app_nil_r.
  destruct (numeral_reading r plus s x text Hr H) as [V S]. specialize (S []). rewrite app_nil_r in S. rewrite S, V.
  destruct (Z.ltb_spec x 0); lia.
Qed.

Lemma value_app_Z : forall r a b,
  Z.of_N (value r (a ++ b)) = Z.of_N (value r a) * Z.of_N r ^ Z.of_nat (length b) + Z.of_N (value r b).
Proof.
  intros. rewrite value_app. rewrite N2Z.inj_add, N2Z.inj_mul, N2Z.inj_pow. now rewrite nat_N_Z.
Qed.

Lemma reading_fraction : forall r plus s x itext p ds z, (2 <= r <= 36)%N ->
  numeral r plus (sep_char s) x itext -> sep_char s <> Some (point_char p) ->
  Forall (fun d => (d < r)%N) ds ->
  let text := itext ++ point_char p :: fraction_text (sep_char s) 0 ds ++ repeat 48%N z in
  places_in r (point_char p) text = (length ds + z)%nat /\
  digits_in r (after (point_char p) text) = ds ++ repeat 0%N z /\
  (z = O -> numerator r (point_char p) text
            = (if x <? 0 then -1 else 1) *
              (Z.abs x * Z.of_N r ^ Z.of_nat (length ds) + Z.of_N (value r ds))).
Proof.
  intros r plus s x itext p ds z Hr H Hs Hd text.
  pose proof (numeral_no_point r plus s x itext p ltac:(lia) H Hs) as Np.
  destruct (before_some _ _ (fraction_text (sep_char s) 0 ds ++ repeat 48%N z) Np) as [B A].
  fold text in A, B.
  assert (D : digits_in r (after (point_char p) text) = ds ++ repeat 0%N z).
  { rewrite A, digits_in_app, digits_in_fraction, digits_in_zeros by (auto; lia). reflexivity. }
  split; [|split; [exact D|]].
  - unfold places_in. rewrite D, app_length, repeat_length. reflexivity.
  - intros ->. unfold numerator. rewrite D, B. cbn [repeat]. rewrite app_nil_r.
    destruct (numeral_reading r plus s x itext Hr H) as [V S]. unfold text. rewrite S.
    rewrite value_app_Z, V. destruct (x <? 0); lia.
Qed.

(* --------------------------------------------------------------- exactness *)

(** A power-of-two radix only shifts. *)
Lemma product_power_of_two : forall t r b g, good t -> Z.of_N r = 2 ^ b -> 0 <= b -> frac t g ->
  product t r g = g * Z.of_N r.
Proof.
  intros t r b g G Hb Hb0 [R _]. unfold product. apply rep_round; [unfold good in G; lia|].
  rewrite Hb. now apply rep_scale.
Qed.

(** Multiples of a weight that leaves room for the radix. *)
Lemma product_short : forall t r s g, good t -> (2 <= r)%N -> 0 <= s <= scale t ->
  Z.of_N r * 2 ^ s <= 2 ^ prec t -> (2 ^ (scale t - s) | g) -> frac t g ->
  product t r g = g * Z.of_N r /\ (2 ^ (scale t - s) | next_frac t r g).
Proof.
  intros t r s g G Hr Hs Hp [m ->] [R F].
  pose proof (pow2_pos (scale t - s) ltac:(lia)) as P.
  assert (E : one t = 2 ^ s * 2 ^ (scale t - s)) by (unfold one; rewrite <- Z.pow_add_r by lia; f_equal; lia).
  assert (Hm : 0 <= m < 2 ^ s) by (rewrite E in F; split; nia).
  assert (X : product t r (m * 2 ^ (scale t - s)) = m * 2 ^ (scale t - s) * Z.of_N r).
  { unfold product. apply rep_round; [unfold good in G; lia|].
    exists (m * Z.of_N r), (scale t - s). split; [ring|]. nia. }
  split; [exact X|].
  unfold next_frac. rewrite X, E.
  replace (m * 2 ^ (scale t - s) * Z.of_N r) with (m * Z.of_N r * 2 ^ (scale t - s)) by ring.
  rewrite Z.mul_mod_distr_r by (pose proof (pow2_pos s ltac:(lia)); lia). eexists. reflexivity.
Qed.

(** The error bound of [expand_near] in a simpler form. *)
Lemma near_simple : forall t r A R, good t -> (2 <= r)%N -> 1 <= R ->
  A * (Z.of_N r - 1) <= 2 ^ (scale t - prec t) * 2 ^ Z.log2 (Z.of_N r) * (R - 1) ->
  A * 2 ^ (prec t - 1) <= one t * R.
Proof.
  intros t r A R G Hr HR H. unfold good in G.
  pose proof (Z.log2_spec (Z.of_N r) ltac:(lia)) as [L _].
  set (W := 2 ^ Z.log2 (Z.of_N r)) in *.
  assert (E1 : one t = 2 * 2 ^ (prec t - 1) * 2 ^ (scale t - prec t)).
  { unfold one. change 2 with (2 ^ 1) at 2. rewrite <- !Z.pow_add_r by lia. f_equal. lia. }
  pose proof (pow2_pos (prec t - 1) ltac:(lia)) as P1. pose proof (pow2_pos (scale t - prec t) ltac:(lia)) as P2.
  set (p := 2 ^ (prec t - 1)) in *. set (q := 2 ^ (scale t - prec t)) in *. rewrite E1.
  assert (HW : W <= 2 * (Z.of_N r - 1)) by lia.
  assert (X : A * (Z.of_N r - 1) <= q * (2 * (Z.of_N r - 1)) * R).
  { etransitivity; [exact H|]. apply Z.mul_le_mono_nonneg; [|nia|lia|lia].
    assert (0 <= W) by (unfold W; apply Z.pow_nonneg; lia). nia. }
  assert (Y : A <= q * 2 * R).
  { apply (Z.mul_le_mono_pos_r _ _ (Z.of_N r - 1)); [lia|]. lia. }
  nia.
Qed.

(* ------------------------------------------------------------ power of two *)

Lemma expand_stop : forall t r m k f, rest t r m f = 0 -> (m <= k)%nat -> expand t r k f = expand t r m f.
Proof.
  intros t r m. induction m as [|m IH]; intros k f R L.
  - cbn in R. subst f. destruct k; reflexivity.
  - destruct k as [|k]; [lia|]. cbn [expand rest] in *. destruct (f =? 0); [reflexivity|].
    f_equal. apply IH; [assumption|lia].
Qed.

Lemma expand_ends_pow : forall t r b m f, good t -> (2 <= r)%N -> frac t f -> Z.of_N r = 2 ^ b -> 1 <= b ->
  b * Z.of_nat m <= scale t -> (2 ^ (scale t - b * Z.of_nat m) | f) -> rest t r m f = 0.
Proof.
  intros t r b m. induction m as [|m IH]; intros f G Hr F Hb Hb1 L D.
  - cbn. destruct D as [q D]. destruct F as [_ F]. unfold one in F.
    change (Z.of_nat 0) with 0 in D. rewrite Z.mul_0_r, Z.sub_0_r in D.
    unfold good in G. pose proof (pow2_pos (scale t) ltac:(lia)).
    assert (q = 0) by nia. subst q. lia.
  - cbn [rest]. destruct (Z.eqb_spec f 0) as [|N0]; [reflexivity|].
    apply IH; auto; [now apply next_frac_ok|lia|].
    unfold next_frac. rewrite (product_power_of_two t r b f) by (auto; lia).
    destruct D as [q D]. rewrite D, Hb. unfold one.
    replace (q * 2 ^ (scale t - b * Z.of_nat (S m)) * 2 ^ b) with (q * 2 ^ (scale t - b * Z.of_nat m)).
    2:{ rewrite <- Z.mul_assoc, <- Z.pow_add_r by lia. do 2 f_equal. lia. }
    rewrite (pow2_split (scale t - b * Z.of_nat m) (scale t)) by lia.
    replace (scale t - (scale t - b * Z.of_nat m)) with (b * Z.of_nat m) by lia.
    rewrite (Z.mul_comm (2 ^ (scale t - b * Z.of_nat m)) (2 ^ (b * Z.of_nat m))).
    rewrite Z.mul_mod_distr_r.
    + eexists. reflexivity.
    + pose proof (pow2_pos (b * Z.of_nat m) ltac:(lia)). lia.
    + pose proof (pow2_pos (scale t - b * Z.of_nat m) ltac:(lia)). lia.
Qed.
