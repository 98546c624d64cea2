(** Whole-call lemmas about integer parsing. *)
From Coq Require Import NArith ZArith List Bool Lia ZifyBool ZifyNat ZifyN.
From Verif Require Import Base Integers NumeralSpec UnicodeSpec UnicodeModel UnicodeText
  UnicodeLemmas UnicodeLemmas2 NumberModel NumberText NumberLemmas NumberLemmas2 NumberLemmas3.
Import ListNotations.
Open Scope N_scope.
Ltac Zify.zify_post_hook ::= Z.div_mod_to_equations.

Lemma digits_lt : forall r cs ds, digits_text r cs ds -> Forall (fun d => d < r) ds.
Proof. induction 1 as [|c d cs ds [_ L] _ IH]; constructor; auto. Qed.

Lemma in_range_1 : forall t, standard t -> in_range t 1.
Proof. intros. apply small_range; [assumption|lia]. Qed.

Lemma finish_cases : forall t sf ng p n o V, standard t -> in_range t o -> cong t o V ->
  (ng = true -> is_signed t = true) ->
  (overflows t /\ finish_integer t (ParseState sf ng p n o) = UB SignedOverflow) \/
  finish_integer t (ParseState sf ng p n o) = Ok (convert t (if ng then - V else V))%Z.
Proof.
  intros t sf ng p n o V Ht Ro C Hs. unfold finish_integer. cbn [negate output].
  destruct ng.
  - rewrite (Hs eq_refl).
    assert (E : convert t (- o) = convert t (- V)) by (apply convert_eq; [assumption|now apply cong_opp]).
    destruct (arith_cases (promote t) (- o) (standard_p t Ht)) as [(S & N & E1)|(y & E1 & C1 & R1)].
    + left. rewrite E1. split; [|reflexivity]. split; [auto|].
      destruct (Z.lt_ge_cases (width t) 32) as [W|W]; [exfalso|assumption].
      apply N. clear - Ht Ro W. std_cases t Ht; cbn in W; try lia; bounds; lia.
    + right. rewrite E1. cbn [bind]. f_equal. rewrite <- E. apply convert_eq; [assumption|].
      apply (cong_weaken t (promote t)); auto; [now apply standard_p|].
      unfold promote. destruct (width t <? 32)%Z eqn:Ew; cbn [width I32]; lia.
  - right. f_equal. rewrite <- (convert_id t o) by assumption. now apply convert_eq.
Qed.

Lemma last_digit : forall r cs ds, digits_text r cs ds -> cs <> [] -> ds <> [].
Proof. intros r cs ds D H E. subst. inversion D; subst. congruence. Qed.

Lemma acc_value : forall r d dr, Z.of_N (value r (rev (d :: dr)))
  = (Z.of_N d + 1 * Z.of_N r * lval r dr)%Z.
Proof. intros. change (Z.of_N (value r (rev (d :: dr)))) with (lval r (d :: dr)). rewrite lval_cons. lia. Qed.

Lemma parse_value_cases : forall k t f sg ng cs ds,
  standard t -> 2 <= radix f <= 36 -> digits_text (radix f) cs ds -> cs <> [] ->
  sign_prefix (shows_plus (sign f)) ng sg ->
  let r := parse_integer k t (sg ++ grouped (sep_char (separator f)) cs) f in
  (overflows t /\ r = UB SignedOverflow) \/
  (ng = true /\ is_signed t = false /\ r = Throw (ParseFailed NegativeUnsigned)) \/
  ((ng = true -> is_signed t = true) /\
   r = Ok (convert t (signed_value ng (value (radix f) ds)))).
Proof.
  intros k t f sg ng cs ds Ht Hr D Hne Hsg r.
  destruct (parse_numeral k t f sg ng cs ds Hr D Hne Hsg) as (d & dr & Er & E).
  unfold r. rewrite E. clear r E.
  assert (Eds : ds = rev (d :: dr)) by (rewrite <- Er; symmetry; apply rev_involutive).
  assert (Hd : Forall (fun d => d < radix f) (d :: dr)).
  { rewrite <- Er. apply Forall_rev. eapply digits_lt; eauto. }
  inversion Hd as [|? ? Hd1 Hd2]; subst.
  rewrite (convert_id t (Z.of_N d)) by (first [assumption | apply small_range; [assumption|lia]]).
  destruct (acc_cases t (radix f) dr 1 (Z.of_N d) Ht Hr Hd2 (in_range_1 t Ht)) as [[O E]|(p' & o' & E & R & C)].
  { apply small_range; [assumption|lia]. }
  - left. rewrite E. auto.
  - rewrite E. cbn [bind].
    assert (C' : cong t o' (Z.of_N (value (radix f) (rev (d :: dr))))) by (rewrite acc_value; exact C).
    destruct (andb ng (negb (is_signed t))) eqn:B.
    + right; left. apply andb_true_iff in B as [-> B]. apply negb_true_iff in B.
      split; [reflexivity|]. split; [assumption|]. unfold finish_integer. cbn [negate]. now rewrite B.
    + assert (S : ng = true -> is_signed t = true).
      { intros ->. cbn in B. now destruct (is_signed t). }
      destruct (finish_cases t false ng p' 0 o' _ Ht R C' S) as [[O F]|F]; [now left|].
      right; right. split; [assumption|]. rewrite F. unfold signed_value. now destruct ng.
Qed.

(** A value that fits is read exactly. *)
Lemma parse_value_fits : forall k t f sg ng cs ds,
  standard t -> 2 <= radix f <= 36 -> digits_text (radix f) cs ds -> cs <> [] ->
  sign_prefix (shows_plus (sign f)) ng sg ->
  (ng = true -> is_signed t = true) ->
  (Z.of_N (value (radix f) ds) <= max_of t)%Z ->
  (t = I64 -> Z.of_N (radix f) ^ (Z.of_nat (length ds) - 1) <= max_of t)%Z ->
  parse_integer k t (sg ++ grouped (sep_char (separator f)) cs) f
  = Ok (signed_value ng (value (radix f) ds)).
Proof.
  intros k t f sg ng cs ds Ht Hr D Hne Hsg Hs Hv Hp.
  destruct (parse_numeral k t f sg ng cs ds Hr D Hne Hsg) as (d & dr & Er & E).
  rewrite E. clear E.
  assert (Eds : ds = rev (d :: dr)) by (rewrite <- Er; symmetry; apply rev_involutive).
  assert (Hd : Forall (fun d => d < radix f) (d :: dr)).
  { rewrite <- Er. apply Forall_rev. eapply digits_lt; eauto. }
  inversion Hd as [|? ? Hd1 Hd2]; subst.
  rewrite (convert_id t (Z.of_N d)) by (first [assumption | apply small_range; [assumption|lia]]).
  rewrite acc_value in Hv.
  assert (A : exists p', acc t (radix f) dr 1 (Z.of_N d) = Ok (p', Z.of_N (value (radix f) (rev (d :: dr))))).
  { rewrite acc_value. destruct (is_signed t) eqn:Sg.
    - destruct (Z.lt_ge_cases (width t) 64) as [W|W].
      + apply (acc_fits t (radix f) dr 0); auto; try lia; [now apply in_range_1|reflexivity].
      + assert (t = I64).
        { destruct t as [w s]. cbn in *. subst s. unfold standard in Ht. cbn in Ht.
          assert (w = 64%Z) by lia. subst w. reflexivity. }
        subst t. specialize (Hp eq_refl). rewrite rev_length in Hp. cbn [length] in Hp.
        pose proof (acc_i64 (radix f) dr 0 (Z.of_N d) Hr Hd2 ltac:(lia) ltac:(vm_compute; discriminate)) as A.
        cbv zeta in A. rewrite Z.pow_0_r in A. rewrite A.
        * replace (0 + Z.of_nat (length dr))%Z with (Z.of_nat (S (length dr)) - 1)%Z by lia.
          replace ((_ <=? _) && (_ <=? _))%Z with true by lia. eauto.
        * split; [lia|]. pose proof (max_pos I64 Ht). lia.
    - apply (acc_fits t (radix f) dr 0); auto; try lia; [congruence|now apply in_range_1|reflexivity]. }
  destruct A as [p' A]. rewrite A. cbn [bind].
  unfold finish_integer, signed_value. cbn [negate output].
  rewrite <- acc_value in Hv.
  destruct ng; [|reflexivity]. rewrite (Hs eq_refl).
  assert (R : in_range t (- Z.of_N (value (radix f) (rev (d :: dr))))).
  { specialize (Hs eq_refl). revert Hv. generalize (value (radix f) (rev (d :: dr))). intros v Hv.
    clear - Ht Hs Hv. std_cases t Ht; try discriminate Hs; bounds; lia. }
  rewrite arith_ok; [|now apply standard_p|now apply range_p]. cbn [bind]. now rewrite convert_id.
Qed.

(** The exact outcome for the 64-bit signed type. *)
Lemma parse_value_i64 : forall k f sg ng cs ds,
  2 <= radix f <= 36 -> digits_text (radix f) cs ds -> cs <> [] ->
  sign_prefix (shows_plus (sign f)) ng sg ->
  parse_integer k I64 (sg ++ grouped (sep_char (separator f)) cs) f
  = if ((Z.of_N (radix f) ^ (Z.of_nat (length ds) - 1) <=? max_of I64) &&
        (Z.of_N (value (radix f) ds) <=? max_of I64))%Z
    then Ok (signed_value ng (value (radix f) ds))
    else UB SignedOverflow.
Proof.
  intros k f sg ng cs ds Hr D Hne Hsg.
  assert (Ht : standard I64) by (vm_compute; tauto).
  destruct ((_ <=? _) && (_ <=? _))%Z eqn:B.
  - apply parse_value_fits; auto; lia.
  - destruct (parse_numeral k I64 f sg ng cs ds Hr D Hne Hsg) as (d & dr & Er & E).
    rewrite E. clear E.
    assert (Eds : ds = rev (d :: dr)) by (rewrite <- Er; symmetry; apply rev_involutive).
    assert (Hd : Forall (fun d => d < radix f) (d :: dr)).
    { rewrite <- Er. apply Forall_rev. eapply digits_lt; eauto. }
    inversion Hd as [|? ? Hd1 Hd2]; subst.
    rewrite (convert_id I64 (Z.of_N d)) by (first [assumption | apply small_range; [assumption|lia]]).
    pose proof (acc_i64 (radix f) dr 0 (Z.of_N d) Hr Hd2 ltac:(lia) ltac:(vm_compute; discriminate)) as A.
    cbv zeta in A. rewrite Z.pow_0_r in A. rewrite A by (pose proof (max_pos I64 Ht); lia).
    rewrite acc_value, rev_length in B. cbn [length] in B.
    replace (Z.of_nat (S (length dr)) - 1)%Z with (0 + Z.of_nat (length dr))%Z in B by lia.
    rewrite B. reflexivity.
Qed.

(** The numeral of the minimum of a type that overflows is not read. *)
Lemma parse_min : forall k t f cs ds, standard t -> overflows t ->
  2 <= radix f <= 36 -> digits_text (radix f) cs ds -> cs <> [] ->
  Z.of_N (value (radix f) ds) = (- min_of t)%Z ->
  parse_integer k t (45 :: grouped (sep_char (separator f)) cs) f = UB SignedOverflow.
Proof.
  intros k t f cs ds Ht [S W] Hr D Hne Hv.
  change (45 :: grouped (sep_char (separator f)) cs)
    with ([45] ++ grouped (sep_char (separator f)) cs).
  destruct (parse_numeral k t f [45] true cs ds Hr D Hne (Minus _)) as (d & dr & Er & E).
  rewrite E. clear E.
  assert (Eds : ds = rev (d :: dr)) by (rewrite <- Er; symmetry; apply rev_involutive).
  assert (Hd : Forall (fun d => d < radix f) (d :: dr)).
  { rewrite <- Er. apply Forall_rev. eapply digits_lt; eauto. }
  inversion Hd as [|? ? Hd1 Hd2]; subst.
  rewrite (convert_id t (Z.of_N d)) by (first [assumption | apply small_range; [assumption|lia]]).
  destruct (acc_cases t (radix f) dr 1 (Z.of_N d) Ht Hr Hd2 (in_range_1 t Ht)) as [[O E]|(p' & o' & E & R & C)].
  { apply small_range; [assumption|lia]. }
  - now rewrite E.
  - rewrite E. cbn [bind]. rewrite <- acc_value, Hv in C.
    assert (o' = min_of t).
    { apply (cong_eq t); auto.
      - clear - Ht S. std_cases t Ht; try discriminate S; bounds; lia.
      - eapply cong_trans; [exact C|]. unfold cong. clear - Ht S.
        std_cases t Ht; try discriminate S; reflexivity. }
    subst o'. unfold finish_integer. cbn [negate output]. rewrite S.
    assert (P : promote t = t).
    { unfold promote. replace (width t <? 32)%Z with false by lia. reflexivity. }
    rewrite P. unfold arith. rewrite S.
    replace ((min_of t <=? - min_of t) && (- min_of t <=? max_of t))%Z with false; [reflexivity|].
    clear - Ht S. std_cases t Ht; try discriminate S; reflexivity.
Qed.

(* -------------------------------------------------------------- round trip *)

Lemma digit_char_value : forall r d, r <= 36 -> d < r -> is_digit r (digit_char d) d.
Proof.
  intros r d Hr H. split; [|assumption]. unfold digit_char, digit_value.
  destruct (d <? 10) eqn:E.
  - replace ((48 <=? 48 + d) && (48 + d <=? 57)) with true by lia. f_equal. lia.
  - replace ((48 <=? 55 + d) && (55 + d <=? 57)) with false by lia.
    replace ((65 <=? 55 + d) && (55 + d <=? 90)) with true by lia. f_equal. lia.
Qed.

Lemma digit_chars_text : forall r ds, r <= 36 -> Forall (fun d => d < r) ds ->
  digits_text r (map digit_char ds) ds.
Proof.
  intros r ds Hr H. induction H; constructor; auto. now apply digit_char_value.
Qed.

Lemma sign_text_prefix : forall plus x, sign_prefix plus (x <? 0)%Z (sign_text plus x).
Proof.
  intros plus x. unfold sign_text. destruct (x <? 0)%Z; [constructor|].
  destruct ((0 <? x)%Z && plus) eqn:E; [|constructor].
  apply andb_true_iff in E as [_ ->]. now constructor.
Qed.

Lemma parse_numeral_back : forall k t f x text, standard t -> 2 <= radix f <= 36 ->
  in_range t x -> (is_signed t = true -> x <> min_of t) ->
  numeral (radix f) (shows_plus (sign f)) (sep_char (separator f)) x text ->
  parse_integer k t text f = Ok x.
Proof.
  intros k t f x text Ht Hr R Hm (ds & (Hne & Hd & Hz) & Hv & ->).
  assert (Hlt : (Z.of_N (value (radix f) ds) <= max_of t)%Z).
  { rewrite Hv, N2Z.inj_abs_N. clear - Ht R Hm. 
    std_cases t Ht; cbn [is_signed] in Hm; bounds; try specialize (Hm eq_refl); lia. }
  rewrite (parse_value_fits k t f _ (x <? 0)%Z (map digit_char ds) ds); auto.
  - unfold signed_value. rewrite Hv, N2Z.inj_abs_N. f_equal. destruct (x <? 0)%Z eqn:E; lia.
  - apply digit_chars_text; [lia|assumption].
  - destruct ds; [congruence|discriminate].
  - apply sign_text_prefix.
  - intro N. unfold in_range, min_of in R. destruct (is_signed t); [reflexivity|lia].
  - intros ->.
    destruct (N.eq_dec (value (radix f) ds) 0) as [E0|E0].
    + assert (hd_error ds = Some 0).
      { destruct ds as [|d ds]; [congruence|]. cbn. f_equal. rewrite value_cons in E0.
        assert (radix f ^ N.of_nat (length ds) <> 0) by (apply N.pow_nonzero; lia). nia. }
      rewrite (Hz H). vm_compute. discriminate.
    + pose proof (canonical_length (radix f) ds ltac:(lia) Hd Hne) as L.
      assert (hd_error ds <> Some 0) by (intro X; rewrite (Hz X) in E0; now apply E0).
      specialize (L H).
      apply N2Z.inj_le in L. rewrite N2Z.inj_pow, nat_N_Z in L.
      replace (Z.of_nat (length ds - 1)) with (Z.of_nat (length ds) - 1)%Z in L
        by (destruct ds; [congruence|cbn [length]; lia]).
      lia.
Qed.
