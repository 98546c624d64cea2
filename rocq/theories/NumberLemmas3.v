(** Lemmas about the arithmetic of integer parsing, arbitrary texts and bools. *)
From Coq Require Import NArith ZArith List Bool Lia ZifyBool ZifyNat ZifyN.
From Verif Require Import Base Integers NumeralSpec UnicodeSpec UnicodeModel UnicodeText
  UnicodeLemmas UnicodeLemmas2 NumberModel NumberText NumberLemmas NumberLemmas2.
Import ListNotations.
Open Scope N_scope.
Ltac Zify.zify_post_hook ::= Z.div_mod_to_equations.

(** Signed types of at least the width of int: the ones that can overflow. *)
Definition overflows (t : int_type) : Prop := is_signed t = true /\ (32 <= width t)%Z.

Definition cong (t : int_type) (x y : Z) : Prop := (x mod 2 ^ width t = y mod 2 ^ width t)%Z.

Lemma cong_refl : forall t x, cong t x x. Proof. reflexivity. Qed.
Lemma cong_trans : forall t x y z, cong t x y -> cong t y z -> cong t x z.
Proof. unfold cong; intros; congruence. Qed.
Lemma cong_sym : forall t x y, cong t x y -> cong t y x.
Proof. unfold cong; intros; congruence. Qed.
Lemma cong_add : forall t a b c d, cong t a b -> cong t c d -> cong t (a + c) (b + d).
Proof. unfold cong; intros t a b c d H1 H2. rewrite Zplus_mod, H1, H2, <- Zplus_mod. reflexivity. Qed.
Lemma cong_mul : forall t a b c d, cong t a b -> cong t c d -> cong t (a * c) (b * d).
Proof. unfold cong; intros t a b c d H1 H2. rewrite Zmult_mod, H1, H2, <- Zmult_mod. reflexivity. Qed.
Lemma cong_opp : forall t a b, cong t a b -> cong t (- a) (- b).
Proof.
  intros t a b H. replace (- a)%Z with (-1 * a)%Z by lia. replace (- b)%Z with (-1 * b)%Z by lia.
  apply cong_mul; [apply cong_refl|assumption].
Qed.
Lemma cong_convert : forall t x, standard t -> cong t (convert t x) x.
Proof. intros. now apply convert_mod. Qed.

Lemma Zaux_mod_mod : forall x a b, (0 < a -> 0 < b -> (x mod (a * b)) mod a = x mod a)%Z.
Proof.
  intros x a b Ha Hb. rewrite (Z.mod_eq x (a * b)) by nia.
  replace (x - a * b * (x / (a * b)))%Z with (x + (- (b * (x / (a * b)))) * a)%Z by ring.
  apply Z.mod_add. lia.
Qed.

Lemma cong_weaken : forall t u x y, standard t -> standard u -> (width t <= width u)%Z ->
  cong u x y -> cong t x y.
Proof.
  unfold cong. intros t u x y Ht Hu W H.
  assert (E : (2 ^ width u = 2 ^ width t * 2 ^ (width u - width t))%Z).
  { rewrite <- Z.pow_add_r; [f_equal; lia| |lia]. unfold standard in Ht; lia. }
  assert (P : (0 < 2 ^ width t)%Z) by (apply Z.pow_pos_nonneg; unfold standard in Ht; lia).
  assert (Q : (0 < 2 ^ (width u - width t))%Z) by (apply Z.pow_pos_nonneg; lia).
  apply (f_equal (fun z => z mod 2 ^ width t)%Z) in H. rewrite E in H.
  now rewrite !Zaux_mod_mod in H by assumption.
Qed.

Lemma cong_eq : forall t x y, standard t -> in_range t x -> in_range t y -> cong t x y -> x = y.
Proof.
  intros t x y Ht Hx Hy H. rewrite <- (convert_id t x), <- (convert_id t y) by assumption.
  now apply convert_eq.
Qed.

(** What [arith] can give. *)
Lemma arith_cases : forall t x, standard t ->
  (is_signed t = true /\ ~ in_range t x /\ arith t x = UB SignedOverflow) \/
  (exists y, arith t x = Ok y /\ cong t y x /\ in_range t y).
Proof.
  intros t x Ht. unfold arith. destruct (is_signed t) eqn:S.
  - destruct ((min_of t <=? x) && (x <=? max_of t))%Z eqn:E.
    + right. exists x. split; [reflexivity|]. split; [apply cong_refl|]. unfold in_range. lia.
    + left. split; [reflexivity|]. split; [|reflexivity]. unfold in_range. lia.
  - right. eexists. split; [reflexivity|]. split; [now apply cong_convert|now apply convert_range].
Qed.

(** Products and sums of narrow values fit an int. *)
Lemma narrow_fits : forall t d p o, standard t -> (width t < 32)%Z -> in_range t p -> in_range t o ->
  (0 <= d <= 36)%Z -> in_range I32 (d * p) /\ in_range I32 (o + d * p).
Proof.
  intros t d p o Ht W Hp Ho Hd. std_cases t Ht; cbn in W; try lia; bounds; split; nia.
Qed.

Lemma prepend_cases : forall t r d p o, standard t -> 2 <= r <= 36 -> d < 36 ->
  in_range t p -> in_range t o ->
  (overflows t /\ prepend_digit t r d (ParseState false false p 0 o) = UB SignedOverflow) \/
  (exists st, prepend_digit t r d (ParseState false false p 0 o) = Ok st /\
     in_range t (power st) /\ in_range t (output st) /\
     cong t (power st) (p * Z.of_N r) /\
     cong t (output st) (o + Z.of_N d * (p * Z.of_N r))).
Proof.
  intros t r d p o Ht Hr Hd Hp Ho. unfold prepend_digit. cbn [power output].
  pose proof (standard_u t Ht) as Hu. pose proof (standard_p t Ht) as Hi.
  change (with_int t) with (promote t).
  assert (Wu : (width t <= width (with_unsigned t))%Z).
  { unfold with_unsigned. destruct (width t <=? 32)%Z eqn:E; cbn [width U32]; lia. }
  assert (Wi : (width t <= width (promote t))%Z).
  { unfold promote. destruct (width t <? 32)%Z eqn:E; cbn [width I32]; lia. }
  rewrite (convert_id (with_unsigned t) (Z.of_N r)) by (first [assumption | apply small_range; [assumption|lia]]).
  rewrite (convert_id (promote t) (Z.of_N d)) by (first [assumption | apply small_range; [assumption|lia]]).
  destruct (arith_cases (with_unsigned t) (convert (with_unsigned t) p * Z.of_N r) Hu)
    as [(S & N & E)|(pp & E & C & R)].
  - left. rewrite E. split; [|reflexivity]. unfold overflows.
    clear - Ht S. std_cases t Ht; vm_compute in S; try discriminate; cbn; split; try reflexivity; lia.
  - rewrite E. cbn [bind].
    assert (Cp : cong t (convert t pp) (p * Z.of_N r)).
    { eapply cong_trans; [now apply cong_convert|].
      apply (cong_weaken t _ _ _ Ht Hu Wu). eapply cong_trans; [exact C|].
      apply cong_mul; [now apply cong_convert|apply cong_refl]. }
    assert (Rp : in_range t (convert t pp)) by now apply convert_range.
    set (p2 := convert t pp) in *.
    destruct (Z.lt_ge_cases (width t) 32) as [Wn|Wn].
    + destruct (narrow_fits t (Z.of_N d) p2 o Ht Wn Rp Ho ltac:(lia)) as [F1 F2].
      assert (Ei : promote t = I32) by (unfold promote; replace (width t <? 32)%Z with true by lia; reflexivity).
      assert (HI : standard I32) by (vm_compute; tauto).
      rewrite Ei. rewrite (arith_ok I32 _ HI F1). cbn [bind].
      rewrite (arith_ok I32 _ HI F2). cbn [bind]. right. eexists. split; [reflexivity|].
      cbn [power output]. repeat split; try assumption; try now apply convert_range.
      eapply cong_trans; [now apply cong_convert|].
      apply cong_add; [apply cong_refl|]. apply cong_mul; [apply cong_refl|assumption].
    + assert (Ei : promote t = t) by (unfold promote; replace (width t <? 32)%Z with false by lia; reflexivity).
      rewrite Ei.
      destruct (arith_cases t (Z.of_N d * p2) Ht) as [(S & N & E1)|(m & E1 & C1 & R1)].
      { left. rewrite E1. split; [split; assumption|reflexivity]. }
      rewrite E1. cbn [bind].
      destruct (arith_cases t (o + m) Ht) as [(S & N & E2)|(q & E2 & C2 & R2)].
      { left. rewrite E2. split; [split; assumption|reflexivity]. }
      rewrite E2. cbn [bind]. right. eexists. split; [reflexivity|]. cbn [power output].
      repeat split; try assumption; try now apply convert_range.
      rewrite convert_id by assumption. eapply cong_trans; [exact C2|].
      apply cong_add; [apply cong_refl|]. eapply cong_trans; [exact C1|].
      apply cong_mul; [apply cong_refl|assumption].
Qed.

(** Value of digits given least significant first. *)
Definition lval (r : N) (ds : list N) : Z := Z.of_N (value r (rev ds)).

Lemma lval_cons : forall r d ds, lval r (d :: ds) = (Z.of_N d + Z.of_N r * lval r ds)%Z.
Proof. intros. unfold lval. cbn [rev]. rewrite value_snoc. lia. Qed.
Lemma lval_nonneg : forall r ds, (0 <= lval r ds)%Z.
Proof. intros. unfold lval. lia. Qed.

(** Whatever the digits: overflow (signed types from int up only), or the value
    modulo 2^width. *)
Lemma acc_cases : forall t r ds p o, standard t -> 2 <= r <= 36 -> Forall (fun d => d < r) ds ->
  in_range t p -> in_range t o ->
  (overflows t /\ acc t r ds p o = UB SignedOverflow) \/
  (exists p' o', acc t r ds p o = Ok (p', o') /\ in_range t o' /\
     cong t o' (o + p * Z.of_N r * lval r ds)).
Proof.
  intros t r ds. induction ds as [|d ds IH]; intros p o Ht Hr H Hp Ho.
  - right. exists p, o. split; [reflexivity|]. split; [assumption|].
    unfold lval. cbn. unfold cong. f_equal. lia.
  - inversion H as [|? ? Hd H']; subst. cbn [acc].
    destruct (prepend_cases t r d p o Ht Hr ltac:(lia) Hp Ho) as [[O E]|(st & E & R1 & R2 & C1 & C2)].
    + left. rewrite E. auto.
    + rewrite E. cbn [bind].
      destruct (IH (power st) (output st) Ht Hr H' R1 R2) as [[O E']|(p' & o' & E' & R' & C')].
      * left. auto.
      * right. exists p', o'. split; [assumption|]. split; [assumption|].
        eapply cong_trans; [exact C'|]. rewrite lval_cons.
        replace (o + p * Z.of_N r * (Z.of_N d + Z.of_N r * lval r ds))%Z
          with ((o + Z.of_N d * (p * Z.of_N r)) + (p * Z.of_N r) * Z.of_N r * lval r ds)%Z by ring.
        apply cong_add; [assumption|]. apply cong_mul; [|apply cong_refl].
        apply cong_mul; [assumption|apply cong_refl].
Qed.

(** For every type but the 64-bit signed one, a value that fits is read exactly,
    however many leading zeros there are. *)
Lemma acc_fits : forall t r ds i p o, standard t -> (is_signed t = true -> (width t < 64)%Z) ->
  2 <= r <= 36 -> Forall (fun d => d < r) ds ->
  in_range t p -> cong t p (Z.of_N r ^ i) -> (0 <= i)%Z -> (0 <= o)%Z ->
  (o + Z.of_N r ^ i * Z.of_N r * lval r ds <= max_of t)%Z ->
  exists p', acc t r ds p o = Ok (p', o + Z.of_N r ^ i * Z.of_N r * lval r ds)%Z.
Proof.
  intros t r ds. induction ds as [|d ds IH]; intros i p o Ht Hw Hr H Hp Cp Hi Ho Hv.
  - exists p. cbn [acc]. do 2 f_equal. unfold lval. cbn. lia.
  - inversion H as [|? ? Hd H']; subst. cbn [acc].
    rewrite lval_cons in Hv |- *.
    assert (Pp : (0 < Z.of_N r ^ i)%Z) by (apply Z.pow_pos_nonneg; lia).
    assert (Pr : (Z.of_N r ^ (i + 1) = Z.of_N r ^ i * Z.of_N r)%Z) by (rewrite Z.pow_add_r by lia; f_equal; lia).
    pose proof (lval_nonneg r ds) as Pl.
    set (P := (Z.of_N r ^ i * Z.of_N r)%Z) in *.
    assert (PP : (0 < P)%Z) by (unfold P; nia).
    assert (B1 : (Z.of_N d * P <= max_of t)%Z) by nia.
    assert (B2 : (o + Z.of_N d * P <= max_of t)%Z) by nia.
    pose proof (standard_u t Ht) as Hu. pose proof (standard_p t Ht) as Hq.
    unfold prepend_digit. cbn [power output]. change (with_int t) with (promote t).
    rewrite (convert_id (with_unsigned t) (Z.of_N r)) by (first [assumption | apply small_range; [assumption|lia]]).
    rewrite (convert_id (promote t) (Z.of_N d)) by (first [assumption | apply small_range; [assumption|lia]]).
    destruct (arith_cases (with_unsigned t) (convert (with_unsigned t) p * Z.of_N r) Hu)
      as [(S & N & E)|(pp & E & C & R)].
    { exfalso. clear - Ht S Hw. std_cases t Ht; vm_compute in S; try discriminate.
      specialize (Hw eq_refl). cbn in Hw. lia. }
    rewrite E. cbn [bind].
    assert (Wu : (width t <= width (with_unsigned t))%Z).
    { unfold with_unsigned. destruct (width t <=? 32)%Z eqn:Ew; cbn [width U32]; lia. }
    assert (C2 : cong t (convert t pp) P).
    { eapply cong_trans; [now apply cong_convert|].
      apply (cong_trans _ _ (p * Z.of_N r)).
      - apply (cong_weaken t _ _ _ Ht Hu Wu). eapply cong_trans; [exact C|].
        apply cong_mul; [now apply cong_convert|apply cong_refl].
      - unfold P. apply cong_mul; [exact Cp|apply cong_refl]. }
    assert (R2 : in_range t (convert t pp)) by now apply convert_range.
    assert (M : (Z.of_N d * convert t pp = Z.of_N d * P)%Z).
    { destruct (N.eq_dec d 0) as [-> |Hd0]; [reflexivity|]. f_equal.
      apply (cong_eq t); auto. apply nonneg_t; [assumption|]. nia. }
    rewrite M.
    rewrite arith_ok; [|assumption|apply range_p; [assumption|apply nonneg_t; [assumption|nia]]].
    cbn [bind].
    rewrite arith_ok; [|assumption|apply range_p; [assumption|apply nonneg_t; [assumption|nia]]].
    cbn [bind power output].
    rewrite (convert_id t (o + _)); [|assumption|apply nonneg_t; [assumption|nia]].
    destruct (IH (i + 1)%Z (convert t pp) (o + Z.of_N d * P)%Z) as [p' E']; auto; try lia.
    + rewrite Pr. fold P. assumption.
    + exists p'. rewrite E'. do 2 f_equal. rewrite Pr. fold P. ring.
Qed.

(** The 64-bit signed type: exactly when it is read. *)
Lemma acc_i64 : forall r ds i o, 2 <= r <= 36 -> Forall (fun d => d < r) ds ->
  (0 <= i)%Z -> (Z.of_N r ^ i <= max_of I64)%Z -> (0 <= o <= max_of I64)%Z ->
  let v := (o + Z.of_N r ^ i * Z.of_N r * lval r ds)%Z in
  let q := (Z.of_N r ^ (i + Z.of_nat (length ds)))%Z in
  acc I64 r ds (Z.of_N r ^ i) o
  = if ((q <=? max_of I64) && (v <=? max_of I64))%Z then Ok (q, v) else UB SignedOverflow.
Proof.
  assert (Ht : standard I64) by (vm_compute; tauto).
  intros r ds. induction ds as [|d ds IH]; intros i o Hr H Hi Hp Ho.
  - cbv zeta. cbn [acc length]. rewrite Z.add_0_r. unfold lval. cbn [rev value fold_left].
    rewrite Z.mul_0_r, Z.add_0_r.
    replace ((_ <=? _) && (_ <=? _))%Z with true by lia. reflexivity.
  - inversion H as [|? ? Hd H']; subst. cbv zeta. cbn [acc length]. rewrite lval_cons.
    assert (Pp : (0 < Z.of_N r ^ i)%Z) by (apply Z.pow_pos_nonneg; lia).
    assert (Pr : (Z.of_N r ^ (i + 1) = Z.of_N r ^ i * Z.of_N r)%Z) by (rewrite Z.pow_add_r by lia; f_equal; lia).
    pose proof (lval_nonneg r ds) as Pl.
    assert (Pq : (Z.of_N r ^ (i + 1) <= Z.of_N r ^ (i + Z.of_nat (S (length ds))))%Z)
      by (apply Z.pow_le_mono_r; lia).
    unfold prepend_digit. cbn [power output].
    change (with_unsigned I64) with I64. change (with_int I64) with I64.
    rewrite (convert_id I64 (Z.of_N r)) by (first [assumption | apply small_range; [assumption|lia]]).
    rewrite (convert_id I64 (Z.of_N d)) by (first [assumption | apply small_range; [assumption|lia]]).
    rewrite (convert_id I64 (Z.of_N r ^ i)) by (first [assumption | apply nonneg_t; [assumption|lia]]).
    rewrite <- Pr.
    destruct (Z.le_gt_cases (Z.of_N r ^ (i + 1)) (max_of I64)) as [L1|G1].
    2:{ unfold arith at 1. cbn [is_signed I64].
        replace ((min_of I64 <=? Z.of_N r ^ (i + 1)) && (Z.of_N r ^ (i + 1) <=? max_of I64))%Z
          with false by lia. cbn [bind].
        replace (Z.of_N r ^ (i + Z.of_nat (S (length ds))) <=? max_of I64)%Z with false by lia.
        reflexivity. }
    rewrite (arith_ok I64 (Z.of_N r ^ (i + 1))) by (first [assumption | apply nonneg_t; [assumption|nia]]).
    cbn [bind].
    rewrite (convert_id I64 (Z.of_N r ^ (i + 1))) by (first [assumption | apply nonneg_t; [assumption|nia]]).
    set (P := (Z.of_N r ^ (i + 1))%Z) in *.
    assert (PP : (0 < P)%Z) by (rewrite Pr; nia).
    assert (Mn : (min_of I64 <= 0)%Z) by (vm_compute; discriminate).
    assert (Vs : (o + Z.of_N d * P <= o + P * (Z.of_N d + Z.of_N r * lval r ds))%Z) by nia.
    destruct (Z.le_gt_cases (o + Z.of_N d * P) (max_of I64)) as [L2|G2].
    2:{ assert (Q : (o + P * (Z.of_N d + Z.of_N r * lval r ds) <=? max_of I64)%Z = false) by lia.
        rewrite Q, andb_false_r.
        destruct (arith_cases I64 (Z.of_N d * P) Ht) as [(_ & _ & E)|(m & E & _ & Rm)]; [now rewrite E|].
        rewrite E. cbn [bind].
        assert (m = Z.of_N d * P)%Z.
        { unfold arith in E. cbn [is_signed I64] in E.
          destruct (_ && _); [congruence|discriminate]. }
        subst m. unfold arith. cbn [is_signed I64].
        replace ((min_of I64 <=? o + Z.of_N d * P) && (o + Z.of_N d * P <=? max_of I64))%Z
          with false by lia. reflexivity. }
    rewrite (arith_ok I64 (Z.of_N d * P)) by (first [assumption | apply nonneg_t; [assumption|nia]]).
    cbn [bind].
    rewrite (arith_ok I64 (o + Z.of_N d * P)) by (first [assumption | apply nonneg_t; [assumption|nia]]).
    cbn [bind power output].
    rewrite (convert_id I64 (o + _)); [|assumption|apply nonneg_t; [assumption|nia]].
    subst P. rewrite (IH (i + 1)%Z (o + Z.of_N d * Z.of_N r ^ (i + 1))%Z) by (auto; nia).
    replace (i + 1 + Z.of_nat (length ds))%Z with (i + Z.of_nat (S (length ds)))%Z by lia.
    rewrite Pr. 
    replace (o + Z.of_N d * (Z.of_N r ^ i * Z.of_N r) + Z.of_N r ^ i * Z.of_N r * Z.of_N r * lval r ds)%Z
      with (o + Z.of_N r ^ i * Z.of_N r * (Z.of_N d + Z.of_N r * lval r ds))%Z by ring.
    reflexivity.
Qed.
