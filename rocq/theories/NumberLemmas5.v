(** Integer parsing of arbitrary texts. *)
From Coq Require Import NArith ZArith List Bool Lia ZifyBool ZifyNat ZifyN.
From Verif Require Import Base Integers NumeralSpec UnicodeSpec UnicodeModel UnicodeText
  UnicodeLemmas UnicodeLemmas2 NumberModel NumberText NumberLemmas NumberLemmas2 NumberLemmas3
  NumberLemmas4.
Import ListNotations.
Open Scope N_scope.
Ltac Zify.zify_post_hook ::= Z.div_mod_to_equations.

Lemma digit_in_spec : forall r c d, digit_in r c = Some d <-> is_digit r c d.
Proof.
  intros. unfold digit_in, is_digit. destruct (digit_value c) as [e|]; [|intuition congruence].
  destruct (N.ltb_spec e r); split.
  - intros [= <-]; auto.
  - intros [[= <-] ?]; reflexivity.
  - discriminate.
  - intros [[= <-] ?]; lia.
Qed.

Lemma digits_in_digit : forall r c d cs, is_digit r c d -> digits_in r (c :: cs) = d :: digits_in r cs.
Proof. intros r c d cs H. unfold digits_in. cbn. apply digit_in_spec in H. now rewrite H. Qed.

Lemma digits_in_other : forall r c cs, (forall d, ~ is_digit r c d) -> digits_in r (c :: cs) = digits_in r cs.
Proof.
  intros r c cs H. unfold digits_in. cbn. destruct (digit_in r c) as [d|] eqn:E; [|reflexivity].
  apply digit_in_spec in E. now apply H in E.
Qed.

Lemma digits_in_app : forall r a b, digits_in r (a ++ b) = digits_in r a ++ digits_in r b.
Proof. intros. unfold digits_in. apply flat_map_app. Qed.

Lemma digits_in_rev : forall r a, digits_in r (rev a) = rev (digits_in r a).
Proof.
  induction a as [|c a IH]; [reflexivity|]. cbn [rev]. rewrite digits_in_app, IH.
  change (c :: a) with ([c] ++ a). rewrite digits_in_app, rev_app_distr. f_equal.
  unfold digits_in. cbn. destruct (digit_in r c); reflexivity.
Qed.

Lemma digits_in_lt : forall r a, Forall (fun d => d < r) (digits_in r a).
Proof.
  induction a as [|c a IH]; [constructor|].
  destruct (digit_in r c) as [d|] eqn:E.
  - apply digit_in_spec in E. rewrite (digits_in_digit r c d) by assumption.
    constructor; [apply E|assumption].
  - rewrite digits_in_other; [assumption|]. intros d D. apply digit_in_spec in D. congruence.
Qed.

Lemma digits_in_text : forall r cs ds, digits_text r cs ds -> digits_in r cs = ds.
Proof.
  induction 1 as [|c d cs ds H _ IH]; [reflexivity|].
  rewrite (digits_in_digit r c d) by assumption. now rewrite IH.
Qed.

Lemma signs_in_app : forall a b, signs_in (a ++ b) = signs_in a ++ signs_in b.
Proof. intros. apply filter_app. Qed.

Lemma signs_in_rev : forall a, signs_in (rev a) = rev (signs_in a).
Proof.
  induction a as [|c a IH]; [reflexivity|]. cbn [rev]. rewrite signs_in_app, IH.
  change (c :: a) with ([c] ++ a). rewrite signs_in_app, rev_app_distr. f_equal.
  cbn. destruct ((c =? 43) || (c =? 45)); reflexivity.
Qed.

Lemma sign_not_digit : forall r c d, sign_char c -> ~ is_digit r c d.
Proof. intros r c d [->| ->] [V _]; discriminate V. Qed.

Lemma is_sign_spec : forall c, is_sign_character c = true <-> sign_char c.
Proof. intro c. unfold is_sign_character, sign_char. lia. Qed.

(** Every case of the loop body. *)
Definition at_boundary (f : integer_format) (n : N) : bool :=
  (n =? 3) && match separator f with SepNone => false | _ => true end.

Lemma step_cases : forall t f c sf ng p n o, 2 <= radix f <= 36 ->
  let r := parse_step t f c (ParseState sf ng p n o) in
  (* a second sign *)
  (sign_char c /\ sf = true /\ r = Throw (ParseFailed MultipleSigns)) \/
  (* the first sign, allowed *)
  (sf = false /\ sign_prefix (shows_plus (sign f)) (c =? 45) [c] /\
   r = Ok (ParseState true (ng || (c =? 45)) p (if at_boundary f n then 0 else n) o)) \/
  (* anything else *)
  (~ (sign_char c /\ sf = true) /\ ~ sign_prefix (shows_plus (sign f)) (c =? 45) [c] /\
   ((at_boundary f n = true /\ sep_char (separator f) = Some c /\ r = Ok (ParseState sf ng p 0 o)) \/
    (at_boundary f n = true /\ sep_char (separator f) <> Some c /\
     r = Throw (ParseFailed ThousandsSeparatorMissing)) \/
    (at_boundary f n = false /\ exists d, is_digit (radix f) c d /\
     r = bind (prepend_digit t (radix f) d (ParseState false false p 0 o)) (fun st =>
           Ok (ParseState sf ng (power st) (n + 1) (output st)))) \/
    (at_boundary f n = false /\ (forall d, ~ is_digit (radix f) c d) /\ ctype_ok (radix f) c /\
     r = Throw (ParseFailed DigitCharacterExpected)) \/
    (at_boundary f n = false /\ (forall d, ~ is_digit (radix f) c d) /\ ~ ctype_ok (radix f) c /\
     r = UB CtypeDomain))).
Proof.
  intros t f c sf ng p n o Hr r.
  destruct (is_sign_character c) eqn:Es.
  - destruct sf.
    + left. split; [now apply is_sign_spec|]. split; [reflexivity|].
      unfold r, parse_step. cbn [digits_counted]. unfold check_for_sign. rewrite Es.
      destruct (_ && _); reflexivity.
    + destruct (match sign f with AlwaysShow => true | OnlyWhenNegative => false end || (c =? 45)) eqn:Ea.
      * right; left. split; [reflexivity|]. split.
        { apply is_sign_spec in Es as [-> | ->]; cbn; constructor.
          destruct (sign f); [reflexivity|discriminate]. }
        unfold r, parse_step, at_boundary. cbn [digits_counted]. unfold check_for_sign. rewrite Es, Ea.
        destruct (_ && _); reflexivity.
      * assert (c = 43 /\ sign f = OnlyWhenNegative) as [-> Sf].
        { apply is_sign_spec in Es as [-> | ->]; destruct (sign f); try discriminate; auto. }
        right; right. split; [intuition congruence|].
        split. { rewrite Sf. cbn. intro I. inversion I; discriminate. }
        assert (D : forall d, ~ is_digit (radix f) 43 d) by (intro; apply sign_not_digit; now left).
        destruct (at_boundary f n) eqn:B.
        { right; left. split; [reflexivity|]. split; [destruct (separator f); cbn; congruence|].
          unfold r, parse_step. cbn [digits_counted]. fold (at_boundary f n). rewrite B.
          unfold check_for_sign. rewrite Sf. cbn.
          unfold at_boundary in B. destruct (separator f); [rewrite andb_false_r in B; discriminate| |]; reflexivity. }
        right; right; right; left. split; [reflexivity|]. split; [assumption|].
        split; [right; left; lia|].
        unfold r, parse_step. cbn [digits_counted]. fold (at_boundary f n). rewrite B.
        unfold check_for_sign. rewrite Sf. cbn [bind is_sign_character N.eqb orb].
        destruct (radix_digit_total (radix f) 43 Hr) as [(d & H & _)|[(_ & _ & H & _)|(_ & C & _)]].
        -- now apply D in H.
        -- cbn. now rewrite H.
        -- exfalso. apply C. right; left; lia.
  - assert (Ns : ~ sign_char c) by (rewrite <- is_sign_spec; congruence).
    right; right. split; [tauto|].
    split. { intro I. apply Ns. unfold sign_char. inversion I; auto. }
    assert (Ec : forall st, check_for_sign c (sign f) st = Ok None).
    { intro st. unfold check_for_sign. now rewrite Es. }
    destruct (at_boundary f n) eqn:B.
    + assert (Ed : {sep_char (separator f) = Some c} + {sep_char (separator f) <> Some c}) by (decide equality; apply N.eq_dec); destruct Ed as [E|E].
      * left. split; [reflexivity|]. split; [assumption|].
        unfold r, parse_step. cbn [digits_counted]. fold (at_boundary f n). rewrite B, Ec. cbn [bind].
        destruct (separator f); try discriminate; injection E as <-; reflexivity.
      * right; left. split; [reflexivity|]. split; [assumption|].
        unfold r, parse_step. cbn [digits_counted]. fold (at_boundary f n). rewrite B, Ec. cbn [bind].
        unfold at_boundary in B. unfold check_for_thousands_separator.
        destruct (separator f); cbn [sep_char] in E; [rewrite andb_false_r in B; discriminate| |].
        -- replace (c =? 44) with false by (destruct (N.eqb_spec c 44); congruence). reflexivity.
        -- replace (c =? 46) with false by (destruct (N.eqb_spec c 46); congruence). reflexivity.
    + right; right.
      unfold r, parse_step. cbn [digits_counted]. fold (at_boundary f n). rewrite B, Ec. cbn [bind].
      destruct (radix_digit_total (radix f) c Hr) as [(d & H & H1 & H2)|[(H & H1 & H2 & _)|(H & H1 & H2 & _)]].
      * left. split; [reflexivity|]. exists d. split; [assumption|]. rewrite H1. cbn [bind negb].
        rewrite H2. cbn [bind]. apply prepend_digit_frame.
      * right; left. repeat split; auto. now rewrite H2.
      * right; right. repeat split; auto. now rewrite H2.
Qed.

Definition allowed_char (f : integer_format) (c : N) : Prop :=
  (exists d, is_digit (radix f) c d) \/ sign_char c \/ sep_char (separator f) = Some c.

(** Signs seen: none, or one allowed sign with its negation flag. *)
Definition signs_seen (f : integer_format) (sf ng sf' ng' : bool) (signs : list N) : Prop :=
  (signs = [] /\ sf' = sf /\ ng' = ng) \/
  (sf = false /\ sf' = true /\ exists c, signs = [c] /\
     sign_prefix (shows_plus (sign f)) (c =? 45) [c] /\ ng' = ng || (c =? 45)).

Lemma sep_not_digit : forall s r c d, sep_char s = Some c -> ~ is_digit r c d.
Proof. intros [| |] r c d E [V _]; try discriminate E; injection E as <-; discriminate V. Qed.

Lemma sep_not_sign : forall s c, sep_char s = Some c -> ((c =? 43) || (c =? 45)) = false.
Proof. intros [| |] c E; try discriminate E; injection E as <-; reflexivity. Qed.

Lemma digit_not_sign : forall r c d, is_digit r c d -> ((c =? 43) || (c =? 45)) = false.
Proof. intros r c d H. apply not_sign in H. unfold is_sign_character in H. lia. Qed.

Lemma ploop_outcome : forall t f cs sf ng p n o, standard t -> 2 <= radix f <= 36 ->
  in_range t p -> in_range t o ->
  match ploop t f cs (ParseState sf ng p n o) with
  | Ok st =>
      acc t (radix f) (digits_in (radix f) cs) p o = Ok (power st, output st) /\
      Forall (allowed_char f) cs /\
      signs_seen f sf ng (sign_found st) (negate st) (signs_in cs)
  | Throw e => In e [ParseFailed MultipleSigns; ParseFailed DigitCharacterExpected;
                     ParseFailed ThousandsSeparatorMissing]
  | UB u => (u = SignedOverflow /\ overflows t) \/
            (u = CtypeDomain /\ Exists (fun c => ~ ctype_ok (radix f) c) cs)
  | Terminate | Diverge => False
  end.
Proof.
  intros t f cs. induction cs as [|c cs IH]; intros sf ng p n o Ht Hr Hp Ho.
  - cbn [ploop]. split; [reflexivity|]. split; [constructor|]. left. auto.
  - cbn [ploop].
    destruct (step_cases t f c sf ng p n o Hr)
      as [(S & _ & E)|[(Hsf & S & E)|(N1 & N2 & [(B & S & E)|[(B & S & E)|[(B & d & D & E)|[(B & D & C & E)|(B & D & C & E)]]]])]];
      rewrite E; clear E; cbn [bind].
    + cbn. auto.
    + subst sf. specialize (IH true (ng || (c =? 45)) p (if at_boundary f n then 0 else n) o Ht Hr Hp Ho).
      assert (Sc : sign_char c) by (unfold sign_char; inversion S; auto).
      destruct (ploop _ _ _ _) as [st|e|u| |]; auto.
      * destruct IH as (A & F & Q). rewrite digits_in_other by (intro; now apply sign_not_digit).
        split; [assumption|]. split; [constructor; [right; now left|assumption]|].
        destruct Q as [(Q & -> & ->)|(? & _)]; [|discriminate].
        right. split; [reflexivity|]. split; [reflexivity|]. exists c.
        split; [|auto]. unfold signs_in in *. cbn [filter].
        replace ((c =? 43) || (c =? 45)) with true by (unfold sign_char in Sc; lia). now rewrite Q.
      * destruct IH as [IH|[-> IH]]; [now left|right]. auto.
    + specialize (IH sf ng p 0 o Ht Hr Hp Ho).
      destruct (ploop _ _ _ _) as [st|e|u| |]; auto.
      * destruct IH as (A & F & Q).
        rewrite digits_in_other by (intro; eapply sep_not_digit; eauto).
        split; [assumption|]. split; [constructor; [right; now right|assumption]|].
        unfold signs_in in *. cbn [filter]. now rewrite (sep_not_sign _ _ S).
      * destruct IH as [IH|[-> IH]]; [now left|right]. auto.
    + cbn. auto.
    + assert (D36 : d < 36) by (destruct D; lia).
      destruct (prepend_cases t (radix f) d p o Ht Hr D36 Hp Ho)
        as [[O E]|([sf0 ng0 p' n0 o'] & E & Rp & Ro & _)].
      * rewrite E. cbn. auto.
      * rewrite E. cbn [bind power output] in *.
        specialize (IH sf ng p' (n + 1) o' Ht Hr Rp Ro).
        destruct (ploop _ _ _ _) as [st|e|u| |]; auto.
        -- destruct IH as (A & F & Q). rewrite (digits_in_digit _ c d) by assumption.
           cbn [acc]. rewrite E. cbn [bind power output].
           split; [assumption|]. split; [constructor; [left; eauto|assumption]|].
           unfold signs_in in *. cbn [filter]. now rewrite (digit_not_sign _ _ _ D).
        -- destruct IH as [IH|[-> IH]]; [now left|right]. auto.
    + cbn. auto.
    + right. auto.
Qed.

(** Without a separator, a text of digits and at most one allowed sign runs
    through the loop. *)
Lemma ploop_complete : forall t f cs sf ng p n o sf' ng', 2 <= radix f <= 36 ->
  separator f = SepNone ->
  Forall (fun c => (exists d, is_digit (radix f) c d) \/ sign_char c) cs ->
  signs_seen f sf ng sf' ng' (signs_in cs) ->
  exists n', ploop t f cs (ParseState sf ng p n o)
  = bind (acc t (radix f) (digits_in (radix f) cs) p o) (fun '(p', o') =>
      Ok (ParseState sf' ng' p' n' o')).
Proof.
  intros t f cs. induction cs as [|c cs IH]; intros sf ng p n o sf' ng' Hr Hs F Q.
  - destruct Q as [(_ & -> & ->)|(_ & _ & c & Q & _)]; [|discriminate]. exists n. reflexivity.
  - inversion F as [|? ? F1 F2]; subst.
    assert (B : forall n, at_boundary f n = false) by (intro; unfold at_boundary; rewrite Hs; apply andb_false_r).
    destruct F1 as [[d D]|S].
    + rewrite (digits_in_digit _ _ _ _ D). cbn [acc ploop].
      unfold signs_in in *. cbn [filter] in Q. rewrite (digit_not_sign _ _ _ D) in Q.
      rewrite (step_digit t f c d) by auto.
      destruct (prepend_digit _ _ _ _) as [[? ? p1 ? o1]| | | |]; cbn [bind power output];
        try (exists 0; reflexivity).
      apply IH; auto.
    + rewrite digits_in_other by (intro; now apply sign_not_digit).
      unfold signs_in in Q. cbn [filter] in Q.
      replace ((c =? 43) || (c =? 45)) with true in Q by (unfold sign_char in S; lia).
      destruct Q as [(Q & _)|(-> & -> & c' & Q & A & ->)]; [discriminate|].
      injection Q as -> Q.
      cbn [ploop].
      destruct (step_cases t f c' false ng p n o Hr) as [(_ & X & _)|[(_ & _ & E)|(_ & X & _)]];
        [discriminate| |now elim X].
      rewrite E. cbn [bind]. rewrite B. apply IH; auto. left. auto.
Qed.

Lemma holds_not_max : forall k c, holds k c -> c <> 0xFFFFFFFF.
Proof. intros k c H. destruct k as [[|]| | | | |]; cbn in H; try lia; unfold scalar in H; lia. Qed.

(** Everything parse_integer can do on a well-formed text. *)
Lemma parse_outcome : forall k t f l, standard t -> 2 <= radix f <= 36 -> Forall (holds k) l ->
  match parse_integer k t (units k l) f with
  | Ok v => in_range t v /\ Forall (allowed_char f) l /\
      (exists a c d, l = a ++ [c] /\ is_digit (radix f) c d) /\
      exists ng, signs_seen f false false (negb (match signs_in l with [] => true | _ => false end)) ng (signs_in l) /\
        (ng = true -> is_signed t = true) /\
        v = convert t (signed_value ng (value (radix f) (digits_in (radix f) l)))
  | Throw e => In e [ParseFailed EmptyInput; ParseFailed DigitCharacterExpected;
                     ParseFailed MultipleSigns; ParseFailed ThousandsSeparatorMissing;
                     ParseFailed NegativeUnsigned]
  | UB u => (u = SignedOverflow /\ overflows t) \/
            (u = CtypeDomain /\ 10 <= radix f /\ Exists (fun c => 255 < c) l)
  | Terminate | Diverge => False
  end.
Proof.
  intros k t f l Ht Hr H. rewrite parse_integer_list by assumption.
  destruct l as [|c l _] using rev_ind; [cbn; auto|].
  rewrite rev_app_distr. cbn [rev app].
  apply Forall_app in H as [H Hc]. inversion Hc as [|? ? Hc1 _]; subst.
  assert (CT : forall c, holds k c -> ~ ctype_ok (radix f) c -> 10 <= radix f /\ 255 < c).
  { intros x Hx Nx. apply holds_not_max in Hx. unfold ctype_ok in Nx.
    split; [destruct (N.le_gt_cases 10 (radix f))|destruct (N.le_gt_cases x 255)]; tauto. }
  destruct (radix_digit_total (radix f) c Hr) as [(d & D & _ & E)|[(D & _ & _ & E)|(D & C & _ & E)]];
    rewrite E; cbn [bind].
  2:{ cbn. auto. }
  2:{ right. apply CT in C; [|assumption]. split; [reflexivity|]. split; [apply C|].
      apply Exists_app. right. apply Exists_cons_hd. apply C. }
  assert (D36 : d < 36) by (destruct D; lia).
  rewrite (convert_id t (Z.of_N d)) by (first [assumption | apply small_range; [assumption|lia]]).
  assert (Rd : in_range t (Z.of_N d)) by (apply small_range; [assumption|lia]).
  pose proof (ploop_outcome t f (rev l) false false 1 1 (Z.of_N d) Ht Hr (in_range_1 t Ht) Rd) as P.
  destruct (ploop _ _ _ _) as [st|e|u| |]; cbn [bind]; auto.
  - destruct P as (A & F & Q).
    assert (Ft : Forall (allowed_char f) (l ++ [c])).
    { apply Forall_app. split; [rewrite <- (rev_involutive l); now apply Forall_rev|].
      constructor; [left; eauto|constructor]. }
    rewrite digits_in_rev in A.
    assert (Sg : signs_in (l ++ [c]) = rev (signs_in (rev l))).
    { rewrite signs_in_app, signs_in_rev, rev_involutive. unfold signs_in at 2. cbn [filter].
      rewrite (digit_not_sign _ _ _ D). apply app_nil_r. }
    assert (Sq : signs_seen f false false (sign_found st) (negate st) (signs_in (l ++ [c]))).
    { rewrite Sg. destruct Q as [(Q & Q1 & Q2)|(Q1 & Q2 & x & Q3 & Q4)].
      - left. now rewrite Q.
      - right. split; [reflexivity|]. split; [assumption|]. exists x. rewrite Q3. auto. }
    assert (Sf : sign_found st = negb (match signs_in (l ++ [c]) with [] => true | _ => false end)).
    { destruct Sq as [(Q0 & Q1 & Q2)|(Q1 & Q2 & x & Q3 & Q4)]; [rewrite Q0|rewrite Q3]; auto. }
    assert (V : digits_in (radix f) (l ++ [c]) = rev (d :: rev (digits_in (radix f) l))).
    { rewrite digits_in_app, (digits_in_digit _ c d [] D). cbn [rev]. now rewrite rev_involutive. }
    destruct (acc_cases t (radix f) (rev (digits_in (radix f) l)) 1 (Z.of_N d) Ht Hr
                ltac:(apply Forall_rev; apply digits_in_lt) (in_range_1 t Ht) Rd) as [[_ X]|(p' & o' & X & R & C)];
      rewrite X in A; [discriminate|].
    destruct st as [sf ng p n o]. cbn [negate output power sign_found] in *.
    injection A as -> ->.
    rewrite <- acc_value, <- V in C.
    set (v := value (radix f) (digits_in (radix f) (l ++ [c]))) in *.
    destruct (andb ng (negb (is_signed t))) eqn:Bn.
    + apply andb_true_iff in Bn as [-> Bn]. apply negb_true_iff in Bn.
      unfold finish_integer. cbn [negate]. rewrite Bn. cbn. auto 6.
    + assert (S : ng = true -> is_signed t = true).
      { intros ->. cbn in Bn. now destruct (is_signed t). }
      destruct (finish_cases t sf ng p n o (Z.of_N v) Ht R C S) as [[O Fi]|Fi]; rewrite Fi.
      * left; auto.
      * split; [now apply convert_range|]. split; [assumption|].
        split; [exists l, c, d; auto|].
        exists ng. rewrite <- Sf. split; [assumption|]. split; [assumption|].
        unfold signed_value. now destruct ng.
  - destruct P as [<-|[<-|[<-|[]]]]; cbn; auto.
  - destruct P as [P|[-> P]]; [now left|right]. split; [reflexivity|].
    assert (P' : Exists (fun c => ~ ctype_ok (radix f) c) l).
    { apply Exists_exists in P as (x & I & P). apply Exists_exists. exists x. split; [now apply in_rev|assumption]. }
    apply Exists_exists in P' as (x & I & P').
    apply CT in P'; [|rewrite Forall_forall in H; auto].
    split; [apply P'|]. apply Exists_app. left. apply Exists_exists. exists x. tauto.
Qed.

(** Without a separator: what is accepted. *)
Lemma parse_plain : forall k t f l a c d ng sf, standard t -> 2 <= radix f <= 36 ->
  Forall (holds k) l ->
  separator f = SepNone -> l = a ++ [c] -> is_digit (radix f) c d ->
  Forall (fun c => (exists d, is_digit (radix f) c d) \/ sign_char c) l ->
  signs_seen f false false sf ng (signs_in l) ->
  let r := parse_integer k t (units k l) f in
  (overflows t /\ r = UB SignedOverflow) \/
  (ng = true /\ is_signed t = false /\ r = Throw (ParseFailed NegativeUnsigned)) \/
  ((ng = true -> is_signed t = true) /\
   r = Ok (convert t (signed_value ng (value (radix f) (digits_in (radix f) l))))).
Proof.
  intros k t f l a c d ng sf Ht Hr H Hs -> D F Q r. unfold r. clear r.
  rewrite parse_integer_list by assumption.
  rewrite rev_app_distr. cbn [rev app].
  destruct (radix_digit_ok _ _ _ Hr D) as (_ & E & _). rewrite E. cbn [bind].
  assert (D36 : d < 36) by (destruct D; lia).
  rewrite (convert_id t (Z.of_N d)) by (first [assumption | apply small_range; [assumption|lia]]).
  assert (Rd : in_range t (Z.of_N d)) by (apply small_range; [assumption|lia]).
  assert (Sg : signs_in (a ++ [c]) = signs_in a).
  { rewrite signs_in_app. unfold signs_in at 2. cbn [filter].
    rewrite (digit_not_sign _ _ _ D). apply app_nil_r. }
  assert (Qr : signs_seen f false false sf ng (signs_in (rev a))).
  { rewrite signs_in_rev, <- Sg. destruct Q as [(Q & Q1 & Q2)|(Q1 & Q2 & x & Q3 & Q4)].
    - left. now rewrite Q.
    - right. split; [reflexivity|]. split; [assumption|]. exists x. rewrite Q3. auto. }
  apply Forall_app in F as [F _]. apply Forall_rev in F.
  destruct (ploop_complete t f (rev a) false false 1 1 (Z.of_N d) sf ng Hr Hs F Qr) as [n' P].
  rewrite P. clear P. rewrite digits_in_rev.
  assert (V : digits_in (radix f) (a ++ [c]) = rev (d :: rev (digits_in (radix f) a))).
  { rewrite digits_in_app, (digits_in_digit _ c d [] D). cbn [rev]. now rewrite rev_involutive. }
  destruct (acc_cases t (radix f) (rev (digits_in (radix f) a)) 1 (Z.of_N d) Ht Hr
              ltac:(apply Forall_rev; apply digits_in_lt) (in_range_1 t Ht) Rd) as [[O X]|(p' & o' & X & R & C)];
    rewrite X; cbn [bind]; [now left|].
  rewrite <- acc_value, <- V in C.
  destruct (andb ng (negb (is_signed t))) eqn:Bn.
  - right; left. apply andb_true_iff in Bn as [-> Bn]. apply negb_true_iff in Bn.
    split; [reflexivity|]. split; [assumption|]. unfold finish_integer. cbn [negate]. now rewrite Bn.
  - assert (S : ng = true -> is_signed t = true).
    { intros ->. cbn in Bn. now destruct (is_signed t). }
    destruct (finish_cases t sf ng p' n' o' _ Ht R C S) as [[O Fi]|Fi]; [now left|].
    right; right. split; [assumption|]. rewrite Fi. unfold signed_value. now destruct ng.
Qed.
