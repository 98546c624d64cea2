(** Lemmas about integer formatting (whole calls) and parsing. *)
From Coq Require Import NArith ZArith List Bool Lia ZifyBool ZifyNat ZifyN.
From Verif Require Import Base Integers NumeralSpec UnicodeSpec UnicodeModel UnicodeText
  UnicodeLemmas UnicodeLemmas2 NumberModel NumberText NumberLemmas.
Import ListNotations.
Open Scope N_scope.
Ltac Zify.zify_post_hook ::= Z.div_mod_to_equations.

Lemma digits_short : forall r ds, 1 < r -> Forall (fun d => d < r) ds -> ds <> [] ->
  hd_error ds <> Some 0 -> (Z.of_N (value r ds) < 2 ^ 64)%Z -> (length ds <= 64)%nat.
Proof.
  intros r ds Hr H Hne Hz Hv.
  pose proof (canonical_length r ds Hr H Hne Hz) as L.
  destruct (Nat.le_gt_cases (length ds) 64) as [|G]; [assumption|exfalso].
  assert (2 ^ 64 <= 2 ^ N.of_nat (length ds - 1)) by (apply N.pow_le_mono_r; lia).
  assert (2 ^ N.of_nat (length ds - 1) <= r ^ N.of_nat (length ds - 1))
    by (apply N.pow_le_mono_l; lia).
  change (2 ^ 64) with 18446744073709551616 in *. change (2 ^ 64)%Z with 18446744073709551616%Z in Hv.
  lia.
Qed.

Lemma std_abs_ok : forall t x, standard t -> in_range t x -> is_signed t = true ->
  x <> min_of t -> std_abs t x = Ok (Z.abs x).
Proof.
  intros t x H R S M. unfold std_abs.
  assert (A : in_range t (Z.abs x)).
  { std_cases t H; try discriminate S; bounds; lia. }
  rewrite arith_ok; [|now apply standard_p|now apply range_p].
  cbn [bind]. now rewrite convert_id.
Qed.

Lemma format_integer_ok : forall k cs t x f,
  standard t -> in_range t x -> 2 <= radix f <= 36 ->
  (is_signed t = true -> x <> min_of t) ->
  exists text, format_integer k cs t x f = Ok text /\
    numeral (radix f) (shows_plus (sign f)) (sep_char (separator f)) x text.
Proof.
  intros k cs t x f Ht Rx Hr Hm. unfold format_integer, format_integer_with.
  destruct (Z.eqb_spec x 0) as [-> |Hx].
  - exists [48]. split.
    + rewrite append_ok by (apply ascii_insertable; lia). rewrite ascii_encode by lia. reflexivity.
    + exists [0]. split; [|split; [reflexivity|destruct (separator f); reflexivity]]. split; [discriminate|]. split; [|auto].
      apply Forall_cons; [lia|apply Forall_nil].
  - assert (Hn : 0 < Z.abs_N x) by lia.
    destruct (canonical_digits (radix f) (Z.abs_N x) ltac:(lia) Hn) as (ds & Hne & Hd & Hv & Hz).
    assert (Ea : (if is_signed t then std_abs t x else Ok x) = Ok (Z.of_N (value (radix f) ds))).
    { rewrite Hv, N2Z.inj_abs_N. destruct (is_signed t) eqn:S.
      - apply std_abs_ok; auto.
      - f_equal. unfold in_range, min_of in Rx. rewrite S in Rx. lia. }
    rewrite Ea. cbn [bind].
    assert (Hb : (Z.of_N (value (radix f) ds) <= max_of t)%Z).
    { rewrite Hv, N2Z.inj_abs_N. destruct (is_signed t) eqn:S.
      - specialize (Hm eq_refl). clear - Ht Rx S Hm. std_cases t Ht; try discriminate S; bounds; lia.
      - clear - Ht Rx S. std_cases t Ht; try discriminate S; bounds; lia. }
    destruct (exists_last Hne) as (front & d & E).
    assert (Hl : (length ds <= 64)%nat).
    { eapply digits_short; eauto; [lia|]. pose proof (max_lt_64 t Ht). lia. }
    rewrite E in *. rewrite app_length in Hl. cbn [length] in Hl.
    rewrite (format_loop_ok k cs t (radix f) (separator f) front d format_fuel 0 0 []); auto;
      [|unfold format_fuel; lia].
    cbn [bind].
    assert (G : grouped_before (sep_char (separator f)) (map digit_char front) (0 + 1)
                ++ [digit_char d]
              = grouped (sep_char (separator f)) (map digit_char (front ++ [d]))).
    { unfold grouped. rewrite map_app, grouped_before_app. cbn [map grouped_before length app].
      rewrite app_nil_r. f_equal. unfold separator_after.
      destruct (sep_char (separator f)); reflexivity. }
    rewrite G.
    assert (C : canonical (radix f) (front ++ [d])) by (repeat split; auto; intro X; congruence).
    unfold numeral, sign_text.
    destruct (x <? 0)%Z eqn:Sx.
    + rewrite prepend_ascii by lia. eexists. split; [reflexivity|]. exists (front ++ [d]). auto.
    + replace (0 <? x)%Z with true by lia.
      destruct (sign f); cbn [shows_plus andb].
      * rewrite prepend_ascii by lia. eexists. split; [reflexivity|]. exists (front ++ [d]). auto.
      * eexists. split; [reflexivity|]. exists (front ++ [d]). auto.
Qed.

Lemma numeral_unique : forall r p s x a b, 1 < r -> numeral r p s x a -> numeral r p s x b -> a = b.
Proof.
  intros r p s x a b Hr (da & Ca & Va & ->) (db & Cb & Vb & ->).
  rewrite (canonical_unique r da db); auto. congruence.
Qed.

(* ------------------------------------------------------ digits of a radix *)

Lemma radix_digit_ok : forall r c d, 2 <= r <= 36 -> is_digit r c d ->
  is_radix_digit c r = Ok true /\ get_next_digit c r = Ok d /\ c < 128 /\ d < 36.
Proof.
  intros r c d Hr [V L]. unfold digit_value in V.
  assert (B : c < 128 /\ is_radix_digit c r = Ok true /\ d < 36).
  { unfold is_radix_digit, tolower, to_char32.
    destruct ((48 <=? c) && (c <=? 57)) eqn:E1;
      [|destruct ((65 <=? c) && (c <=? 90)) eqn:E2;
        [|destruct ((97 <=? c) && (c <=? 122)) eqn:E3; [|discriminate]]];
      injection V as <-.
    - destruct (r <? 10) eqn:Er.
      + split; [lia|]. split; [f_equal; lia|lia].
      + replace (c <=? 255) with true by lia. cbn [bind]. split; [lia|]. split; [f_equal; lia|lia].
    - replace (r <? 10) with false by lia.
      replace (c <=? 255) with true by lia. cbn [bind]. rewrite N.mod_small by lia.
      split; [lia|]. split; [f_equal; lia|lia].
    - replace (r <? 10) with false by lia.
      replace (c <=? 255) with true by lia. cbn [bind]. rewrite N.mod_small by lia.
      split; [lia|]. split; [f_equal; lia|lia]. }
  destruct B as (B1 & B2 & B3). repeat split; auto.
  unfold get_next_digit, digit_character_to_integer. rewrite B2. cbn [bind negb].
  destruct ((48 <=? c) && (c <=? 57)) eqn:E1; [injection V as <-; reflexivity|].
  destruct ((65 <=? c) && (c <=? 90)) eqn:E2.
  - replace ((97 <=? c) && (c <=? 122)) with false by lia. injection V as <-. cbn. f_equal. lia.
  - destruct ((97 <=? c) && (c <=? 122)) eqn:E3; [|discriminate]. injection V as <-. cbn. f_equal. lia.
Qed.

(** Characters std::tolower may be called with. *)
Definition ctype_ok (r c : N) : Prop := r < 10 \/ c <= 255 \/ c = 0xFFFFFFFF.

Lemma radix_digit_total : forall r c, 2 <= r <= 36 ->
  (exists d, is_digit r c d /\ is_radix_digit c r = Ok true /\ get_next_digit c r = Ok d) \/
  ((forall d, ~ is_digit r c d) /\ ctype_ok r c /\ is_radix_digit c r = Ok false /\
     get_next_digit c r = Throw (ParseFailed DigitCharacterExpected)) \/
  ((forall d, ~ is_digit r c d) /\ ~ ctype_ok r c /\ is_radix_digit c r = UB CtypeDomain /\
     get_next_digit c r = UB CtypeDomain).
Proof.
  intros r c Hr.
  assert (D : (exists d, is_digit r c d) \/ (forall d, ~ is_digit r c d)).
  { unfold is_digit. destruct (digit_value c) as [d|]; [|right; intros d [X _]; discriminate].
    destruct (N.lt_ge_cases d r); [left; exists d; auto|].
    right. intros d' [X Y]. injection X as <-. lia. }
  destruct D as [[d D]|D].
  - left. exists d. destruct (radix_digit_ok r c d Hr D) as (A & B & _). auto.
  - right.
    assert (N : forall b, is_radix_digit c r = Ok b -> b = false).
    { intros b E. destruct b; [exfalso|reflexivity].
      unfold is_radix_digit, tolower, to_char32 in E.
      unfold is_digit, digit_value in D.
      destruct (r <? 10) eqn:Er.
      - assert (X : (48 <=? c) && (c <? 48 + r) = true) by congruence.
        replace ((48 <=? c) && (c <=? 57)) with true in D by lia.
        apply (D (c - 48)). split; [reflexivity|lia].
      - destruct (c <=? 255) eqn:Ec.
        + cbn [bind] in E. rewrite N.mod_small in E by lia.
          set (lc := if (65 <=? c) && (c <=? 90) then c + 32 else c) in *.
          assert (X : ((48 <=? c) && (c <=? 57)) || ((97 <=? lc) && (lc <? 97 + r - 10)) = true)
            by congruence.
          destruct ((48 <=? c) && (c <=? 57)) eqn:E1; [apply (D (c - 48)); split; [reflexivity|lia]|].
          destruct ((65 <=? c) && (c <=? 90)) eqn:E2; unfold lc in X.
          * apply (D (c - 55)). split; [reflexivity|lia].
          * destruct ((97 <=? c) && (c <=? 122)) eqn:E3; [|lia].
            apply (D (c - 87)). split; [reflexivity|lia].
        + destruct (c =? 0xFFFFFFFF) eqn:Ef; [|discriminate].
          cbn [bind] in E. rewrite N.mod_small in E by lia.
          assert (X : ((48 <=? c) && (c <=? 57)) || ((97 <=? c) && (c <? 97 + r - 10)) = true)
            by congruence. lia. }
    unfold get_next_digit, digit_character_to_integer.
    assert (T : (ctype_ok r c /\ exists b, is_radix_digit c r = Ok b) \/
                (~ ctype_ok r c /\ is_radix_digit c r = UB CtypeDomain)).
    { unfold is_radix_digit, tolower, ctype_ok.
      destruct (r <? 10) eqn:Er; [left; split; [lia|eauto]|].
      destruct (c <=? 255) eqn:Ec; [left; split; [lia|cbn; eauto]|].
      destruct (c =? 0xFFFFFFFF) eqn:Ef; [left; split; [lia|cbn; eauto]|].
      right. split; [lia|reflexivity]. }
    destruct T as [[T [b B]]|[T B]].
    + left. pose proof (N b B). subst b. rewrite B. auto.
    + right. rewrite B. auto.
Qed.

(* ------------------------------------- reverse iteration as a list traversal *)

Fixpoint ploop (t : int_type) (f : integer_format) (cs : list N) (st : parse_state)
  : outcome parse_state :=
  match cs with
  | [] => Ok st
  | c :: cs' => bind (parse_step t f c st) (ploop t f cs')
  end.

Lemma parse_loop_list : forall k t f l1 l2 fuel st,
  Forall (holds k) (l1 ++ l2) -> (length l1 < fuel)%nat ->
  parse_loop fuel k (units k (l1 ++ l2)) (length (units k l1)) t f st
  = ploop t f (rev l1) st.
Proof.
  intros k t f l1. induction l1 as [|c l1 IH] using rev_ind; intros l2 fuel st H L.
  - destruct fuel; [lia|]. reflexivity.
  - destruct fuel; [lia|]. rewrite app_length in L. cbn [length] in L.
    rewrite rev_app_distr. cbn [rev app ploop parse_loop].
    assert (E : units k ((l1 ++ [c]) ++ l2)
                = units k l1 ++ encode1 (encoding_of k) c ++ units k l2)
      by (rewrite !units_app, units_one, app_assoc; reflexivity).
    assert (E1 : units k (l1 ++ [c]) = units k l1 ++ encode1 (encoding_of k) c)
      by (rewrite units_app, units_one; reflexivity).
    assert (Hne : encode1 (encoding_of k) c <> []) by apply encode1_nonempty.
    assert (Hlen : (length (units k (l1 ++ [c])) =? 0)%nat = false).
    { rewrite E1, app_length. destruct (encode1 (encoding_of k) c); [congruence|]. cbn. lia. }
    rewrite Hlen, E, E1.
    assert (Hc : holds k c).
    { apply Forall_app in H as [H _]. apply Forall_app in H as [_ H]. now inversion H. }
    assert (H2 : Forall (unit_range k) (units k l2)).
    { apply units_range. now apply Forall_app in H as [_ H]. }
    rewrite rderef_boundary by assumption. cbn [bind].
    rewrite retreat_boundary by assumption.
    destruct (parse_step t f c st); cbn [bind]; try reflexivity.
    rewrite <- E. rewrite <- app_assoc. apply IH; [|lia]. now rewrite app_assoc.
Qed.

Lemma parse_integer_list : forall k t f l, Forall (holds k) l ->
  parse_integer k t (units k l) f
  = match rev l with
    | [] => Throw (ParseFailed EmptyInput)
    | c :: cs =>
      bind (get_next_digit c (radix f)) (fun d =>
      bind (ploop t f cs (ParseState false false 1 1 (convert t (Z.of_N d))))
           (finish_integer t))
    end.
Proof.
  intros k t f l H. destruct l as [|c l _] using rev_ind; [reflexivity|].
  rewrite rev_app_distr. cbn [rev app]. unfold parse_integer.
  assert (E1 : units k (l ++ [c]) = units k l ++ encode1 (encoding_of k) c ++ [])
    by (rewrite units_app, units_one, app_nil_r; reflexivity).
  assert (E2 : units k (l ++ [c]) = units k l ++ encode1 (encoding_of k) c)
    by (rewrite units_app, units_one; reflexivity).
  assert (Hne : encode1 (encoding_of k) c <> []) by apply encode1_nonempty.
  assert (Hlen : (length (units k (l ++ [c])) =? 0)%nat = false).
  { rewrite E2, app_length. destruct (encode1 (encoding_of k) c); [congruence|]. cbn. lia. }
  rewrite Hlen.
  assert (Hc : holds k c) by (apply Forall_app in H as [_ H]; now inversion H).
  assert (Rd : rderef k (units k (l ++ [c])) (length (units k (l ++ [c]))) = Ok c).
  { rewrite E2 at 2. rewrite E1. apply rderef_boundary; [assumption|constructor]. }
  assert (Rt : retreat k (units k (l ++ [c])) (length (units k (l ++ [c]))) = (length (units k l), Ok tt)).
  { rewrite E2 at 2. rewrite E1. now apply retreat_boundary. }
  cbv zeta. rewrite Rd, Rt. cbn [bind].
  destruct (get_next_digit c (radix f)); cbn [bind]; try reflexivity.
  destruct (Nat.eqb_spec (length (units k l)) 0) as [E0|E0].
  - assert (l = []).
    { destruct l as [|x l]; [reflexivity|exfalso].
      change (units k (x :: l)) with (encode1 (encoding_of k) x ++ units k l) in E0.
      rewrite app_length in E0. pose proof (encode1_nonempty (encoding_of k) x).
      destruct (encode1 (encoding_of k) x); [congruence|cbn in E0; lia]. }
    subst l. reflexivity.
  - rewrite parse_loop_list; [reflexivity|assumption|].
    assert (G : forall m, (length m <= length (units k m))%nat).
    { clear. induction m as [|x m IH]; [apply le_n|].
      change (units k (x :: m)) with (encode1 (encoding_of k) x ++ units k m).
      rewrite app_length. pose proof (encode1_nonempty (encoding_of k) x).
      destruct (encode1 (encoding_of k) x); [congruence|cbn; lia]. }
    rewrite E2, app_length. specialize (G l). lia.
Qed.

(* ------------------------------------------------------ the arithmetic part *)

(** power and output after the digits [ds], least significant first. *)
Fixpoint acc (t : int_type) (r : N) (ds : list N) (p o : Z) : outcome (Z * Z) :=
  match ds with
  | [] => Ok (p, o)
  | d :: ds' =>
    bind (prepend_digit t r d (ParseState false false p 0 o)) (fun st =>
      acc t r ds' (power st) (output st))
  end.

Lemma prepend_digit_frame : forall t r d sf ng p n o,
  prepend_digit t r d (ParseState sf ng p n o)
  = bind (prepend_digit t r d (ParseState false false p 0 o)) (fun st =>
      Ok (ParseState sf ng (power st) (n + 1) (output st))).
Proof.
  intros. unfold prepend_digit. cbn [power output sign_found negate digits_counted].
  destruct (arith (with_unsigned t) _); cbn [bind]; try reflexivity.
  destruct (arith (with_int t) _); cbn [bind]; try reflexivity.
  destruct (arith (with_int t) _); cbn [bind]; reflexivity.
Qed.

Lemma not_sign : forall r c d, is_digit r c d -> is_sign_character c = false.
Proof.
  intros r c d [V _]. unfold digit_value in V. unfold is_sign_character.
  destruct ((48 <=? c) && (c <=? 57)) eqn:E1; [lia|].
  destruct ((65 <=? c) && (c <=? 90)) eqn:E2; [lia|].
  destruct ((97 <=? c) && (c <=? 122)) eqn:E3; [lia|discriminate].
Qed.

(** A digit where a digit is expected. *)
Lemma step_digit : forall t f c d sf ng p n o, 2 <= radix f <= 36 -> is_digit (radix f) c d ->
  (separator f = SepNone \/ n <> 3) ->
  parse_step t f c (ParseState sf ng p n o)
  = bind (prepend_digit t (radix f) d (ParseState false false p 0 o)) (fun st =>
      Ok (ParseState sf ng (power st) (n + 1) (output st))).
Proof.
  intros t f c d sf ng p n o Hr D Hs. unfold parse_step. cbn [digits_counted].
  assert (B : (n =? 3) && match separator f with SepNone => false | _ => true end = false).
  { destruct Hs as [-> |Hs]; [apply andb_false_r|]. replace (n =? 3) with false by lia. reflexivity. }
  rewrite B. unfold check_for_sign. rewrite (not_sign _ _ _ D). cbn [bind].
  destruct (radix_digit_ok _ _ _ Hr D) as (R1 & R2 & _). rewrite R1. cbn [bind negb]. rewrite R2.
  cbn [bind]. apply prepend_digit_frame.
Qed.

(** A separator where one is expected. *)
Lemma step_separator : forall t f c sf ng p o, sep_char (separator f) = Some c ->
  parse_step t f c (ParseState sf ng p 3 o) = Ok (ParseState sf ng p 0 o).
Proof.
  intros t f c sf ng p o Hs. unfold parse_step. cbn [digits_counted].
  destruct (separator f) eqn:E; try discriminate; injection Hs as <-; reflexivity.
Qed.

(** digits_counted after [m] digits. *)
Definition counted_after (s : thousands_separator) (m : nat) : N :=
  match s with
  | SepNone => N.of_nat m
  | _ => if Nat.eqb (m mod 3) 0 then 3 else N.of_nat (m mod 3)
  end.

Lemma ploop_app : forall t f a b st,
  ploop t f (a ++ b) st = bind (ploop t f a st) (ploop t f b).
Proof.
  intros t f a b. induction a as [|c a IH]; intro st; cbn [app ploop bind]; [reflexivity|].
  destruct (parse_step t f c st); cbn [bind]; auto.
Qed.

Lemma ploop_grouped : forall t f cs ds m sf ng p o,
  2 <= radix f <= 36 -> digits_text (radix f) cs ds -> (1 <= m)%nat ->
  ploop t f (rev (grouped_before (sep_char (separator f)) cs m))
    (ParseState sf ng p (counted_after (separator f) m) o)
  = bind (acc t (radix f) (rev ds) p o) (fun '(p', o') =>
      Ok (ParseState sf ng p' (counted_after (separator f) (length cs + m)) o')).
Proof.
  intros t f cs. induction cs as [|c cs IH] using rev_ind; intros ds m sf ng p o Hr D Hm.
  - inversion D; subst. reflexivity.
  - apply Forall2_app_inv_l in D as (ds1 & ds2 & D1 & D2 & ->).
    inversion D2 as [|? d ? ? Hd D3]; subst. inversion D3; subst.
    rewrite grouped_before_app. cbn [grouped_before length]. rewrite app_nil_r.
    rewrite rev_app_distr. cbn [rev]. rewrite (rev_app_distr ds1). cbn [rev app acc].
    rewrite <- app_assoc, ploop_app. rewrite app_length. cbn [length].
    assert (Sep : ploop t f (rev (separator_after (sep_char (separator f)) (0 + m)))
                    (ParseState sf ng p (counted_after (separator f) m) o)
            = Ok (ParseState sf ng p (match separator f with
                   | SepNone => N.of_nat m | _ => N.of_nat (m mod 3) end) o)).
    { cbn [plus]. unfold separator_after, counted_after. destruct (separator f) eqn:Es; cbn [sep_char].
      - reflexivity.
      - replace (m =? 0)%nat with false by lia. rewrite andb_true_r.
        destruct (Nat.eqb_spec (m mod 3) 0) as [E|E]; [|reflexivity].
        cbn [rev app ploop]. rewrite step_separator by now rewrite Es. cbn [bind].
        rewrite E. reflexivity.
      - replace (m =? 0)%nat with false by lia. rewrite andb_true_r.
        destruct (Nat.eqb_spec (m mod 3) 0) as [E|E]; [|reflexivity].
        cbn [rev app ploop]. rewrite step_separator by now rewrite Es. cbn [bind].
        rewrite E. reflexivity. }
    rewrite Sep. cbn [bind app ploop].
    rewrite (step_digit t f c d); auto.
    2:{ destruct (separator f); [left; reflexivity|right; lia|right; lia]. }
    destruct (prepend_digit t (radix f) d _) as [st'| | | |]; cbn [bind]; try reflexivity.
    assert (Ec : match separator f with SepNone => N.of_nat m | _ => N.of_nat (m mod 3) end + 1
                 = counted_after (separator f) (1 + m)).
    { unfold counted_after. destruct (separator f); [lia| |];
        destruct (Nat.eqb_spec ((1 + m) mod 3) 0); lia. }
    rewrite Ec. change (length [c] + m)%nat with (1 + m)%nat.
    rewrite (IH ds1 (1 + m)%nat) by (auto; lia).
    replace (length cs + 1 + m)%nat with (length cs + (1 + m))%nat by lia. reflexivity.
Qed.

Lemma step_sign : forall t f c ng' p n o, sign_prefix (shows_plus (sign f)) ng' [c] ->
  exists n', parse_step t f c (ParseState false false p n o) = Ok (ParseState true ng' p n' o).
Proof.
  intros t f c ng' p n o H. unfold parse_step.
  destruct ((_ =? 3) && _); unfold check_for_sign; inversion H; subst;
    destruct (sign f); try discriminate; cbn; eauto.
Qed.

(** Parsing a well-formed numeral is the arithmetic on its digits. *)
Lemma parse_numeral : forall k t f sg ng cs ds,
  2 <= radix f <= 36 -> digits_text (radix f) cs ds -> cs <> [] ->
  sign_prefix (shows_plus (sign f)) ng sg ->
  exists d dr, rev ds = d :: dr /\
  parse_integer k t (sg ++ grouped (sep_char (separator f)) cs) f
  = bind (acc t (radix f) dr 1 (convert t (Z.of_N d))) (fun '(p, o) =>
      finish_integer t (ParseState false ng p 0 o)).
Proof.
  intros k t f sg ng cs ds Hr D Hne Hsg.
  destruct (exists_last Hne) as (front & c & ->).
  apply Forall2_app_inv_l in D as (ds1 & ds2 & D1 & D2 & ->).
  inversion D2 as [|? d ? ? Hd D3]; subst. inversion D3; subst.
  exists d, (rev ds1). split; [now rewrite rev_app_distr|].
  assert (Dig : forall cs ds, digits_text (radix f) cs ds -> Forall (fun x => x < 128) cs).
  { induction 1 as [|x y l l' Hx _ IH]; constructor; auto.
    now destruct (radix_digit_ok _ _ _ Hr Hx). }
  assert (Hsep : forall n, Forall (fun x => x < 128) (separator_after (sep_char (separator f)) n)).
  { intro n. unfold separator_after. destruct (separator f); cbn [sep_char]; [constructor| |];
      destruct (_ && _); repeat constructor; lia. }
  assert (Hgr : forall cs n, Forall (fun x => x < 128) cs ->
            Forall (fun x => x < 128) (grouped_before (sep_char (separator f)) cs n)).
  { intros l n H. induction H; cbn [grouped_before]; constructor; auto. apply Forall_app; auto. }
  assert (Hall : Forall (fun x => x < 128) (sg ++ grouped (sep_char (separator f)) (front ++ [c]))).
  { apply Forall_app. split.
    - inversion Hsg; repeat constructor; lia.
    - apply Hgr. apply Forall_app. split; [eapply Dig; eauto|].
      constructor; [|constructor]. now destruct (radix_digit_ok _ _ _ Hr Hd). }
  rewrite <- (ascii_units k _ Hall).
  rewrite parse_integer_list.
  2:{ eapply Forall_impl; [|exact Hall]. intros x Hx. apply (ascii_insertable k x Hx). }
  rewrite rev_app_distr. unfold grouped. rewrite grouped_before_app.
  cbn [grouped_before length plus]. rewrite app_nil_r.
  assert (S0 : separator_after (sep_char (separator f)) 0 = []).
  { unfold separator_after. destruct (sep_char (separator f)); reflexivity. }
  rewrite S0, rev_app_distr. cbn [rev app].
  destruct (radix_digit_ok _ _ _ Hr Hd) as (_ & R2 & _). rewrite R2. cbn [bind].
  rewrite ploop_app.
  assert (C1 : counted_after (separator f) 1 = 1) by (destruct (separator f); reflexivity).
  rewrite <- C1 at 1. rewrite (ploop_grouped t f front ds1 1) by auto.
  destruct (acc t (radix f) (rev ds1) 1 (convert t (Z.of_N d))) as [[p' o']| | | |];
    cbn [bind]; try reflexivity.
  destruct sg as [|c0 [|]]; [| |inversion Hsg].
  - inversion Hsg; subst. reflexivity.
  - cbn [rev app ploop].
    destruct (step_sign t f c0 ng p' (counted_after (separator f) (length front + 1)) o' Hsg) as [n' E].
    rewrite E. reflexivity.
Qed.
