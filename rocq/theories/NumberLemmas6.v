(** Failure kinds of integer parsing, integers that cannot be formatted, bools. *)
From Coq Require Import NArith ZArith List Bool Lia ZifyBool ZifyNat ZifyN.
From Verif Require Import Base Integers NumeralSpec UnicodeSpec UnicodeModel UnicodeText
  UnicodeLemmas UnicodeLemmas2 UnicodeLemmas3 UnicodeLemmas4 NumberModel NumberText NumberLemmas
  NumberLemmas2 NumberLemmas3 NumberLemmas4 NumberLemmas5.
Import ListNotations.
Open Scope N_scope.
Ltac Zify.zify_post_hook ::= Z.div_mod_to_equations.

(* ------------------------------------------------------- formatting trouble *)

Lemma format_loop_cycle : forall (P : Z -> Prop) k cs t r sep, standard t -> 1 <= r <= 36 ->
  (forall x, P x -> x <> 0%Z /\
     P (convert t (convert (with_unsigned t) (Z.quot (convert (with_unsigned t) x) (Z.of_N r)))) /\
     (0 <= convert (with_unsigned t) x)%Z) ->
  forall fuel x n out, P x -> format_loop fuel k cs t r sep x n out = Diverge.
Proof.
  intros P k cs t r sep Ht Hr HP. induction fuel as [|fuel IH]; intros x n out Px; [reflexivity|].
  destruct (HP x Px) as (Hx & Px' & X0). cbn [format_loop].
  replace (x =? 0)%Z with false by lia.
  assert (Hu : standard (with_unsigned t)) by now apply standard_u.
  rewrite (convert_id (with_unsigned t) (Z.of_N r)) in * by (first [assumption | apply small_range; [assumption|lia]]).
  unfold remainder, divide. replace (Z.of_N r =? 0)%Z with false by lia.
  set (y := convert (with_unsigned t) x) in *.
  assert (Rm : (0 <= Z.rem y (Z.of_N r) < Z.of_N r)%Z) by (apply Z.rem_bound_pos; lia).
  rewrite (arith_ok _ (Z.rem y (Z.of_N r))) by (first [assumption | apply small_range; [assumption|lia]]).
  cbn [bind].
  replace (Z.rem y (Z.of_N r)) with (Z.of_N (Z.to_N (Z.rem y (Z.of_N r)))) by lia.
  assert (Dl : Z.to_N (Z.rem y (Z.of_N r)) < 36) by lia.
  rewrite digit_character_spec by assumption.
  rewrite prepend_ascii by (unfold digit_char; destruct (_ <? 10); lia). cbn [bind].
  assert (E : arith (with_unsigned t) (Z.quot y (Z.of_N r)) =
              Ok (convert (with_unsigned t) (Z.quot y (Z.of_N r)))).
  { destruct (is_signed (with_unsigned t)) eqn:S.
    - assert (in_range (with_unsigned t) (Z.quot y (Z.of_N r))).
      { pose proof (convert_range (with_unsigned t) x Hu) as R. fold y in R.
        assert (0 <= Z.quot y (Z.of_N r) <= y)%Z by (split; [apply Z.quot_pos; lia|apply Z.quot_le_upper_bound; nia]).
        unfold in_range in *. unfold min_of in *. rewrite S in *.
        assert (0 < 2 ^ (width (with_unsigned t) - 1))%Z by (apply Z.pow_pos_nonneg; unfold standard in Hu; lia).
        lia. }
      rewrite arith_ok by assumption. now rewrite convert_id.
    - unfold arith. now rewrite S. }
  rewrite E. cbn [bind].
  destruct (n + 1 =? 3); [|now apply IH].
  destruct (negb _); [|now apply IH].
  rewrite prepend_separator_spec. cbn [bind]. now apply IH.
Qed.

Lemma format_min_overflow : forall fuel k cs t f, standard t -> overflows t ->
  format_integer_with fuel k cs t (min_of t) f = UB SignedOverflow.
Proof.
  intros fuel k cs t f Ht [S W]. unfold format_integer_with.
  assert (M : (min_of t < 0)%Z) by (clear - Ht S; std_cases t Ht; try discriminate S; reflexivity).
  replace (min_of t =? 0)%Z with false by lia. rewrite S.
  assert (E : std_abs t (min_of t) = UB SignedOverflow).
  { unfold std_abs. assert (P : promote t = t) by (unfold promote; replace (width t <? 32)%Z with false by lia; reflexivity).
    rewrite P. unfold arith. rewrite S.
    replace ((min_of t <=? Z.abs (min_of t)) && (Z.abs (min_of t) <=? max_of t))%Z with false; [reflexivity|].
    clear - Ht S. std_cases t Ht; try discriminate S; reflexivity. }
  rewrite E. reflexivity.
Qed.

(** A signed char or short at its minimum, in a radix of a power of two (e.g. 2). *)
Definition narrow_cycle (r : N) (x : Z) : Prop := In x (map (fun n => - 2 ^ Z.of_nat n)%Z (seq 0 16)).

Lemma format_min_narrow : forall fuel k cs t sg sep, t = I8 \/ t = I16 ->
  format_integer_with fuel k cs t (min_of t) (IntegerFormat 2 sg sep) = Diverge.
Proof.
  intros fuel k cs t sg sep Ht.
  assert (S : standard t) by (destruct Ht as [->| ->]; vm_compute; tauto).
  assert (E : format_integer_with fuel k cs t (min_of t) (IntegerFormat 2 sg sep)
    = bind (format_loop fuel k cs t 2 sep (min_of t) 0 []) (fun out => prepend_to k out 45)).
  { destruct Ht as [->| ->]; reflexivity. }
  rewrite E. clear E.
  rewrite (format_loop_cycle (fun x => In x (if (width t =? 8)%Z
      then map (fun n => - 2 ^ Z.of_nat n)%Z (seq 0 8) else map (fun n => - 2 ^ Z.of_nat n)%Z (seq 0 16))));
    [reflexivity|assumption|lia| |].
  - destruct Ht as [->| ->]; cbn [width I8 I16 Z.eqb Pos.eqb map seq]; intros x H; cbn [In] in H;
      repeat (destruct H as [<-|H]; [vm_compute; intuition discriminate|]); contradiction.
  - destruct Ht as [->| ->]; vm_compute; tauto.
Qed.

(** The default format, radix 10. *)
Lemma format_min_char_10 : forall fuel k cs sg sep,
  format_integer_with fuel k cs I8 (-128) (IntegerFormat 10 sg sep) = Diverge.
Proof.
  intros fuel k cs sg sep.
  assert (E : format_integer_with fuel k cs I8 (-128) (IntegerFormat 10 sg sep)
    = bind (format_loop fuel k cs I8 10 sep (-128) 0 []) (fun out => prepend_to k out 45)) by reflexivity.
  rewrite E. clear E.
  rewrite (format_loop_cycle (fun x => In x [-128; -116; -114]%Z));
    [reflexivity|vm_compute; tauto|lia| |cbn; auto].
  intros x H. cbn [In] in H.
  repeat (destruct H as [<-|H]; [vm_compute; intuition discriminate|]); contradiction.
Qed.

Lemma format_radix_0 : forall fuel k cs t x f, standard t -> in_range t x -> x <> 0%Z ->
  (is_signed t = true -> x <> min_of t) -> (0 < fuel)%nat ->
  format_integer_with fuel k cs t x (set_radix f 0) = UB DivByZero.
Proof.
  intros fuel k cs t x f Ht Rx H0 Hm Hf. unfold format_integer_with.
  replace (x =? 0)%Z with false by lia.
  assert (E : exists y, (if is_signed t then std_abs t x else Ok x) = Ok y /\ y <> 0%Z).
  { destruct (is_signed t) eqn:S; [|eauto]. rewrite std_abs_ok by auto. exists (Z.abs x). split; [reflexivity|lia]. }
  destruct E as (y & -> & Hy). cbn [bind].
  destruct fuel; [lia|]. cbn [format_loop]. replace (y =? 0)%Z with false by lia.
  unfold remainder. cbn [radix set_radix]. rewrite (convert_id (with_unsigned t) (Z.of_N 0)).
  - reflexivity.
  - now apply standard_u.
  - apply small_range; [now apply standard_u|lia].
Qed.

Lemma format_radix_1 : forall fuel k cs t x f, standard t -> in_range t x -> x <> 0%Z ->
  (is_signed t = true -> x <> min_of t) ->
  format_integer_with fuel k cs t x (set_radix f 1) = Diverge.
Proof.
  intros fuel k cs t x f Ht Rx H0 Hm. unfold format_integer_with.
  replace (x =? 0)%Z with false by lia.
  assert (E : exists y, (if is_signed t then std_abs t x else Ok x) = Ok y /\ (0 < y <= max_of t)%Z).
  { destruct (is_signed t) eqn:S.
    - rewrite std_abs_ok by auto. exists (Z.abs x). split; [reflexivity|]. specialize (Hm eq_refl).
      clear - Ht S Rx Hm H0. std_cases t Ht; try discriminate S; bounds; lia.
    - exists x. split; [reflexivity|]. clear - Ht S Rx H0. std_cases t Ht; try discriminate S; bounds; lia. }
  destruct E as (y & -> & Hy). cbn [bind]. cbn [radix set_radix separator].
  rewrite (format_loop_cycle (fun z => z = y)); [reflexivity|assumption|lia| |reflexivity].
  intros z ->.
  assert (Hu : standard (with_unsigned t)) by now apply standard_u.
  assert (R : in_range (with_unsigned t) y) by (apply nonneg_u; [assumption|lia]).
  rewrite (convert_id (with_unsigned t) y) by assumption.
  change (Z.of_N 1) with 1%Z. rewrite Z.quot_1_r.
  rewrite (convert_id (with_unsigned t) y) by assumption.
  rewrite convert_id; [lia|assumption|]. apply nonneg_t; [assumption|lia].
Qed.

(* --------------------------------------------------------- failure kinds *)

Lemma grouped_ascii : forall f cs ds, 2 <= radix f <= 36 -> digits_text (radix f) cs ds ->
  Forall (fun x => x < 128) (grouped (sep_char (separator f)) cs).
Proof.
  intros f cs ds Hr D.
  assert (Hc : Forall (fun x => x < 128) cs).
  { induction D as [|x y l l' Hx _ IH]; constructor; auto. now destruct (radix_digit_ok _ _ _ Hr Hx). }
  unfold grouped. generalize 0%nat. induction Hc as [|c cs' H1 H2 IH] in ds, D |- *; intro n; cbn [grouped_before]; constructor; auto.
  inversion D; subst. apply Forall_app. split; [|eapply IH; eauto].
  unfold separator_after. destruct (separator f); cbn [sep_char]; [constructor| |];
    destruct (_ && _); repeat constructor; lia.
Qed.

Lemma parse_suffix : forall k t f pre cs ds,
  2 <= radix f <= 36 -> digits_text (radix f) cs ds -> cs <> [] -> Forall (holds k) pre ->
  exists d dr, rev ds = d :: dr /\
  parse_integer k t (units k (pre ++ grouped (sep_char (separator f)) cs)) f
  = bind (acc t (radix f) dr 1 (convert t (Z.of_N d))) (fun '(p, o) =>
      bind (ploop t f (rev pre) (ParseState false false p (counted_after (separator f) (length cs)) o))
           (finish_integer t)).
Proof.
  intros k t f pre cs ds Hr D Hne Hpre.
  pose proof (grouped_ascii f cs ds Hr D) as Ha.
  destruct (exists_last Hne) as (front & c & ->).
  apply Forall2_app_inv_l in D as (ds1 & ds2 & D1 & D2 & ->).
  inversion D2 as [|? d ? ? Hd D3]; subst. inversion D3; subst.
  exists d, (rev ds1). split; [now rewrite rev_app_distr|].
  rewrite parse_integer_list.
  2:{ apply Forall_app. split; [assumption|].
      eapply Forall_impl; [|exact Ha]. intros x Hx. apply (ascii_insertable k x Hx). }
  rewrite rev_app_distr. unfold grouped. rewrite grouped_before_app.
  cbn [grouped_before length plus]. rewrite app_nil_r.
  assert (S0 : separator_after (sep_char (separator f)) 0 = []).
  { unfold separator_after. destruct (sep_char (separator f)); reflexivity. }
  rewrite S0, rev_app_distr. cbn [rev app].
  destruct (radix_digit_ok _ _ _ Hr Hd) as (_ & R2 & _). rewrite R2. cbn [bind].
  rewrite ploop_app.
  assert (C1 : counted_after (separator f) 1 = 1) by (destruct (separator f); reflexivity).
  rewrite <- C1 at 1. rewrite (ploop_grouped t f front ds1 1) by auto.
  rewrite app_length. cbn [length].
  destruct (acc t (radix f) (rev ds1) 1 (convert t (Z.of_N d))) as [[p' o']| | | |];
    cbn [bind]; reflexivity.
Qed.

Lemma parse_suffix_fails : forall k t f pre c sg ng cs ds e,
  standard t -> 2 <= radix f <= 36 -> digits_text (radix f) cs ds -> cs <> [] -> Forall (holds k) (pre ++ [c]) ->
  sign_prefix (shows_plus (sign f)) ng sg ->
  (forall p o n, (sg = [] -> n = counted_after (separator f) (length cs)) ->
      parse_step t f c (ParseState (match sg with [] => false | _ => true end) ng p n o) = Throw (ParseFailed e)) ->
  let r := parse_integer k t (units k (pre ++ [c] ++ sg ++ grouped (sep_char (separator f)) cs)) f in
  (overflows t /\ r = UB SignedOverflow) \/ r = Throw (ParseFailed e).
Proof.
  intros k t f pre c sg ng cs ds e Ht Hr D Hne Hpre Hsg Hstep r. unfold r. clear r.
  assert (Hsgh : Forall (holds k) sg).
  { inversion Hsg; repeat constructor; apply ascii_insertable; lia. }
  destruct (parse_suffix k t f (pre ++ [c] ++ sg) cs ds Hr D Hne) as (d & dr & Er & E).
  { rewrite app_assoc. apply Forall_app. auto. }
  rewrite <- !app_assoc in E. rewrite E. clear E.
  assert (Hd : Forall (fun d => d < radix f) (d :: dr)).
  { rewrite <- Er. apply Forall_rev. eapply digits_lt; eauto. }
  inversion Hd as [|? ? Hd1 Hd2]; subst.
  rewrite (convert_id t (Z.of_N d)) by (first [assumption | apply small_range; [assumption|lia]]).
  destruct (acc_cases t (radix f) dr 1 (Z.of_N d) Ht Hr Hd2 (in_range_1 t Ht)) as [[O E]|(p' & o' & E & _)].
  { apply small_range; [assumption|lia]. }
  - left. rewrite E. auto.
  - right. rewrite E. cbn [bind]. rewrite !rev_app_distr, <- app_assoc, ploop_app. cbn [rev app].
    destruct sg as [|c0 [|]]; [| |inversion Hsg].
    + inversion Hsg; subst. cbn [rev app ploop bind]. rewrite Hstep by auto. reflexivity.
    + cbn [rev app ploop].
      destruct (step_sign t f c0 ng p' (counted_after (separator f) (length cs)) o' Hsg) as [n' E'].
      rewrite E'. cbn [bind]. rewrite Hstep by discriminate. reflexivity.
Qed.

Lemma boundary_iff : forall f m, (0 < m)%nat ->
  at_boundary f (counted_after (separator f) m) = true <-> (sep_char (separator f) <> None /\ m mod 3 = 0)%nat.
Proof.
  intros f m Hm. unfold at_boundary, counted_after.
  destruct (separator f); cbn [sep_char].
  - rewrite andb_false_r. split; [discriminate|intros [X _]; congruence].
  - destruct (Nat.eqb_spec (m mod 3) 0) as [E|E]; split; intro H; try split; try congruence; try lia.
  - destruct (Nat.eqb_spec (m mod 3) 0) as [E|E]; split; intro H; try split; try congruence; try lia.
Qed.

(** A second sign. *)
Lemma parse_second_sign : forall k t f pre c c0 ng cs ds,
  standard t -> 2 <= radix f <= 36 -> digits_text (radix f) cs ds -> cs <> [] -> Forall (holds k) pre ->
  sign_prefix (shows_plus (sign f)) ng [c0] -> sign_char c ->
  let r := parse_integer k t (units k (pre ++ [c] ++ [c0] ++ grouped (sep_char (separator f)) cs)) f in
  (overflows t /\ r = UB SignedOverflow) \/ r = Throw (ParseFailed MultipleSigns).
Proof.
  intros k t f pre c c0 ng cs ds Ht Hr D Hne Hpre Hsg Hc.
  apply (parse_suffix_fails k t f pre c [c0] ng cs ds); auto.
  - apply Forall_app. split; [assumption|]. constructor; [|constructor].
    apply ascii_insertable. destruct Hc as [->| ->]; lia.
  - intros p o n _. destruct (step_cases t f c true ng p n o Hr) as [(_ & _ & E)|[(X & _)|(X & _)]];
      [assumption|discriminate|]. elim X. auto.
Qed.

(** A character that is neither digit, nor allowed sign, where a digit is required. *)
Lemma parse_bad_char : forall k t f pre c cs ds,
  standard t -> 2 <= radix f <= 36 -> digits_text (radix f) cs ds -> cs <> [] -> Forall (holds k) (pre ++ [c]) ->
  (sep_char (separator f) = None \/ (length cs mod 3 <> 0)%nat) ->
  (forall d, ~ is_digit (radix f) c d) -> ~ sign_prefix (shows_plus (sign f)) (c =? 45) [c] ->
  ctype_ok (radix f) c ->
  let r := parse_integer k t (units k (pre ++ [c] ++ grouped (sep_char (separator f)) cs)) f in
  (overflows t /\ r = UB SignedOverflow) \/ r = Throw (ParseFailed DigitCharacterExpected).
Proof.
  intros k t f pre c cs ds Ht Hr D Hne Hpre Hb Hc Hs Ct.
  apply (parse_suffix_fails k t f pre c [] false cs ds); auto; [constructor|].
  intros p o n Hn. rewrite (Hn eq_refl).
  assert (L : (0 < length cs)%nat) by (destruct cs; [congruence|cbn; lia]).
  pose proof (boundary_iff f (length cs) L) as B.
  destruct (step_cases t f c false false p (counted_after (separator f) (length cs)) o Hr)
    as [(S & X & E)|[(Hsf & S & E)|(N1 & N2 & [(Bd & S & E)|[(Bd & S & E)|[(Bd & d & Dd & E)|[(Bd & Dd & C & E)|(Bd & Dd & C & E)]]]])]].
  - discriminate.
  - now elim Hs.
  - apply B in Bd. destruct Hb as [Hb|Hb]; [tauto|lia].
  - apply B in Bd. destruct Hb as [Hb|Hb]; [tauto|lia].
  - now apply Hc in Dd.
  - assumption.
  - tauto.
Qed.

(** A missing separator. *)
Lemma parse_missing_separator : forall k t f pre c cs ds,
  standard t -> 2 <= radix f <= 36 -> digits_text (radix f) cs ds -> cs <> [] -> Forall (holds k) (pre ++ [c]) ->
  sep_char (separator f) <> None -> (length cs mod 3 = 0)%nat ->
  sep_char (separator f) <> Some c -> ~ sign_prefix (shows_plus (sign f)) (c =? 45) [c] ->
  let r := parse_integer k t (units k (pre ++ [c] ++ grouped (sep_char (separator f)) cs)) f in
  (overflows t /\ r = UB SignedOverflow) \/ r = Throw (ParseFailed ThousandsSeparatorMissing).
Proof.
  intros k t f pre c cs ds Ht Hr D Hne Hpre Hb Hl Hc Hs.
  apply (parse_suffix_fails k t f pre c [] false cs ds); auto; [constructor|].
  intros p o n Hn. rewrite (Hn eq_refl).
  assert (L : (0 < length cs)%nat) by (destruct cs; [congruence|cbn; lia]).
  pose proof (boundary_iff f (length cs) L) as B.
  destruct (step_cases t f c false false p (counted_after (separator f) (length cs)) o Hr)
    as [(S & X & E)|[(Hsf & S & E)|(N1 & N2 & [(Bd & S & E)|[(Bd & S & E)|[(Bd & d & Dd & E)|[(Bd & Dd & C & E)|(Bd & Dd & C & E)]]]])]].
  - discriminate.
  - now elim Hs.
  - congruence.
  - assumption.
  - rewrite (proj2 B) in Bd by auto. discriminate.
  - rewrite (proj2 B) in Bd by auto. discriminate.
  - rewrite (proj2 B) in Bd by auto. discriminate.
Qed.

(** The last character is not a digit. *)
Lemma parse_last_bad : forall k t f pre c, 2 <= radix f <= 36 -> Forall (holds k) (pre ++ [c]) ->
  (forall d, ~ is_digit (radix f) c d) -> ctype_ok (radix f) c ->
  parse_integer k t (units k (pre ++ [c])) f = Throw (ParseFailed DigitCharacterExpected).
Proof.
  intros k t f pre c Hr H Hc Ct. rewrite parse_integer_list by assumption.
  rewrite rev_app_distr. cbn [rev app].
  destruct (radix_digit_total (radix f) c Hr) as [(d & D & _)|[(_ & _ & _ & E)|(_ & C & _)]].
  - now apply Hc in D.
  - now rewrite E.
  - tauto.
Qed.

(** A character outside unsigned char, met by toupper/tolower. *)
Lemma parse_last_ctype : forall k t f pre c, 2 <= radix f <= 36 -> Forall (holds k) (pre ++ [c]) ->
  10 <= radix f -> 255 < c ->
  parse_integer k t (units k (pre ++ [c])) f = UB CtypeDomain.
Proof.
  intros k t f pre c Hr H R C. rewrite parse_integer_list by assumption.
  rewrite rev_app_distr. cbn [rev app].
  assert (c <> 0xFFFFFFFF) by (apply Forall_app in H as [_ H]; inversion H; subst; eapply holds_not_max; eauto).
  destruct (radix_digit_total (radix f) c Hr) as [(d & D & _)|[(_ & X & _)|(_ & _ & _ & E)]].
  - exfalso. destruct (radix_digit_ok _ _ _ Hr D) as (_ & _ & L & _). lia.
  - exfalso. unfold ctype_ok in X. lia.
  - now rewrite E.
Qed.
