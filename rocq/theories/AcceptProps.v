(** C139: which texts the floating-point parser takes. *)
From Coq Require Import NArith ZArith List Bool Lia.
From Coq Require Import ZifyBool ZifyNat ZifyN.
From Verif Require Import Base Integers NumeralSpec FloatSpec UnicodeSpec UnicodeModel UnicodeText
  UnicodeLemmas UnicodeLemmas2 NumberModel NumberText NumberLemmas NumberLemmas2 NumberLemmas4 NumberLemmas5 NumberLemmas6 NumberProps
  FloatModel FloatLemmas FloatLemmas2 FloatLemmas3 FloatLemmas4 FloatProps AcceptSpec AcceptLemmas.
Import ListNotations.
Open Scope N_scope.

(** "1-2.5" and "1." are taken. *)
Theorem C139_accepts_refuted : forall text, In text [[49; 45; 50; 46; 53]; [49; 46]] ->
  (exists v, parse_floating_point K8 F64 text default_float_format = Ok v) /\ ~ float_text 10 false 46 text.
Proof.
  assert (NoSign : forall c, c = 45 \/ c = 46 -> forall d, ~ is_digit 10 c d) by (intros c [->| ->] d [X _]; discriminate X).
  intros text [<-|[<-|[]]]; (split; [eexists; vm_compute; reflexivity|]); intros (neg & sg & cs & rest & E & S & A & Ne & R).
  - inversion S; subst sg; try discriminate E. destruct cs as [|c cs]; [now destruct Ne|]. injection E as <- E. apply Forall_cons_iff in A. destruct A as [_ A].
    destruct cs as [|c cs]; cbn [app] in E.
    + destruct R as [->|(fr & -> & _)]; discriminate E.
    + injection E as <- E. apply Forall_cons_iff in A. destruct A as [[d D] _]. exact (NoSign 45 (or_introl eq_refl) d D).
  - inversion S; subst sg; try discriminate E. destruct cs as [|c cs]; [now destruct Ne|]. injection E as <- E. apply Forall_cons_iff in A. destruct A as [_ A].
    destruct cs as [|c cs]; cbn [app] in E.
    + destruct R as [->|(fr & -> & _ & Nf)]; [discriminate E|]. injection E as <-. now apply Nf.
    + injection E as <- E. apply Forall_cons_iff in A. destruct A as [[d D] _]. exact (NoSign 46 (or_intror eq_refl) d D).
Qed.
Print Assumptions C139_accepts_refuted.

(** A character above 255 is undefined behaviour in front of the radix character and behind it. *)
Theorem C139_defined_refuted :
  parse_floating_point K32 F64 [0x20AC; 46; 53] default_float_format = UB CtypeDomain /\
  parse_floating_point K32 F64 [53; 46; 0x20AC] default_float_format = UB CtypeDomain.
Proof. split; vm_compute; reflexivity. Qed.
Print Assumptions C139_defined_refuted.

(** A wrong character in the fraction is reported as a wrong number of places. *)
Theorem C139_reported_refuted :
  parse_floating_point K8 F64 [49; 46; 120] default_float_format = Throw (ParseFailed WrongPlaceLimit) /\
  parse_floating_point K8 F64 [120; 46; 49] default_float_format = Throw (ParseFailed DigitCharacterExpected).
Proof. split; vm_compute; reflexivity. Qed.
Print Assumptions C139_reported_refuted.

(** What every text that is taken looks like.  Up to the first radix character it holds digits,
    separators and at most one sign, which the format allows, and ends in a digit.  Behind it are
    digits only.  Nothing at all is behind it only if no places are asked for.  Missing: a sign
    that is not in front, a separator at a wrong place and a radix character at the end should
    be refused. *)
Theorem C139_accepted_partial : forall k t f l v, valid_radix (radix (base f)) ->
  Forall (holds k) l -> Forall (single_unit k) l -> parse_floating_point k t (units k l) f = Ok v ->
  exists whole,
    ~ In (point_char (point f)) whole /\ (exists a c d, whole = a ++ [c] /\ is_digit (radix (base f)) c d) /\
    Forall (fun c => (exists d, is_digit (radix (base f)) c d) \/ sign_char c \/ sep_char (separator (base f)) = Some c) whole /\
    (exists neg, sign_prefix (shows_plus (sign (base f))) neg (signs_in whole)) /\
    (l = whole \/ exists fraction, l = whole ++ point_char (point f) :: fraction /\ all_digits (radix (base f)) fraction /\
       (fraction = [] -> limit f = NoLimit \/ places f = 0)).
Proof.
  intros k t f l v Hr H S E. rewrite (parse_points_ok k t f l Hr H S) in E. unfold parse_points in E.
  destruct (split_at_cases (point_char (point f)) l) as [[N X]|(a & b & -> & N & X)]; rewrite X in E.
  - pose proof (whole_outcome k (base f) l Hr H) as P. destruct (parse_integer K32 I64 l (base f)); try discriminate E. destruct P as (F & El & Sg).
    exists l. split; [assumption|]. split; [assumption|]. split; [assumption|]. split; [assumption|now left].
  - apply Forall_app in H. destruct H as [H _]. pose proof (whole_outcome k (base f) a Hr H) as P.
    destruct (parse_integer K32 I64 a (base f)) as [i| | | |]; try discriminate E. destruct P as (F & El & Sg). cbn [bind] in E.
    exists a. split; [assumption|]. split; [assumption|]. split; [assumption|]. split; [assumption|]. right. exists b. split; [reflexivity|].
    destruct b as [|c b].
    + split; [constructor|]. intros _. destruct (limit f); [now left|right|right]; destruct (N.ltb_spec 0 (places f)); try discriminate E; lia.
    + split; [|discriminate]. pose proof (fraction_cases t (radix (base f)) (c :: b) (Fin (one t)) (from_long_long t i) Hr) as Q. rewrite E in Q. exact Q.
Qed.
Print Assumptions C139_accepted_partial.

(** Every proper text is taken, in upper and lower case: an optional sign, digits with their
    separators, and if there is a radix character, one or more digits behind it.  Missing:
    integral parts that do not fit 64 bits. *)
Theorem C139_numerals_partial : forall k t f neg sg cs ds rest, valid_radix (radix (base f)) ->
  sep_char (separator (base f)) <> Some (point_char (point f)) ->
  sign_prefix (shows_plus (sign (base f))) neg sg -> digits_text (radix (base f)) cs ds -> cs <> [] ->
  (Z.of_N (value (radix (base f)) ds) < 2 ^ 63)%Z -> (Z.of_N (radix (base f)) ^ (Z.of_nat (length ds) - 1) < 2 ^ 63)%Z ->
  (rest = [] \/ exists fraction, rest = point_char (point f) :: fraction /\ all_digits (radix (base f)) fraction /\ fraction <> []) ->
  exists v, parse_floating_point k t (sg ++ grouped (sep_char (separator (base f))) cs ++ rest) f = Ok v.
Proof.
  intros k t f neg sg cs ds rest Hr Hs Sg D Ne Lv Ll R.
  set (r := radix (base f)) in *. set (whole := sg ++ grouped (sep_char (separator (base f))) cs) in *.
  assert (DA : forall x d, is_digit r x d -> (48 <= x <= 57 \/ 65 <= x <= 90 \/ 97 <= x <= 122)) by (intros x d X; exact (digit_is_ascii r x d X)).
  assert (W : Forall (fun c => c < 128 /\ c <> point_char (point f)) whole).
  { apply Forall_forall. intros c I. unfold whole in I. apply in_app_or in I. destruct I as [I|I].
    - inversion Sg; subst sg; cbn [In] in I; destruct (point f); cbn [point_char]; lia.
    - apply grouped_in in I. destruct I as [I|I].
      + destruct (digits_text_in r cs ds c D I) as [d X]. apply DA in X. destruct (point f); cbn [point_char]; lia.
      + split; [destruct (separator (base f)); try discriminate I; injection I as <-; lia|congruence]. }
  assert (A : Forall (fun c => c < 128) (whole ++ rest)).
  { apply Forall_app. split; [eapply Forall_impl; [|exact W]; now intros c []|]. destruct R as [->|(fr & -> & Df & _)]; [constructor|].
    constructor; [destruct (point f); cbn [point_char]; lia|]. eapply Forall_impl; [|exact Df]. intros c [d X]. apply DA in X. lia. }
  rewrite app_assoc. fold whole. unfold parse_floating_point. rewrite (convert_ascii k _ A). cbn [bind]. unfold equivalent_format, new_integer_format. fold r.
  unfold valid_radix in Hr. replace ((r <? 2) || (36 <? r))%N with false by lia. cbn [bind].
  replace (IntegerFormat r (sign (base f)) (separator (base f))) with (base f) by (unfold r; now destruct (base f)).
  assert (No : ~ In (point_char (point f)) whole) by (intro I; rewrite Forall_forall in W; now destruct (W _ I)).
  assert (P : parse_integer K32 I64 whole (base f) = Ok (signed_value neg (value r ds))).
  { assert (M : max_of I64 = (2 ^ 63 - 1)%Z) by reflexivity. assert (St : standard I64) by (vm_compute; tauto). unfold whole.
    apply (C20_numerals_partial K32 I64 (base f) neg sg cs ds St Hr Sg D Ne); [reflexivity|rewrite M; clear - Lv; fold r; lia|intros _; rewrite M; clear - Ll; fold r; lia]. }
  destruct R as [->|(fr & -> & Df & Nf)].
  - rewrite app_nil_r, (split_at_none _ _ No), P. cbn [bind]. eauto.
  - rewrite (split_at_some _ _ _ No), P. cbn [bind]. destruct fr as [|c fr]; [now destruct Nf|]. fold r. now apply fraction_fine.
Qed.
Print Assumptions C139_numerals_partial.

(** Exactly which proper texts are taken: those whose integral part fits a long long, leading
    zeros included.  All others are undefined behaviour, in every floating-point type. *)
Theorem C139_numerals_exact : forall k t f neg sg cs ds rest, valid_radix (radix (base f)) ->
  sep_char (separator (base f)) <> Some (point_char (point f)) ->
  sign_prefix (shows_plus (sign (base f))) neg sg -> digits_text (radix (base f)) cs ds -> cs <> [] ->
  (rest = [] \/ exists fraction, rest = point_char (point f) :: fraction /\ all_digits (radix (base f)) fraction /\ fraction <> []) ->
  if ((Z.of_N (radix (base f)) ^ (Z.of_nat (length ds) - 1) <? 2 ^ 63) && (Z.of_N (value (radix (base f)) ds) <? 2 ^ 63))%Z
  then exists v, parse_floating_point k t (sg ++ grouped (sep_char (separator (base f))) cs ++ rest) f = Ok v
  else parse_floating_point k t (sg ++ grouped (sep_char (separator (base f))) cs ++ rest) f = UB SignedOverflow.
Proof.
  intros k t f neg sg cs ds rest Hr Hs Sg D Ne R.
  set (r := radix (base f)) in *. set (whole := sg ++ grouped (sep_char (separator (base f))) cs) in *.
  assert (DA : forall x d, is_digit r x d -> (48 <= x <= 57 \/ 65 <= x <= 90 \/ 97 <= x <= 122)) by (intros x d X; exact (digit_is_ascii r x d X)).
  assert (W : Forall (fun c => c < 128 /\ c <> point_char (point f)) whole).
  { apply Forall_forall. intros c I. unfold whole in I. apply in_app_or in I. destruct I as [I|I].
    - inversion Sg; subst sg; cbn [In] in I; destruct (point f); cbn [point_char]; lia.
    - apply grouped_in in I. destruct I as [I|I].
      + destruct (digits_text_in r cs ds c D I) as [d X]. apply DA in X. destruct (point f); cbn [point_char]; lia.
      + split; [destruct (separator (base f)); try discriminate I; injection I as <-; lia|congruence]. }
  assert (A : Forall (fun c => c < 128) (whole ++ rest)).
  { apply Forall_app. split; [eapply Forall_impl; [|exact W]; now intros c []|]. destruct R as [->|(fr & -> & Df & _)]; [constructor|].
    constructor; [destruct (point f); cbn [point_char]; lia|]. eapply Forall_impl; [|exact Df]. intros c [d X]. apply DA in X. lia. }
  rewrite app_assoc. fold whole. unfold parse_floating_point. rewrite (convert_ascii k _ A). cbn [bind]. unfold equivalent_format, new_integer_format. fold r.
  unfold valid_radix in Hr. replace ((r <? 2) || (36 <? r))%N with false by lia. cbn [bind].
  replace (IntegerFormat r (sign (base f)) (separator (base f))) with (base f) by (unfold r; now destruct (base f)).
  assert (No : ~ In (point_char (point f)) whole) by (intro I; rewrite Forall_forall in W; now destruct (W _ I)).
  pose proof (C22_long_long_exact K32 (base f) neg sg cs ds Hr Sg D Ne) as P. fold r whole in P. change (max_of I64) with (2 ^ 63 - 1)%Z in P.
  replace ((Z.of_N r ^ (Z.of_nat (length ds) - 1) <=? 2 ^ 63 - 1) && (Z.of_N (value r ds) <=? 2 ^ 63 - 1))%Z
    with ((Z.of_N r ^ (Z.of_nat (length ds) - 1) <? 2 ^ 63) && (Z.of_N (value r ds) <? 2 ^ 63))%Z in P.
  2: { f_equal; [set (x := (Z.of_N r ^ _)%Z)|set (x := Z.of_N (value r ds))]; clearbody x; clear; lia. }
  destruct R as [->|(fr & -> & Df & Nf)].
  - rewrite app_nil_r, (split_at_none _ _ No), P. destruct (_ && _); cbn [bind]; eauto.
  - rewrite (split_at_some _ _ _ No), P. destruct (_ && _); cbn [bind]; [|reflexivity]. destruct fr as [|c fr]; [now destruct Nf|]. fold r. now apply fraction_fine.
Qed.
Print Assumptions C139_numerals_exact.

(** 10^19 is a double, but its twenty digits are too many for the parser, and so are those of
    1 with leading zeros. *)
Example C139_numerals_exact_example :
  digits_text 10 (49 :: repeat 48 19) (1 :: repeat 0 19) /\ grouped None (49 :: repeat 48 19) = 49 :: repeat 48 19 /\
  parse_floating_point K8 F64 (49 :: repeat 48 19 ++ [46; 53]) default_float_format = UB SignedOverflow /\
  parse_floating_point K8 F64 (repeat 48 19 ++ [49; 46; 53]) default_float_format = UB SignedOverflow /\
  exists v, parse_floating_point K8 F64 (49 :: repeat 48 18 ++ [46; 53]) default_float_format = Ok v.
Proof.
  split; [cbn [repeat]; repeat (constructor; [split; [vm_compute; tauto|reflexivity]|]); constructor|].
  split; [vm_compute; reflexivity|]. split; [vm_compute; reflexivity|]. split; [vm_compute; reflexivity|].
  eexists. vm_compute. reflexivity.
Qed.

(** All that can happen with a well-formed text: a value, parse_failed, or undefined behaviour,
    by the overflow of the arithmetic, or by a character above 255 in radix 10 or more. *)
Theorem C139_nothing_else_partial : forall k t f l, valid_radix (radix (base f)) -> Forall (holds k) l -> Forall (single_unit k) l ->
  (exists v, parse_floating_point k t (units k l) f = Ok v) \/
  (exists e, parse_floating_point k t (units k l) f = Throw (ParseFailed e) /\
     In e [EmptyInput; DigitCharacterExpected; MultipleSigns; ThousandsSeparatorMissing; NegativeUnsigned; WrongPlaceLimit]) \/
  parse_floating_point k t (units k l) f = UB SignedOverflow \/
  (parse_floating_point k t (units k l) f = UB CtypeDomain /\ 10 <= radix (base f) /\ Exists (fun c => 255 < c) l).
Proof.
  intros k t f l Hr H S. rewrite (parse_points_ok k t f l Hr H S). unfold parse_points.
  destruct (split_at_cases (point_char (point f)) l) as [[N X]|(a & b & -> & N & X)]; rewrite X.
  - pose proof (whole_outcome k (base f) l Hr H) as P. destruct (parse_integer K32 I64 l (base f)) as [i|e|u| |]; cbn [bind]; try contradiction.
    + left. eauto.
    + right; left. cbn [In] in P. destruct P as [<-|[<-|[<-|[<-|[<-|[]]]]]]; eexists; (split; [reflexivity|cbn; tauto]).
    + destruct P as [->|(-> & P & Q)]; [right; right; now left|right; right; right]. auto.
  - apply Forall_app in H. destruct H as [H Hb]. pose proof (whole_outcome k (base f) a Hr H) as P.
    destruct (parse_integer K32 I64 a (base f)) as [i|e|u| |]; cbn [bind]; try contradiction.
    + destruct b as [|c b].
      * destruct (limit f); [left; eauto| |]; (destruct (0 <? places f); [right; left; eexists; split; [reflexivity|cbn; tauto]|left; eauto]).
      * pose proof (fraction_cases t (radix (base f)) (c :: b) (Fin (one t)) (from_long_long t i) Hr) as Q.
        destruct (fraction_digits t (radix (base f)) (c :: b) (Fin (one t)) (from_long_long t i)) as [v|e|u| |]; try contradiction.
        -- left. eauto.
        -- destruct Q as [-> _]. right; left. eexists. split; [reflexivity|cbn; tauto].
        -- destruct Q as (-> & Q & _). right; right; right. split; [reflexivity|]. apply Exists_exists in Q. destruct Q as (x & I & C).
           apply Forall_cons_iff in Hb. destruct Hb as [_ Hb]. rewrite Forall_forall in Hb. specialize (Hb x I). pose proof (holds_not_max k x Hb) as M.
           unfold ctype_ok in C. split; [destruct (N.le_gt_cases 10 (radix (base f))); tauto|]. apply Exists_app. right. right.
           apply Exists_exists. exists x. split; [assumption|]. destruct (N.le_gt_cases x 255); tauto.
    + right; left. cbn [In] in P. destruct P as [<-|[<-|[<-|[<-|[<-|[]]]]]]; eexists; (split; [reflexivity|cbn; tauto]).
    + destruct P as [->|(-> & P & Q)]; [right; right; now left|right; right; right]. split; [reflexivity|]. split; [assumption|]. apply Exists_app. now left.
Qed.
Print Assumptions C139_nothing_else_partial.

(** The first character behind the radix character that is no digit refuses the text, a second
    radix character or a separator included. *)
Theorem C139_fraction_partial : forall k t f i whole fraction c rest, valid_radix (radix (base f)) ->
  parse_integer K32 I64 whole (base f) = Ok i -> ~ In (point_char (point f)) whole ->
  all_digits (radix (base f)) fraction -> (forall d, ~ is_digit (radix (base f)) c d) -> (radix (base f) < 10 \/ c <= 255) ->
  let l := whole ++ point_char (point f) :: fraction ++ c :: rest in
  Forall (holds k) l -> Forall (single_unit k) l ->
  parse_floating_point k t (units k l) f = Throw (ParseFailed WrongPlaceLimit).
Proof.
  intros k t f i whole fraction c rest Hr P No A D C l H S. rewrite (parse_points_ok k t f l Hr H S). unfold parse_points, l.
  rewrite (split_at_some _ _ _ No), P. cbn [bind].
  assert (X := fraction_bad t (radix (base f)) fraction c rest (Fin (one t)) (from_long_long t i) Hr A D ltac:(unfold ctype_ok; tauto)).
  destruct fraction; cbn [app] in *; exact X.
Qed.
Print Assumptions C139_fraction_partial.

(** "-1,234.aB" in radix 16, and the same with a second radix character. *)
Definition sixteen : float_format := FloatFormat (IntegerFormat 16 OnlyWhenNegative SepComma) RadixPeriod NoLimit 0.
Example C139_example :
  parse_floating_point K16 F64 [45; 49; 44; 50; 51; 52; 46; 97; 66] sixteen = Ok (Fin (dyadic F64 (- 0x1234 * 0x100 + 0xAB) 8)) /\
  parse_floating_point K16 F64 [45; 49; 44; 50; 51; 52; 46; 97; 46; 66] sixteen = Throw (ParseFailed WrongPlaceLimit) /\
  parse_integer K32 I64 [45; 49; 44; 50; 51; 52] (base sixteen) = Ok (- 0x1234)%Z /\ ~ In (point_char (point sixteen)) [45; 49; 44; 50; 51; 52] /\
  sign_prefix (shows_plus (sign (base sixteen))) true [45] /\ digits_text 16 [49; 50; 51; 52] [1; 2; 3; 4] /\
  all_digits 16 [97; 66] /\ (forall d, ~ is_digit 16 46 d) /\ float_text 10 false 46 [45; 49; 46; 53].
Proof.
  split; [vm_compute; reflexivity|]. split; [vm_compute; reflexivity|]. split; [vm_compute; reflexivity|]. split; [cbn; lia|]. split; [constructor|].
  split; [repeat (constructor; [split; reflexivity|]); constructor|].
  split; [constructor; [exists 10; split; reflexivity|constructor; [exists 11; split; reflexivity|constructor]]|]. split; [intros d [X _]; discriminate X|].
  exists true, [45], [49], [46; 53]. split; [reflexivity|]. split; [constructor|]. split; [constructor; [exists 1; split; reflexivity|constructor]|]. split; [discriminate|].
  right. exists [53]. split; [reflexivity|]. split; [constructor; [exists 5; split; reflexivity|constructor]|discriminate].
Qed.
