(** Lemmas for C139: which texts the floating-point parser takes. *)
From Coq Require Import NArith ZArith List Bool Lia.
From Coq Require Import ZifyBool ZifyNat ZifyN.
From Verif Require Import Base Integers NumeralSpec FloatSpec UnicodeSpec UnicodeModel UnicodeText
  UnicodeLemmas UnicodeLemmas2 NumberModel NumberText NumberLemmas NumberLemmas2 NumberLemmas4 NumberLemmas5 NumberLemmas6
  FloatModel FloatLemmas FloatLemmas2 FloatLemmas3 FloatLemmas4 AcceptSpec.
Import ListNotations.
Open Scope N_scope.

Lemma split_at_cases : forall c s,
  (~ In c s /\ split_at c s = None) \/ (exists a b, s = a ++ c :: b /\ ~ In c a /\ split_at c s = Some (a, b)).
Proof.
  intros c s. induction s as [|x s IH]; [left; split; [auto|reflexivity]|]. cbn [split_at]. destruct (N.eqb_spec x c) as [->|Ne].
  - right. exists [], s. split; [reflexivity|]. split; [auto|reflexivity].
  - destruct IH as [[N E]|(a & b & -> & N & E)]; rewrite E.
    + left. split; [intros [X|X]; auto|reflexivity].
    + right. exists (x :: a), b. split; [reflexivity|]. split; [intros [X|X]; auto|reflexivity].
Qed.

Lemma holds_scalar : forall k c, holds k c -> scalar c.
Proof. intros [[|]| | | | |] c H; cbn in H; try exact H; unfold scalar; lia. Qed.

Lemma units_32 : forall l, units K32 l = l.
Proof. intro l. induction l as [|c l IH]; [reflexivity|]. change (units K32 (c :: l)) with (c :: units K32 l). now rewrite IH. Qed.

Lemma convert_32 : forall k l, Forall (holds k) l -> Forall (single_unit k) l -> convert_string K32 k (units k l) = Ok l.
Proof.
  intros k l H S. rewrite (convert_ok K32 k l H S); [now rewrite units_32|]. apply Forall_forall. intros c I. rewrite Forall_forall in H.
  specialize (holds_scalar k c (H c I)). intro X. split; [exact X|discriminate].
Qed.

Lemma digit_is_ascii : forall r c d, is_digit r c d -> 48 <= c <= 57 \/ 65 <= c <= 90 \/ 97 <= c <= 122.
Proof. intros r c d [E _]. unfold digit_value in E. destruct ((48 <=? c) && (c <=? 57)) eqn:A; [lia|]. destruct ((65 <=? c) && (c <=? 90)) eqn:B; [lia|].
  destruct ((97 <=? c) && (c <=? 122)) eqn:C; [lia|discriminate E]. Qed.

Lemma digits_text_in : forall r cs ds c, digits_text r cs ds -> In c cs -> exists d, is_digit r c d.
Proof. intros r cs ds c D I. induction D as [|x d cs ds X D IH]; [destruct I|]. destruct I as [<-|I]; [now exists d|now apply IH]. Qed.

Lemma digit_total : forall r c, 2 <= r <= 36 ->
  (exists d, is_digit r c d /\ digit_character_to_integer c r = Ok (Some d)) \/
  ((forall d, ~ is_digit r c d) /\ ctype_ok r c /\ digit_character_to_integer c r = Ok None) \/
  ((forall d, ~ is_digit r c d) /\ ~ ctype_ok r c /\ digit_character_to_integer c r = UB CtypeDomain).
Proof.
  intros r c Hr. destruct (radix_digit_total r c Hr) as [(d & D & _)|[(D & C & E & _)|(D & C & E & _)]].
  - left. exists d. split; [assumption|]. now apply digit_lookup.
  - right; left. split; [assumption|]. split; [assumption|]. unfold digit_character_to_integer. now rewrite E.
  - right; right. split; [assumption|]. split; [assumption|]. unfold digit_character_to_integer. now rewrite E.
Qed.

Lemma fraction_cases : forall t r s root out, 2 <= r <= 36 ->
  match fraction_digits t r s root out with
  | Ok _ => all_digits r s
  | Throw e => e = ParseFailed WrongPlaceLimit /\ ~ all_digits r s
  | UB u => u = CtypeDomain /\ Exists (fun c => ~ ctype_ok r c) s /\ ~ all_digits r s
  | Terminate | Diverge => False
  end.
Proof.
  intros t r s root out Hr. revert root out. induction s as [|c s IH]; intros root out; [constructor|]. cbn [fraction_digits].
  destruct (digit_total r c Hr) as [(d & D & ->)|[(D & _ & ->)|(D & C & ->)]]; cbn [bind].
  - destruct (append_digit t r d root out) as [root' out']. specialize (IH root' out'). destruct (fraction_digits t r s root' out').
    + constructor; [now exists d|assumption].
    + destruct IH as [-> X]. split; [reflexivity|]. intro A. apply Forall_cons_iff in A. now apply X.
    + destruct IH as (-> & Y & X). split; [reflexivity|]. split; [now right|]. intro A. apply Forall_cons_iff in A. now apply X.
    + exact IH.
    + exact IH.
  - split; [reflexivity|]. intro A. apply Forall_cons_iff in A. destruct A as [[d A] _]. exact (D d A).
  - split; [reflexivity|]. split; [now left|]. intro A. apply Forall_cons_iff in A. destruct A as [[d A] _]. exact (D d A).
Qed.

Lemma fraction_fine : forall t r s root out, 2 <= r <= 36 -> all_digits r s -> exists v, fraction_digits t r s root out = Ok v.
Proof.
  intros t r s root out Hr A. pose proof (fraction_cases t r s root out Hr) as P. destruct (fraction_digits t r s root out); try contradiction; try tauto. eauto.
Qed.

(** Digits, then a character that is none. *)
Lemma fraction_bad : forall t r s c rest root out, 2 <= r <= 36 -> all_digits r s -> (forall d, ~ is_digit r c d) -> ctype_ok r c ->
  fraction_digits t r (s ++ c :: rest) root out = Throw (ParseFailed WrongPlaceLimit).
Proof.
  intros t r s c rest root out Hr A D C. revert root out. induction A as [|x s (d & Dx) A IH]; intros root out; cbn [app fraction_digits].
  - destruct (digit_total r c Hr) as [(d & X & _)|[(_ & _ & ->)|(_ & X & _)]]; [destruct (D d X)|reflexivity|contradiction].
  - rewrite (digit_lookup r x d Hr Dx). cbn [bind]. destruct (append_digit t r d root out). apply IH.
Qed.

(** The parser without the conversion of the text and the check of the radix. *)
Definition parse_points (t : float_type) (f : float_format) (l : list N) : outcome fval :=
  match split_at (point_char (point f)) l with
  | None => bind (parse_integer K32 I64 l (base f)) (fun i => Ok (from_long_long t i))
  | Some (integral, fraction) =>
    bind (parse_integer K32 I64 integral (base f)) (fun i =>
    match fraction, limit f with
    | [], NoLimit => Ok (from_long_long t i)
    | [], _ => if 0 <? places f then Throw (ParseFailed WrongPlaceLimit) else Ok (from_long_long t i)
    | _, _ => fraction_digits t (radix (base f)) fraction (Fin (one t)) (from_long_long t i)
    end)
  end.

Lemma parse_points_ok : forall k t f l, 2 <= radix (base f) <= 36 -> Forall (holds k) l -> Forall (single_unit k) l ->
  parse_floating_point k t (units k l) f = parse_points t f l.
Proof.
  intros k t f l Hr H S. unfold parse_floating_point, parse_points. rewrite (convert_32 k l H S). cbn [bind]. unfold equivalent_format, new_integer_format.
  replace ((radix (base f) <? 2) || (36 <? radix (base f)))%N with false by lia. cbn [bind].
  replace (IntegerFormat (radix (base f)) (sign (base f)) (separator (base f))) with (base f) by (now destruct (base f)). reflexivity.
Qed.

Lemma whole_outcome : forall k f l, 2 <= radix f <= 36 -> Forall (holds k) l ->
  match parse_integer K32 I64 l f with
  | Ok v => Forall (allowed_char f) l /\ (exists a c d, l = a ++ [c] /\ is_digit (radix f) c d) /\
      exists neg, sign_prefix (shows_plus (sign f)) neg (signs_in l)
  | Throw e => In e [ParseFailed EmptyInput; ParseFailed DigitCharacterExpected; ParseFailed MultipleSigns; ParseFailed ThousandsSeparatorMissing; ParseFailed NegativeUnsigned]
  | UB u => u = SignedOverflow \/ (u = CtypeDomain /\ 10 <= radix f /\ Exists (fun c => 255 < c) l)
  | Terminate | Diverge => False
  end.
Proof.
  intros k f l Hr H. assert (H32 : Forall (holds K32) l) by (eapply Forall_impl; [|exact H]; intros c; apply holds_scalar).
  pose proof (parse_outcome K32 I64 f l ltac:(vm_compute; tauto) Hr H32) as P. rewrite units_32 in P.
  destruct (parse_integer K32 I64 l f) as [v|e|u| |]; try exact P.
  - destruct P as (_ & F & El & ng & Q & _). split; [assumption|]. split; [assumption|]. exists ng.
    destruct Q as [(-> & _ & ->)|(_ & _ & x & -> & P & ->)]; [constructor|]. cbn [orb]. assumption.
  - tauto.
Qed.
