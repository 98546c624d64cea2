(** C140: a number is written and read the same way in every type of string. *)
From Coq Require Import NArith ZArith List Bool Lia.
From Coq Require Import ZifyBool ZifyNat ZifyN.
From Verif Require Import Base Integers NumeralSpec FloatSpec UnicodeSpec UnicodeModel UnicodeText
  UnicodeLemmas UnicodeLemmas2 NumberModel NumberText NumberLemmas NumberLemmas2
  FloatModel FloatText FloatLemmas FloatLemmas2 FloatLemmas3 FloatProps AcceptLemmas KindLemmas.
Import ListNotations.
Open Scope N_scope.

(** The text of an integer, code unit by code unit, whichever string type is asked for and
    whether or not char is signed.  Undefined behaviour, for the least value of some types, is
    the same for all, too. *)
Theorem C140_format_integers : forall k k' cs cs' t x f, standard t -> in_range t x -> valid_radix (radix f) ->
  format_integer k cs t x f = format_integer k' cs' t x f.
Proof. intros. now apply format_same. Qed.
Print Assumptions C140_format_integers.

(** The text of a floating-point number, for every format and every value: infinities, values too
    large and formats with a wrong radix as well, and however many digits are taken from the loop. *)
Theorem C140_format_floats : forall fuel k k' cs cs' t x f, ieee t -> (forall n, x = Fin n -> has_value t n) ->
  format_floating_point_with fuel k cs t x f = format_floating_point_with fuel k' cs' t x f.
Proof.
  intros fuel k k' cs cs' t x f T V. destruct x as [n|b|]; [|reflexivity|reflexivity]. apply format_float_same.
  - destruct T as [->|[->|[->| ->]]]; unfold good; cbn; lia.
  - destruct (V n eq_refl) as (m & e & E & M & Ee & _). exists m, e. split; [exact E|]. split; [lia|exact Ee].
Qed.
Print Assumptions C140_format_floats.

(** What an integer is read as depends on the characters only, not on how the string type stores
    them: the value, the error and the undefined behaviour. *)
Theorem C140_parse_integers : forall k k' t f l, Forall (holds k) l -> Forall (holds k') l ->
  parse_integer k t (units k l) f = parse_integer k' t (units k' l) f.
Proof. intros k k' t f l H H'. now rewrite (parse_integer_list k t f l H), (parse_integer_list k' t f l H'). Qed.
Print Assumptions C140_parse_integers.

(** Not so a floating-point number: an emoji is a wrong digit in UTF-8 and UTF-32, but makes the
    text malformed in UTF-16, where it is well-formed. *)
Theorem C140_floats_refuted : let f := FloatFormat (IntegerFormat 8 OnlyWhenNegative SepNone) RadixPeriod NoLimit 0 in
  parse_floating_point K8 F64 (units K8 [0x1F600]) f = Throw (ParseFailed DigitCharacterExpected) /\
  parse_floating_point K32 F64 (units K32 [0x1F600]) f = Throw (ParseFailed DigitCharacterExpected) /\
  parse_floating_point K16 F64 (units K16 [0x1F600]) f = Throw InvalidUnicodeEncoding.
Proof. split; [vm_compute; reflexivity|]. split; vm_compute; reflexivity. Qed.
Print Assumptions C140_floats_refuted.

(** Every text without supplementary characters in UTF-16 is read the same.  Missing: those,
    see the next theorem. *)
Theorem C140_floats_partial : forall k k' t f l, valid_radix (radix (base f)) -> Forall (holds k) l -> Forall (single_unit k) l ->
  Forall (holds k') l -> Forall (single_unit k') l ->
  parse_floating_point k t (units k l) f = parse_floating_point k' t (units k' l) f.
Proof. intros. rewrite !parse_points_ok by assumption. reflexivity. Qed.
Print Assumptions C140_floats_partial.

(** In UTF-16 every text with a supplementary character is refused as malformed, whatever else it
    holds and whatever the format. *)
Theorem C140_pairs_partial : forall k t f l, k = K16 \/ k = KW2 -> Forall scalar l -> Exists (fun c => 0x10000 <= c) l ->
  parse_floating_point k t (units k l) f = Throw InvalidUnicodeEncoding.
Proof.
  intros k t f l K H X.
  assert (Split : exists a c b, l = a ++ c :: b /\ Forall bmp a /\ 0x10000 <= c).
  { clear - X. induction l as [|c l IH]; [inversion X|]. destruct (N.le_gt_cases 0x10000 c) as [L|L].
    - exists [], c, l. split; [reflexivity|]. split; [constructor|exact L].
    - inversion X as [? ? Y|? ? Y]; subst; [lia|]. destruct (IH Y) as (a & d & b & -> & A & D).
      exists (c :: a), d, b. split; [reflexivity|]. split; [constructor; [exact L|exact A]|exact D]. }
  destruct Split as (a & c & b & -> & A & C). unfold parse_floating_point. now rewrite (convert_16_pair k a c b H A C K).
Qed.
Print Assumptions C140_pairs_partial.

(** Truth values: a text with a character of C01 is read as a u8string and refused in any other
    string type. *)
Theorem C140_bools_refuted : let f := BoolFormat (units K8 [0x1D800]) (units K8 [48]) in
  parse_bool K8 (units K8 [0x1D800]) f = Ok true /\ parse_bool K32 (units K32 [0x1D800]) f = Throw InvalidCodePoint.
Proof. split; vm_compute; reflexivity. Qed.
Print Assumptions C140_bools_refuted.

(** Every other text is read the same.  Missing: supplementary characters in UTF-16, and those
    whose low sixteen bits are a surrogate. *)
Theorem C140_bools_partial : forall k k' f l, Forall (holds k) l -> Forall (single_unit k) l -> Forall (holds k') l -> Forall (single_unit k') l ->
  Forall (fun c => ~ (0xD800 <= c mod 0x10000 <= 0xDFFF)) l ->
  parse_bool k (units k l) f = parse_bool k' (units k' l) f.
Proof.
  assert (P : forall k f l, Forall (holds k) l -> Forall (single_unit k) l -> Forall (fun c => ~ (0xD800 <= c mod 0x10000 <= 0xDFFF)) l ->
    parse_bool k (units k l) f = parse_bool K8 (units K8 l) f).
  { intros k f l H S V. unfold parse_bool.
    assert (Len : (length (units k l) =? 0)%nat = (length (units K8 l) =? 0)%nat).
    { destruct l as [|c l]; [reflexivity|]. assert (G : forall k0, (length (units k0 (c :: l)) =? 0)%nat = false); [|now rewrite !G].
      intro k0. change (units k0 (c :: l)) with (encode1 (encoding_of k0) c ++ units k0 l). rewrite app_length. pose proof (encode1_nonempty (encoding_of k0) c).
      destruct (encode1 (encoding_of k0) c); [congruence|reflexivity]. }
    rewrite Len. destruct (length (units K8 l) =? 0)%nat; [reflexivity|].
    assert (G : convert_string K8 k (units k l) = Ok (units K8 l)).
    { apply convert_ok; [assumption|assumption|]. apply Forall_forall. intros c I. rewrite Forall_forall in H, V. split; [exact (holds_scalar k c (H c I))|intros _; exact (V c I)]. }
    destruct k; rewrite ?G; reflexivity. }
  intros k k' f l H S H' S' V. rewrite (P k f l H S V). symmetry. exact (P k' f l H' S' V).
Qed.
Print Assumptions C140_bools_partial.

(** A truth value is shown by the same characters in every type of string that can hold them:
    those of the format.  Missing: characters whose low sixteen bits are a surrogate, in a
    u8string only; the next theorem shows they are refused there. *)
Theorem C140_format_bools_partial : forall k b l m, Forall (holds K8) (l ++ m) -> Forall (holds k) (l ++ m) ->
  (k = K8 -> Forall (fun c => ~ (0xD800 <= c mod 0x10000 <= 0xDFFF)) (l ++ m)) ->
  format_bool k b (BoolFormat (units K8 l) (units K8 m)) = Ok (units k (if b then l else m)).
Proof.
  intros k b l m H8 Hk Hv. unfold format_bool. cbn [true_string false_string].
  replace (if b then units K8 l else units K8 m) with (units K8 (if b then l else m)) by (destruct b; reflexivity).
  assert (X : forall P, Forall P (l ++ m) -> Forall P (if b then l else m)).
  { intros P F. apply Forall_app in F as [F1 F2]. now destruct b. }
  apply convert_ok.
  - now apply X.
  - apply Forall_forall. intros c _. exact I.
  - apply Forall_forall. intros c Hc. split.
    + pose proof (X _ Hk) as F. rewrite Forall_forall in F. now apply F.
    + intros E. pose proof (X _ (Hv E)) as F. rewrite Forall_forall in F. now apply F.
Qed.
Print Assumptions C140_format_bools_partial.

Theorem C140_format_bools_refuted : let f := BoolFormat (units K8 [0x1D800]) (units K8 [48]) in
  format_bool K8 true f = Throw InvalidCodePoint /\ format_bool K32 true f = Ok (units K32 [0x1D800]).
Proof. split; vm_compute; reflexivity. Qed.
Print Assumptions C140_format_bools_refuted.

Example C140_format_bools_example :
  Forall (holds K8) ([0x20AC] ++ [49; 0x1F600]) /\ Forall (holds K16) ([0x20AC] ++ [49; 0x1F600]) /\
  format_bool K16 false (BoolFormat (units K8 [0x20AC]) (units K8 [49; 0x1F600])) = Ok [49; 0xD83D; 0xDE00].
Proof.
  split; [repeat constructor; vm_compute; intuition congruence|]. split; [repeat constructor; vm_compute; intuition congruence|].
  vm_compute. reflexivity.
Qed.

(** "-12,345" and "3.25": written with every string type, read from UTF-8 and UTF-16; a euro sign
    and an emoji in a text. *)
Example C140_example :
  let f := IntegerFormat 10 OnlyWhenNegative SepComma in
  (forall k cs, format_integer k cs I16 (-12345) f = Ok [45; 49; 50; 44; 51; 52; 53]) /\
  (forall k cs, format_floating_point k cs F64 (Fin (dyadic F64 13 2)) default_float_format = Ok [51; 46; 50; 53]) /\
  standard I16 /\ in_range I16 (-12345) /\ valid_radix 10 /\ ieee F64 /\ has_value F64 (dyadic F64 13 2) /\
  Forall (holds K8) [49; 0x20AC] /\ Forall (holds K16) [49; 0x20AC] /\ Forall (single_unit K16) [49; 0x20AC] /\
  units K8 [49; 0x20AC] = [49; 226; 130; 172] /\ units K16 [49; 0x20AC] = [49; 0x20AC] /\
  Forall scalar [49; 0x1F600] /\ Exists (fun c => 0x10000 <= c) [49; 0x1F600].
Proof.
  assert (V : has_value F64 (dyadic F64 13 2)).
  { exists 13%Z, (scale F64 - 2)%Z. split; [vm_compute; reflexivity|]. split; [cbn; lia|]. split; [cbn; lia|vm_compute; reflexivity]. }
  split; [intros [[|]| | | | |] []; vm_compute; reflexivity|].
  split. { intros k cs. unfold format_floating_point. rewrite (C140_format_floats _ k K8 cs true); [vm_compute; reflexivity|right; now left|intros n [= <-]; exact V]. }
  split; [vm_compute; tauto|]. split; [unfold in_range; cbn; lia|]. split; [unfold valid_radix; lia|]. split; [right; now left|].
  split; [exact V|].
  do 3 (split; [repeat constructor; cbn; unfold scalar, bmp; lia|]). do 2 (split; [reflexivity|]). split; [repeat constructor; unfold scalar; lia|right; left; lia].
Qed.
