(** C160: sorting strings of different types; C54: sorting the index texts of tests. *)
From Coq Require Import NArith ZArith List Bool Lia.
From Coq Require Import ZifyBool ZifyNat ZifyN.
From Verif Require Import Base NumeralSpec UnicodeSpec SortSpec TestSpec UnicodeModel UnicodeText TestModel.
From Verif Require Import NumberLemmas UnicodeLemmas2 CutLemmas TestLemmas UnicodeProps SortLemmas.
Import ListNotations.
Open Scope N_scope.

(* ------------------------------------------------------------------ C160 *)

(** The text l can be converted from a string of kind ki to one of kind ko (C13). *)
Definition convertible (ki ko : ukind) (l : list N) : Prop :=
  Forall (holds ki) l /\ Forall (holds ko) l /\ Forall (single_unit ki) l /\
  (ko = K8 -> Forall (fun c => ~ (0xD800 <= c mod 0x10000 <= 0xDFFF)) l).

(** No code point needs two UTF-16 units, or none is one of U+E000 to U+FFFF. *)
Definition one_side (l : list N) : Prop :=
  Forall bmp l \/ Forall (fun c => ~ (0xE000 <= c < 0x10000)) l.

Lemma holds_scalar : forall k l, Forall (holds k) l -> Forall scalar l.
Proof.
  intros k l. apply Forall_impl. intros c H. unfold holds in H. unfold scalar in *. destruct k as [[]| | | | |]; auto; lia.
Qed.

Lemma converted : forall ki ko l, convertible ki ko l -> convert_string ko ki (units ki l) = Ok (units ko l).
Proof. intros ki ko l (H1 & H2 & H3 & H4). now apply C13_conversion_partial. Qed.

Lemma units_sort : forall k a b, Forall scalar a -> Forall scalar b ->
  (encoding_of k = UTF16 -> one_side (a ++ b)) -> (sorts_before (units k a) (units k b) <-> sorts_before a b).
Proof.
  intros k a b A B O. unfold units. rewrite encode_sorts by assumption. destruct (encoding_of k); try reflexivity.
  apply place16_order. exact (O eq_refl).
Qed.

(** Converted strings are in the order of the given ones, unless UTF-16 comes in and a code
    point of two units may meet one of U+E000 to U+FFFF. *)
Theorem C160_order_partial : forall ki ko a b, convertible ki ko a -> convertible ki ko b ->
  (encoding_of ki = UTF16 \/ encoding_of ko = UTF16 -> one_side (a ++ b)) ->
  exists s t, convert_string ko ki (units ki a) = Ok s /\ convert_string ko ki (units ki b) = Ok t /\
    (sorts_before s t <-> sorts_before (units ki a) (units ki b)) /\ (sorts_before s t <-> sorts_before a b).
Proof.
  intros ki ko a b A B O. exists (units ko a), (units ko b). split; [now apply converted|]. split; [now apply converted|].
  destruct A as (A & _). destruct B as (B & _). apply holds_scalar in A, B.
  rewrite !units_sort; auto. split; reflexivity.
Qed.
Print Assumptions C160_order_partial.

Example C160_order_example : convertible K32 K8 [0x41; 0x20AC] /\ convertible K32 K8 [0x41; 0x1F600] /\
  convert_string K8 K32 [0x41; 0x20AC] = Ok [0x41; 0xE2; 0x82; 0xAC] /\
  convert_string K8 K32 [0x41; 0x1F600] = Ok [0x41; 0xF0; 0x9F; 0x98; 0x80] /\
  sorts_before [0x41; 0xE2; 0x82; 0xAC] [0x41; 0xF0; 0x9F; 0x98; 0x80].
Proof.
  unfold convertible, holds, single_unit, scalar.
  split; [repeat split; repeat constructor; cbn; intuition lia|]. split; [repeat split; repeat constructor; cbn; intuition lia|].
  split; [reflexivity|]. split; [reflexivity|]. apply Same, Smaller. lia.
Qed.

(** The order of UTF-16 strings, exactly: U+E000 to U+FFFF come last. *)
Theorem C160_utf16_exact : forall ki ko a b, encoding_of ki <> UTF16 -> encoding_of ko = UTF16 ->
  convertible ki ko a -> convertible ki ko b ->
  exists s t, convert_string ko ki (units ki a) = Ok s /\ convert_string ko ki (units ki b) = Ok t /\
    (sorts_before s t <-> sorts_before (map place16 a) (map place16 b)).
Proof.
  intros ki ko a b _ E A B. exists (units ko a), (units ko b). split; [now apply converted|]. split; [now apply converted|].
  destruct A as (A & _). destruct B as (B & _). apply holds_scalar in A, B.
  unfold units. rewrite encode_sorts by assumption. now rewrite E.
Qed.
Print Assumptions C160_utf16_exact.

(** So sorting does not commute with conversion to UTF-16: U+FF21 comes before U+1F600 in UTF-8,
    and behind it in UTF-16. *)
Theorem C160_utf16_refuted :
  ~ (forall ki ko a b s t, convertible ki ko a -> convertible ki ko b ->
     convert_string ko ki (units ki a) = Ok s -> convert_string ko ki (units ki b) = Ok t ->
     sorts_before (units ki a) (units ki b) -> sorts_before s t).
Proof.
  intros H. specialize (H K8 K16 [0xFF21] [0x1F600] [0xFF21] [0xD83D; 0xDE00]).
  assert (X : sorts_before [0xFF21] [0xD83D; 0xDE00]).
  { apply H; try reflexivity; try (unfold convertible, holds, single_unit, scalar; repeat split; repeat constructor; intuition (try discriminate; lia)). }
  inversion X; subst; lia.
Qed.
Print Assumptions C160_utf16_refuted.

(** A sorted list of strings stays sorted when all of them are converted, and if the converted
    list is sorted, so was the given one. *)
Theorem C160_lists_partial : forall ki ko ls, Forall (convertible ki ko) ls ->
  (encoding_of ki = UTF16 \/ encoding_of ko = UTF16 -> one_side (concat ls)) ->
  exists ss, Forall2 (fun l s => convert_string ko ki (units ki l) = Ok s) ls ss /\
    (sorted ss <-> sorted (map (units ki) ls)).
Proof.
  intros ki ko ls F O. exists (map (units ko) ls). split.
  - clear O. induction F as [|l ls Hl F IH]; constructor; [now apply converted|exact IH].
  - induction F as [|a ls Ha F IH]; [split; constructor|].
    assert (O' : encoding_of ki = UTF16 \/ encoding_of ko = UTF16 -> one_side (concat ls)).
    { intros E. destruct (O E) as [X|X]; cbn [concat] in X; apply Forall_app in X; [left|right]; tauto. }
    specialize (IH O'). destruct ls as [|b ls]; [split; constructor|].
    assert (B : convertible ki ko b) by now inversion F.
    destruct Ha as (A & _). destruct B as (B & _). apply holds_scalar in A, B.
    assert (P : encoding_of ki = UTF16 \/ encoding_of ko = UTF16 -> one_side (b ++ a)).
    { intros E. destruct (O E) as [X|X]; cbn [concat] in X; rewrite !Forall_app in X; [left|right]; rewrite Forall_app; tauto. }
    assert (S : sorts_before (units ko b) (units ko a) <-> sorts_before (units ki b) (units ki a)) by (rewrite !units_sort; auto; reflexivity).
    cbn [map] in *. split; intros X; inversion X; subst; constructor; tauto.
Qed.
Print Assumptions C160_lists_partial.

Example C160_lists_example : sorted (map (units K32) [[0x41]; [0x41; 0x42]; [0xE9]]) /\
  sorted [[0x41]; [0x41; 0x42]; [0xC3; 0xA9]] /\ convert_string K8 K32 [0xE9] = Ok [0xC3; 0xA9].
Proof.
  split; [|split; [|reflexivity]]; repeat constructor; cbn; intros X; repeat match goal with H : sorts_before _ _ |- _ => inversion H; clear H; subst end; lia.
Qed.

(* ------------------------------------------------------------------- C54 *)

Lemma padded_digits : forall w ds, Forall (fun d => d < 10) ds ->
  repeat 48 w ++ map digit_char ds = map digit_char (repeat 0 w ++ ds) /\ Forall (fun d => d < 10) (repeat 0 w ++ ds) /\
  value 10 (repeat 0 w ++ ds) = value 10 ds.
Proof.
  intros w ds F. split; [|split].
  - rewrite map_app. f_equal. induction w as [|w IH]; cbn [repeat map]; [reflexivity|]. now rewrite IH.
  - apply Forall_app. split; [|exact F]. clear. induction w; constructor; [lia|assumption].
  - rewrite value_app, value_zeros. lia.
Qed.

(** Reports of tests sorted by their text are in the order of the tests: of two tests of a module
    the one with the smaller index has the text that sorts first. *)
Theorem C54_texts_sorted : forall m i j s t,
  i < j -> j < 2 ^ 31 -> N.of_nat (length (tests m)) < 2 ^ 31 ->
  zero_pad m i = Ok s -> zero_pad m j = Ok t -> sorts_before s t.
Proof.
  intros m i j s t L J T S U.
  destruct (count_int i ltac:(lia)) as (di & Ci & Vi & _). destruct (count_int j J) as (dj & Cj & Vj & _).
  destruct (count_int (N.of_nat (length (tests m))) T) as (dt & Ct & Vt & _).
  rewrite (zero_pad_ok m i di dt ltac:(lia) T Ci Vi Ct Vt) in S. rewrite (zero_pad_ok m j dj dt J T Cj Vj Ct Vt) in U.
  destruct (Nat.leb_spec (length di) (length dt)) as [Li|]; [|discriminate]. destruct (Nat.leb_spec (length dj) (length dt)) as [Lj|]; [|discriminate].
  injection S as <-. injection U as <-. destruct Ci as (_ & Fi & _). destruct Cj as (_ & Fj & _).
  destruct (padded_digits (length dt - length di) di Fi) as (-> & Gi & Wi). destruct (padded_digits (length dt - length dj) dj Fj) as (-> & Gj & Wj).
  apply digits_sort; auto; [rewrite !app_length, !repeat_length; lia|]. rewrite Wi, Wj, Vi, Vj. exact L.
Qed.
Print Assumptions C54_texts_sorted.

Example C54_texts_sorted_example : exists s t,
  zero_pad (new_module (repeat (Return true) 12)) 9 = Ok s /\ zero_pad (new_module (repeat (Return true) 12)) 10 = Ok t /\
  s = [48; 57] /\ t = [49; 48] /\ sorts_before s t.
Proof. exists [48; 57], [49; 48]. split; [vm_compute; reflexivity|]. split; [vm_compute; reflexivity|]. split; [reflexivity|]. split; [reflexivity|]. apply Smaller. lia. Qed.
