(** Properties C132 and C133 of iteration by code point over any text. *)
From Coq Require Import NArith ZArith List Bool Lia.
From Coq Require Import ZifyBool ZifyNat ZifyN.
From Verif Require Import Base UnicodeSpec UnicodeModel UnicodeText UnicodeLemmas UnicodeLemmas2 UnicodeLemmas3 StepModel.
Import ListNotations.
Open Scope N_scope.

(* --------------------------------------------------------------------- C132 *)

(** Iterating a string of char visits the numbers of its characters, in order.  Missing:
    if char is signed, the characters from 128 on. *)
Theorem C132_characters_partial : forall (signed : bool) s, Forall (fun c => c < (if signed then 128 else 256)) s ->
  visit (KChar signed) s = (s, Ok tt).
Proof.
  intros signed s F. unfold visit.
  assert (G : forall r a fuel, s = a ++ r -> (length r < fuel)%nat -> visit_from fuel (KChar signed) s (length a) = (r, Ok tt)).
  { induction r as [|u r IH]; intros a fuel E L; (destruct fuel as [|fuel]; [cbn in L; lia|]); cbn [visit_from].
    - rewrite E, app_nil_r, Nat.eqb_refl. reflexivity.
    - assert (Hl : length s = (length a + S (length r))%nat) by (rewrite E, app_length; reflexivity).
      unfold deref, advance, ptr_inc. cbn [class_of]. rewrite (proj2 (Nat.eqb_neq _ _)) by lia.
      rewrite E at 1. rewrite nth_error_app2, Nat.sub_diag by lia. cbn [nth_error].
      rewrite (proj2 (Nat.ltb_lt _ _)) by lia.
      rewrite E, Forall_app, Forall_cons_iff in F. destruct F as (_ & Fu & _).
      specialize (IH (a ++ [u]) fuel). rewrite app_length in IH. cbn [length] in IH, L. replace (S (length a)) with (length a + 1)%nat by lia.
      rewrite IH by first [lia | rewrite E, <- app_assoc; reflexivity].
      cbn [fst snd]. destruct signed; cbn [widen]; [|reflexivity]. now rewrite (proj2 (N.ltb_lt _ _)) by lia. }
  apply (G s [] (S (length s))); [reflexivity|lia].
Qed.
Print Assumptions C132_characters_partial.
Example C132_example : Forall (fun c => c < 128) [0x48; 0x69] /\ visit (KChar true) [0x48; 0x69] = ([0x48; 0x69], Ok tt) /\
  visit (KChar false) [0x48; 0xE9] = ([0x48; 0xE9], Ok tt).
Proof. split; [repeat constructor|split; reflexivity]. Qed.

(** Where char is signed, the character 0xE9 is visited as 0xFFFFFFE9, which is no code
    point, and the conversion of such a string to UTF-32 keeps it. *)
Theorem C132_signed_char_refuted :
  visit (KChar true) [0x48; 0xE9] = ([0x48; 0xFFFFFFE9], Ok tt) /\
  convert_string K32 (KChar true) [0x48; 0xE9] = Ok [0x48; 0xFFFFFFE9].
Proof. split; reflexivity. Qed.
Print Assumptions C132_signed_char_refuted.

(* --------------------------------------------------------------------- C133 *)

(** A unit that is a character by itself *)
Definition whole (k : ukind) (u : N) : Prop :=
  match encoding_of k with UTF8 => u < 0x80 | UTF16 => ~ (0xD800 <= u <= 0xDFFF) | UTF32 => True end.

Lemma finish8_steps : forall s u, u < 0x80 -> forall n i, (i < length (s ++ [u]))%nat -> (n = 0 \/ i < length s)%nat ->
  exists j r, adv_finish8 n (s ++ [u]) i = (j, r) /\
    ((r = Ok tt /\ (i < j <= length (s ++ [u]))%nat) \/ (r = Throw InvalidUnicodeEncoding /\ (i <= j < length (s ++ [u]))%nat)).
Proof.
  intros s u U. rewrite app_length. cbn [length]. induction n as [|n IH]; intros i L D; cbn [adv_finish8].
  - unfold ptr_inc. rewrite app_length. cbn [length]. rewrite (proj2 (Nat.ltb_lt _ _)) by lia. exists (S i), (Ok tt). split; [reflexivity|left; split; [reflexivity|lia]].
  - rewrite app_length. cbn [length]. rewrite (proj2 (Nat.eqb_neq _ _)) by lia.
    destruct (nth_error (s ++ [u]) (i + 1)) as [v|] eqn:E.
    2: { apply nth_error_None in E. rewrite app_length in E. cbn [length] in E. lia. }
    destruct (is_trailing_byte v) eqn:T; cbn [negb].
    2: { exists i, (Throw InvalidUnicodeEncoding). split; [reflexivity|right; split; [reflexivity|lia]]. }
    unfold ptr_inc. rewrite app_length. cbn [length]. rewrite (proj2 (Nat.ltb_lt _ _)) by lia. cbn [then_].
    assert (S i < length s)%nat.
    { destruct (Nat.lt_ge_cases (S i) (length s)); [assumption|]. rewrite nth_error_app2 in E by lia.
      replace (i + 1 - length s)%nat with 0%nat in E by lia. injection E as ->. apply trailing_iff in T. lia. }
    destruct (IH (S i)) as (j & r & E' & R); [lia|lia|]. exists j, r. split; [exact E'|].
    destruct R as [[-> R]|[-> R]]; [left|right]; (split; [reflexivity|lia]).
Qed.

(** A string of any units that ends with a whole character: ++it moves on within the string
    or throws invalid_unicode_encoding.  Missing: strings that end within a character. *)
Theorem C133_increment_partial : forall k s u i, Forall (unit_range k) (s ++ [u]) -> whole k u -> (i < length (s ++ [u]))%nat ->
  exists j r, advance k (s ++ [u]) i = (j, r) /\
    ((r = Ok tt /\ (i < j <= length (s ++ [u]))%nat) \/ (r = Throw InvalidUnicodeEncoding /\ (i <= j < length (s ++ [u]))%nat)).
Proof.
  intros k s u i F W L.
  assert (P : class_of k = Plain -> exists j r, advance k (s ++ [u]) i = (j, r) /\
    ((r = Ok tt /\ (i < j <= length (s ++ [u]))%nat) \/ (r = Throw InvalidUnicodeEncoding /\ (i <= j < length (s ++ [u]))%nat))).
  { intro C. unfold advance. rewrite C. unfold ptr_inc. rewrite (proj2 (Nat.ltb_lt _ _)) by lia.
    exists (S i), (Ok tt). split; [reflexivity|left; split; [reflexivity|lia]]. }
  destruct (nth_error (s ++ [u]) i) as [v|] eqn:E; [|apply nth_error_None in E; lia].
  assert (Lv : (i < length s)%nat \/ v = u).
  { destruct (Nat.lt_ge_cases i (length s)); [now left|right]. rewrite nth_error_app2 in E by lia.
    rewrite app_length in L. cbn [length] in L. replace (i - length s)%nat with 0%nat in E by lia. now injection E. }
  assert (Fv : unit_range k v) by (rewrite Forall_forall in F; apply F; eapply nth_error_In; eassumption).
  assert (St : forall (v' : N), exists j r, (i, Throw InvalidUnicodeEncoding : outcome unit) = (j, r) /\
    ((r = Ok tt /\ (i < j <= length (s ++ [u]))%nat) \/ (r = Throw InvalidUnicodeEncoding /\ (i <= j < length (s ++ [u]))%nat))).
  { intros _. exists i, (Throw InvalidUnicodeEncoding). split; [reflexivity|right; split; [reflexivity|lia]]. }
  assert (W16 : encoding_of k = UTF16 -> exists j r, advance16 (s ++ [u]) i = (j, r) /\
    ((r = Ok tt /\ (i < j <= length (s ++ [u]))%nat) \/ (r = Throw InvalidUnicodeEncoding /\ (i <= j < length (s ++ [u]))%nat))).
  { intro K. unfold whole in W. rewrite K in W. assert (v < 0x10000) by (destruct k; try discriminate K; exact Fv).
    unfold advance16. rewrite E. unfold initialize_utf16_sequence.
    assert (Pi : exists j r, ptr_inc (s ++ [u]) i = (j, r) /\
      ((r = Ok tt /\ (i < j <= length (s ++ [u]))%nat) \/ (r = Throw InvalidUnicodeEncoding /\ (i <= j < length (s ++ [u]))%nat))).
    { unfold ptr_inc. rewrite (proj2 (Nat.ltb_lt _ _)) by lia. exists (S i), (Ok tt). split; [reflexivity|left; split; [reflexivity|lia]]. }
    destruct (is_leading_surrogate v) eqn:Ls; [|destruct (is_trailing_surrogate v); [exact (St v)|exact Pi]].
    unfold adv_finish16. cbn [Nat.eqb]. rewrite (proj2 (Nat.eqb_neq _ _)) by lia.
    assert (i < length s)%nat.
    { destruct Lv as [Lv| ->]; [exact Lv|]. unfold is_leading_surrogate, to_char16, leading_surrogate_minimum_value, leading_surrogate_maximum_value in Ls.
      rewrite N.mod_small in Ls by lia. lia. }
    destruct (nth_error (s ++ [u]) (i + 1)) as [x|] eqn:Ex.
    2: { apply nth_error_None in Ex. rewrite app_length in Ex. cbn [length] in Ex. lia. }
    destruct (is_trailing_surrogate x); cbn [negb]; [exact Pi|exact (St v)]. }
  destruct k; try (apply P; reflexivity); try (apply W16; reflexivity).
  clear W16 P. unfold advance. cbn [class_of]. unfold advance8. rewrite E. unfold initialize_utf8_sequence.
  assert (W' : u < 128) by exact W.
  assert (Big : is_standalone_byte v = false -> (i < length s)%nat).
  { intro B. destruct Lv as [Lv| ->]; [exact Lv|]. rewrite standalone_lt in B by assumption. discriminate. }
  destruct (is_standalone_byte v); [apply finish8_steps; [assumption|assumption|now left]|]. specialize (Big eq_refl).
  destruct (N.shiftr v 5 =? 6); [apply finish8_steps; [assumption|assumption|now right]|].
  destruct (N.shiftr v 4 =? 14); [apply finish8_steps; [assumption|assumption|now right]|].
  destruct (N.shiftr v 3 =? 30); [apply finish8_steps; [assumption|assumption|now right]|]. exact (St v).
Qed.
Print Assumptions C133_increment_partial.
(** A byte that cannot begin a character: an exception, and the iterator is not moved. *)
Example C133_increment_example : Forall (unit_range K8) ([0xE2; 0x82; 0xAC; 0xFF] ++ [0]) /\ whole K8 0 /\
  advance K8 ([0xE2; 0x82; 0xAC; 0xFF] ++ [0]) 0 = (3%nat, Ok tt) /\
  advance K8 ([0xE2; 0x82; 0xAC; 0xFF] ++ [0]) 3 = (3%nat, Throw InvalidUnicodeEncoding).
Proof. split; [repeat constructor|]. split; [reflexivity|]. split; reflexivity. Qed.

(** it++ and it-- return the iterator as it was and move it as ++it and --it do. *)
Theorem C133_postfix : forall k s i,
  (forall j, advance k s i = (j, Ok tt) -> post_increment k s i = (j, Ok i)) /\
  (forall j e, advance k s i = (j, Throw e) -> post_increment k s i = (j, Throw e)) /\
  (forall j, retreat k s i = (j, Ok tt) -> post_decrement k s i = (j, Ok i)).
Proof.
  intros k s i. unfold post_increment, post_decrement. split; [|split].
  - intros j E. now rewrite E.
  - intros j e E. now rewrite E.
  - intros j E. now rewrite E.
Qed.
Print Assumptions C133_postfix.
Example C133_postfix_example : advance K8 [0xE2; 0x82; 0xAC; 0x41] 0 = (3%nat, Ok tt) /\
  post_increment K8 [0xE2; 0x82; 0xAC; 0x41] 0 = (3%nat, Ok 0%nat) /\ post_decrement K8 [0xE2; 0x82; 0xAC; 0x41] 3 = (0%nat, Ok 3%nat).
Proof. split; [reflexivity|]. split; reflexivity. Qed.

(** it - n is where it -= n moves to: n code points back in a well-formed text.  Missing:
    UTF-16. *)
Theorem C133_minus_partial : forall k a b c, Forall (holds k) (a ++ b ++ c) -> encoding_of k <> UTF16 ->
  minus_offset k (units k (a ++ b ++ c)) (Z.of_nat (length b)) (length (units k (a ++ b))) = (length (units k a), Ok tt).
Proof. intros k a b c H E. apply minus_assign_ok; auto. destruct k; cbn in *; congruence. Qed.
Print Assumptions C133_minus_partial.
Example C133_minus_example : Forall (holds K8) ([0x41] ++ [0x20AC; 0x1F600] ++ [0x42]) /\ encoding_of K8 <> UTF16 /\
  minus_offset K8 (encode UTF8 [0x41; 0x20AC; 0x1F600; 0x42]) 2 8 = (1%nat, Ok tt).
Proof. split; [repeat constructor; unfold holds, scalar; lia|]. split; [discriminate|reflexivity]. Qed.

(** Two iterators into one string are equal exactly if they are at the same place. *)
Theorem C133_equality : forall i j e, (equal_iterators i e j e = true <-> i = j) /\
  different_iterators i e j e = negb (equal_iterators i e j e).
Proof.
  intros i j e. unfold equal_iterators, different_iterators. rewrite Nat.eqb_refl, andb_true_r, orb_false_r.
  split; [apply Nat.eqb_eq|reflexivity].
Qed.
Print Assumptions C133_equality.
Example C133_equality_example : equal_iterators 3 5 3 5 = true /\ different_iterators 3 5 4 5 = true.
Proof. split; reflexivity. Qed.

(** it + n, it -= n and it - n are noexcept: where it += n throws, they end the program. *)
Theorem C133_arithmetic_terminates_refuted :
  advance_by K8 [0xFF; 0x41] 1 0 = (0%nat, Throw InvalidUnicodeEncoding) /\
  plus_offset K8 [0xFF; 0x41] 1 0 = (0%nat, Terminate) /\
  minus_assign K16 [0x41; 0xDC00; 0x42] 1 1 = (1%nat, Terminate) /\
  minus_offset K16 [0x41; 0xDC00; 0x42] 1 1 = (1%nat, Terminate).
Proof. split; [reflexivity|]. split; [reflexivity|]. split; reflexivity. Qed.
Print Assumptions C133_arithmetic_terminates_refuted.

(** At the end of a string that is cut off within a character ++it reads behind the end. *)
Theorem C133_cut_strings_refuted :
  snd (advance K8 [0x41; 0xE2; 0x82] 1) = UB OutOfBoundsRead /\ snd (advance K16 [0xD83D] 0) = UB OutOfBoundsRead.
Proof. split; reflexivity. Qed.
Print Assumptions C133_cut_strings_refuted.
