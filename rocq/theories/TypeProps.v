(** C121 to C124: types, traits and overloads. *)
From Coq Require Import NArith List Bool Lia ZifyBool ZifyN.
From Verif Require Import TypeSpec TypeModel TypeLemmas TypeLemmas2.
Import ListNotations.
Open Scope N_scope.

(* ------------------------------------------------------------------ C121 *)

(** The property: "the type traits tell for every type, however qualified, whether it
    is text, whether the text can be changed through it, and whether it owns the text."

    Proved for every type that has a size, every choice of sizes by the compiler and
    all traits: they answer exactly that, where a pointer that is itself volatile does
    not count as text.  Missing: that pointer, and types without a size; see below. *)
Theorem C121_traits_partial : forall z t, 0 < wide_size z -> sized t ->
  (forall u, answers (is_writable_string_v z u t) (writable_in u t) /\
             answers (is_string_v z u t) (text_in u t)) /\
  answers (is_writable_unicode_text_object_v z t) (exists u, u <> Char /\ writable_in u t) /\
  answers (is_unicode_text_object_v z t) (exists u, u <> Char /\ text_in u t) /\
  (is_unicode_text_object_view_v t = true <-> exists u q, u <> Char /\ t = View q u) /\
  answers (is_writable_raii_unicode_text_object_v z t) (exists u v, u <> Char /\ t = Text (Cv false v) u) /\
  answers (is_raii_unicode_text_object_v z t) (exists u q, u <> Char /\ t = Text q u) /\
  answers (is_writable_text_object_v z t) (exists u, writable_in u t) /\
  answers (is_text_object_v z t) (exists u, text_in u t) /\
  (is_text_object_view_v t = true <-> exists u q, t = View q u) /\
  answers (is_writable_raii_text_object_v z t) (exists u v, t = Text (Cv false v) u) /\
  answers (is_raii_text_object_v z t) (exists u q, t = Text q u).
Proof.
  intros z t W H. destruct (all_traits z t W H) as (A & B & C & D).
  split; [intros u; split; [now apply writable_string|now apply any_string]|].
  split; [now apply writable_unicode|]. split; [now apply unicode_text|]. split; [apply unicode_views|].
  split; [exact A|]. split; [exact B|]. split; [now apply writable_text|]. split; [now apply any_text|].
  split; [apply views|]. split; [exact C|exact D].
Qed.
Print Assumptions C121_traits_partial.

(** Where wchar_t has four bytes. *)
Definition some_sizes : sizes := Sizes 4 (fun _ => 32).

(** const volatile wchar_t[7] *)
Example C121_traits_example :
  sized (Array (Basic both (Unit Wide)) 7) /\
  is_string_v some_sizes Wide (Array (Basic both (Unit Wide)) 7) = Some true /\
  is_writable_string_v some_sizes Wide (Array (Basic both (Unit Wide)) 7) = Some false /\
  is_string_v some_sizes Char16 (Array (Basic both (Unit Wide)) 7) = Some false /\
  is_text_object_v some_sizes (Array (Basic plain (Integer 3)) 7) = Some false.
Proof. repeat split; try (vm_compute; reflexivity). vm_compute. discriminate. Qed.

(** A type is never text in two kinds of units. *)
Theorem C121_one_kind : forall z t u u', 0 < wide_size z -> sized t ->
  is_string_v z u t = Some true -> is_string_v z u' t = Some true -> u = u'.
Proof.
  intros z t u u' W H A B.
  destruct (any_string z u t W H) as [(_ & X)|(E & _)]; [|congruence].
  destruct (any_string z u' t W H) as [(_ & Y)|(E & _)]; [|congruence].
  destruct X; inversion Y; reflexivity.
Qed.
Print Assumptions C121_one_kind.

Example C121_one_kind_example : is_string_v some_sizes Char8 (View constant Char8) = Some true.
Proof. reflexivity. Qed.

(** A pointer that is itself volatile is not text for the traits, whatever the unit. *)
Theorem C121_volatile_pointer_refuted : forall z c q u, 0 < wide_size z ->
  is_text_object_v z (Pointer (Cv c true) (Basic q (Unit u))) = Some false.
Proof.
  intros z c q u W. destruct (any_text z (Pointer (Cv c true) (Basic q (Unit u))) W I) as [(_ & v & X)|(E & _)]; [|exact E].
  inversion X.
Qed.
Print Assumptions C121_volatile_pointer_refuted.

(** For void, functions, arrays of unknown bound and classes only declared the traits
    do not answer no: the program does not compile. *)
Theorem C121_unsized_refuted : forall z t,
  (exists q, t = Basic q Void) \/ (exists n, t = Function n) \/ (exists t', t = OpenArray t') \/
  (exists q n, t = Incomplete q n) ->
  is_text_object_v z t = None /\ is_raii_text_object_v z t = None /\ is_writable_raii_text_object_v z t = None.
Proof.
  intros z t [(q & ->)|[(n & ->)|[(t' & ->)|(q & n & ->)]]]; repeat split; reflexivity.
Qed.
Print Assumptions C121_unsized_refuted.

Example C121_unsized_example : is_text_object_v some_sizes (OpenArray (Basic plain (Unit Char))) = None.
Proof. reflexivity. Qed.

(* ------------------------------------------------------------------ C122 *)

(** The property: "stream << x shows characters as characters, text as text, bool and
    numbers as such, flushes for cmp::flush, and does not compile for anything else."

    Proved for every type: exactly what is listed in [as_hoped] and [surprise] compiles,
    and is shown in the way listed there; everything in [as_hoped] is as expected.
    Missing: that nothing is in [surprise] and that nothing expected is left out; see
    the refutations. *)
Theorem C122_shown_partial :
  (forall t s, print_choice t = Calls s <-> as_hoped t s \/ surprise t s) /\
  (forall t s, as_hoped t s -> expected_showing t s \/
     (exists c q u, t = Pointer (Cv c true) (Basic q (Unit u)) /\ s = AsText u) \/
     (exists q u, t = OpenArray (Basic q (Unit u)) /\ s = AsText u)).
Proof.
  split.
  - intros t s. split; [apply print_only|]. intros [X|X]; [now apply print_hoped|now apply print_surprise].
  - intros t s X. destruct X as [q u U|q|q n|q n|q|c u|c u|t t' u P R]; try (left; constructor; fail).
    + left. constructor. constructor.
    + left. constructor. constructor.
    + inversion R; subst. apply pointer_like_target in P.
      destruct t; cbn in P; try discriminate; injection P as ->.
      * destruct q as [c' []]; [right; left; eauto|left; constructor; constructor].
      * left. constructor. constructor.
      * right. right. eauto.
Qed.
Print Assumptions C122_shown_partial.

(** const char8_t[6], as in stream << u8"hello" *)
Example C122_shown_example :
  print_choice (Array (Basic constant (Unit Char8)) 6) = Calls (AsText Char8) /\
  as_hoped (Array (Basic constant (Unit Char8)) 6) (AsText Char8) /\
  print_choice (Basic plain (Unit Char)) = Calls AsCharacter /\
  print_choice (Text constant Wide) = Calls (AsText Wide) /\
  print_choice (Class plain 1) = NoMatch.
Proof. repeat split; try reflexivity. eapply H_units; [constructor|]. apply (Readable true). Qed.

(** All text that is not volatile is shown as text. *)
Theorem C122_text : forall u t, text_in u t -> steady t -> print_choice t = Calls (AsText u).
Proof. intros u t X S. apply print_hoped. now apply steady_text. Qed.
Print Assumptions C122_text.

Example C122_text_example :
  text_in Char16 (Pointer constant (Basic constant (Unit Char16))) /\ steady (Pointer constant (Basic constant (Unit Char16))).
Proof. split; constructor. Qed.

(** Characters of type char8_t, char16_t and wchar_t are shown as numbers. *)
Theorem C122_characters_refuted : forall q,
  print_choice (Basic q (Unit Char8)) = Calls AsInteger /\
  print_choice (Basic q (Unit Char16)) = Calls AsInteger /\
  print_choice (Basic q (Unit Wide)) = Calls AsInteger /\
  expected_showing (Basic q (Unit Char8)) AsCharacter.
Proof. intros q. repeat split; constructor. Qed.
Print Assumptions C122_characters_refuted.

(** Every pointer that is not text, every array of other things and every function
    compiles, and is shown as a bool. *)
Theorem C122_pointers_refuted : forall t t', pointer_like t t' -> (forall u, ~ readable_unit u t') ->
  print_choice t = Calls AsBool /\ (forall u, ~ text_in u t \/ ~ steady t).
Proof.
  intros t t' P R. split; [eapply print_pointers; eassumption|]. intros u.
  destruct P as [q t'|t' n|t'|n]; try (left; intros X; inversion X; fail).
  - destruct t' as [[c v] f| | | | | | | | | | | |]; try (left; intros X; inversion X; fail).
    destruct v; [right; intros X; inversion X|]. left. intros X. inversion X; subst. apply (R u). constructor.
  - destruct t' as [[c v] f| | | | | | | | | | | |]; try (left; intros X; inversion X; fail).
    destruct v; [right; intros X; inversion X|]. left. intros X. inversion X; subst. apply (R u). constructor.
Qed.
Print Assumptions C122_pointers_refuted.

(** An array of five int *)
Example C122_pointers_example :
  pointer_like (Array (Basic plain (Integer 2)) 5) (Basic plain (Integer 2)) /\
  (forall u, ~ readable_unit u (Basic plain (Integer 2))).
Proof. split; [constructor|]. intros u X. inversion X. Qed.

(** Volatile strings and views do not compile; nullptr and most enumerations do not
    compile because several functions fit equally well. *)
Theorem C122_left_out_refuted :
  (forall c u, print_choice (Text (Cv c true) u) = NoMatch /\ print_choice (View (Cv c true) u) = NoMatch) /\
  (forall q, print_choice (Basic q NullPtr) = Ambiguous) /\
  (forall q n, print_choice (Enum q false None n) = Ambiguous).
Proof. split; [intros c []; split; reflexivity|]. split; reflexivity. Qed.
Print Assumptions C122_left_out_refuted.

(* ------------------------------------------------------------------ C123 *)

(** The property: "a variable can be read with >> in the way in which << shows it."

    Proved for every type but char and volatile types: if both compile, what was shown
    as a character, a word, a bool or a number is read as such; the three kinds of
    characters that are shown as numbers are read as numbers. *)
Theorem C123_read_back_partial : forall z t s r, 0 < wide_size z -> sized t ->
  (forall q, t <> Basic q (Unit Char)) -> (forall c f, t <> Basic (Cv c true) f) ->
  print_choice t = Calls s -> read_choice z t = Some (Calls r) ->
  reads_back s r.
Proof.
  intros z t s r W Sz N V P R.
  destruct (read_hoped z t s r W Sz P R N V) as [H|(q & u & _ & _ & -> & ->)]; [exact H|constructor].
Qed.
Print Assumptions C123_read_back_partial.

Example C123_read_back_example :
  print_choice (Text plain Char16) = Calls (AsText Char16) /\
  read_choice some_sizes (Text plain Char16) = Some (Calls (OneWord Char16)) /\
  print_choice (Basic plain Bool) = Calls AsBool /\ read_choice some_sizes (Basic plain Bool) = Some (Calls OneBool).
Proof. repeat split; vm_compute; reflexivity. Qed.

(** A char is shown as a character and read as a number. *)
Theorem C123_char_refuted : forall z,
  print_choice (Basic plain (Unit Char)) = Calls AsCharacter /\
  read_choice z (Basic plain (Unit Char)) = Some (Calls OneInteger) /\
  ~ reads_back AsCharacter OneInteger.
Proof. intros z. repeat split; try reflexivity. intros X. inversion X. Qed.
Print Assumptions C123_char_refuted.

(* ------------------------------------------------------------------ C124 *)

(** The property: "functions that take text take every kind of text that the concept
    text_object describes."

    Proved for all text without volatile: it is measured and walked over in its own
    kind of units.  Missing: volatile text, and validate_string; see below. *)
Theorem C124_text_functions_partial : forall z u t, 0 < wide_size z -> sized t -> text_in u t -> steady t ->
  takes_text z t = Some u.
Proof. exact takes_steady. Qed.
Print Assumptions C124_text_functions_partial.

Example C124_text_functions_example :
  sized (Array (Basic constant (Unit Char32)) 4) /\ text_in Char32 (Array (Basic constant (Unit Char32)) 4) /\
  steady (Array (Basic constant (Unit Char32)) 4).
Proof. split; [split; [exact I|discriminate]|]. split; constructor. Qed.

(** Volatile text satisfies the concept, but no function that takes text compiles for it. *)
Theorem C124_volatile_refuted : forall z u t, 0 < wide_size z -> sized t -> text_in u t -> ~ steady t ->
  is_text_object_v z t = Some true /\ takes_text z t = None.
Proof.
  intros z u t W Sz X S. split; [|now apply takes_only with (u := u)].
  destruct (any_text z t W Sz) as [(E & _)|(_ & Hn)]; [exact E|]. destruct Hn. eauto.
Qed.
Print Assumptions C124_volatile_refuted.

Example C124_volatile_example : text_in Char (Text changing Char) /\ ~ steady (Text changing Char).
Proof. split; [constructor|]. intros X. inversion X. Qed.

(** validate_string compiles for strings and arrays only: not for views and pointers,
    whatever the unit. *)
Theorem C124_validate_refuted : forall z u t, 0 < wide_size z -> sized t -> text_in u t -> steady t ->
  takes_validated_text z t = Some u <->
  (exists c, t = Text (Cv c false) u) \/ (exists c n, t = Array (Basic (Cv c false) (Unit u)) n).
Proof. exact validated. Qed.
Print Assumptions C124_validate_refuted.

Example C124_validate_example :
  takes_text some_sizes (View plain Char8) = Some Char8 /\ takes_validated_text some_sizes (View plain Char8) = None.
Proof. split; vm_compute; reflexivity. Qed.
