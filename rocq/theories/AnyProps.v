(** C16: what starts_with and ends_with make of arbitrary code units. *)
From Coq Require Import NArith ZArith List Bool Lia.
From Verif Require Import Base UnicodeSpec UnicodeModel UnicodeText AnySpec AnyText AnyLemmas AnyLemmas2.
Import ListNotations.
Open Scope N_scope.

(** What an answer is depends on the units only. *)
Lemma answers_unique : forall u f g s t r1 r2, answers u f g s t r1 -> answers u f g s t r2 -> r1 = r2.
Proof.
  intros u f g s t r1 r2 A. revert r2. induction A; intros r2 B; inversion B; subst; try congruence; try reflexivity.
  assert (s'0 = s') as -> by congruence. assert (t'0 = t') as -> by congruence. now apply IHA.
Qed.

(** The exact result of starts_with for every two strings of code units. *)
Theorem C16_starts_exact : forall k1 k2 s t r, Forall (unit_range k1) s -> Forall (unit_range k2) t ->
  (starts_with k1 s k2 t = r <-> answers OutOfBoundsRead (front (form_of k1)) (front (form_of k2)) s t r).
Proof.
  intros k1 k2 s t r H1 H2. pose proof (starts_any (S (length s)) k1 k2 s t [] [] H1 H2 (Nat.lt_succ_diag_r _)) as A.
  cbn [app length] in A. fold (starts_with k1 s k2 t) in A. split; [intros <-; exact A|intro B; exact (answers_unique _ _ _ _ _ _ _ A B)].
Qed.
Print Assumptions C16_starts_exact.

(** The exact result of ends_with for every two strings of code units. *)
Theorem C16_ends_exact : forall k1 k2 s t r, Forall (unit_range k1) s -> Forall (unit_range k2) t ->
  (ends_with k1 s k2 t = r <-> answers PointerArithmetic (back (form_of k1)) (back (form_of k2)) (rev s) (rev t) r).
Proof.
  intros k1 k2 s t r H1 H2.
  pose proof (ends_any (S (length s)) k1 k2 (rev s) (rev t) [] []) as A. rewrite !rev_involutive, !app_nil_r, !rev_length in A.
  specialize (A H1 H2 I I (Nat.lt_succ_diag_r _)). fold (ends_with k1 s k2 t) in A.
  split; [intros <-; exact A|intro B; exact (answers_unique _ _ _ _ _ _ _ A B)].
Qed.
Print Assumptions C16_ends_exact.

(** Damage behind the first difference does no harm, and damage at the very end of a text of UTF-8
    may be read beyond its end. *)
Example C16_exact_cases :
  Forall (unit_range K8) [0x41; 0x42; 0xFF] /\
  answers OutOfBoundsRead (front Form8) (front Form8) [0x41; 0x42; 0xFF] [0x41; 0x43] (Ok false) /\
  answers OutOfBoundsRead (front Form8) (front OneUnit) [0x41; 0xE2; 0x82] [0x41; 0x20AC] (UB OutOfBoundsRead) /\
  answers OutOfBoundsRead (front Form8) (front OneUnit) [0x41; 0xE2; 0x82; 0xAC] [0x41; 0x20AC] (Ok true) /\
  answers PointerArithmetic (back Form8) (back OneUnit) (rev [0x41; 0xE2; 0x82; 0xAC; 0x82]) (rev [0x20AC]) (Ok true) /\
  answers PointerArithmetic (back Form8) (back OneUnit) (rev [0x41; 0xE2; 0x82]) (rev [0x20AC]) Terminate /\
  answers PointerArithmetic (back Form16) (back Form8) (rev [0x41; 0xD83D; 0xDE00]) (rev [0xF0; 0x9F; 0x98; 0x80]) (Ok true).
Proof.
  assert (R : forall k l, forallb (fun u => u <? 0x100) l = true -> (k = K8 \/ exists b, k = KChar b) -> Forall (unit_range k) l).
  { intros k l L [->|[b ->]]; rewrite forallb_forall in L; apply Forall_forall; intros u Hu; apply N.ltb_lt, L, Hu. }
  repeat split.
  - now apply R; [|left].
  - eapply Same; [reflexivity|reflexivity|]. eapply Other; [reflexivity|reflexivity|discriminate].
  - eapply Same; [reflexivity|reflexivity|]. apply Cut1; [discriminate|reflexivity].
  - eapply Same; [reflexivity|reflexivity|]. eapply Same; [reflexivity|reflexivity|]. now apply AllOfIt.
  - eapply Same; [reflexivity|reflexivity|]. now apply AllOfIt.
  - apply Bad1; [discriminate|reflexivity].
  - eapply Same; [reflexivity|reflexivity|]. now apply AllOfIt.
Qed.
