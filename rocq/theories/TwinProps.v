(** Property C146: a program that uses the standard streams does the same on every machine. *)
From Coq Require Import NArith ZArith List Bool Lia ZifyBool ZifyNat ZifyN.
From Verif Require Import Base Integers UnicodeSpec UnicodeModel UnicodeText UnicodeLemmas UnicodeLemmas2 UnicodeLemmas3
  ResourceSpec ResourceModel ResourceLemmas StreamSpec StreamModel StreamText StreamLemmas StreamLemmas2 StreamLemmas3
  StdioSpec StdioModel StdioText StdioLemmas StdioLemmas2 StdioLemmas3 StdioLemmas4 TalkText TwinSpec TwinText TwinLemmas.
Import ListNotations.
Open Scope Z_scope.

(** On any two machines - Unix-like or Windows, of either byte order, with any buffers, with
    lines that end in either way, and with input that arrives in any pieces - the same
    program, with the same text typed, comes to the same end: it shows the same on both
    channels, or it throws the same exception, or its behaviour is undefined for the same
    reason; and it does come to an end.  The typed text has no carriage returns of its own,
    or lines end in the same way on both.  Missing: programs linked with the compiled library
    and a standard input that fails (both refuted below); strings of 2^32 code units and
    more; strings of wchar_t, which is another type on each platform (refuted below). *)
Theorem C146_same_partial : forall m1 m2 l p fuel,
  m_build m1 = HeaderOnly -> m_build m2 = HeaderOnly -> buffers_fit m1 -> buffers_fit m2 ->
  typed_there m1 l -> typed_there m2 l -> Forall scalar l -> ~ In 13%N l \/ m_style m1 = m_style m2 ->
  modest (8 * length l) p -> (2 * length l < fuel)%nat ->
  whole_run m1 fuel p = whole_run m2 fuel p /\ whole_run m1 fuel p <> Diverge.
Proof.
  intros m1 m2 l p fuel B1 B2 [C1 U1] [C2 U2] [P1 T1] [P2 T2] Sc St M F.
  assert (K : keys (keyed (m_style m1) l) = keys (keyed (m_style m2) l)).
  { destruct St as [N| ->]; [now rewrite !keys_keyed|reflexivity]. }
  pose proof (keyed_length (m_style m1) l) as L1. pose proof (keyed_length (m_style m2) l) as L2.
  pose proof (good_new (m_platform m1) (m_arrivals m1) (m_in m1) (m_out m1) (m_err m1) P1) as G1. rewrite T1 in G1.
  pose proof (good_new (m_platform m2) (m_arrivals m2) (m_in m2) (m_out m2) (m_err m2) P2) as G2. rewrite T2 in G2.
  pose proof (caps_ok (m_platform m1) _ _ _ C1) as Q1. pose proof (caps_ok (m_platform m2) _ _ _ C2) as Q2.
  pose proof (room_ok (m_platform m1) (m_in m1) (m_out m1) (m_err m1) U1) as R1.
  pose proof (room_ok (m_platform m2) (m_in m2) (m_out m2) (m_err m2) U2) as R2.
  set (c1 := Caps (Z.of_nat (m_in m1)) (Z.of_nat (m_out m1)) (Z.of_nat (m_err m1))) in *.
  set (c2 := Caps (Z.of_nat (m_in m2)) (Z.of_nat (m_out m2)) (Z.of_nat (m_err m2))) in *.
  assert (A : alike (m_platform m1) (m_platform m2) c1 c2 (m_native m1) (m_native m2) (fun _ => []) (Datatypes.S (2 * length l))
    (new_stdio (patient_console (m_arrivals m1)) (m_in m1) (m_out m1) (m_err m1))
    (new_stdio (patient_console (m_arrivals m2)) (m_in m2) (m_out m2) (m_err m2))).
  { exists (keyed (m_style m1) l), (keyed (m_style m2) l). split; [exact G1|]. split; [exact G2|]. split; [exact K|].
    split; [now apply keyed_scalar|]. split; [now apply keyed_scalar|]. lia. }
  assert (M' : modest (4 * Nat.pred (Datatypes.S (2 * length l))) p).
  { replace (4 * Nat.pred (Datatypes.S (2 * length l)))%nat with (8 * length l)%nat by (cbn [Nat.pred]; lia). exact M. }
  pose proof (run_sim _ _ _ _ _ _ Q1 Q2 R1 R2 fuel _ F p M' _ _ _ A) as X. unfold whole_run. rewrite B1, B2.
  destruct (start_program HeaderOnly) as [al| | | |] eqn:Sp; try discriminate Sp. cbn [bind].
  destruct (run_program (m_platform m1) _ fuel _ p) as [s1| | | |], (run_program (m_platform m2) _ fuel _ p) as [s2| | | |];
    cbn [sim bind] in X |- *; try contradiction; try (split; [congruence|discriminate]).
  destruct X as (_ & sent & l1 & l2 & H1 & H2 & _).
  destruct (end_ok _ _ HeaderOnly _ _ s1 H1 Q1) as (t1 & E1 & S1). destruct (end_ok _ _ HeaderOnly _ _ s2 H2 Q2) as (t2 & E2 & S2).
  rewrite E1, E2. cbn [bind]. rewrite !S1, !S2. split; [reflexivity|discriminate].
Qed.
Print Assumptions C146_same_partial.

Ltac fit := split; [unfold capacities_fit; cbn; lia|intro; cbn; first [lia|discriminate]].

(** A program that asks for a name and repeats it until the name is empty, and then for one
    code point; on a little-endian Unix-like system with small buffers, and on a big-endian
    Windows without a buffer for the output, where the text arrives in other pieces and
    lines end with a carriage return, too. *)
Definition greeter : program :=
  let again := fun p : program => SayThen StandardOutput K8 [63]%N (AskThen Line K32 (fun a =>
    match a with
    | [] => AskThen Character K8 (fun c => SayThen StandardError K32 c Stop)
    | _ => SayThen StandardOutput K32 a p
    end)) in
  again (again (again Stop)).

Definition here : machine := Machine UnixLike LittleEndian HeaderOnly 3 1 0 Bare [Arrives [195; 169; 10; 10]; Arrives [240; 159; 152; 128]]%N.
Definition there : machine :=
  Machine Windows BigEndian HeaderOnly 2 0 5 WithReturn [Arrives [0; 233; 0; 13]; Arrives [0; 10; 0; 13; 0; 10; 216; 61]; Arrives [222; 0]]%N.

Example C146_example : let l := [233; 10; 10; 0x1F600]%N in
  buffers_fit here /\ buffers_fit there /\ typed_there here l /\ typed_there there l /\ Forall scalar l /\ ~ In 13%N l /\
  modest (8 * length l) greeter /\
  whole_run here 9 greeter = Ok ([63; 195; 169; 63], [240; 159; 152; 128])%N /\
  whole_run there 9 greeter = Ok ([63; 195; 169; 63], [240; 159; 152; 128])%N.
Proof.
  cbv zeta. split; [fit|]. split; [fit|].
  split. { split; [|reflexivity]. repeat constructor; try discriminate; apply Z.divide_1_l. }
  split. { split; [|reflexivity]. repeat constructor; try discriminate; cbn; [exists 2|exists 4|exists 1]; reflexivity. }
  split. { repeat constructor; unfold scalar; lia. }
  split. { cbn. intuition discriminate. }
  split; [|split; vm_compute; reflexivity].
  assert (W : forall a, (length a <= 8 * length [233; 10; 10; 0x1F600]%N)%nat -> Z.of_nat (length (units K32 a)) < 2 ^ 32).
  { intros a L. replace (length (units K32 a)) with (length a); [cbn [length] in L; lia|]. clear L. induction a as [|c a IH]; [reflexivity|].
    cbn. f_equal. exact IH. }
  assert (Y : forall p, modest (8 * length [233; 10; 10; 0x1F600]%N) p ->
    modest (8 * length [233; 10; 10; 0x1F600]%N) (SayThen StandardOutput K8 [63]%N (AskThen Line K32 (fun a =>
    match a with
    | [] => AskThen Character K8 (fun c => SayThen StandardError K32 c Stop)
    | _ => SayThen StandardOutput K32 a p
    end)))).
  { intros p Hp. split; [cbn; lia|]. intros [|c a] L; [|split; [exact (W (c :: a) L)|exact Hp]].
    intros a L'. split; [exact (W a L')|exact Logic.I]. }
  apply Y, Y, Y. exact Logic.I.
Qed.

(** And where the text ends in the middle of a line, both throw the same exception. *)
Example C146_example_end : let p := AskThen Line K8 (fun _ => AskThen Line K16 (fun _ => Stop)) in
  whole_run here 9 (AskThen Line K8 (fun _ => p)) = Throw ReadPastEnd /\ whole_run there 9 (AskThen Line K8 (fun _ => p)) = Throw ReadPastEnd.
Proof. split; vm_compute; reflexivity. Qed.

(** Refuted for programs linked with the compiled library: see C79. *)
Theorem C146_library_refuted : exists m1 m2 p fuel, buffers_fit m1 /\ buffers_fit m2 /\ typed_there m1 [] /\ typed_there m2 [] /\
  modest 0 p /\ whole_run m1 fuel p = Ok ([33]%N, []) /\ (exists u, whole_run m2 fuel p = UB u).
Proof.
  exists (Machine UnixLike LittleEndian HeaderOnly 2 2 2 Bare []), (Machine UnixLike LittleEndian Library 2 2 2 Bare []),
    (SayThen StandardOutput K8 [33]%N Stop), 1%nat.
  split; [fit|]. split; [fit|]. split; [split; [constructor|reflexivity]|].
  split; [split; [constructor|reflexivity]|]. split; [split; [cbn; lia|exact Logic.I]|].
  split; [vm_compute; reflexivity|]. eexists. vm_compute. reflexivity.
Qed.
Print Assumptions C146_library_refuted.

(** Refuted if the standard input fails: the program is told that a great many bytes were
    read on a Unix-like system, and nothing definite on Windows. *)
Theorem C146_failing_refuted : exists m1 m2 p fuel, buffers_fit m1 /\ buffers_fit m2 /\ m_build m1 = HeaderOnly /\ m_build m2 = HeaderOnly /\
  m_arrivals m1 = [Fails] /\ m_arrivals m2 = [Fails] /\ modest 8 p /\ whole_run m1 fuel p <> whole_run m2 fuel p.
Proof.
  exists (Machine UnixLike LittleEndian HeaderOnly 0 2 2 Bare [Fails]), (Machine Windows LittleEndian HeaderOnly 2 2 2 Bare [Fails]),
    (AskThen Character K8 (fun _ => Stop)), 3%nat.
  split; [fit|]. split; [fit|]. do 4 (split; [reflexivity|]). split; [intros a _; exact Logic.I|].
  vm_compute. discriminate.
Qed.
Print Assumptions C146_failing_refuted.

(** Refuted for strings of wchar_t: the same line of the program writes a string of four-byte
    units on a Unix-like system and of two-byte units on Windows, and there pairs of
    surrogates cannot be written (C07). *)
Theorem C146_wide_refuted : exists m1 m2 fuel, buffers_fit m1 /\ buffers_fit m2 /\ typed_there m1 [] /\ typed_there m2 [] /\
  m_platform m1 = UnixLike /\ m_platform m2 = Windows /\ m_build m1 = HeaderOnly /\ m_build m2 = HeaderOnly /\
  whole_run m1 fuel (SayThen StandardOutput KW4 [0x1F600]%N Stop) = Ok ([240; 159; 152; 128]%N, []) /\
  whole_run m2 fuel (SayThen StandardOutput KW2 [0x1F600]%N Stop) = Throw InvalidUnicodeEncoding.
Proof.
  exists (Machine UnixLike LittleEndian HeaderOnly 2 2 2 Bare []), (Machine Windows LittleEndian HeaderOnly 2 2 2 Bare []), 1%nat.
  split; [fit|]. split; [fit|]. split; [split; [constructor|reflexivity]|].
  split; [split; [constructor|reflexivity]|]. do 4 (split; [reflexivity|]). split; vm_compute; reflexivity.
Qed.
Print Assumptions C146_wide_refuted.
