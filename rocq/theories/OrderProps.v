(** Property C117: both output channels on one screen. *)
From Coq Require Import NArith ZArith List Bool Lia ZifyBool ZifyNat ZifyN.
From Verif Require Import Base Integers UnicodeSpec UnicodeModel UnicodeText UnicodeLemmas UnicodeLemmas2 UnicodeLemmas3
  ResourceSpec ResourceModel ResourceLemmas StreamSpec StreamModel StreamText StreamLemmas StreamLemmas2 StreamLemmas3
  StdioSpec StdioModel StdioText StdioLemmas StdioLemmas2 StdioLemmas3 StdioLemmas4 OrderSpec OrderText OrderLemmas.
Import ListNotations.
Open Scope Z_scope.

(** Refuted when there is a buffer for the standard output: "a" to uout, then "b" to uerr.
    Whether uerr has a buffer or none, "ba" is shown. *)
Theorem C117_order_refuted : forall pl b ce, (ce = 0 \/ ce = 8)%nat ->
  exists t s s', t = [Say StandardOutput K8 [97]%N; Say StandardError K8 [98]%N; Flush StandardError] /\
    run_turns pl Little 1 (new_stdio (patient_console []) 8 8 ce) t = Ok (s, []) /\ end_program pl b s = Ok s' /\
    spoken t = [97; 98]%N /\ screen (log (os s')) = [98; 97]%N.
Proof.
  intros pl b ce H. exists [Say StandardOutput K8 [97]%N; Say StandardError K8 [98]%N; Flush StandardError].
  destruct pl, b, H as [->| ->]; eexists _, _;
    (split; [reflexivity|]; split; [vm_compute; reflexivity|]; split; [vm_compute; reflexivity|]; split; vm_compute; reflexivity).
Qed.
Print Assumptions C117_order_refuted.

(** Proved if no text is said on one channel while text may wait in the buffer of the
    other (a question empties that of the standard output): at any time the screen shows
    the beginning of what was said, and all of it when the program has ended. *)
Theorem C117_order_partial : forall pl native arr ci co ce fuel t l rs r b,
  proper (unit_of pl) arr -> typed arr = text_bytes (console_encoding pl) native l -> Forall scalar l ->
  capacities_fit ci co ce -> unit_fits pl ci -> dialogue t l rs r ->
  can_say pl native t -> can_take t rs -> (length l < fuel)%nat -> orderly None t ->
  exists s pending s', run_turns pl (order_of native) fuel (new_stdio (patient_console arr) ci co ce) t = Ok (s, as_given t rs) /\
    text_bytes UTF8 native (spoken t) = screen (log (os s)) ++ pending /\
    end_program pl b s = Ok s' /\ screen (log (os s')) = text_bytes UTF8 native (spoken t).
Proof.
  intros pl native arr ci co ce fuel t l rs r b P Ty S C U D Cs Ct F O.
  pose proof (good_new pl arr ci co ce P) as G. rewrite Ty in G. pose proof (caps_ok pl _ _ _ C) as Cf.
  destruct (turns_in_turn pl _ native fuel Cf (room_ok pl ci co ce U) t l rs r D _ _ None [] G
              (in_turn_new native arr ci co ce) O Cs Ct S F) as (s & p & E & G' & I).
  destruct (end_in_turn pl _ b _ _ s p _ G' Cf I) as (s' & E' & Sc).
  exists s, (match p with Some ch => waits_on ch s | None => [] end), s'. split; [exact E|]. split; [symmetry; apply I|]. auto.
Qed.
Print Assumptions C117_order_partial.

(** Proved for every program if neither channel has a buffer: at any time the screen
    shows exactly what was said, in order. *)
Theorem C117_unbuffered_partial : forall pl native arr ci fuel t l rs r,
  proper (unit_of pl) arr -> typed arr = text_bytes (console_encoding pl) native l -> Forall scalar l ->
  capacities_fit ci 0 0 -> unit_fits pl ci -> dialogue t l rs r ->
  can_say pl native t -> can_take t rs -> (length l < fuel)%nat ->
  exists s, run_turns pl (order_of native) fuel (new_stdio (patient_console arr) ci 0 0) t = Ok (s, as_given t rs) /\
    screen (log (os s)) = text_bytes UTF8 native (spoken t).
Proof.
  intros pl native arr ci fuel t l rs r P Ty S C U D Cs Ct F.
  pose proof (good_new pl arr ci 0 0 P) as G. rewrite Ty in G.
  destruct (turns_unbuffered pl _ native fuel (caps_ok pl _ _ _ C) (room_ok pl ci 0 0 U) eq_refl eq_refl t l rs r D _ _ [] G
              (in_turn_new native arr ci 0 0) Cs Ct S F) as (s & E & _ & Sc).
  exists s. split; [exact E|]. rewrite app_nil_r in Sc. exact Sc.
Qed.
Print Assumptions C117_unbuffered_partial.

(** A prompt, an answer, a complaint on uerr, flushed, and another prompt. *)
Example C117_example :
  let l := [120; 10]%N in let arr := [Arrives [120; 10]%N] in
  let t := [Say StandardOutput K8 [63; 32]%N; Ask Word K8; Say StandardError K8 [33; 10]%N; Flush StandardError; Say StandardOutput K8 [63]%N] in
  proper (unit_of UnixLike) arr /\ typed arr = text_bytes UTF8 LittleEndian l /\ dialogue t l [[120]]%N [] /\
  can_say UnixLike LittleEndian t /\ can_take t [[120]]%N /\ orderly None t /\
  exists s s', run_turns UnixLike Little 9 (new_stdio (patient_console arr) 4 4 4) t = Ok (s, [[120]]%N) /\
    end_program UnixLike Library s = Ok s' /\ screen (log (os s')) = [63; 32; 33; 10; 63]%N.
Proof.
  cbv zeta. split. { repeat constructor; try discriminate; apply Z.divide_1_l. }
  split; [reflexivity|]. split.
  { apply AfterSay. apply (AfterAsk Word K8 _ _ _ []).
    - apply (TakesWord [] [120]%N [10]%N []); [constructor|discriminate| |left; now left].
      constructor; [unfold white_space; lia|constructor].
    - apply AfterSay, AfterFlush, AfterSay. constructor. }
  split. { repeat constructor; try (unfold scalar; lia); try discriminate. }
  split. { repeat constructor; try (unfold scalar; lia); intros; lia. }
  split; [cbn; auto 8|].
  eexists _, _. split; [vm_compute; reflexivity|]. split; [vm_compute; reflexivity|vm_compute; reflexivity].
Qed.
