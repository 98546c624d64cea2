(** Properties C73 to C79: the standard streams. *)
From Coq Require Import NArith ZArith List Bool Lia ZifyBool ZifyNat ZifyN.
From Verif Require Import Base Integers UnicodeSpec UnicodeModel UnicodeText UnicodeLemmas UnicodeLemmas2 UnicodeLemmas3
  ResourceSpec ResourceModel ResourceLemmas StreamSpec StreamModel StreamText StreamLemmas StreamLemmas2 StreamLemmas3
  StdioSpec StdioModel StdioText StdioLemmas StdioLemmas2 StdioLemmas3 StdioLemmas4.
Import ListNotations.
Open Scope Z_scope.

(* --------------------------------------------------------------------- C73 *)

(** Before a read waits for input, everything sent to the standard output has been
    shown. *)
Theorem C73_prompts_first : forall pl arr ci co ce calls block n,
  proper (unit_of pl) arr -> capacities_fit ci co ce -> calls_fit pl (calls ++ [Get block n]) ->
  exists s rs s' rs' d,
    run_calls pl (new_stdio (patient_console arr) ci co ce) calls = Ok (s, rs) /\
    run_calls pl (new_stdio (patient_console arr) ci co ce) (calls ++ [Get block n]) = Ok (s', rs') /\
    log (os s') = log (os s) ++ d /\
    forall d1 b d2, d = d1 ++ Waited b :: d2 -> shown StandardOutput (log (os s) ++ d1) = sent StandardOutput calls.
Proof.
  intros pl arr ci co ce calls block n P C F. pose proof (caps_ok pl _ _ _ C) as Cf.
  apply Forall_app in F. destruct F as [F F1]. pose proof (Forall_inv F1) as [Nb Nl].
  destruct (run_ok pl _ calls _ _ _ (good_new pl arr ci co ce P) Cf F) as (s & rs & rest & E & R & G & T).
  destruct (get_ok pl _ _ rest s block n G Cf Nb Nl)
    as (s' & b & rest1 & f & w & E1 & R1 & Lb & G1 & L & V & W & S1 & T1 & Wt & _ & M).
  exists s, rs, s', (rs ++ [b]), (f ++ w). split; [exact E|]. split.
  { rewrite run_calls_app, E. cbn [bind run_calls]. rewrite E1. cbn [bind]. do 4 f_equal.
    change (take (len b) (b ++ drop (len b) block) = b). apply take_app_exact. }
  split; [exact L|]. intros d1 g d2 X. destruct (split_log _ _ _ _ _ X) as [(d2' & Y & _)|(w1 & Y & ->)].
  - exfalso. exact (shows_waited _ _ _ _ V Y).
  - pose proof (waits_split w1 g d2 ltac:(rewrite <- Y; exact W)) as W1.
    rewrite app_assoc, shown_app, (waits_shown _ w1 W1), app_nil_r. exact S1.
Qed.
Print Assumptions C73_prompts_first.

(** A prompt in a buffer of 16 bytes, and a question. *)
Example C73_example :
  let arr := [Arrives [104; 105; 10]%N] in let start := new_stdio (patient_console arr) 4 16 16 in
  proper (unit_of UnixLike) arr /\ capacities_fit 4 16 16 /\
  calls_fit UnixLike ([Put StandardOutput [63; 32]%N; Put StandardError [33]%N] ++ [Get [0; 0; 0]%N 3]) /\
  exists s rs, run_calls UnixLike start [Put StandardOutput [63; 32]%N; Put StandardError [33]%N; Get [0; 0; 0]%N 3] = Ok (s, rs) /\
    rs = [[104; 105; 10]%N] /\ log (os s) = [Shown StandardOutput [63; 32]; Waited [104; 105; 10]]%N.
Proof.
  cbv zeta. split.
  { constructor; [|constructor]. split; [discriminate|]. cbn. exists 3. reflexivity. }
  split; [unfold capacities_fit; lia|]. split.
  { repeat constructor; cbn; intros; try lia; try discriminate. }
  eexists _, _. split; [vm_compute; reflexivity|]. split; reflexivity.
Qed.

(** The same for text: before a question waits, all that was said on the standard
    output has been shown. *)
Theorem C73_prompts_first_text : forall pl native arr ci co ce fuel t q k l rs r,
  proper (unit_of pl) arr -> typed arr = text_bytes (console_encoding pl) native l -> Forall scalar l ->
  capacities_fit ci co ce -> unit_fits pl ci -> dialogue (t ++ [Ask q k]) l rs r ->
  can_say pl native t -> can_take (t ++ [Ask q k]) rs -> (length l < fuel)%nat ->
  exists s s' d,
    run_turns pl (order_of native) fuel (new_stdio (patient_console arr) ci co ce) t = Ok (s, as_given t rs) /\
    run_turns pl (order_of native) fuel (new_stdio (patient_console arr) ci co ce) (t ++ [Ask q k])
      = Ok (s', as_given (t ++ [Ask q k]) rs) /\
    log (os s') = log (os s) ++ d /\
    forall d1 b d2, d = d1 ++ Waited b :: d2 ->
      shown StandardOutput (log (os s) ++ d1) = text_bytes UTF8 native (said StandardOutput t).
Proof.
  intros pl native arr ci co ce fuel t q k l rs r P Ty S C U D Cs Ct F.
  destruct (dialogue_ask pl native arr ci co ce fuel t q k l rs r P Ty S C U D Cs Ct F) as (s & s' & d & E & E' & L & W).
  exists s, s', d. split; [exact E|]. split; [exact E'|]. split; [exact L|].
  intros d1 b d2 X. exact (proj1 (W _ _ _ X)).
Qed.
Print Assumptions C73_prompts_first_text.

(** "? " and a line "né" typed in two pieces, then a word. *)
Definition example_arrivals : list arrival := [Arrives [110; 195]; Arrives [169; 10; 120; 32]]%N.
Definition example_turns : list turn := [Say StandardOutput K8 [63; 32]%N; Ask Line K16; Say StandardOutput K32 [62]%N].
Lemma example_dialogue : dialogue (example_turns ++ [Ask Word K8]) [110; 233; 10; 120; 32]%N [[110; 233]; [120]]%N [].
Proof.
  unfold example_turns. cbn [app]. apply AfterSay. eapply AfterAsk.
  - change [110; 233; 10; 120; 32]%N with ([110; 233] ++ [10] ++ [120; 32])%N. apply TakesLine; [now left| |]; cbn; lia.
  - apply AfterSay. eapply AfterAsk; [|constructor]. change [120; 32]%N with ([] ++ [120] ++ [32] ++ [])%N.
    apply TakesWord; [constructor|discriminate| |].
    + constructor; [|constructor]. unfold white_space. lia.
    + right. exists 32%N. split; [reflexivity|]. unfold white_space. lia.
Qed.
Lemma example_proper : proper (unit_of UnixLike) example_arrivals.
Proof.
  constructor; [split; [discriminate|exists 2; reflexivity]|]. constructor; [split; [discriminate|exists 4; reflexivity]|constructor].
Qed.

Example C73_text_example :
  proper (unit_of UnixLike) example_arrivals /\
  typed example_arrivals = text_bytes (console_encoding UnixLike) LittleEndian [110; 233; 10; 120; 32]%N /\
  Forall scalar [110; 233; 10; 120; 32]%N /\ capacities_fit 4 16 16 /\ unit_fits UnixLike 4 /\
  dialogue (example_turns ++ [Ask Word K8]) [110; 233; 10; 120; 32]%N [[110; 233]; [120]]%N [] /\
  can_say UnixLike LittleEndian example_turns /\ can_take (example_turns ++ [Ask Word K8]) [[110; 233]; [120]]%N /\
  exists s, run_turns UnixLike Little 6 (new_stdio (patient_console example_arrivals) 4 16 16) (example_turns ++ [Ask Word K8])
      = Ok (s, [[110; 233]; [120]]%N) /\
    log (os s) = [Shown StandardOutput [63; 32]; Waited [110; 195]; Waited [169; 10; 120; 32]; Shown StandardOutput [62]]%N.
Proof.
  split; [exact example_proper|]. split; [vm_compute; reflexivity|]. split; [repeat constructor; unfold scalar; lia|].
  split; [unfold capacities_fit; lia|]. split; [discriminate|]. split; [exact example_dialogue|].
  split.
  { constructor; [|constructor; [exact I|constructor; [|constructor]]].
    - split; [|discriminate]. repeat constructor; cbn; unfold scalar; try lia; try discriminate.
    - split; [|discriminate]. repeat constructor; cbn; unfold scalar; try lia; try discriminate. }
  split.
  { constructor; [|constructor; [|constructor]]; repeat constructor; cbn; unfold scalar; try lia; try discriminate; intros; lia. }
  eexists. split; [vm_compute; reflexivity|]. reflexivity.
Qed.

(* --------------------------------------------------------------------- C74 *)

(** Proved when the system takes every block in full: after a flush a channel has
    shown exactly what was sent to it, in order.  Missing: see the refutation. *)
Theorem C74_flush_partial : forall pl arr ci co ce calls ch,
  proper (unit_of pl) arr -> capacities_fit ci co ce -> calls_fit pl calls ->
  exists s rs, run_calls pl (new_stdio (patient_console arr) ci co ce) (calls ++ [Finish ch]) = Ok (s, rs) /\
    shown ch (log (os s)) = sent ch calls.
Proof.
  intros pl arr ci co ce calls ch P C F. pose proof (caps_ok pl _ _ _ C) as Cf.
  destruct (run_ok pl _ calls _ _ _ (good_new pl arr ci co ce P) Cf F) as (s & rs & rest & E & R & G & T).
  destruct (finish_ok pl _ _ rest s ch G Cf) as (s' & w & E1 & G1 & S1 & _).
  exists s', rs. split; [|exact S1]. rewrite run_calls_app, E. cbn [bind run_calls]. rewrite E1. cbn [bind]. now rewrite app_nil_r.
Qed.
Print Assumptions C74_flush_partial.

(** When the program ends, whether or not anything was flushed. *)
Theorem C74_program_end_partial : forall pl arr ci co ce calls b,
  proper (unit_of pl) arr -> capacities_fit ci co ce -> calls_fit pl calls ->
  exists s rs s', run_calls pl (new_stdio (patient_console arr) ci co ce) calls = Ok (s, rs) /\ end_program pl b s = Ok s' /\
    forall ch, shown ch (log (os s')) = sent ch calls.
Proof.
  intros pl arr ci co ce calls b P C F. pose proof (caps_ok pl _ _ _ C) as Cf.
  destruct (run_ok pl _ calls _ _ _ (good_new pl arr ci co ce P) Cf F) as (s & rs & rest & E & R & G & T).
  destruct (end_ok pl _ b _ rest s G Cf) as (s' & E1 & S1). exists s, rs, s'. auto.
Qed.
Print Assumptions C74_program_end_partial.

(** At any time, what was shown is the beginning of what was sent. *)
Theorem C74_nothing_else_partial : forall pl arr ci co ce calls ch,
  proper (unit_of pl) arr -> capacities_fit ci co ce -> calls_fit pl calls ->
  exists s rs pending, run_calls pl (new_stdio (patient_console arr) ci co ce) calls = Ok (s, rs) /\
    sent ch calls = shown ch (log (os s)) ++ pending /\
    Z.of_nat (length pending) <= match ch with StandardOutput => Z.of_nat co | StandardError => Z.of_nat ce end.
Proof.
  intros pl arr ci co ce calls ch P C F. pose proof (caps_ok pl _ _ _ C) as Cf.
  destruct (run_ok pl _ calls _ _ _ (good_new pl arr ci co ce P) Cf F) as (s & rs & rest & E & R & G & T).
  destruct G as (_ & O & _). destruct (O ch) as (Cp & B & W & Sh). exists s, rs, (take (bpos (out_buffer ch s)) (mem (out_buffer ch s))).
  split; [exact E|]. split; [exact Sh|].
  change (len (take (bpos (out_buffer ch s)) (mem (out_buffer ch s))) <= match ch with StandardOutput => Z.of_nat co | StandardError => Z.of_nat ce end).
  assert (cap_of (Caps (Z.of_nat ci) (Z.of_nat co) (Z.of_nat ce)) ch = match ch with StandardOutput => Z.of_nat co | StandardError => Z.of_nat ce end)
    by (destruct ch; reflexivity).
  rewrite len_take by lia. lia.
Qed.
Print Assumptions C74_nothing_else_partial.

(** The same for text. *)
Theorem C74_text_partial : forall pl native arr ci co ce fuel t l rs r b,
  proper (unit_of pl) arr -> typed arr = text_bytes (console_encoding pl) native l -> Forall scalar l ->
  capacities_fit ci co ce -> unit_fits pl ci -> dialogue t l rs r ->
  can_say pl native t -> can_take t rs -> (length l < fuel)%nat ->
  exists s s', run_turns pl (order_of native) fuel (new_stdio (patient_console arr) ci co ce) t = Ok (s, as_given t rs) /\
    end_program pl b s = Ok s' /\ forall ch, shown ch (log (os s')) = text_bytes UTF8 native (said ch t).
Proof.
  intros pl native arr ci co ce fuel t l rs r b P Ty S C U D Cs Ct F.
  destruct (dialogue_ok pl native arr ci co ce fuel t l rs r P Ty S C U D Cs Ct F) as (s & E & G & T).
  destruct (end_ok pl _ b _ _ s G (caps_ok pl _ _ _ C)) as (s' & E1 & S1). exists s, s'. auto.
Qed.
Print Assumptions C74_text_partial.

Example C74_example :
  let calls := [Put StandardOutput [1; 2; 3]; Put StandardError [7]; Put StandardOutput [4; 5; 6]; Finish StandardError; Put StandardError [8; 9]]%N in
  proper (unit_of Windows) [] /\ capacities_fit 0 4 1 /\ calls_fit Windows calls /\
  exists s rs s', run_calls Windows (new_stdio (patient_console []) 0 4 1) calls = Ok (s, rs) /\ end_program Windows Library s = Ok s' /\
    log (os s) = [Shown StandardOutput [1; 2; 3]; Shown StandardError [7]; Shown StandardError [8; 9]]%N /\
    log (os s') = log (os s) ++ [Shown StandardOutput [4; 5; 6]]%N.
Proof.
  cbv zeta. split; [constructor|]. split; [unfold capacities_fit; lia|].
  split; [repeat constructor; cbn; intros; try lia|]. eexists _, _, _. split; [vm_compute; reflexivity|].
  split; [vm_compute; reflexivity|]. split; reflexivity.
Qed.

(** Refuted: the system may take only part of a block (a pipe, a terminal, a full
    disk, a signal).  The rest is lost although later output is taken, and nothing
    is reported. *)
Theorem C74_short_write_refuted : exists acc calls s rs,
  calls_fit UnixLike calls /\ acc = [AtMost 1; InFull] /\
  run_calls UnixLike (new_stdio (Console [] acc []) 0 8 8) (calls ++ [Finish StandardOutput]) = Ok (s, rs) /\
  sent StandardOutput calls = [1; 2; 3; 4]%N /\ shown StandardOutput (log (os s)) = [1; 4]%N.
Proof.
  exists [AtMost 1; InFull], [Put StandardOutput [1; 2; 3]%N; Finish StandardOutput; Put StandardOutput [4]%N].
  eexists _, _. split; [repeat constructor; cbn; intros; discriminate|]. split; [reflexivity|].
  split; [vm_compute; reflexivity|]. split; reflexivity.
Qed.
Print Assumptions C74_short_write_refuted.

(* --------------------------------------------------------------------- C75 *)

(** Lines, words and characters are returned as typed, whatever the pieces in which
    they arrive and whatever was said in between. *)
Theorem C75_answers : forall pl native arr ci co ce fuel t l rs r,
  proper (unit_of pl) arr -> typed arr = text_bytes (console_encoding pl) native l -> Forall scalar l ->
  capacities_fit ci co ce -> unit_fits pl ci -> dialogue t l rs r ->
  can_say pl native t -> can_take t rs -> (length l < fuel)%nat ->
  exists s, run_turns pl (order_of native) fuel (new_stdio (patient_console arr) ci co ce) t = Ok (s, as_given t rs).
Proof.
  intros pl native arr ci co ce fuel t l rs r P Ty S C U D Cs Ct F.
  destruct (dialogue_ok pl native arr ci co ce fuel t l rs r P Ty S C U D Cs Ct F) as (s & E & _). eauto.
Qed.
Print Assumptions C75_answers.

(** On Windows: "a", CR LF, a character outside the basic plane, CR LF; a line, then
    two characters. *)
Example C75_example :
  let l := [97; 13; 10; 128512; 13; 10]%N in let arr := [Arrives (text_bytes UTF16 LittleEndian l)] in
  let t := [Ask Line K8; Ask Character K8; Ask Character K8] in
  proper (unit_of Windows) arr /\ typed arr = text_bytes (console_encoding Windows) LittleEndian l /\ Forall scalar l /\
  capacities_fit 5 16 16 /\ unit_fits Windows 5 /\ dialogue t l [[97]; [128512]; [10]]%N [] /\
  can_say Windows LittleEndian t /\ can_take t [[97]; [128512]; [10]]%N /\
  exists s, run_turns Windows Little 7 (new_stdio (patient_console arr) 5 16 16) t = Ok (s, [[97]; [128512]; [10]]%N).
Proof.
  cbv zeta. split; [constructor; [split; [discriminate|exists 7; vm_compute; reflexivity]|constructor]|].
  split; [vm_compute; reflexivity|]. split; [repeat constructor; unfold scalar; lia|].
  split; [unfold capacities_fit; lia|]. split; [intro; vm_compute; discriminate|]. split.
  { eapply AfterAsk.
    - change [97; 13; 10; 128512; 13; 10]%N with ([97] ++ [13; 10] ++ [128512; 13; 10])%N. apply TakesLine; [now right| |]; cbn; lia.
    - eapply AfterAsk; [apply TakesCharacter; discriminate|]. eapply AfterAsk; [apply TakesLineEnd|constructor]. }
  split; [repeat constructor|]. split.
  { constructor; [|constructor; [exact I|constructor; [exact I|constructor]]].
    repeat constructor; cbn; unfold scalar; try lia; try discriminate; intros; lia. }
  eexists. vm_compute. reflexivity.
Qed.

(* --------------------------------------------------------------------- C76 *)

(** A read waits only while it has been given fewer bytes than are asked for
    altogether. *)
Theorem C76_no_needless_wait : forall pl arr ci co ce calls block n,
  proper (unit_of pl) arr -> capacities_fit ci co ce -> calls_fit pl (calls ++ [Get block n]) -> 0 < n ->
  exists s rs s' rs' d,
    run_calls pl (new_stdio (patient_console arr) ci co ce) calls = Ok (s, rs) /\
    run_calls pl (new_stdio (patient_console arr) ci co ce) (calls ++ [Get block n]) = Ok (s', rs') /\
    log (os s') = log (os s) ++ d /\
    forall d1 b d2, d = d1 ++ Waited b :: d2 ->
      Z.of_nat (length (received (log (os s) ++ d1))) < Z.of_nat (length (concat rs)) + n.
Proof.
  intros pl arr ci co ce calls block n P C F N0. pose proof (caps_ok pl _ _ _ C) as Cf.
  apply Forall_app in F. destruct F as [F F1]. pose proof (Forall_inv F1) as [Nb Nl].
  destruct (run_ok pl _ calls _ _ _ (good_new pl arr ci co ce P) Cf F) as (s & rs & rest & E & R & G & T).
  destruct (get_ok pl _ _ rest s block n G Cf Nb Nl)
    as (s' & b & rest1 & f & w & E1 & R1 & Lb & G1 & L & V & W & S1 & T1 & Wt & _ & M).
  exists s, rs, s', (rs ++ [b]), (f ++ w). split; [exact E|]. split.
  { rewrite run_calls_app, E. cbn [bind run_calls]. rewrite E1. cbn [bind]. do 4 f_equal.
    change (take (len b) (b ++ drop (len b) block) = b). apply take_app_exact. }
  split; [exact L|]. intros d1 g d2 X. destruct (split_log _ _ _ _ _ X) as [(d2' & Y & _)|(w1 & Y & ->)].
  - exfalso. exact (shows_waited _ _ _ _ V Y).
  - pose proof (Wt _ _ _ Y N0) as Q. rewrite !received_app, (shows_received f V). cbn [app].
    change (len (received (log (os s)) ++ received w1) < len (concat rs) + n).
    cbn [new_stdio patient_console os log arrivals received flat_map app] in T.
    assert (len (typed arr) = len (received (log (os s))) + len (typed (arrivals (os s)))) by (rewrite <- T, len_app; reflexivity).
    assert (len (typed arr) = len (concat rs) + len rest) by (rewrite R, len_app; reflexivity).
    rewrite len_app. lia.
Qed.
Print Assumptions C76_no_needless_wait.

Example C76_example :
  let arr := [Arrives [1; 2; 3]; Arrives [4]]%N in let calls := [Get [0; 0]%N 2] in
  proper (unit_of UnixLike) arr /\ capacities_fit 8 0 0 /\ calls_fit UnixLike (calls ++ [Get [0]%N 1]) /\
  exists s rs, run_calls UnixLike (new_stdio (patient_console arr) 8 0 0) (calls ++ [Get [0]%N 1]) = Ok (s, rs) /\
    rs = [[1; 2]; [3]]%N /\ log (os s) = [Waited [1; 2; 3]]%N.
Proof.
  cbv zeta. split; [constructor; [|constructor; [|constructor]]; (split; [discriminate|]); [exists 3|exists 1]; reflexivity|].
  split; [unfold capacities_fit; lia|]. split; [repeat constructor; cbn; intros; lia|].
  eexists _, _. split; [vm_compute; reflexivity|]. split; reflexivity.
Qed.

(** A question waits only while the text up to the end of its answer has not been
    given to the program. *)
Theorem C76_no_needless_wait_text : forall pl native arr ci co ce fuel t q k l rs used r,
  proper (unit_of pl) arr -> typed arr = text_bytes (console_encoding pl) native l -> Forall scalar l ->
  capacities_fit ci co ce -> unit_fits pl ci -> dialogue (t ++ [Ask q k]) l rs r -> l = used ++ r ->
  can_say pl native t -> can_take (t ++ [Ask q k]) rs -> (length l < fuel)%nat ->
  exists s s' d,
    run_turns pl (order_of native) fuel (new_stdio (patient_console arr) ci co ce) t = Ok (s, as_given t rs) /\
    run_turns pl (order_of native) fuel (new_stdio (patient_console arr) ci co ce) (t ++ [Ask q k])
      = Ok (s', as_given (t ++ [Ask q k]) rs) /\
    log (os s') = log (os s) ++ d /\
    forall d1 b d2, d = d1 ++ Waited b :: d2 ->
      (length (received (log (os s) ++ d1)) < length (text_bytes (console_encoding pl) native used))%nat.
Proof.
  intros pl native arr ci co ce fuel t q k l rs used r P Ty S C U D El Cs Ct F.
  destruct (dialogue_ask pl native arr ci co ce fuel t q k l rs r P Ty S C U D Cs Ct F) as (s & s' & d & E & E' & L & W).
  exists s, s', d. split; [exact E|]. split; [exact E'|]. split; [exact L|].
  intros d1 b d2 X. pose proof (proj2 (W _ _ _ X)) as Q. rewrite Ty, El, text_bytes_app, len_app in Q. unfold len in Q. lia.
Qed.
Print Assumptions C76_no_needless_wait_text.

(** In C73_text_example the word is in the second piece, and does not wait. *)
Example C76_text_example :
  dialogue (example_turns ++ [Ask Word K8]) [110; 233; 10; 120; 32]%N [[110; 233]; [120]]%N [] /\
  exists s s', run_turns UnixLike Little 6 (new_stdio (patient_console example_arrivals) 4 16 16) example_turns
      = Ok (s, [[110; 233]]%N) /\
    run_turns UnixLike Little 6 (new_stdio (patient_console example_arrivals) 4 16 16) (example_turns ++ [Ask Word K8])
      = Ok (s', [[110; 233]; [120]]%N) /\
    log (os s') = log (os s) ++ [Shown StandardOutput [62]%N].
Proof.
  split; [exact example_dialogue|]. eexists _, _. split; [vm_compute; reflexivity|]. split; [vm_compute; reflexivity|]. reflexivity.
Qed.

(* --------------------------------------------------------------------- C77 *)

(** Proved when no read fails: a read gives the next bytes of the input, at most as
    many as asked for, leaves the rest of the block alone, and gives none only at the end of
    the input.  Missing: see the refutations. *)
Theorem C77_input_in_order_partial : forall pl arr ci co ce calls block n,
  proper (unit_of pl) arr -> capacities_fit ci co ce -> calls_fit pl (calls ++ [Get block n]) ->
  exists s rs s' d rest,
    run_calls pl (new_stdio (patient_console arr) ci co ce) calls = Ok (s, rs) /\
    uin_read pl s block n = Ok (s', d ++ skipn (length d) block, Z.of_nat (length d)) /\
    typed arr = concat rs ++ d ++ rest /\ Z.of_nat (length d) <= n /\ (unit_of pl <= n -> d = [] -> rest = []).
Proof.
  intros pl arr ci co ce calls block n P C F. pose proof (caps_ok pl _ _ _ C) as Cf.
  apply Forall_app in F. destruct F as [F F1]. pose proof (Forall_inv F1) as [Nb Nl].
  destruct (run_ok pl _ calls _ _ _ (good_new pl arr ci co ce P) Cf F) as (s & rs & rest & E & R & G & T).
  destruct (get_ok pl _ _ rest s block n G Cf Nb Nl)
    as (s' & b & rest1 & f & w & E1 & R1 & Lb & G1 & L & V & W & S1 & T1 & Wt & Ne & M).
  exists s, rs, s', b, rest1. split; [exact E|]. split.
  { rewrite E1. unfold drop, len. now rewrite Nat2Z.id. }
  split; [rewrite R, R1; reflexivity|]. split; [exact Lb|]. intros Un ->. cbn [app] in R1.
  destruct rest1 as [|x rest1]; [reflexivity|]. exfalso. apply (Ne Un); [rewrite R1; discriminate|reflexivity].
Qed.
Print Assumptions C77_input_in_order_partial.

Example C77_example :
  let arr := [Arrives [1; 2; 3; 4; 5; 6]%N] in let calls := [Get [0; 0; 0]%N 3] in
  proper (unit_of Windows) arr /\ capacities_fit 4 0 0 /\ calls_fit Windows (calls ++ [Get [9; 9; 9; 9; 9]%N 4]) /\
  exists s rs s', run_calls Windows (new_stdio (patient_console arr) 4 0 0) calls = Ok (s, rs) /\ rs = [[1; 2; 3]]%N /\
    uin_read Windows s [9; 9; 9; 9; 9]%N 4 = Ok (s', [4; 5; 6; 9; 9]%N, 3).
Proof.
  cbv zeta. split; [constructor; [|constructor]; split; [discriminate|]; exists 3; reflexivity|].
  split; [unfold capacities_fit; lia|]. split; [repeat constructor; cbn; intros; lia|].
  eexists _, _, _. split; [vm_compute; reflexivity|]. split; [reflexivity|]. vm_compute. reflexivity.
Qed.

(** Refuted on Unix when a read fails: bytes are given a second time, then memory
    outside the buffer is read. *)
Theorem C77_failure_refuted : exists arr calls s rs,
  typed arr = [1; 2; 3; 4]%N /\ calls_fit UnixLike calls /\
  run_calls UnixLike (new_stdio (patient_console arr) 4 0 0) calls = Ok (s, rs) /\ concat rs = [1; 2; 3; 4; 1; 2; 3; 4]%N /\
  run_calls UnixLike (new_stdio (patient_console arr) 4 0 0) (calls ++ [Get [0]%N 1]) = UB OutOfBoundsRead.
Proof.
  exists [Arrives [1; 2; 3; 4]%N; Fails], [Get [0; 0]%N 2; Get [0; 0]%N 2; Get [0; 0]%N 2; Get [0; 0]%N 2].
  eexists _, _. split; [reflexivity|]. split; [repeat constructor; cbn; lia|].
  split; [vm_compute; reflexivity|]. split; vm_compute; reflexivity.
Qed.
Print Assumptions C77_failure_refuted.

(** Without a buffer, any such read reports 2^64 - 1 bytes. *)
Theorem C77_failure_count_refuted : forall arr block n, 0 <= n <= Z.of_nat (length block) ->
  exists s, uin_read UnixLike (new_stdio (patient_console (Fails :: arr)) 0 0 0) block n = Ok (s, block, 2 ^ 64 - 1).
Proof. intros arr block n H. eexists. reflexivity. Qed.
Print Assumptions C77_failure_count_refuted.

(** On Windows (the input is redirected, or the console is closed) the number of bytes is
    indeterminate. *)
Theorem C77_redirected_refuted : forall arr ci co ce block n,
  uin_read Windows (new_stdio (patient_console (Fails :: arr)) ci co ce) block n = UB Indeterminate.
Proof.
  intros arr ci co ce block n. unfold uin_read, new_stdio, flush, new_buffer. cbn [uout_buffer os buf inner write_dirty bind uin_buffer].
  unfold read. cbn [buf]. destruct (0 <? capacity _); reflexivity.
Qed.
Print Assumptions C77_redirected_refuted.

(* --------------------------------------------------------------------- C78 *)

(** Refuted for every input: a last line without a line end is never returned. *)
Theorem C78_last_line_refuted : forall pl native arr ci co ce fuel k l,
  proper (unit_of pl) arr -> typed arr = text_bytes (console_encoding pl) native l -> Forall scalar l ->
  capacities_fit ci co ce -> unit_fits pl ci -> ~ In 10%N l -> Forall (storable k) l -> (length l < fuel)%nat ->
  ask pl (order_of native) fuel Line k (new_stdio (patient_console arr) ci co ce) = Throw ReadPastEnd.
Proof.
  intros pl native arr ci co ce fuel k l P Ty S C U N10 St F. unfold ask.
  pose proof (uin_to_the_end pl _ (fun _ => []) (caps_ok pl ci co ce C) (room_ok pl ci co ce U)) as G.
  assert (B : Z.of_nat (unit_width (console_encoding pl)) <= unit_of pl) by (rewrite unit_width_of; lia).
  set (st := uin pl (order_of native) _).
  assert (H : before (good pl (Caps (Z.of_nat ci) (Z.of_nat co) (Z.of_nat ce)) (fun _ => []))
    (console_encoding pl) native (text_bytes (console_encoding pl) native l) st).
  { split; [rewrite <- Ty; now apply good_new|]. destruct pl; split; reflexivity. }
  clearbody st. unfold read_line.
  assert (E : append_line (order_of native) (uin_source pl) fuel k [] st = Throw ReadPastEnd).
  { apply (never_line_end native _ _ _ G G (console_encoding pl) native B k (length l) l (le_n _) fuel [] st S); auto.
    apply filtered_forall. exact St. }
  now rewrite E.
Qed.
Print Assumptions C78_last_line_refuted.

(** Nor a last word without white space after it. *)
Theorem C78_last_word_refuted : forall pl native arr ci co ce fuel k s w,
  proper (unit_of pl) arr -> typed arr = text_bytes (console_encoding pl) native (s ++ w) -> Forall scalar (s ++ w) ->
  capacities_fit ci co ce -> unit_fits pl ci -> Forall white_space s -> Forall (fun c => ~ white_space c) w ->
  Forall (storable k) w -> (length (s ++ w) < fuel)%nat ->
  ask pl (order_of native) fuel Word k (new_stdio (patient_console arr) ci co ce) = Throw ReadPastEnd.
Proof.
  intros pl native arr ci co ce fuel k s w P Ty S C U Ws Ww St F. unfold ask.
  pose proof (uin_to_the_end pl _ (fun _ => []) (caps_ok pl ci co ce C) (room_ok pl ci co ce U)) as G.
  assert (B : Z.of_nat (unit_width (console_encoding pl)) <= unit_of pl) by (rewrite unit_width_of; lia).
  set (st := uin pl (order_of native) _).
  assert (H : before (good pl (Caps (Z.of_nat ci) (Z.of_nat co) (Z.of_nat ce)) (fun _ => []))
    (console_encoding pl) native (text_bytes (console_encoding pl) native (s ++ w)) st).
  { split; [rewrite <- Ty; now apply good_new|]. destruct pl; split; reflexivity. }
  clearbody st.
  assert (E : read_word (order_of native) (uin_source pl) fuel k st = Throw ReadPastEnd).
  { exact (never_word_end native _ _ _ G G (console_encoding pl) native B k s w fuel st S St Ws Ww H F). }
  now rewrite E.
Qed.
Print Assumptions C78_last_word_refuted.

(** And uin.read_all(s) never returns. *)
Theorem C78_read_all_refuted : forall pl native arr ci co ce fuel k l,
  proper (unit_of pl) arr -> typed arr = text_bytes (console_encoding pl) native l -> Forall scalar l ->
  capacities_fit ci co ce -> unit_fits pl ci -> Forall (storable k) l -> (length l < fuel)%nat ->
  read_all (order_of native) (uin_source pl) fuel k (uin pl (order_of native) (new_stdio (patient_console arr) ci co ce))
    = Throw ReadPastEnd.
Proof.
  intros pl native arr ci co ce fuel k l P Ty S C U St F.
  pose proof (uin_to_the_end pl _ (fun _ => []) (caps_ok pl ci co ce C) (room_ok pl ci co ce U)) as G.
  assert (B : Z.of_nat (unit_width (console_encoding pl)) <= unit_of pl) by (rewrite unit_width_of; lia).
  set (st := uin pl (order_of native) _).
  assert (H : before (good pl (Caps (Z.of_nat ci) (Z.of_nat co) (Z.of_nat ce)) (fun _ => []))
    (console_encoding pl) native (text_bytes (console_encoding pl) native l) st).
  { split; [rewrite <- Ty; now apply good_new|]. destruct pl; split; reflexivity. }
  clearbody st. unfold read_all.
  apply (never_all native _ _ _ G G (console_encoding pl) native B k (length l) l (le_n _) fuel [] st S); auto.
  apply filtered_forall. exact St.
Qed.
Print Assumptions C78_read_all_refuted.

(** Proved: at the end of the input a question is answered by an exception (after a
    dialogue that has used all that was typed).  Missing: see the refutations. *)
Theorem C78_end_reported_partial : forall pl native arr ci co ce fuel t l rs q k,
  proper (unit_of pl) arr -> typed arr = text_bytes (console_encoding pl) native l -> Forall scalar l ->
  capacities_fit ci co ce -> unit_fits pl ci -> dialogue t l rs [] ->
  can_say pl native t -> can_take t rs -> (length l < fuel)%nat ->
  run_turns pl (order_of native) fuel (new_stdio (patient_console arr) ci co ce) (t ++ [Ask q k]) = Throw ReadPastEnd.
Proof.
  intros pl native arr ci co ce fuel t l rs q k P Ty S C U D Cs Ct F.
  destruct (dialogue_ok pl native arr ci co ce fuel t l rs [] P Ty S C U D Cs Ct F) as (s & E & Gs & T).
  rewrite run_turns_app, E. cbn [bind run_turns]. unfold ask.
  pose proof (uin_to_the_end pl _ (fun ch => text_bytes UTF8 native (said ch t)) (caps_ok pl ci co ce C) (room_ok pl ci co ce U)) as G.
  assert (B : Z.of_nat (unit_width (console_encoding pl)) <= unit_of pl) by (rewrite unit_width_of; lia).
  set (st := uin pl (order_of native) s).
  assert (H : before (good pl (Caps (Z.of_nat ci) (Z.of_nat co) (Z.of_nat ce)) (fun ch => text_bytes UTF8 native (said ch t)))
    (console_encoding pl) native (text_bytes (console_encoding pl) native []) st).
  { split; [exact Gs|]. destruct pl; split; reflexivity. }
  clearbody st. assert (F0 : (0 < fuel)%nat) by lia.
  destruct q.
  - assert (X : read_filtered_code_point (order_of native) (uin_source pl) st = Throw ReadPastEnd)
      by exact (never_filtered_end native _ _ _ G (console_encoding pl) native B st H).
    now rewrite X.
  - assert (X : read_line (order_of native) (uin_source pl) fuel k st = Throw ReadPastEnd)
      by exact (never_line_end native _ _ _ G G (console_encoding pl) native B k 0 [] (le_n _) fuel [] st
                  (Forall_nil _) (Forall_nil _) (fun x => x) H F0).
    now rewrite X.
  - assert (X : read_word (order_of native) (uin_source pl) fuel k st = Throw ReadPastEnd)
      by exact (never_word_end native _ _ _ G G (console_encoding pl) native B k [] [] fuel st
                  (Forall_nil _) (Forall_nil _) (Forall_nil _) (Forall_nil _) H F0).
    now rewrite X.
Qed.
Print Assumptions C78_end_reported_partial.

(** The hypotheses of the refutations, for "é" in two pieces. *)
Example C78_hypotheses :
  let arr := [Arrives [195]; Arrives [169]]%N in
  proper (unit_of UnixLike) arr /\ typed arr = text_bytes (console_encoding UnixLike) BigEndian ([] ++ [233])%N /\
  Forall scalar [233]%N /\ capacities_fit 8 8 8 /\ unit_fits UnixLike 8 /\ ~ In 10%N [233]%N /\ Forall (storable K16) [233]%N /\
  Forall (fun c => ~ white_space c) [233]%N /\ dialogue [Ask Character K8] [233]%N [[233]]%N [] /\
  ask UnixLike Big 2 Line K16 (new_stdio (patient_console arr) 8 8 8) = Throw ReadPastEnd.
Proof.
  cbv zeta. split; [constructor; [|constructor; [|constructor]]; (split; [discriminate|]); exists 1; reflexivity|].
  split; [vm_compute; reflexivity|]. split; [repeat constructor; unfold scalar; lia|]. split; [unfold capacities_fit; lia|].
  split; [discriminate|]. split; [cbn; lia|].
  split; [constructor; [split; [cbn; unfold scalar; lia|discriminate]|constructor]|].
  split; [constructor; [unfold white_space; lia|constructor]|].
  split; [eapply AfterAsk; [apply TakesCharacter; discriminate|constructor]|]. vm_compute. reflexivity.
Qed.

(** Two lines in a file given as standard input, the second without a line end. *)
Example C78_example :
  let arr := [Arrives [97; 10; 98]%N] in let start := new_stdio (patient_console arr) 8 8 8 in
  (exists s, run_turns UnixLike Little 4 start [Ask Line K8] = Ok (s, [[97]%N])) /\
  run_turns UnixLike Little 4 start [Ask Line K8; Ask Line K8] = Throw ReadPastEnd /\
  run_turns UnixLike Little 4 start [Ask Word K8; Ask Word K8] = Throw ReadPastEnd /\
  (exists s, run_turns UnixLike Little 4 start [Ask Line K8; Ask Character K8] = Ok (s, [[97]; [98]]%N)) /\
  run_turns UnixLike Little 4 start [Ask Line K8; Ask Character K8; Ask Character K8] = Throw ReadPastEnd.
Proof.
  cbv zeta. split; [eexists; vm_compute; reflexivity|]. split; [vm_compute; reflexivity|]. split; [vm_compute; reflexivity|].
  split; [eexists; vm_compute; reflexivity|]. vm_compute. reflexivity.
Qed.

(* --------------------------------------------------------------------- C79 *)

(** Refuted when the library is compiled separately: the constructor of uin_resource
    uses uout_resource before that is constructed. *)
Theorem C79_library_refuted : start_program Library = UB DanglingPointer.
Proof. reflexivity. Qed.
Print Assumptions C79_library_refuted.

(** Proved for the header-only library: all objects are constructed; and in both, the
    objects used by a destructor are still alive, so that the end of the program is
    defined (C74_program_end_partial). *)
Theorem C79_header_only_partial : exists alive, start_program HeaderOnly = Ok alive /\ forall x, In x alive.
Proof. eexists. split; [reflexivity|]. intros [| | | | |]; cbn; tauto. Qed.
Print Assumptions C79_header_only_partial.

(** The order decides, whatever else it is: the objects are constructed exactly if
    uout_resource comes before uin_resource. *)
Lemma construct_in_order : forall l alive,
  (exists alive', construct_statics alive l = Ok alive') <->
  In UoutResource alive \/ forall a b, l = a ++ UinResource :: b -> In UoutResource a.
Proof.
  assert (Al : forall x alive, is_alive x alive = true <-> In x alive).
  { intros x alive. unfold is_alive. rewrite existsb_exists. split.
    - intros (y & H & E). destruct x, y; try discriminate E; exact H.
    - intros H. exists x. split; [exact H|]. destruct x; reflexivity. }
  assert (Ea : forall l alive, In UoutResource alive -> exists alive', construct_statics alive l = Ok alive').
  { intros l. induction l as [|x l IH]; intros alive H; cbn [construct_statics]; [eauto|].
    destruct x; try (apply IH; now right). apply Al in H. rewrite H. apply IH. right. now apply Al. }
  intros l. induction l as [|x l IH]; intros alive; cbn [construct_statics].
  - split; [intros _; right; intros [|? ?] ? E; discriminate E|eauto].
  - split.
    + intros H. destruct x.
      * destruct (is_alive UoutResource alive) eqn:E; [left; now apply Al|]. destruct H as (? & H). discriminate H.
      * right. intros [|y a] b E; [discriminate E|]. injection E as <- _. now left.
      * apply IH in H. destruct H as [[H|H]|H]; [discriminate H|now left|right].
        intros [|y a] b E; [discriminate E|]. injection E as <- E. right. now apply (H a b).
      * apply IH in H. destruct H as [[H|H]|H]; [discriminate H|now left|right].
        intros [|y a] b E; [discriminate E|]. injection E as <- E. right. now apply (H a b).
      * apply IH in H. destruct H as [[H|H]|H]; [discriminate H|now left|right].
        intros [|y a] b E; [discriminate E|]. injection E as <- E. right. now apply (H a b).
      * apply IH in H. destruct H as [[H|H]|H]; [discriminate H|now left|right].
        intros [|y a] b E; [discriminate E|]. injection E as <- E. right. now apply (H a b).
    + intros H. destruct x.
      * destruct (is_alive UoutResource alive) eqn:E; [apply Ea; right; now apply Al|].
        destruct H as [H|H]; [apply Al in H; congruence|]. destruct (H [] l eq_refl).
      * apply IH. left. now left.
      * apply IH. destruct H as [H|H]; [left; now right|right]. intros a b E. destruct (H (UerrResource :: a) b ltac:(now rewrite E)) as [X|X]; [discriminate X|exact X].
      * apply IH. destruct H as [H|H]; [left; now right|right]. intros a b E. destruct (H (Uin :: a) b ltac:(now rewrite E)) as [X|X]; [discriminate X|exact X].
      * apply IH. destruct H as [H|H]; [left; now right|right]. intros a b E. destruct (H (Uout :: a) b ltac:(now rewrite E)) as [X|X]; [discriminate X|exact X].
      * apply IH. destruct H as [H|H]; [left; now right|right]. intros a b E. destruct (H (Uerr :: a) b ltac:(now rewrite E)) as [X|X]; [discriminate X|exact X].
Qed.

Theorem C79_order_exact : forall l,
  (exists alive, construct_statics [] l = Ok alive) <-> forall a b, l = a ++ UinResource :: b -> In UoutResource a.
Proof.
  intros l. rewrite (construct_in_order l []). split; [intros [[]|H]; exact H|intros H; now right].
Qed.
Print Assumptions C79_order_exact.

(** The same order with the streams between, and one that is no good although another
    resource comes first. *)
Example C79_order_example :
  (exists alive, construct_statics [] [Uout; UoutResource; Uin; UinResource] = Ok alive) /\
  construct_statics [] [UerrResource; Uout; UinResource; UoutResource] = UB DanglingPointer.
Proof. split; [eexists|]; reflexivity. Qed.

(** At the end of the program every stream must be destroyed before its resource. *)
Theorem C79_destroyed : forall pl l s s', destroy_statics pl l s = Ok s' ->
  (forall a b, l = a ++ Uout :: b -> In UoutResource b) /\ (forall a b, l = a ++ Uerr :: b -> In UerrResource b).
Proof.
  assert (Al : forall x alive, is_alive x alive = true -> In x alive).
  { intros x alive H. unfold is_alive in H. apply existsb_exists in H. destruct H as (y & H & E).
    destruct x, y; try discriminate E; exact H. }
  intros pl l. induction l as [|x l IH]; intros s s' H.
  - split; intros [|? ?] ? E; discriminate E.
  - cbn [destroy_statics] in H.
    assert (Next : exists s1, destroy_statics pl l s1 = Ok s').
    { destruct x; cbn [bind] in H; try (now exists s).
      - destruct (is_alive UoutResource l); [|discriminate]. destruct (out_flush pl StandardOutput s) as [s1| | | |]; try discriminate. now exists s1.
      - destruct (is_alive UerrResource l); [|discriminate]. destruct (out_flush pl StandardError s) as [s1| | | |]; try discriminate. now exists s1. }
    destruct Next as (s1 & N). destruct (IH _ _ N) as (I1 & I2). split; intros [|y a] b E.
    + injection E as -> ->. destruct (is_alive UoutResource b) eqn:A; [now apply Al|discriminate].
    + injection E as <- E. now apply (I1 a).
    + injection E as -> ->. destruct (is_alive UerrResource b) eqn:A; [now apply Al|discriminate].
    + injection E as <- E. now apply (I2 a).
Qed.
Print Assumptions C79_destroyed.

Example C79_destroyed_example : let s := new_stdio (patient_console []) 4 4 4 in
  (exists s', destroy_statics Windows [Uout; Uin; UoutResource] s = Ok s') /\
  destroy_statics Windows [UoutResource; Uout; UerrResource] s = UB DanglingPointer.
Proof. split; [eexists|]; vm_compute; reflexivity. Qed.
