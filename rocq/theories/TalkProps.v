(** Properties C118 and C119: programs that react to answers, and the example program. *)
From Coq Require Import NArith ZArith List Bool Lia ZifyBool ZifyNat ZifyN String.
From Verif Require Import Base Integers UnicodeSpec UnicodeModel UnicodeText UnicodeLemmas UnicodeLemmas2 UnicodeLemmas3
  ResourceSpec ResourceModel ResourceLemmas StreamSpec StreamModel StreamText StreamLemmas StreamLemmas2 StreamLemmas3
  StdioSpec StdioModel StdioText StdioLemmas StdioLemmas2 StdioLemmas3 StdioLemmas4 TalkText DemoModel DemoSpec TalkLemmas.
Import ListNotations.
Open Scope list_scope.
Open Scope Z_scope.
Local Notation length := List.length (only parsing).

(* -------------------------------------------------------------------- C118 *)

(** A program whose further course depends on the answers takes the turns that go with the
    answers typed; it never waits before all it has said was shown; and when it has ended,
    everything was shown that goes with these answers. *)
Theorem C118_reactive : forall pl native arr ci co ce fuel p l t rs r b,
  proper (unit_of pl) arr -> typed arr = text_bytes (console_encoding pl) native l -> Forall scalar l ->
  capacities_fit ci co ce -> unit_fits pl ci -> conversation p l t rs r ->
  can_say pl native t -> can_take t rs -> (length l < fuel)%nat ->
  exists s s', run_program pl (order_of native) fuel (new_stdio (patient_console arr) ci co ce) p = Ok s /\
    shown_before_waiting native t (log (os s)) /\
    end_program pl b s = Ok s' /\ forall ch, shown ch (log (os s')) = text_bytes UTF8 native (said ch t).
Proof.
  intros pl native arr ci co ce fuel p l t rs r b P Ty Sc C U Cv Cs Ct F.
  pose proof (conversation_dialogue _ _ _ _ _ Cv) as D.
  pose proof (good_new pl arr ci co ce P) as G. rewrite Ty in G.
  destruct (turns_waits pl _ native fuel (caps_ok pl _ _ _ C) (room_ok pl ci co ce U) t l rs r D _ _ G Cs Ct Sc F)
    as (s & d & E & G' & L & W).
  destruct (end_ok pl _ b _ _ s G' (caps_ok pl _ _ _ C)) as (s' & E1 & S1). exists s, s'.
  split; [exact (program_turns _ _ _ _ _ _ _ _ Cv _ _ E)|]. split; [|auto].
  intros d1 c d2 X. cbn in L. rewrite L in X. exact (W d1 c d2 X).
Qed.
Print Assumptions C118_reactive.

(** A program that asks for a word until the word is "y", and counts the words. *)
Example C118_example :
  let yes := fun (a : list N) => match a with [121]%N => true | _ => false end in
  let again := fun p : program => AskThen Word K16 (fun a => if yes a then SayThen StandardError K8 [33]%N Stop else SayThen StandardOutput K8 [63]%N p) in
  let p := again (again (again Stop)) in
  let l := [110; 10; 121; 10; 120; 10]%N in let arr := [Arrives [110]%N; Arrives [10; 121; 10; 120; 10]%N] in
  let t := [Ask Word K16; Say StandardOutput K8 [63]%N; Ask Word K16; Say StandardError K8 [33]%N] in
  proper (unit_of UnixLike) arr /\ typed arr = text_bytes UTF8 LittleEndian l /\ Forall scalar l /\
  conversation p l t [[110]; [121]]%N [120; 10]%N /\ can_say UnixLike LittleEndian t /\ can_take t [[110]; [121]]%N /\
  exists s s', run_program UnixLike Little 9 (new_stdio (patient_console arr) 4 4 4) p = Ok s /\ end_program UnixLike HeaderOnly s = Ok s' /\
    log (os s') = [Waited [110]; Waited [10; 121; 10; 120]; Shown StandardOutput [63]; Shown StandardError [33]]%N.
Proof.
  cbv zeta. split. { repeat constructor; try discriminate; apply Z.divide_1_l. }
  split; [reflexivity|]. split. { repeat constructor; unfold scalar; lia. } split.
  { apply (Asked Word K16 _ _ [110]%N [121; 10; 120; 10]%N).
    - apply (TakesWord [] [110]%N [10]%N [121; 10; 120; 10]%N); [constructor|discriminate| |left; now left].
      constructor; [unfold white_space; lia|constructor].
    - cbn. apply Said. apply (Asked Word K16 _ _ [121]%N [120; 10]%N).
      + apply (TakesWord [] [121]%N [10]%N [120; 10]%N); [constructor|discriminate| |left; now left].
        constructor; [unfold white_space; lia|constructor].
      + cbn. apply Said. constructor. }
  split. { repeat constructor; try (unfold scalar; lia); try discriminate. }
  split. { repeat constructor; try (unfold scalar; lia); intros; discriminate. }
  eexists _, _. split; [vm_compute; reflexivity|]. split; [vm_compute; reflexivity|vm_compute; reflexivity].
Qed.

(* -------------------------------------------------------------------- C119 *)

(** If the program runs at a terminal: whatever is typed, as long as it begins with a word
    that a u8string can take (C01), followed by white space: the program shows its
    question, waits, and repeats the word. *)
Theorem C119_demo_partial : forall pl native cs b alive arr ci co ce fuel l w r,
  proper (unit_of pl) arr -> typed arr = text_bytes (console_encoding pl) native l -> Forall scalar l ->
  capacities_fit ci co ce -> unit_fits pl ci -> takes Word l w r -> Forall (storable K8) w ->
  (pl = Windows -> len (text_bytes UTF8 native w) < 2 ^ 32) -> (length l < fuel)%nat -> start_program b = Ok alive ->
  exists s, demo pl (order_of native) cs b ByLines fuel (new_stdio (patient_console arr) ci co ce) = Ok s /\
    shown StandardOutput (log (os s)) = first ++ question_to_user ++ reply_to_user native w /\
    shown StandardError (log (os s)) = [] /\
    forall d1 x d2, log (os s) = d1 ++ Waited x :: d2 -> shown StandardOutput d1 = first ++ question_to_user.
Proof.
  intros pl native cs b alive arr ci co ce fuel l w r P Ty Sc C U Tk St Sw F Sb.
  destruct (demo_main pl native cs b ByLines arr ci co ce fuel l w r P Ty Sc C U Tk St Sw F)
    as (s & s' & d & w' & E & E' & L & L' & V & W & Sh & _).
  exists s'. unfold demo. rewrite Sb. cbn [bind]. rewrite E. cbn [bind noexcept]. rewrite E'. cbn [bind]. split; [reflexivity|].
  rewrite !Sh. destruct (demo_said cs w) as [S1 S2]. rewrite S1, S2. clear S1 S2.
  split; [rewrite !text_bytes_app; destruct native; unfold after; cbn [same_channel app]; rewrite <- ?app_assoc; reflexivity|].
  split; [reflexivity|]. intros d1 x d2 X. rewrite L', L in X.
  destruct (split_log _ _ _ _ _ X) as [(d2' & Y & _)|(w1 & Y & ->)].
  - destruct (split_log _ _ _ _ _ Y) as [(d3 & Z & _)|(w2 & Z & ->)].
    + cbn in Z. destruct d1 as [|h [|]]; discriminate Z.
    + rewrite (W _ _ _ Z). rewrite !text_bytes_app. destruct native; unfold after; cbn [same_channel app]; reflexivity.
  - exfalso. exact (shows_waited _ _ _ _ V Y).
Qed.
Print Assumptions C119_demo_partial.

(** A word with a letter of two bytes, arriving in pieces. *)
Example C119_example :
  let l := [104; 233; 10; 120]%N in let arr := [Arrives [104; 195]%N; Arrives [169; 10; 120]%N] in
  proper (unit_of UnixLike) arr /\ typed arr = text_bytes UTF8 LittleEndian l /\ Forall scalar l /\
  takes Word l [104; 233]%N [120]%N /\ Forall (storable K8) [104; 233]%N /\
  (exists alive, start_program HeaderOnly = Ok alive) /\
  exists s, demo UnixLike Little true HeaderOnly ByLines 9 (new_stdio (patient_console arr) 4 64 8) = Ok s /\
    shown StandardOutput (log (os s)) = first ++ question_to_user ++ bytes_of "You said: hé
Cool.
"%string.
Proof.
  cbv zeta. split. { repeat constructor; try discriminate; apply Z.divide_1_l. }
  split; [reflexivity|]. split. { repeat constructor; unfold scalar; lia. } split.
  { apply (TakesWord [] [104; 233]%N [10]%N [120]%N); [constructor|discriminate| |left; now left].
    constructor; [unfold white_space; lia|constructor; [unfold white_space; lia|constructor]]. }
  split. { constructor; [|constructor; [|constructor]]; (split; [unfold holds, scalar; lia|intros _; cbn; lia]). }
  split; [eexists; vm_compute; reflexivity|]. eexists. split; [vm_compute; reflexivity|vm_compute; reflexivity].
Qed.

(** Refuted if the output goes to a file or a pipe: for every input, the first line comes
    last, because it is written with std::cout, which keeps it until the program exits. *)
Theorem C119_redirected_refuted : forall pl native cs b alive arr ci co ce fuel l w r,
  proper (unit_of pl) arr -> typed arr = text_bytes (console_encoding pl) native l -> Forall scalar l ->
  capacities_fit ci co ce -> unit_fits pl ci -> takes Word l w r -> Forall (storable K8) w ->
  (pl = Windows -> len (text_bytes UTF8 native w) < 2 ^ 32) -> (length l < fuel)%nat -> start_program b = Ok alive ->
  exists s, demo pl (order_of native) cs b AtExit fuel (new_stdio (patient_console arr) ci co ce) = Ok s /\
    shown StandardOutput (log (os s)) = question_to_user ++ reply_to_user native w ++ first.
Proof.
  intros pl native cs b alive arr ci co ce fuel l w r P Ty Sc C U Tk St Sw F Sb.
  destruct (demo_main pl native cs b AtExit arr ci co ce fuel l w r P Ty Sc C U Tk St Sw F)
    as (s & s' & d & w' & E & E' & L & L' & V & W & Sh & Ac).
  eexists. unfold demo. rewrite Sb. cbn [bind]. rewrite E. cbn [bind noexcept]. rewrite E'. cbn [bind]. split; [reflexivity|].
  unfold cout_show, sys_write. rewrite Ac. cbn [fst os log]. rewrite shown_app, Sh.
  rewrite (proj1 (demo_said cs w)), !text_bytes_app. unfold reply_to_user.
  destruct native; cbn [same_channel app shown flat_map]; rewrite app_nil_r, <- !app_assoc; reflexivity.
Qed.
Print Assumptions C119_redirected_refuted.

(** Refuted for a word with the valid code point U+1D800, and for a word that is followed by
    the end of the input: the program is ended by an exception. *)
Theorem C119_word_refuted : exists pl arr l w,
  proper (unit_of pl) arr /\ typed arr = text_bytes (console_encoding pl) LittleEndian l /\ takes Word l w [] /\
  Forall scalar l /\ w = [0x1D800]%N /\
  demo pl Little true HeaderOnly ByLines 9 (new_stdio (patient_console arr) 8 64 8) = Terminate.
Proof.
  exists UnixLike, [Arrives [240; 157; 160; 128; 10]%N], [0x1D800; 10]%N, [0x1D800]%N.
  split. { repeat constructor; try discriminate; apply Z.divide_1_l. }
  split; [reflexivity|]. split.
  { apply (TakesWord [] [0x1D800]%N [10]%N []); [constructor|discriminate| |left; now left].
    constructor; [unfold white_space; lia|constructor]. }
  split. { repeat constructor; unfold scalar; lia. } split; [reflexivity|]. vm_compute. reflexivity.
Qed.
Print Assumptions C119_word_refuted.
Theorem C119_unfinished_refuted : exists pl arr, proper (unit_of pl) arr /\ typed arr = [104; 105]%N /\
  demo pl Little true HeaderOnly ByLines 9 (new_stdio (patient_console arr) 8 64 8) = Terminate.
Proof.
  exists UnixLike, [Arrives [104; 105]%N]. split. { repeat constructor; try discriminate; apply Z.divide_1_l. }
  split; [reflexivity|]. vm_compute. reflexivity.
Qed.
Print Assumptions C119_unfinished_refuted.

(** Refuted for the compiled library (C79): undefined before main is entered. *)
Theorem C119_library_refuted : forall pl native cs m fuel s, demo pl native cs Library m fuel s = UB DanglingPointer.
Proof. reflexivity. Qed.
Print Assumptions C119_library_refuted.
