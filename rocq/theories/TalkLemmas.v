(** Proofs about programs that react to answers, and about the example program. *)
From Coq Require Import NArith ZArith List Bool Lia ZifyBool ZifyNat ZifyN.
From Verif Require Import Base Integers UnicodeSpec UnicodeModel UnicodeText UnicodeLemmas UnicodeLemmas2 UnicodeLemmas3
  ResourceSpec ResourceModel ResourceLemmas StreamSpec StreamModel StreamText StreamLemmas StreamLemmas2 StreamLemmas3
  StdioSpec StdioModel StdioText StdioLemmas StdioLemmas2 StdioLemmas3 StdioLemmas4 TalkText DemoModel.
Import ListNotations.
Open Scope Z_scope.

Lemma conversation_dialogue : forall p l t rs r, conversation p l t rs r -> dialogue t l rs r.
Proof. intros p l t rs r C. induction C; econstructor; eassumption. Qed.

Lemma as_given_cons : forall q k t a rs, as_given (Ask q k :: t) (a :: rs) = given q k a :: as_given t rs.
Proof. reflexivity. Qed.

(** A program does what the turns do that it takes. *)
Lemma program_turns : forall pl native fuel p l t rs r, conversation p l t rs r -> forall s s',
  run_turns pl native fuel s t = Ok (s', as_given t rs) -> run_program pl native fuel s p = Ok s'.
Proof.
  intros pl native fuel p l t rs r C.
  induction C as [l|ch k x p l t rs r C IH|ch p l t rs r C IH|q k p l a l' t rs r Tk C IH]; intros s s' E.
  - cbn in E. cbn [run_program]. congruence.
  - cbn [run_turns run_program] in *. destruct (say pl native ch k x s) as [s1| | | |]; try discriminate. cbn [bind] in *. now apply IH.
  - cbn [run_turns run_program] in *. destruct (out_flush pl ch s) as [s1| | | |]; try discriminate. cbn [bind] in *. now apply IH.
  - cbn [run_turns run_program] in *. destruct (ask pl native fuel q k s) as [[s1 a']| | | |]; try discriminate. cbn [bind] in *.
    destruct (run_turns pl native fuel s1 t) as [[s2 rs']| | | |] eqn:E2; try discriminate. cbn [bind] in E.
    rewrite as_given_cons in E. assert (s2 = s') by congruence. assert (a' = given q k a) by congruence.
    assert (rs' = as_given t rs) by congruence. subst. now apply IH.
Qed.

(** The waits of a whole dialogue. *)
Lemma turns_waits : forall pl cs native fuel, caps_fit pl cs -> room pl cs -> forall t l rs r, dialogue t l rs r ->
  forall sent s, good pl cs sent (text_bytes (console_encoding pl) native l) s ->
  can_say pl native t -> can_take t rs -> Forall scalar l -> (length l < fuel)%nat ->
  exists s' d, run_turns pl (order_of native) fuel s t = Ok (s', as_given t rs) /\
    good pl cs (fun ch => sent ch ++ text_bytes UTF8 native (said ch t)) (text_bytes (console_encoding pl) native r) s' /\
    log (os s') = log (os s) ++ d /\
    forall d1 b d2, d = d1 ++ Waited b :: d2 -> exists t1 q k t2, t = t1 ++ Ask q k :: t2 /\
      shown StandardOutput (log (os s) ++ d1) = sent StandardOutput ++ text_bytes UTF8 native (said StandardOutput t1).
Proof.
  intros pl cs native fuel C Rm t l rs r D.
  induction D as [l|ch k x t l rs r D IH|ch t l rs r D IH|q k t l a l' rs r Tk D IH]; intros sent s G Cs Ct Sc F.
  - exists s, []. split; [reflexivity|]. split; [eapply good_ext; [exact G|]; intro ch; cbn; apply app_nil_r|].
    split; [now rewrite app_nil_r|]. intros [|] ? ? X; discriminate.
  - pose proof (Forall_inv Cs) as [Px Sx]. pose proof (Forall_inv_tail Cs) as Cs'. cbn [run_turns].
    destruct (say_ok pl cs native sent ch _ k x s G C Px Sx) as (s1 & w & E & G1 & T1 & L1 & V1). rewrite E. cbn [bind].
    destruct (IH _ _ G1 Cs' Ct Sc F) as (s' & d & E' & G' & L' & W'). exists s', (w ++ d). split; [exact E'|].
    split.
    { eapply good_ext; [exact G'|]. intro ch'. unfold after. cbn [said flat_map]. fold (said ch' t).
      destruct (same_channel ch' ch); [rewrite text_bytes_app, app_assoc; reflexivity|reflexivity]. }
    split; [now rewrite L', L1, app_assoc|]. intros d1 b d2 X.
    destruct (split_log _ _ _ _ _ X) as [(d2' & Y & _)|(w1 & Y & ->)].
    { exfalso. exact (shows_waited _ _ _ _ V1 Y). }
    destruct (W' _ _ _ Y) as (t1 & q & k' & t2 & -> & Sh). exists (Say ch k x :: t1), q, k', t2. split; [reflexivity|].
    rewrite app_assoc, <- L1, Sh. cbn [said flat_map]. fold (said StandardOutput t1). unfold after.
    destruct (same_channel StandardOutput ch); [rewrite text_bytes_app, app_assoc; reflexivity|reflexivity].
  - pose proof (Forall_inv_tail Cs) as Cs'. cbn [run_turns].
    destruct (finish_ok pl cs sent _ s ch G C) as (s1 & w & E & G1 & S1 & L1 & V1 & X1). rewrite E. cbn [bind].
    destruct (IH _ _ G1 Cs' Ct Sc F) as (s' & d & E' & G' & L' & W'). exists s', (w ++ d). split; [exact E'|]. split; [exact G'|].
    split; [now rewrite L', L1, app_assoc|]. intros d1 b d2 X.
    destruct (split_log _ _ _ _ _ X) as [(d2' & Y & _)|(w1 & Y & ->)].
    { exfalso. exact (shows_waited _ _ _ _ V1 Y). }
    destruct (W' _ _ _ Y) as (t1 & q & k' & t2 & -> & Sh). exists (Flush ch :: t1), q, k', t2. split; [reflexivity|].
    rewrite app_assoc, <- L1, Sh. reflexivity.
  - pose proof (Forall_inv_tail Cs) as Cs'. cbn [run_turns].
    change (can_take (Ask q k :: t) (a :: rs))
      with (Forall (fun '((q, k), a) => match q with Character => True | _ => Forall (storable k) a end)
              (((q, k), a) :: combine (kinds_asked t) rs)) in Ct.
    pose proof (Forall_inv Ct) as Ca. pose proof (Forall_inv_tail Ct) as Ct'. cbn beta iota in Ca.
    set (T := received (log (os s)) ++ typed (arrivals (os s))).
    assert (A : asking pl cs sent (log (os s)) T (text_bytes (console_encoding pl) native l) s).
    { split; [exact G|]. split; [reflexivity|]. exists []. split; [now rewrite app_nil_r|]. intros [|] ? ? X; discriminate. }
    destruct (ask_ok pl cs native sent _ T fuel q k l a l' s C Rm Tk Sc Ca F A) as (s1 & E & (G1 & T1 & d0 & L1 & Wf)). rewrite E. cbn [bind].
    destruct (takes_suffix _ _ _ _ Tk) as [p ->]. apply Forall_app in Sc. destruct Sc as [_ Sc].
    destruct (IH sent s1 G1 Cs' Ct' Sc ltac:(rewrite app_length in F; lia)) as (s' & d & E' & G' & L' & W'). rewrite E'. cbn [bind].
    exists s', (d0 ++ d). split; [reflexivity|]. split; [exact G'|]. split; [now rewrite L', L1, app_assoc|].
    intros d1 b d2 X. destruct (split_log _ _ _ _ _ X) as [(d2' & Y & _)|(w1 & Y & ->)].
    + destruct (Wf _ _ _ Y) as [Sh _]. exists [], q, k, t. split; [reflexivity|]. rewrite Sh. cbn. now rewrite app_nil_r.
    + destruct (W' _ _ _ Y) as (t1 & q' & k' & t2 & -> & Sh). exists (Ask q k :: t1), q', k', t2. split; [reflexivity|].
      rewrite app_assoc, <- L1, Sh. reflexivity.
Qed.

(* --------------------------------------------------------------------- demo *)

Lemma print_say : forall pl native k l s, print pl native k (units k l) s = say pl native StandardOutput k l s.
Proof. reflexivity. Qed.

Lemma print_char_say : forall pl native cs s, print_char pl native cs 10 s = say pl native StandardOutput K32 [10%N] s.
Proof.
  intros pl native cs s. unfold print_char, say, write_char, write_string, write_code_point.
  cbn [uout_or_uerr out_form]. replace (widen (KChar cs) 10) with 10%N by (destruct cs; reflexivity).
  unfold write_by_code_point. replace (visit K32 (units K32 [10%N])) with ([10%N], Ok tt) by reflexivity.
  cbn [write_each bind]. destruct (write_code_point_in_utf8 (out_sink pl StandardOutput) _ 10) as [st| | | |]; reflexivity.
Qed.

(** The turns of the example. *)
Definition demo_turns (is_signed : bool) (w : list N) : list turn :=
  [Say StandardOutput K8 second_line; Say StandardOutput K16 prompt; Ask Word K8;
   Say StandardOutput K32 reply_start; Say StandardOutput K8 w; Say StandardOutput K32 [10%N];
   Say StandardOutput (KChar is_signed) last_line].

Lemma demo_body_turns : forall pl native cs fuel s s' w,
  run_turns pl native fuel s (demo_turns cs w) = Ok (s', [units K8 w]) -> main_body pl native cs fuel s = Ok s'.
Proof.
  intros pl native cs fuel s s' w E. unfold demo_turns in E. cbn [run_turns] in E. unfold main_body. rewrite print_say.
  destruct (say pl native StandardOutput K8 second_line s) as [s1| | | |]; try discriminate. cbn [bind] in *. rewrite print_say.
  destruct (say pl native StandardOutput K16 prompt s1) as [s2| | | |]; try discriminate. cbn [bind] in *. unfold ask in E.
  destruct (read_word native (uin_source pl) fuel K8 (uin pl native s2)) as [[st input]| | | |]; try discriminate. cbn [bind] in *.
  rewrite print_say. destruct (say pl native StandardOutput K32 reply_start (in_res st)) as [s3| | | |]; try discriminate. cbn [bind] in *.
  assert (Ei : input = units K8 w).
  { destruct (say pl native StandardOutput K8 w s3) as [s4| | | |]; try discriminate. cbn [bind] in E.
    destruct (say pl native StandardOutput K32 [10%N] s4) as [s5| | | |]; try discriminate. cbn [bind] in E.
    destruct (say pl native StandardOutput (KChar cs) last_line s5) as [s6| | | |]; try discriminate. cbn [bind] in E. congruence. }
  subst input. rewrite print_say. destruct (say pl native StandardOutput K8 w s3) as [s4| | | |]; try discriminate. cbn [bind] in *.
  rewrite print_char_say. destruct (say pl native StandardOutput K32 [10%N] s4) as [s5| | | |]; try discriminate. cbn [bind] in *.
  rewrite print_say. destruct (say pl native StandardOutput (KChar cs) last_line s5) as [s6| | | |]; try discriminate. cbn [bind] in *.
  congruence.
Qed.

Lemma good_cout : forall pl ci co ce arr line, proper (unit_of pl) arr ->
  good pl (Caps (Z.of_nat ci) (Z.of_nat co) (Z.of_nat ce)) (after (fun _ => []) StandardOutput line) (typed arr)
    (cout_show (new_stdio (patient_console arr) ci co ce) line).
Proof.
  intros pl ci co ce arr line P. destruct (good_new pl arr ci co ce P) as (I & O & A). split; [exact I|]. split; [|reflexivity].
  intro ch. destruct (O ch) as (Cp & B & W & Sh).
  assert (Eb : out_buffer ch (cout_show (new_stdio (patient_console arr) ci co ce) line) = out_buffer ch (new_stdio (patient_console arr) ci co ce))
    by (destruct ch; reflexivity).
  split; [rewrite Eb; exact Cp|]. split; [rewrite Eb; exact B|]. split; [rewrite Eb; exact W|]. rewrite Eb.
  assert (Ep : bpos (out_buffer ch (new_stdio (patient_console arr) ci co ce)) = 0) by (destruct ch; reflexivity).
  rewrite Ep. change (take 0 (mem (out_buffer ch (new_stdio (patient_console arr) ci co ce)))) with (@nil N). rewrite app_nil_r.
  destruct ch; cbn; [now rewrite app_nil_r|reflexivity].
Qed.

Lemma demo_can_say : forall pl native cs w, Forall scalar w -> (pl = Windows -> Z.of_nat (length (text_bytes UTF8 native w)) < 2 ^ 32) ->
  can_say pl native (demo_turns cs w).
Proof.
  intros pl native cs w Sw Lw. unfold can_say, demo_turns.
  assert (Plain : forall k l, forallb (fun c => ((c <? 0xD800)%N && ((c <? 128)%N || match k with KChar _ => false | _ => true end))) l = true ->
            Forall (printable native UTF8 native k) l).
  { intros k l H. rewrite forallb_forall in H. apply Forall_forall. intros c Hc. specialize (H c Hc).
    unfold printable. destruct k; try lia; (split; [unfold scalar; lia|]; intros _; split;
      [split; [unfold scalar; lia|intros _; rewrite N.mod_small by lia; lia]|unfold single_unit, bmp; try lia; auto]). }
  repeat match goal with |- Forall _ (_ :: _) => apply Forall_cons | |- Forall _ [] => apply Forall_nil end; auto;
    (split; [|intro; try (destruct native; reflexivity)]); try (apply Plain; destruct cs; reflexivity).
  - apply Forall_forall. intros c Hc. rewrite Forall_forall in Sw. split; [now apply Sw|]. intro X. destruct native; discriminate X.
  - auto.
Qed.

Lemma demo_dialogue : forall cs l w r, takes Word l w r -> dialogue (demo_turns cs w) l [w] r.
Proof. intros cs l w r H. unfold demo_turns. do 2 apply AfterSay. eapply AfterAsk; [exact H|]. do 4 apply AfterSay. constructor. Qed.

Lemma demo_said : forall cs w,
  said StandardOutput (demo_turns cs w) = second_line ++ prompt ++ reply_start ++ w ++ [10%N] ++ last_line /\ said StandardError (demo_turns cs w) = [].
Proof. intros cs w. split; [|reflexivity]. unfold demo_turns, said. cbn [flat_map same_channel]. now rewrite ?app_nil_l, app_nil_r. Qed.

Lemma demo_question : forall cs w t1 q k t2, demo_turns cs w = t1 ++ Ask q k :: t2 ->
  said StandardOutput t1 = second_line ++ prompt.
Proof.
  intros cs w t1 q k t2 E. unfold demo_turns in E.
  do 2 (destruct t1 as [|x t1]; [discriminate E|]; cbn [app] in E; injection E as <- E).
  destruct t1 as [|x t1]; [unfold said; cbn [flat_map same_channel]; now rewrite app_nil_r|]. cbn [app] in E. injection E as <- E.
  do 4 (destruct t1 as [|? t1]; [discriminate E|]; cbn [app] in E; apply (f_equal (@tl turn)) in E; cbn [tl] in E).
  exfalso. exact (app_cons_not_nil _ _ _ E).
Qed.

Lemma takes_word_scalar : forall l w r, takes Word l w r -> Forall scalar l -> Forall scalar w.
Proof. intros l w r H S. inversion H; subst. rewrite !Forall_app in S. tauto. Qed.

Lemma end_shows : forall pl cs b sent0 rest s, good pl cs sent0 rest s -> caps_fit pl cs ->
  exists s' w, end_program pl b s = Ok s' /\ log (os s') = log (os s) ++ w /\ shows w /\
    (forall ch, shown ch (log (os s')) = sent0 ch) /\ acceptances (os s') = [].
Proof.
  intros pl cs b sent0 rest s G C. destruct (end_ok pl cs b sent0 rest s G C) as (s' & E & Sh).
  destruct (finish_ok pl cs sent0 rest s StandardError G C) as (s1 & w1 & E1 & G1 & S1 & L1 & V1 & X1).
  destruct (finish_ok pl cs sent0 rest s1 StandardOutput G1 C) as (s2 & w2 & E2 & G2 & S2 & L2 & V2 & X2).
  assert (Eq : end_program pl b s = Ok s2).
  { unfold end_program. destruct b; cbn [construction_order rev app destroy_statics is_alive existsb static_eqb orb bind];
      rewrite E1; cbn [bind]; rewrite E2; reflexivity. }
  assert (s' = s2) by congruence. subst s'. exists s2, (w1 ++ w2). split; [exact E|]. split; [now rewrite L2, L1, app_assoc|].
  split; [apply Forall_app; auto|]. split; [exact Sh|apply G2].
Qed.

(** main of the example and the end of the program. *)
Lemma demo_main : forall pl native cs b m arr ci co ce fuel l w r,
  proper (unit_of pl) arr -> typed arr = text_bytes (console_encoding pl) native l -> Forall scalar l ->
  capacities_fit ci co ce -> unit_fits pl ci -> takes Word l w r -> Forall (storable K8) w ->
  (pl = Windows -> len (text_bytes UTF8 native w) < 2 ^ 32) -> (length l < fuel)%nat ->
  let s0 := match m with
            | ByLines => cout_show (new_stdio (patient_console arr) ci co ce) first_line
            | AtExit => new_stdio (patient_console arr) ci co ce end in
  let sent := match m with ByLines => after (fun _ => []) StandardOutput first_line | AtExit => fun _ => [] end in
  exists s s' d w', main_body pl (order_of native) cs fuel s0 = Ok s /\ end_program pl b s = Ok s' /\
    log (os s) = log (os s0) ++ d /\ log (os s') = log (os s) ++ w' /\ shows w' /\
    (forall d1 x d2, d = d1 ++ Waited x :: d2 ->
      shown StandardOutput (log (os s0) ++ d1) = sent StandardOutput ++ text_bytes UTF8 native (second_line ++ prompt)) /\
    (forall ch, shown ch (log (os s')) = sent ch ++ text_bytes UTF8 native (said ch (demo_turns cs w))) /\
    acceptances (os s') = [].
Proof.
  intros pl native cs b m arr ci co ce fuel l w r P Ty Sc C U Tk St Sw F s0 sent.
  assert (G : good pl (Caps (Z.of_nat ci) (Z.of_nat co) (Z.of_nat ce)) sent (text_bytes (console_encoding pl) native l) s0).
  { rewrite <- Ty. subst s0 sent. destruct m; [now apply good_cout|now apply good_new]. }
  clearbody s0 sent.
  destruct (turns_waits pl _ native fuel (caps_ok pl _ _ _ C) (room_ok pl ci co ce U) _ l [w] r (demo_dialogue cs l w r Tk) _ _ G
              (demo_can_say pl native cs w (takes_word_scalar _ _ _ Tk Sc) Sw)
              ltac:(repeat constructor; exact St) Sc F) as (s & d & E & G' & L & W).
  destruct (end_shows pl _ b _ _ s G' (caps_ok pl _ _ _ C)) as (s' & w' & E1 & L1 & V1 & S1 & A1).
  exists s, s', d, w'. split; [exact (demo_body_turns _ _ _ _ _ _ _ E)|]. split; [exact E1|]. split; [exact L|]. split; [exact L1|].
  split; [exact V1|]. split; [|auto]. intros d1 x d2 X. destruct (W _ _ _ X) as (t1 & q & k & t2 & Et & Sh).
  rewrite Sh, (demo_question _ _ _ _ _ _ Et). reflexivity.
Qed.
